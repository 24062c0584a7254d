(** What a list of sources does to a field, cell by cell. *)
From Coq Require Import ZArith List Bool.
From Verif Require Import Scalar Base VecM GridM DftM MonitorM FieldM InterpM GeometryM.
Import ListNotations.
Local Open Scope Z_scope.

Section SpecSource.
Context {N : Num}.

(** value of component c at cell (i, j) *)
Definition fval (F : fields) (c : comp) (i j : Z) : T :=
  match c with Ez => tval (fEz F) i j | Hx => tval (fHx F) i j | Hy => tval (fHy F) i j | _ => 0%num end.

(** the cells of a source: one cell for a point; for a line the cells from the first end up to
    but excluding the second *)
Fixpoint walk (n : nat) (q step : Z * Z) : list (Z * Z) :=
  match n with O => [] | S n => q :: walk n (fst q + fst step, snd q + snd step) step end.
Definition src_cells (g : grid) (k : src_kind) (L : list (Z * Z)) : Prop :=
  match k with
  | SPoint p => exists q, to_grid g p = Ok q /\ L = [q]
  | SLine s => exists a b, to_grid g (s_a s) = Ok a /\ to_grid g (s_b s) = Ok b /\
      L = walk (Z.to_nat (Z.abs (fst b - fst a) + Z.abs (snd b - snd a))) a
               (Z.sgn (fst b - fst a), Z.sgn (snd b - snd a))
  end.

(** adding v to x once for every time (i, j) is among the cells *)
Definition add_at (v : T) (L : list (Z * Z)) (i j : Z) (x : T) : T :=
  fold_left (fun x q => if (fst q =? i) && (snd q =? j) then (x + v)%num else x) L x.
End SpecSource.
