(** Total-field boxes given by their upper right corner first (C19). *)
From Coq Require Import ZArith.
From Verif Require Import Scalar Base VecM GridM FieldM.
Local Open Scope Z_scope.

(** any calls without sources in which every total-field box has its corners the other way round *)
Definition turned_cmd {N : Num} (g : grid) (c : cmd) : Prop :=
  match c with
  | AddSource _ => False
  | SetTfsf v _ => exists a b, to_grid g (v_a v) = Ok a /\ to_grid g (v_b v) = Ok b /\ fst b < fst a /\ snd b < snd a
  | _ => True
  end.
