(** What the monitor and output calls may do: specifications for the output file. *)
From Coq Require Import ZArith String List Bool.
From Verif Require Import Scalar Base VecM GridM GeometryM MaterialM DftM InterpM H5M ClockM MonitorM FieldM SpecClock SpecSource.
Import ListNotations.
Local Open Scope Z_scope.

Section SpecOutput.
Context {N : Num}.

(** the calls that create, remove or write monitors and time monitors *)
Definition watching (c : cmd) : bool :=
  match c with
  | AddMonitor _ | AddTimeMonitor _ | RemoveMonitors | WriteMonitor _ | WriteTimeMonitor _ | GetBoxMonitor _ _ _ _ => true
  | _ => false
  end.
Definition without_monitors (l : list cmd) : list cmd := filter (fun c => negb (watching c)) l.

(** the calls whose only purpose is output *)
Definition output (c : cmd) : bool :=
  match c with
  | WriteField _ | WriteE | WriteH | WriteMonitor _ | WriteTimeMonitor _ | WriteCurrent _ => true
  | _ => false
  end.
Definition without_output (l : list cmd) : list cmd := filter (fun c => negb (output c)) l.

(** the name of a component in the file *)
Definition label (c : comp) : string := match c with Ez => "Ez" | Hx => "Hx" | Hy => "Hy" | _ => "" end%string.
(** the same component *)
Definition same_comp (a b : comp) : bool :=
  match a, b with
  | Ez, Ez | Hx, Hx | Hy, Hy | CE, CE | CH, CH | Call, Call => true
  | _, _ => false
  end.

(** the values of an array at a list of cells, in that order *)
Definition values (a : tensor) (L : list (Z * Z)) : list T := map (fun q => tval a (fst q) (snd q)) L.

(** the cells of an n x m array, row by row *)
Definition row_major (n m : Z) : list (Z * Z) := list_prod (zrange 0 n) (zrange 0 m).

(** the cells a time monitor records, in the order of its row *)
Definition tm_cells (g : grid) (sh : tm_shape) (L : list (Z * Z)) : Prop :=
  match sh with
  | TPoint p => exists q, to_grid g p = Ok q /\ L = [q]
  | TSurf s => exists a b, to_grid g (s_a s) = Ok a /\ to_grid g (s_b s) = Ok b /\
      L = walk (Z.to_nat (Z.abs (fst b - fst a) + Z.abs (snd b - snd a))) a
               (Z.sgn (fst b - fst a), Z.sgn (snd b - snd a))
  | TVol v => exists a b, to_grid g (v_a v) = Ok a /\ to_grid g (v_b v) = Ok b /\
      L = list_prod (zrange (fst a) (fst a + Z.abs (fst b - fst a) + 1)) (zrange (snd a) (snd a + Z.abs (snd b - snd a) + 1))
  end.
(** a point monitor's row is a single number *)
Definition tm_row (sh : tm_shape) (l : list T) (v : payload) : Prop :=
  match sh with TPoint _ => exists x, l = [x] /\ v = PReal x | _ => v = PReals l end.

(** the row for component c holds the field values at the monitor's cells *)
Definition tm_snapshot (g : grid) (F : fields) (sh : tm_shape) (c : comp) (v : payload) : Prop :=
  exists a L, get_field F c = Ok a /\ tm_cells g sh L /\ tm_row sh (values a L) v.

(** the cells the loop for (p = a; p != b; p += step) goes through *)
Inductive visits (step : Z * Z) (b : Z * Z) : Z * Z -> list (Z * Z) -> Prop :=
| visits_stop : visits step b b []
| visits_next p L : p <> b -> visits step b (fst p + fst step, snd p + snd step) L -> visits step b p (p :: L).

(** ** Traces of moving objects *)
(** what is known of an object: is it dynamic, where is it, and the poses written for it *)
Record tracked := Tracked { k_dyn : bool; k_pos : vec; k_theta : T; k_rows : list (vec * T) }.
Definition track_pose (i : nat) (h : vec * T -> vec * T) (l : list tracked) : list tracked :=
  match nth_error l i with
  | Some k => if k_dyn k then upd_nth i (Tracked true (fst (h (k_pos k, k_theta k))) (snd (h (k_pos k, k_theta k))) (k_rows k)) l else l
  | None => l
  end.
Definition track (c : cmd) (l : list tracked) : list tracked :=
  match c with
  | AddObject o => l ++ [Tracked (o_dyn o) (o_pos o) (o_theta o) [(o_pos o, o_theta o)]]
  | Move i dr => track_pose i (fun q => ((fst (fst q) + fst dr, snd (fst q) + snd dr)%num, snd q)) l
  | Rotate i d => track_pose i (fun q => (fst q, (snd q + d)%num)) l
  | SetPosition i p => track_pose i (fun q => (p, snd q)) l
  | SetTheta i t => track_pose i (fun q => (fst q, t)) l
  | WriteCurrent i =>
    match nth_error l i with
    | Some k => if k_dyn k then upd_nth i (Tracked true (k_pos k) (k_theta k) (k_rows k ++ [(k_pos k, k_theta k)])) l else l
    | None => l
    end
  | _ => l
  end.
Definition tracks (l : list cmd) : list tracked := fold_left (fun k c => track c k) l [].

(** number of write_current calls for object i, and of objects added *)
Definition writes_of (i : nat) (l : list cmd) : nat :=
  List.length (filter (fun c => match c with WriteCurrent j => Nat.eqb i j | _ => false end) l).
Definition adds (l : list cmd) : nat := List.length (filter (fun c => match c with AddObject _ => true | _ => false end) l).

(** ** Material names *)
(** the same kind of material: simple, Debye, Drude or Lorentz *)
Definition same_family (k k' : mat_kind) : bool :=
  match k, k' with KSimple _, KSimple _ | KDebye _, KDebye _ | KDrude _, KDrude _ | KLorentz _, KLorentz _ => true | _, _ => false end.

Definition object_materials (l : list cmd) : list string :=
  flat_map (fun c => match c with AddObject o => [m_name (o_mat o)] | _ => [] end) l.
(** first occurrences, in order *)
Fixpoint firsts (seen l : list string) : list string :=
  match l with
  | [] => []
  | x :: l' => if existsb (String.eqb x) seen then firsts seen l' else x :: firsts (seen ++ [x]) l'
  end.
End SpecOutput.
