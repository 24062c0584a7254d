(** Where monitors take their samples. *)
From Coq Require Import ZArith Reals List Bool String.
From Verif Require Import Scalar Base VecM GridM DftM InterpM MonitorM SpecDft.
Import ListNotations.
Local Open Scope R_scope.
#[local] Existing Instance RNum.

(** number of cell edges between two cells of one row or column *)
Definition edges (A B : ivec) : Z := (Z.abs (fst B - fst A) + Z.abs (snd B - snd A))%Z.
(** middle of the i-th edge on the way from A to B *)
Definition edge_middle (dx : R) (A B : ivec) (i : Z) : vec :=
  ((IZR (fst A) + (IZR i + / 2) * IZR (Z.sgn (fst B - fst A))) * dx,
   (IZR (snd A) + (IZR i + / 2) * IZR (Z.sgn (snd B - snd A))) * dx).
(** i-th of n points on a circle, at the middle of its arc *)
Definition arc_middle (n i : Z) : R := 2 * PI * (IZR i + / 2) / IZR n.
Definition on_circle (c : vec) (r th : R) : vec := (fst c + r * cos th, snd c + r * sin th).

Definition key_of (c : comp) : string := (match c with Hx => "Hx" | Hy => "Hy" | _ => "Ez" end)%string.
(** the component is one that a surface monitor of kind k records; [vertical] tells its direction *)
Definition wants (k : dkind) (vertical : bool) (c : comp) : Prop :=
  match k with
  | DEz => c = Ez | DHx => c = Hx | DHy => c = Hy
  | DTangent => c = Ez \/ c = (if vertical then Hy else Hx)
  | DAll => c = Ez \/ c = Hx \/ c = Hy
  end.
(** ... and a volume or point monitor *)
Definition wants2 (k : dkind) (c : comp) : Prop :=
  match k with DEz => c = Ez | DHx => c = Hx | DHy => c = Hy | DAll => c = Ez \/ c = Hx \/ c = Hy | DTangent => False end.

(** *** A monitor handed a list of fields, each with its time *)
Definition surf_feed (g : grid) (l : list (R * fields)) (m : surf_mon) : res surf_mon :=
  foldM (fun m tF => surf_update g (snd tF) (fst tF) m) m l.
Definition box_feed (g : grid) (l : list (R * fields)) (m : box_mon) : res box_mon :=
  foldM (fun m tF => box_update g (snd tF) (fst tF) m) m l.
Definition cyl_feed (g : grid) (l : list (R * fields)) (m : cyl_mon) : res cyl_mon :=
  foldM (fun m tF => cyl_update g (snd tF) (fst tF) m) m l.
Definition vol_feed (g : grid) (l : list (R * fields)) (m : vol_mon) : res vol_mon :=
  foldM (fun m tF => vol_update g (snd tF) (fst tF) m) m l.
Definition mon_feed (g : grid) (l : list (R * fields)) (m : monitor) : res monitor :=
  foldM (fun m tF => mon_update g (snd tF) (fst tF) m) m l.
(** what becomes of the values read at successive times *)
Definition in_time (c : comp) (vs : list R) : list R := match c with Ez => averages 0 vs | _ => vs end.
(** what a cylinder records: Ez, and H along the circle and outwards *)
Inductive rcomp := REz | RHp | RHr.
Definition rkey (c : rcomp) : string := (match c with REz => "Ez" | RHp => "Hp" | RHr => "Hr" end)%string.
Definition circle_value (dx : R) (F : fields) (c : rcomp) (p : vec) (th : R) (v : R) : Prop :=
  match c with
  | REz => interpolate dx F Ez p = Ok v
  | RHp => exists hx hy, interpolate dx F Hx p = Ok hx /\ interpolate dx F Hy p = Ok hy /\ v = hy * cos th - hx * sin th
  | RHr => exists hx hy, interpolate dx F Hx p = Ok hx /\ interpolate dx F Hy p = Ok hy /\ v = hx * cos th + hy * sin th
  end.
Definition field_of (F : fields) (c : comp) : tensor := match c with Hx => fHx F | Hy => fHy F | _ => fEz F end.
