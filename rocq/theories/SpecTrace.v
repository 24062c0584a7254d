(** Which object owns a cell, and the polarization strength it should give to the cell. *)
From Coq Require Import ZArith Reals String List.
From Verif Require Import Scalar Base VecM GridM GeometryM MaterialM PmlM DftM TfsfM PolarM InterpM MonitorM FieldM SpecGrid SpecGeometry SpecPaint SpecMedium.
Import ListNotations.
Local Open Scope R_scope.
#[local] Existing Instance RNum.

(** the last of the objects os that contains pos *)
Definition owns (os : list obj) (pos : vec) (o : obj) : Prop :=
  exists before after, os = before ++ o :: after /\ in_obj o pos /\ forall o', In o' after -> ~ in_obj o' pos.

(** the strengths in P at cell (i, j) are those of the owner of its position pos *)
Definition own_strength {M} (mk : M -> mat_kind) (vals : M -> R -> list R) (dt : R) (os : list obj) (pos : vec)
    (P : list (string * (M * polar))) (i j : Z) : Prop :=
  (forall o nm x, owns os pos o -> o_mat o = Material nm (mk x) -> exists q, In (nm, (x, q)) P) /\
  forall nm x q, In (nm, (x, q)) P -> forall k, (0 <= k < pl_n q)%Z ->
    (forall o, owns os pos o -> o_mat o = Material nm (mk x) -> t3val (pl_c q) i j k = nth (Z.to_nat k) (vals x dt) 0) /\
    ((forall o, owns os pos o -> o_mat o <> Material nm (mk x)) -> t3val (pl_c q) i j k = 0).

(** no cell keeps a trace of an object that does not own it *)
Definition traceless (g : grid) (p : phys) (i j : Z) : Prop :=
  let pos := (g_dx g * IZR i, g_dx g * IZR j) in
  own_strength KDebye debye_beta (g_dt g) (ph_objs p) pos (ph_debye p) i j /\
  own_strength KDrude drude_beta (g_dt g) (ph_objs p) pos (ph_drude p) i j /\
  own_strength KLorentz lorentz_delta (g_dt g) (ph_objs p) pos (ph_lorentz p) i j.

Definition dispersive (k : mat_kind) : Prop := match k with KSimple _ => False | _ => True end.
(** equal names mean equal materials *)
Definition names_agree (os : list obj) : Prop :=
  forall o o', In o os -> In o' os -> m_name (o_mat o) = m_name (o_mat o') -> o_mat o = o_mat o'.
(** every dispersive object containing pos is of the material of the owner *)
Definition one_medium (os : list obj) (pos : vec) : Prop :=
  forall o o', owns os pos o -> In o' os -> in_obj o' pos -> dispersive (m_kind (o_mat o')) -> o_mat o' = o_mat o.
