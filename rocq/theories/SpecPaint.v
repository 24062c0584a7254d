(** Which material a grid cell should have. *)
From Coq Require Import ZArith Reals List.
From Verif Require Import Scalar Base VecM GridM GeometryM MaterialM FieldM SpecGrid SpecGeometry.
Import ListNotations.
Local Open Scope R_scope.
#[local] Existing Instance RNum.

(** the region an object occupies in its current pose *)
Definition in_obj (o : obj) (p : vec) : Prop := in_placed (o_geom o) (o_pos o) (o_theta o) p.

(** [k] is the material at point [p]: that of the last object of the list whose region
    contains [p], or the background when there is none *)
Definition material_at (os : list obj) (bg : mat_kind) (p : vec) (k : mat_kind) : Prop :=
  (exists before o after, os = before ++ o :: after /\ in_obj o p /\
     (forall o', In o' after -> ~ in_obj o' p) /\ k = m_kind (o_mat o)) \/
  ((forall o, In o os -> ~ in_obj o p) /\ k = bg).

(** the update coefficients stored for cell (i, j) *)
Definition cell (c : coefs) (i j : Z) : R * R * R * R :=
  (tval (cCa c) i j, tval (cCb c) i j, tval (cDa c) i j, tval (cDb c) i j).
(** the coefficients of a material *)
Definition mat_cell (k : mat_kind) (dt : R) : R * R * R * R :=
  (mat_Ca k dt, mat_Cb k dt, mat_Da k dt, mat_Db k dt).

(** every cell of the grid has the coefficients of the material at its position *)
Definition grid_shows (g : grid) (os : list obj) (bg : mat_kind) (c : coefs) : Prop :=
  forall i j k, in_grid (g_Nx g) (g_Ny g) (i, j) ->
    material_at os bg (g_dx g * IZR i, g_dx g * IZR j) k ->
    cell c i j = mat_cell k (g_dt g).

(** the objects a program adds, in order *)
Definition added (l : list cmd) : list obj :=
  flat_map (fun c => match c with AddObject o => [o] | _ => [] end) l.
(** calls that change a pose or wipe the materials *)
Definition repositions (c : cmd) : bool :=
  match c with
  | Move _ _ | Rotate _ _ | SetPosition _ _ | SetTheta _ _ | ClearMaterials => true
  | _ => false
  end.
