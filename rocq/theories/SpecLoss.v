(** The energy of fields and media, and the heat the media take. *)
From Coq Require Import ZArith Reals String List Bool.
From Verif Require Import Scalar Base VecM GridM GeometryM MaterialM PmlM DftM TfsfM PolarM InterpM H5M ClockM MonitorM FieldM
  SpecGrid SpecGeometry SpecPaint SpecTrace SpecMedia SpecEnergy.
Import ListNotations.
Local Open Scope R_scope.
#[local] Existing Instance RNum.

(** media that should only ever take energy: conductors, and Debye and Drude media of one pole *)
Definition absorber (k : mat_kind) : Prop :=
  match k with
  | KSimple m => 1 <= sm_eps m /\ 0 <= sm_conduc m
  | KDebye x => 1 <= db_eps x /\ exists d, db_poles x = [d] /\ 0 < dp_tau d /\ 0 < dp_deps d
  | KDrude x => 1 <= dr_eps x /\ exists d, dr_poles x = [d] /\ up_omega d <> 0 /\ 0 <= up_gamma d
  | KLorentz _ => False
  end.
Definition eps_of (k : mat_kind) : R :=
  match k with KSimple m => sm_eps m | KDebye x => db_eps x | KDrude x => dr_eps x | KLorentz x => lo_eps x end.
(** the outermost cells of the grid *)
Definition at_edge (g : grid) (i j : Z) : Prop := (i = 0 \/ i = g_Nx g - 1 \/ j = 0 \/ j = g_Ny g - 1)%Z.
(** [mat] says which material every cell is made of, the objects being [os]: the one object medium
    there, or a conductor (or vacuum) where no dispersive object lies *)
Definition made_from (g : grid) (os : list obj) (mat : Z -> Z -> material) : Prop :=
  forall i j, in_grid (g_Nx g) (g_Ny g) (i, j) ->
  let pos := (g_dx g * IZR i, g_dx g * IZR j) in
  absorber (m_kind (mat i j)) /\
  match m_kind (mat i j) with
  | KSimple m => material_at os vacuum pos (KSimple m) /\ forall o, In o os -> in_obj o pos -> ~ dispersive (m_kind (o_mat o))
  | k => only_in os (m_name (mat i j)) k pos /\ ~ at_edge g i j
  end.

(** current of the medium [nm] (its first pole) in a cell *)
Definition current {M} (P : list (string * (M * polar))) (nm : string) (i j : Z) : R :=
  match find (fun e => String.eqb (fst e) nm) P with Some (_, (_, q)) => t3val (pl_J q) i j 0%Z | None => 0 end.
Definition J_of (p : phys) (mt : material) (i j : Z) : R :=
  match m_kind mt with KDebye _ => current (ph_debye p) (m_name mt) i j | KDrude _ => current (ph_drude p) (m_name mt) i j | _ => 0 end.

(** energy held by the medium of a cell: that of its polarisation P = deps E - tau J (Debye), or of its
    moving charges (Drude) *)
Definition held (p : phys) (mt : material) (i j : Z) : R :=
  let J := J_of p mt i j in
  match m_kind mt with
  | KDebye x => match db_poles x with [d] => (dp_deps d * Ez_of p i j - dp_tau d * J) ^ 2 / dp_deps d | _ => 0 end
  | KDrude x => match dr_poles x with [d] => J ^ 2 / up_omega d ^ 2 | _ => 0 end
  | _ => 0
  end.
(** power turned into heat between two moments *)
Definition heat (p p' : phys) (mt : material) (i j : Z) : R :=
  let E := (Ez_of p i j + Ez_of p' i j) / 2 in
  let J := (J_of p mt i j + J_of p' mt i j) / 2 in
  match m_kind mt with
  | KSimple m => sm_conduc m * E ^ 2
  | KDebye x => match db_poles x with [d] => dp_tau d / dp_deps d * J ^ 2 | _ => 0 end
  | KDrude x => match dr_poles x with [d] => up_gamma d / up_omega d ^ 2 * J ^ 2 | _ => 0 end
  | KLorentz _ => 0
  end.
Definition eps_map (mat : Z -> Z -> material) (i j : Z) : R := eps_of (m_kind (mat i j)).
(** [p'] is one time step after [p] *)
Definition whole (g : grid) (mat : Z -> Z -> material) (p p' : phys) : R :=
  energy g (eps_map mat) p p' + total g (fun i j => held p' (mat i j) i j).
Definition heating (g : grid) (mat : Z -> Z -> material) (p p' : phys) : R := total g (fun i j => heat p p' (mat i j) i j).
