(** What drives the electric field of a cell, and when a cell belongs to a material. *)
From Coq Require Import ZArith String List Bool.
From Verif Require Import Scalar Base VecM GridM GeometryM MaterialM PmlM DftM TfsfM PolarM InterpM MonitorM FieldM SpecStep SpecSource StepFacts.
Import ListNotations.
Local Open Scope Z_scope.

Section SpecMedium.
Context {N : Num}.

(** discrete curl of H at an interior cell: central differences over the stretched cell sizes,
    plus the memory of the PML layer the cell is in ([u] holds the memories of this step) *)
Definition curl_h (n m th : Z) (md : medium) (u : emag) (hx hy : cells) (i j : Z) : T :=
  ((hy i j - hy (i - 1)%Z j) / sEx md i + (hx i (j - 1)%Z - hx i j) / sEy md j
   - (if (j <=? th)%Z then eYl u i j else if (m - 1 - th <=? j)%Z then eYh u i (m - 1 - j)%Z else 0)
   + (if (i <=? th)%Z then eXl u i j else if (n - 1 - th <=? i)%Z then eXh u (n - 1 - i)%Z j else 0))%num.

(** no source adds anything to component c of cell (i, j) at time t *)
Definition undriven (t : T) (g : grid) (srcs : list source) (c : comp) (i j : Z) : Prop :=
  forall r L, In r srcs -> sr_c r = c -> src_cells g (sr_kind r) L -> In (i, j) L ->
    shape_val (tp_shape (sr_tp r)) t = 0%num.

(** strength of a polarization at a cell *)
Definition no_strength {M} (i j : Z) (P : list (string * (M * polar))) : Prop :=
  forall nm x q, In (nm, (x, q)) P -> forall k, 0 <= k < pl_n q -> t3val (pl_c q) i j k = 0%num.

(** the cell has the update coefficients of material k *)
Definition made_of (p : phys) (k : mat_kind) (i j : Z) : Prop :=
  mCa (med p) i j = mat_Ca k (g_dt (ph_grid p)) /\ mCb (med p) i j = mat_Cb k (g_dt (ph_grid p)).
(** q is the polarization named nm of material x, the n-th of the map P *)
Definition entry {M} (P : list (string * (M * polar))) (n : nat) (nm : string) (x : M) (q : polar) : Prop :=
  nth_error P n = Some (nm, (x, q)).
(** the other polarizations of the map have no strength at the cell *)
Definition alone {M} (P : list (string * (M * polar))) (n : nat) (i j : Z) : Prop :=
  forall n' nm x q, n' <> n -> entry P n' nm x q -> forall k, 0 <= k < pl_n q -> t3val (pl_c q) i j k = 0%num.
Definition full_strength (q : polar) (vals : list T) (i j : Z) : Prop :=
  forall k, 0 <= k < pl_n q -> t3val (pl_c q) i j k = nth (Z.to_nat k) vals 0%num.

(** cell (i, j) is made of the Debye (Drude) medium x with polarization q and of nothing else *)
Definition debye_only (p : phys) (n : nat) (nm : string) (x : debye) (q : polar) (i j : Z) : Prop :=
  made_of p (KDebye x) i j /\ entry (ph_debye p) n nm x q /\
  full_strength q (debye_beta x (g_dt (ph_grid p))) i j /\
  alone (ph_debye p) n i j /\ no_strength i j (ph_drude p) /\ ph_lorentz p = [].
Definition drude_only (p : phys) (n : nat) (nm : string) (x : drude) (q : polar) (i j : Z) : Prop :=
  made_of p (KDrude x) i j /\ entry (ph_drude p) n nm x q /\
  full_strength q (drude_beta x (g_dt (ph_grid p))) i j /\
  alone (ph_drude p) n i j /\ no_strength i j (ph_debye p) /\ ph_lorentz p = [].
Definition lorentz_only (p : phys) (nm : string) (x : lorentz) (q : polar) (i j : Z) : Prop :=
  made_of p (KLorentz x) i j /\ ph_lorentz p = [(nm, (x, q))] /\
  full_strength q (lorentz_delta x (g_dt (ph_grid p))) i j /\
  no_strength i j (ph_debye p) /\ no_strength i j (ph_drude p).

(** value of Ez, and the curl of H that drives it during the next step *)
Definition Ez_at (p : phys) (i j : Z) : T := tval (fEz (ph_F p)) i j.
Definition curl_at (p : phys) (i j : Z) : T :=
  let g := ph_grid p in
  let u := next_e (g_Nx g) (g_Ny g) (g_pml g) (g_dx g) (med p) (hX (h_of p)) (hY (h_of p)) (e_of p) in
  curl_h (g_Nx g) (g_Ny g) (g_pml g) (med p) u (hX (h_of p)) (hY (h_of p)) i j.
(** current of pole k *)
Definition J_at (q : polar) (i j k : Z) : T := t3val (pl_J q) i j k.
End SpecMedium.
