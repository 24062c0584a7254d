(** The energy of the leap-frog scheme: Ez at one time with the magnetic fields half a step before
    and half a step after it. *)
From Coq Require Import ZArith Reals List Bool.
From Verif Require Import Scalar Base VecM GridM GeometryM MaterialM PmlM DftM TfsfM PolarM InterpM H5M ClockM MonitorM FieldM
  SpecGrid SpecPaint.
Import ListNotations.
Local Open Scope Z_scope.
#[local] Existing Instance RNum.

Fixpoint sumup (n : nat) (f : Z -> R) : R :=
  match n with O => 0%R | S k => (sumup k f + f (Z.of_nat k))%R end.
(** over all cells of the grid *)
Definition total (g : grid) (f : Z -> Z -> R) : R :=
  sumup (Z.to_nat (g_Nx g)) (fun i => sumup (Z.to_nat (g_Ny g)) (f i)).

Definition Ez_of (p : phys) (i j : Z) : R := tval (fEz (ph_F p)) i j.
Definition Hx_of (p : phys) (i j : Z) : R := tval (fHx (ph_F p)) i j.
Definition Hy_of (p : phys) (i j : Z) : R := tval (fHy (ph_F p)) i j.

(** [p'] is one time step after [p] *)
Definition energy (g : grid) (eps : Z -> Z -> R) (p p' : phys) : R :=
  total g (fun i j => eps i j * Ez_of p' i j * Ez_of p' i j + Hx_of p' i j * Hx_of p i j + Hy_of p' i j * Hy_of p i j)%R.
Definition electric (g : grid) (eps : Z -> Z -> R) (p : phys) : R :=
  total g (fun i j => eps i j * Ez_of p i j * Ez_of p i j)%R.
Definition magnetic (g : grid) (p : phys) : R :=
  total g (fun i j => Hx_of p i j * Hx_of p i j + Hy_of p i j * Hy_of p i j)%R.

(** a material that neither absorbs nor has memory nor is thinner than vacuum *)
Definition clear_material (k : mat_kind) : Prop :=
  match k with KSimple m => sm_conduc m = 0%R /\ (1 <= sm_eps m)%R | _ => False end.
(** [eps] is the permittivity of the objects [os] in vacuum, cell by cell *)
Definition permittivity (g : grid) (os : list obj) (eps : Z -> Z -> R) : Prop :=
  forall i j, in_grid (g_Nx g) (g_Ny g) (i, j) ->
  exists m, material_at os vacuum (g_dx g * IZR i, g_dx g * IZR j)%R (KSimple m) /\ sm_eps m = eps i j.

(** the field has not reached the absorbing layers *)
Definition off_layers (g : grid) (p : phys) : Prop :=
  let n := g_Nx g in let m := g_Ny g in let th := g_pml g in
  forall i j, 0 <= i < n -> 0 <= j < m ->
    (i <= th \/ n - 1 - th <= i \/ j <= th \/ m - 1 - th <= j -> Ez_of p i j = 0%R) /\
    (j <= th \/ m - 2 - th <= j -> Hx_of p i j = 0%R) /\
    (i <= th \/ n - 2 - th <= i -> Hy_of p i j = 0%R).

(** the user writes the three fields by hand: Ez, Hx, Hy of class Field2D are public *)
Definition fill (a : tensor) (f : Z -> Z -> R) : tensor := Tensor (rows a) (cols a) f.
Definition poke (ez hx hy : Z -> Z -> R) (s : field) : field :=
  let F := ph_F (f_ph s) in
  set_f_ph (set_ph_F (Fields (fill (fEz F) ez) (fill (fHx F) hx) (fill (fHy F) hy)) (f_ph s)) s.
