(** What it means that two states agree at a cell: all quantities update() reads or writes that
    belong to the cell. *)
From Coq Require Import ZArith String List Bool.
From Verif Require Import Scalar Base VecM GridM GeometryM MaterialM PmlM DftM TfsfM PolarM InterpM H5M ClockM
  MonitorM FieldM SpecSource SourceFacts WfFacts.
Import ListNotations.
Local Open Scope Z_scope.

Section Cone.
Context {N : Num}.

Definition agree_field (p q : phys) (i j : Z) : Prop :=
  tval (fEz (ph_F p)) i j = tval (fEz (ph_F q)) i j /\
  tval (fHx (ph_F p)) i j = tval (fHx (ph_F q)) i j /\
  tval (fHy (ph_F p)) i j = tval (fHy (ph_F q)) i j.
Definition agree_coefs (p q : phys) (i j : Z) : Prop :=
  tval (cCa (ph_C p)) i j = tval (cCa (ph_C q)) i j /\ tval (cCb (ph_C p)) i j = tval (cCb (ph_C q)) i j /\
  tval (cDa (ph_C p)) i j = tval (cDa (ph_C q)) i j /\ tval (cDb (ph_C p)) i j = tval (cDb (ph_C q)) i j.

(** the PML memories of the cell, where it lies in a layer; those of the high layers are counted
    from the far edge *)
Definition agree_memory (p q : phys) (i j : Z) : Prop :=
  let n := g_Nx (ph_grid p) in let m := g_Ny (ph_grid p) in let th := g_pml (ph_grid p) in
  let s := p_psi (ph_pml p) in let r := p_psi (ph_pml q) in
  ((1 <= i <= th -> tval (Ezx1 s) i j = tval (Ezx1 r) i j) /\
   (1 <= n - 1 - i <= th -> tval (Ezx2 s) (n - 1 - i) j = tval (Ezx2 r) (n - 1 - i) j) /\
   (1 <= j <= th -> tval (Ezy1 s) i j = tval (Ezy1 r) i j) /\
   (1 <= m - 1 - j <= th -> tval (Ezy2 s) i (m - 1 - j) = tval (Ezy2 r) i (m - 1 - j))) /\
  ((1 <= j < th -> tval (Hxy1 s) i j = tval (Hxy1 r) i j) /\
   (1 <= m - 2 - j < th -> tval (Hxy2 s) i (m - 2 - j) = tval (Hxy2 r) i (m - 2 - j)) /\
   (1 <= i < th -> tval (Hyx1 s) i j = tval (Hyx1 r) i j) /\
   (1 <= n - 2 - i < th -> tval (Hyx2 s) (n - 2 - i) j = tval (Hyx2 r) (n - 2 - i) j)).

(** currents and strengths of one polarization, of q at (i, j) and of r at (i', j') *)
Definition alike (i j i' j' : Z) (q r : polar) : Prop :=
  pl_n q = pl_n r /\ pl_dt q = pl_dt r /\
  forall k, 0 <= k < pl_n q ->
    t3val (pl_J q) i j k = t3val (pl_J r) i' j' k /\ t3val (pl_c q) i j k = t3val (pl_c r) i' j' k /\
    t3val (pl_pJ q) i j k = t3val (pl_pJ r) i' j' k.
Definition alike_entry {M} (i j i' j' : Z) (a b : string * (M * polar)) : Prop :=
  fst a = fst b /\ fst (snd a) = fst (snd b) /\ alike i j i' j' (snd (snd a)) (snd (snd b)).
Definition alike_all {M} (i j i' j' : Z) (P Q : list (string * (M * polar))) : Prop := Forall2 (alike_entry i j i' j') P Q.
(** the same cell of two copies of Ez from an earlier step *)
Definition alike_prev (i j i' j' : Z) (a b : option tensor) : Prop :=
  match a, b with Some x, Some y => tval x i j = tval y i' j' | None, None => True | _, _ => False end.

(** the two source lists do the same to the cell at every time, wherever else they act *)
Definition same_drive (g : grid) (srcs srcs' : list source) (i j : Z) : Prop :=
  forall Ls Ls', Forall2 (fun r L => src_cells g (sr_kind r) L) srcs Ls -> Forall2 (fun r L => src_cells g (sr_kind r) L) srcs' Ls' ->
  forall t c x, lit t (combine srcs Ls) c i j x = lit t (combine srcs' Ls') c i j x.

Record agree_cell (p q : phys) (i j : Z) : Prop := AgreeCell {
  ag_field : agree_field p q i j;
  ag_coefs : agree_coefs p q i j;
  ag_memory : agree_memory p q i j;
  ag_debye : alike_all i j i j (ph_debye p) (ph_debye q);
  ag_drude : alike_all i j i j (ph_drude p) (ph_drude q);
  ag_lorentz : alike_all i j i j (ph_lorentz p) (ph_lorentz q);
  ag_prev : alike_prev i j i j (ph_prevE p) (ph_prevE q);
  ag_prev2 : alike_prev i j i j (ph_prev2E p) (ph_prev2E q);
  ag_drive : same_drive (ph_grid p) (ph_srcs p) (ph_srcs q) i j }.

(** the incident wave without its transforms *)
Definition bare_profile (tp : tprofile) : tprofile := TProfile (tp_shape tp) None.
Definition bare_wave (q : tfsf) : tfsf :=
  Tfsf (q_vol q) (q_ia q) (q_ib q) (q_ja q) (q_jb q) (bare_profile (q_tp q)) None (q_N q) (q_dt q) (q_t q)
       (q_E q) (q_D q) (q_H q) (q_I q) (q_ca q) (q_cb q) (q_l0 q) (q_l1 q) (q_r0 q) (q_r1 q).
(** what does not belong to a cell: grid, clock, one-dimensional coefficient arrays, TFSF line (its transforms may differ) *)
Definition same_frame (p q : phys) : Prop :=
  ph_grid p = ph_grid q /\ ph_t p = ph_t q /\ ph_sc p = ph_sc q /\
  p_coef (ph_pml p) = p_coef (ph_pml q) /\ option_map bare_wave (ph_tfsf p) = option_map bare_wave (ph_tfsf q).

(** agreement at every cell of the grid within distance d of (i, j) *)
Definition agree_near (p q : phys) (d i j : Z) : Prop :=
  forall a b, 0 <= a < g_Nx (ph_grid p) -> 0 <= b < g_Ny (ph_grid p) -> Z.abs (a - i) <= d -> Z.abs (b - j) <= d -> agree_cell p q a b.
End Cone.
