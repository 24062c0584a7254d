(** A dark field of simple materials stays dark in IEEE double arithmetic: C18. *)
From Coq Require Import ZArith List String Bool.
From Verif Require Import Scalar Base VecM GridM GeometryM MaterialM PmlM DftM TfsfM PolarM InterpM H5M ClockM
  MonitorM FieldM WfFacts ReachFacts SpecStep StepFacts YeeFacts FullStep SpecSource Float SpecDark SpecLoose DrivenCase SpecWhole WholeCase SpecDusk DuskFacts DuskCase.
Import ListNotations.
Local Open Scope Z_scope.

(** with layers of at least one cell and a resolution between 2^-300 and 2^300, no condition on computed
    coefficients is needed: any run of any calls without sources whose objects are simple materials leaves every
    field and every memory at (plus or minus) zero.  The magnetic and dispersive materials and programs that
    continue after a caught exception are not covered here *)
Theorem C18_solid_partial : forall L : libm, loose_libm L -> forall (Lx Ly rs : f64) pml (g : @grid (B64 L)),
  handy_resolution rs -> 1 <= pml -> mk_grid (N := B64 L) Lx Ly rs pml = Ok g -> apart g ->
  forall name s0 l s, mk_field g name = Ok s0 -> Forall (@unlit_solid_cmd L) l -> run l s0 = Fine s -> all_dark (N := B64 L) zero64 (f_ph s).
Proof. exact solid_dark. Qed.
Print Assumptions C18_solid_partial.

(** a block of conducting glass on an 8 by 8 grid, any number of updates that an int can count *)
#[local] Existing Instance DrivenCase.toneNum.
Example C18_solid_case : exists (g : grid) (s0 : field), loose_libm tone /\ handy_resolution (f64_ofZ 1) /\ mk_grid (nofZ 8) (nofZ 8) (nofZ 1) 2 = Ok g /\ apart g /\
  mk_field g "out" = Ok s0 /\ forall k, Z.of_nat k < INT_MAX -> Forall (@unlit_solid_cmd tone) (shop ++ repeat Update k) /\ exists s, run (shop ++ repeat Update k) s0 = Fine s.
Proof. exact dusk_case. Qed.
