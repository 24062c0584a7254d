(** The true part of C23: layers of at least one cell in double arithmetic. *)
From Coq Require Import ZArith Reals List String Bool.
From Flocq Require Import Core.Core IEEE754.BinarySingleNaN.
From Verif Require Import Scalar Base VecM GridM GeometryM MaterialM PmlM DftM TfsfM PolarM InterpM H5M ClockM
  MonitorM FieldM WfFacts ReachFacts SpecStep StepFacts YeeFacts Float SpecDark DarkCase SpecRound SpecLoose LooseFacts LooseCase.
Import ListNotations.
Local Open Scope Z_scope.

(** with a pml_thickness of at least 1 and a moderate resolution, every PML coefficient and cell size
    that update() reads is a finite double, the recursions do not amplify, and the cell sizes are dx *)
Theorem C23_usable_partial : forall (L : libm), loose_libm L -> forall (Lx Ly rs : f64) pml (g : @grid (B64 L)),
  handy_resolution rs -> 1 <= pml -> mk_grid (N := B64 L) Lx Ly rs pml = Ok g -> apart g ->
  forall s, reachable g s -> usable_layer (g_Nx g) (g_Ny g) (g_pml g) (g_dx g) (med (f_ph s)).
Proof. exact usable64. Qed.
Print Assumptions C23_usable_partial.

#[local] Instance toyNum : Num := B64 toy.
Example C23_usable_case : exists g s, loose_libm toy /\ handy_resolution (f64_ofZ 1) /\ mk_grid (nofZ 8) (nofZ 8) (nofZ 1) 2 = Ok g /\
  g_pml g = 3 /\ apart g /\ reachable g s.
Proof. exact layer_case. Qed.
