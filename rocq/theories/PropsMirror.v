(** C85: the program treats left and right alike (except at the two side walls). *)
From Coq Require Import ZArith Reals String List Bool Lia Lra.
From Verif Require Import Scalar Base VecM GridM GeometryM MaterialM PmlM DftM TfsfM PolarM InterpM H5M ClockM MonitorM FieldM
  SpecGrid WfFacts ReachFacts StepFacts SpecSource SpecCone SpecMirror MirrorFacts MirrorRun MirrorCase.
Import ListNotations.
Local Open Scope Z_scope.
#[local] Existing Instance RNum.

(** The full statement: if one state is the mirror image of the other then so are their electric
    fields after any number of updates.  It fails next to the sides: the loop over Hy skips
    column 0 but not column Nx - 2 (src/field2.cpp:177-179), so the two walls reflect differently. *)
Theorem C85_mirror_refuted : ~ (forall (g : grid) s1 s2 n s1' s2', apart g -> 3 <= g_Nx g -> reachable g s1 -> reachable g s2 ->
  mirror_state (f_ph s1) (f_ph s2) -> run (repeat Update n) s1 = Fine s1' -> run (repeat Update n) s2 = Fine s2' ->
  forall i j, 0 <= i < g_Nx g -> 0 <= j < g_Ny g ->
    tval (fEz (ph_F (f_ph s2'))) (g_Nx g - 1 - i) j = tval (fEz (ph_F (f_ph s1'))) i j).
Proof. exact mirror_fails. Qed.
Print Assumptions C85_mirror_refuted.

(** What holds: as long as no light has reached the outermost two columns, the whole state
    (fields, PML memories, polarization) stays a mirror image.  Missing: runs in which light
    reaches the sides. *)
Theorem C85_mirror_partial : forall g s1 s2 n s1' s2', apart g -> 3 <= g_Nx g -> reachable g s1 -> reachable g s2 ->
  mirror_state (f_ph s1) (f_ph s2) ->
  (forall k x, (k <= n)%nat -> run (repeat Update k) s1 = Fine x -> sides_dark g (f_ph x)) ->
  run (repeat Update n) s1 = Fine s1' -> run (repeat Update n) s2 = Fine s2' -> mirror_state (f_ph s1') (f_ph s2').
Proof. exact mirror. Qed.
Print Assumptions C85_mirror_partial.

(** A lamp in column 31 of 64 and its image in column 32: no light at the sides for 25 updates. *)
Example C85_case : forall n : nat, (n <= 25)%nat -> exists (g : grid) s1 s2 s1' s2', mk_grid 64%R 64%R 1%R 1 = Ok g /\ apart g /\ 3 <= g_Nx g /\
  reachable g s1 /\ reachable g s2 /\
  ph_srcs (f_ph s1) = [lamp_at 31 20 (/ 10)%R] /\ ph_srcs (f_ph s2) = [lamp_at 32 20 (/ 10)%R] /\ mirror_state (f_ph s1) (f_ph s2) /\
  (forall k x, (k <= n)%nat -> run (repeat Update k) s1 = Fine x -> sides_dark g (f_ph x)) /\
  run (repeat Update n) s1 = Fine s1' /\ run (repeat Update n) s2 = Fine s2'.
Proof. exact mirror_case. Qed.
