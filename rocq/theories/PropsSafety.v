(** Memory safety of a simulation: C14, C51. *)
From Coq Require Import ZArith Reals List Bool String Lia Psatz.
From Verif Require Import Scalar Base BaseFacts VecM GridM GeometryM MaterialM PmlM DftM TfsfM PolarM
  InterpM H5M ClockM MonitorM FieldM SpecGrid GridFacts OutFacts PhysFacts
  WfFacts ReachFacts SafetyFacts SpecSafety SafeFacts CleanFacts ExampleFacts ExampleSrc.
Import ListNotations.
Local Open Scope Z_scope.

(** C14: on a big enough grid, from any state any program can reach (whatever exceptions it
    caught on the way), n calls of update() return normally.  Whatever the arithmetic. *)
Theorem C14_update_in_range : forall (N : Num) (g : grid) s n,
  big_enough g -> reachable g s -> sources_inside (f_ph s) -> stopped s ->
  f_mons s = [] -> f_tmons s = [] -> INT_MIN <= ph_step (f_ph s) ->
  ph_step (f_ph s) + Z.of_nat n <= INT_MAX ->
  exists s', run (repeat Update n) s = Fine s' /\ ph_step (f_ph s') = ph_step (f_ph s) + Z.of_nat n.
Proof. exact @update_safe. Qed.
Print Assumptions C14_update_in_range.
(** the field part of update() with any monitors *)
Theorem C14_field_update_in_range : forall (N : Num) (g : grid) s,
  big_enough g -> reachable g s -> sources_inside (f_ph s) ->
  INT_MIN <= ph_step (f_ph s) < INT_MAX -> exists p', phys_step (f_ph s) = Fine p'.
Proof. exact @phys_step_safe. Qed.
Print Assumptions C14_field_update_in_range.
(** on a smaller grid (stored thickness th, Nx or Ny below th+2) building the field or the
    first update indexes out of range; the 2 by 2 grid has no interior cell to update *)
Theorem C14_small_grid_out_of_range : forall (N : Num) (g : grid) name,
  name <> ""%string -> 1 <= g_pml g -> 0 <= g_Nx g -> 0 <= g_Ny g ->
  g_Nx g < g_pml g + 2 \/ g_Ny g < g_pml g + 2 -> ~ (g_Nx g = 2 /\ g_Ny g = 2) ->
  match mk_field g name with
  | Ok s => update s = Undef OutOfBounds
  | Throw _ => False
  | UB u => u = OutOfBounds
  end.
Proof. exact @small_grid_undefined. Qed.
Print Assumptions C14_small_grid_out_of_range.
(** an 8 by 8 grid with a point source and a line source *)
Example C14_case : let N := RNum in exists (g : grid) s, big_enough g /\ reachable g s /\ sources_inside (f_ph s) /\
  stopped s /\ f_mons s = [] /\ f_tmons s = [] /\ ph_step (f_ph s) = 0%Z /\ ph_srcs (f_ph s) = [lamp; wire].
Proof.
  destruct source_run as (g & s0 & s & _ & _ & Hg & _ & _ & Hr & H1 & H2 & H3 & H4 & H5 & H6).
  exists g, s. auto 10.
Qed.
(** a 5 by 9 grid with thickness 3 + 1 *)
Example C14_small_case : let N := RNum in let g := Grid 4%R 8%R 5 9 1%R (/ 2)%R 1%R 4 in
  1 <= g_pml g /\ 0 <= g_Nx g /\ 0 <= g_Ny g /\ (g_Nx g < g_pml g + 2 \/ g_Ny g < g_pml g + 2) /\
  ~ (g_Nx g = 2 /\ g_Ny g = 2).
Proof. cbn. lia. Qed.

(** C51: no call on a reachable state dereferences an empty optional or throws out_of_range *)
Theorem C51_no_bad_optional : forall (N : Num) (g : grid) s c,
  big_enough g -> reachable g s ->
  exec c s <> Undef BadOptional /\ forall s', exec c s <> Raise OutOfRange s'.
Proof. exact (fun N g s c Hg Hr => exec_clean g Hg c s (reachable_good g s Hg Hr)). Qed.
Print Assumptions C51_no_bad_optional.
(** the polarization phase of update() and the rebuild of the polarizations in particular
    cannot fail at all *)
Theorem C51_polarizations_present : forall (N : Num) (g : grid) s,
  big_enough g -> reachable g s ->
  (exists p', step_polar (f_ph s) = Ok p') /\
  (forall o, In o (ph_objs (f_ph s)) -> exists p', reinsert_material o (f_ph s) = Ok p').
Proof. exact @polarizations_present. Qed.
Print Assumptions C51_polarizations_present.
(** a field with a Drude object *)
Example C51_case : let N := RNum in exists (g : grid) s, big_enough g /\ reachable g s /\
  ph_objs (f_ph s) = [disk; chip].
Proof.
  destruct demo_run as (g & s0 & s & _ & _ & Hr & _ & _ & _ & E0 & E1 & _ & _ & _ & _ & _ & _ & _ & E2).
  exists g, s. split; [exact Hr|]. split; [|exact E2]. exists "out"%string, s0, demo_cmds.
  split; [exact E0|]. now apply run_run_catch.
Qed.
