(** The results of the monitors hold the right numbers: C64. *)
From Coq Require Import ZArith Reals String List Bool Lia Lra.
From Verif Require Import Scalar Base BaseFacts VecM GridM GeometryM MaterialM PmlM DftM TfsfM PolarM InterpM H5M ClockM
  MonitorM NamesM FieldM ReportM ShippedM OutFacts SpecFile SpecSpectra SpecProgram GridFacts ProgFacts ShippedFacts SpecResult ResultFacts.
Import ListNotations.
Local Open Scope Z_scope.

(** a result that a call computes is the quantity asked for, of the monitor asked; it stands in the file under the
    name of the quantity in the group of the monitor, whatever the program does next *)
Theorem C64_results : forall (N : Num) i q (s : field) m s1, nth_error (f_mons s) i = Some m -> exec_call (Report i q) s = Fine s1 ->
  exists v, measures (g_dx (ph_grid (f_ph s))) m q v /\
  forall l r, In r (kept_at m q v) -> match main_catch l s1 with Fine a | Raise _ a => holds (f_h5 a) r | Undef _ => True end.
Proof. exact @results_stay. Qed.
Print Assumptions C64_results.

(** the flux through a circle of radius 25 *)
Local Open Scope R_scope.
#[local] Existing Instance RNum.
Example C64_results_case : exists g s0 s m s1, mk_field g "out.h5" = Ok s0 /\ exec (AddMonitor (circle "ring" 25)) s0 = Fine s /\
  nth_error (f_mons s) 0 = Some m /\ exec_call (Report 0 QFlux) s = Fine s1.
Proof.
  destruct (shipped_grid_ok 5) as [g G]; [lia|].
  assert (W : well_formed g blank [Do (AddMonitor (circle "ring" 25)); Report 0 QFlux]).
  { eapply wfp_call; [|apply en_monitor|]. { apply (circle_allowed 5 _ _ _ _ G); [names|lia|lia|intros []]. }
    eapply wfp_call; [|apply en_report; reflexivity|]. { intros m Hm. injection Hm as <-. split; [exact Logic.I|]. cbn. intuition discriminate. }
    apply wfp_end. }
  destruct (ship 5 g "out.h5" [Do (AddMonitor (circle "ring" 25)); Report 0 QFlux] G) as (s0 & s2 & E0 & E); [discriminate|exact W|]. cbn [exec_main] in E.
  apply obind_fine in E. destruct E as (s & Ea & E). apply obind_fine in E. destruct E as (s1 & Er & _).
  assert (M0 : f_mons s0 = []). { unfold mk_field in E0. destruct (mk_phys g); [|discriminate..]. cbn [bind String.eqb] in E0. inv_ok. reflexivity. }
  assert (A := Ea). cbn [exec_call exec] in A. unfold add_monitor in A. apply prim_fine in A. destruct A as (m & _ & A). apply prim_fine in A. destruct A as (f & _ & A).
  injection A as A. exists g, s0, s, m, s1. split; [exact E0|]. split; [exact Ea|]. split; [|exact Er].
  rewrite <- A. cbn [f_mons set_f_h5 set_f_mons]. rewrite M0. reflexivity.
Qed.
