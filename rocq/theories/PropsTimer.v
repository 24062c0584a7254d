(** The time report: C72. *)
From Coq Require Import ZArith Reals List Bool String Lia Lra.
From Verif Require Import Scalar Base BaseFacts OutFacts VecM GridM GeometryM MaterialM PmlM DftM TfsfM PolarM InterpM H5M ClockM MonitorM FieldM ReportM TimerM
  SpecClock SpecTimer SpecSafety WatchFacts PhysFacts SafeFacts ReachFacts RejectFacts PulseCase ExampleFacts ExampleSrc ExampleClock.
Import ListNotations.
Local Open Scope R_scope.
#[local] Existing Instance RNum.

(** ** C72 *)
(** keeping the time does not change what a program does *)
Theorem C72_same_run : forall (now : nat -> R) g name x l, started now g name x -> without (timed_main now l x) = exec_main l (td_f x).
Proof. intros now g name x l H. exact (main_same now l x (started_agree now g name x H)). Qed.
Print Assumptions C72_same_run.
(** programs that end normally: which stretches of time are measured *)
Theorem C72_stretches : forall (now : nat -> R), forward now -> forall g name x l y, started now g name x -> timed_main now l x = Fine y ->
  exists m rep, map st_k m = flat_map measures l /\ in_order (now 0%nat) (now (td_n y)) m /\ end_timed now y = Ok rep /\ says m (now 0%nat) (now (td_n y)) rep.
Proof. exact timed_report. Qed.
Print Assumptions C72_stretches.
(** programs that catch exceptions *)
Theorem C72_exceptions : forall (now : nat -> R), forward now -> forall g name x l y, started now g name x -> caught_main now l x = Fine y ->
  exists m rep, Forall (fun s => st_k s <> Self) m /\ in_order (now 0%nat) (now (td_n y)) m /\ end_timed now y = Ok rep /\ says m (now 0%nat) (now (td_n y)) rep.
Proof. exact caught_report. Qed.
Print Assumptions C72_exceptions.
(** so no line of the report is negative and the lines add up to the total *)
Theorem C72_adds_up : forall l lo hi rep, in_order lo hi l -> Forall (fun x => st_k x <> Self) l -> says l lo hi rep ->
  exists a b c d e : R, map snd rep = [a; b; c; d; e] /\ 0 <= a /\ 0 <= b /\ 0 <= c /\ 0 <= d /\ a + b + c + d = e /\ e = hi - lo.
Proof. exact report_adds_up. Qed.
Print Assumptions C72_adds_up.
(** 1000 updates with two sources, one clock reading per second *)
Example C72_case : exists (g : grid) x y, forward INR /\ started INR g "out" x /\ timed_main INR (map Do ([AddSource lamp; AddSource wire] ++ repeat Update 1000)) x = Fine y.
Proof.
  destruct source_run as (g & s0 & s & Eg & Hok & Hg & E0 & Er & Hr & Hi & Hst & Hm & Htm & Hs & _).
  assert (E : exists s', run (repeat Update 1000) s = Fine s') by (destruct (update_safe g s 1000 Hg Hr Hi Hst Hm Htm) as (s' & E & _); [rewrite Hs; unfold INT_MIN, INT_MAX; lia..|eauto]).
  destruct E as [s' E]. revert E. generalize (repeat Update 1000). intros us E.
  assert (S : started INR g "out" (Timed s0 (put_watch Self (Watch 0 (INR 0) true) (fun _ => new_watch)) 1)) by (exists s0; split; [exact E0|reflexivity]). revert S. generalize (put_watch Self (Watch 0 (INR 0) true) (fun _ => new_watch)). intros ws S.
  assert (Q := C72_same_run INR g "out" _ (map Do ([AddSource lamp; AddSource wire] ++ us)) S). cbn [td_f] in Q. rewrite main_run, run_app, Er in Q. cbn [obind] in Q. rewrite E in Q.
  exists g, (Timed s0 ws 1). destruct (timed_main INR (map Do ([AddSource lamp; AddSource wire] ++ us)) (Timed s0 ws 1)) as [y|e y|u]; [|discriminate Q|discriminate Q]. exists y. split; [intros n; rewrite S_INR; lra|]. split; [exact S|reflexivity].
Qed.
(** two rejected updates *)
Example C72_caught_case : exists (g : grid) x y, started INR g "out" x /\ caught_main INR (map Do [AddSource blunder; Update; Update]) x = Fine y.
Proof.
  destruct blunder_run as (g & s0 & s & Hg & E0 & Er & Hr & Ha & Ht & Hs & Hb & Hp).
  exists g, (Timed s0 (put_watch Self (Watch 0 (INR 0) true) (fun _ => new_watch)) 1). assert (S : started INR g "out" (Timed s0 (put_watch Self (Watch 0 (INR 0) true) (fun _ => new_watch)) 1)) by (exists s0; split; [exact E0|reflexivity]).
  destruct (bad_source_twice g s blunder [] (3, 3) (3, 3)%Z Hg Hr Ha Ht) as (s1 & s2 & U1 & U2); [rewrite Hs; unfold INT_MIN, INT_MAX; lia..|exact Hb|unfold RejectFacts.bad_comp; cbn [sr_c blunder]; tauto|reflexivity|exact Hp|].
  set (x := Timed s0 _ _) in *. assert (A := started_agree _ _ _ _ S). assert (Fx : td_f x = s0) by reflexivity.
  assert (C1 := call_same INR (Do (AddSource blunder)) x A). cbn [exec_call exec] in C1. rewrite Fx in C1. cbn [run exec] in Er. apply obind_fine in Er. destruct Er as (s' & Ea & Er). injection Er as ->.
  rewrite Ea in C1. destruct C1 as (y1 & P1 & F1 & A1).
  assert (C2 := call_same INR (Do Update) y1 A1). cbn [exec_call exec] in C2. rewrite F1, U1 in C2. destruct C2 as (y2 & P2 & F2 & A2).
  assert (C3 := call_same INR (Do Update) y2 A2). cbn [exec_call exec] in C3. rewrite F2, U2 in C3. destruct C3 as (y3 & P3 & F3 & A3).
  exists y3. split; [exact S|]. cbn [map caught_main]. rewrite P1, P2, P3. reflexivity.
Qed.
