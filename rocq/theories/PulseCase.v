(** A program that records the spectra of a source and of an incident wave. *)
From Coq Require Import ZArith Reals Lra Lia String List Bool.
From Verif Require Import Scalar Base BaseFacts VecM GridM GeometryM MaterialM PmlM DftM TfsfM PolarM InterpM H5M ClockM MonitorM NamesM FieldM ReportM ShippedM
  SpecGrid SpecClock SpecSafety SpecLive SpecProgram GridFacts OutFacts PhysFacts ClockFacts ProgFacts ShippedFacts SpecTfsf SpecPulse.
Import ListNotations.
Local Open Scope R_scope.
#[local] Existing Instance RNum.

Lemma main_run l : forall s, exec_main (map Do l) s = run l s.
Proof. induction l as [|c l IH]; intros s; cbn [map exec_main run exec_call]; [reflexivity|]. destruct (exec c s); cbn [obind]; auto. Qed.
Lemma pulse_case n : (Z.of_nat n <= 2147483647)%Z -> exists g tp s0 s1 s2 s, mk_grid 120 120 2 5 = Ok g /\ 0 < g_dt g /\ mk_field g "out.h5" = Ok s0 /\
  tp_with_freq (pulse 100 80) [1; 2] = Ok tp /\ run [AddSource (Source "lamp" Ez (SPoint (point 30 30)) tp)] s0 = Fine s1 /\
  exec (SetTfsf (around 60 60 65) tp) s1 = Fine s2 /\ run (repeat Update n) s2 = Fine s /\
  forallb keeps_line (repeat Update n) = true /\ forallb keeps_clock (SetTfsf (around 60 60 65) tp :: repeat Update n) = true /\
  SpecTfsf.updates (repeat Update n) = n.
Proof.
  intros Hn. destruct (shipped_grid_ok 5) as [g G]; [lia|]. destruct (tp_made (pulse 100 80) [1; 2]) as (tp & Et & Ht).
  assert (W : well_formed g blank (Do (AddSource (Source "lamp" Ez (SPoint (point 30 30)) tp)) :: Do (SetTfsf (around 60 60 65) tp) :: repeat (Do Update) n)).
  { eapply wfp_call; [|apply en_source|]. { split; [names|]. split; [apply (source_at 5 g G); lia|]. intros []. }
    eapply wfp_call; [|apply en_tfsf|]. { split; [reflexivity|]. apply (region_ok 5 g G); lia. }
    rewrite <- (app_nil_r (repeat _ _)). apply updates_wf; [cbn; lia|constructor]. }
  destruct (ship 5 g "out.h5" _ G ltac:(discriminate) W) as (s0 & s & E0 & E). cbn [exec_main] in E.
  apply obind_fine in E. destruct E as (s1 & E1 & E). apply obind_fine in E. destruct E as (s2 & E2 & E). cbn [exec_call] in E1, E2.
  replace (repeat (Do Update) n) with (map Do (repeat Update n)) in E by (clear; induction n; cbn; congruence). rewrite main_run in E.
  assert (Ok : 0 < g_dt g).
  { destruct (mk_grid_spec 120 120 2 5) as [g' [Eg H]]; try lra; try (unfold INT_MAX; lra). assert (Em : mk_grid 120 120 2 5 = Base.Ok g) by apply G. rewrite Em in Eg. injection Eg as <-.
    destruct H as (H1 & H2 & _ & Hd & Hp & HL & HLy & _ & _ & _ & Hdt & Hm). change (@T RNum) with R in *. lra. }
  exists g, tp, s0, s1, s2, s. split; [apply G|]. split; [exact Ok|]. split; [exact E0|]. split; [exact Et|]. split; [cbn [run]; rewrite E1; reflexivity|]. split; [exact E2|]. split; [exact E|].
  clear. unfold SpecTfsf.updates. repeat split; [| |]; cbn [forallb keeps_clock andb]; induction n; cbn; auto.
Qed.
Lemma source_case n : (Z.of_nat n <= 2147483647)%Z -> exists g tp s0 s, mk_grid 120 120 2 5 = Ok g /\ 0 < g_dt g /\ mk_field g "out.h5" = Ok s0 /\
  run [] s0 = Fine s0 /\ tp_with_freq (pulse 100 80) [1; 2] = Ok tp /\
  forallb keeps_clock (SetTfsf (around 60 60 65) tp :: repeat Update n) = true /\
  run (AddSource (Source "lamp" Ez (SPoint (point 30 30)) tp) :: SetTfsf (around 60 60 65) tp :: repeat Update n) s0 = Fine s.
Proof.
  intros Hn. destruct (pulse_case n Hn) as (g & tp & s0 & s1 & s2 & s & H1 & H2 & H3 & H4 & H5 & H6 & H7 & _ & H8 & _). exists g, tp, s0, s.
  repeat (split; [assumption || reflexivity|]). cbn [run] in *. destruct (exec (AddSource _) s0); cbn [obind] in *; [|discriminate H5|discriminate H5]. injection H5 as ->. rewrite H6. exact H7.
Qed.
Lemma flux_case n : (Z.of_nat n <= 2147483647)%Z -> exists g tp s0 s1 s2 s ia ib ja jb, mk_grid 120 120 2 5 = Ok g /\ 0 < g_dt g /\ mk_field g "out.h5" = Ok s0 /\
  tp_with_freq (pulse 100 80) [1; 2] = Ok tp /\ run [AddSource (Source "lamp" Ez (SPoint (point 30 30)) tp)] s0 = Fine s1 /\
  exec (SetTfsf (around 60 60 65) tp) s1 = Fine s2 /\ run (repeat Update n) s2 = Fine s /\
  forallb keeps_line (repeat Update n) = true /\ SpecTfsf.updates (repeat Update n) = n /\
  to_grid g (v_a (around 60 60 65)) = Ok (ia, ja) /\ to_grid g (v_b (around 60 60 65)) = Ok (ib, jb).
Proof.
  intros Hn. destruct (pulse_case n Hn) as (g & tp & s0 & s1 & s2 & s & H1 & H2 & H3 & H4 & H5 & H6 & H7 & H8 & _ & H9).
  assert (Gs : ph_grid (f_ph s1) = g) by (destruct (mk_field_clk _ _ _ H3) as [_ <-]; apply run_phys, phys_run_grid in H5; apply H5).
  assert (E := H6). apply exec_phys in E. cbn [phys_exec] in E. apply ok_out_fine in E. unfold phys_set_tfsf in E. apply bind_ok in E. destruct E as (q & Hq & _).
  unfold mk_tfsf in Hq. apply bind_ok in Hq. destruct Hq as (iv & Hv & _). unfold to_grid_volume in Hv. apply bind_ok in Hv. destruct Hv as ([ia ja] & Va & Hv). apply bind_ok in Hv. destruct Hv as ([ib jb] & Vb & _).
  rewrite Gs in Va, Vb. exists g, tp, s0, s1, s2, s, ia, ib, ja, jb. repeat (split; [assumption|]). exact Vb.
Qed.
