(** The incident wave after clear_fields() is the one set_tfsf() makes. *)
From Coq Require Import ZArith String List Bool Lia.
From Verif Require Import Scalar Base BaseFacts VecM GridM GeometryM MaterialM PmlM DftM TfsfM PolarM InterpM H5M ClockM
  MonitorM FieldM OutFacts PhysFacts PaintFacts WfFacts ReachFacts InvFacts SpecStep StepFacts EngineFacts
  SpecSource SourceFacts SpecGrid FullStep SafeFacts SpecCone ConeFacts SpecRestart.
Import ListNotations.
Local Open Scope Z_scope.

Section Line.
Context {N : Num}.
Definition fed (p : phys) : Prop := forall q, ph_tfsf p = Some q ->
  exists tp q0, mk_tfsf (ph_grid p) tp (q_vol q) (g_dt (ph_grid p)) = Ok q0 /\ tp_shape tp = tp_shape (q_tp q) /\ bare_wave (tfsf_reset q) = bare_wave q0.

Lemma mk_tfsf_bare g tp tp' v dt a b : mk_tfsf g tp v dt = Ok a -> mk_tfsf g tp' v dt = Ok b -> tp_shape tp = tp_shape tp' -> bare_wave a = bare_wave b.
Proof.
  unfold mk_tfsf. destruct (to_grid_volume g v) as [iv|?|?]; cbn [bind]; try discriminate. destruct (i32 _) as [n|?|?]; cbn [bind]; try discriminate.
  destruct (aconst n 0%num) as [z|?|?]; cbn [bind]; try discriminate. intros Ha Hb E.
  apply bind_ok in Ha. destruct Ha as (d & _ & Ha). injection Ha as <-. apply bind_ok in Hb. destruct Hb as (d' & _ & Hb). injection Hb as <-.
  unfold bare_wave, bare_profile. cbn. now rewrite E.
Qed.
Lemma mk_tfsf_reset g tp v dt q : mk_tfsf g tp v dt = Ok q -> bare_wave (tfsf_reset q) = bare_wave q /\ q_vol q = v /\ q_tp q = tp.
Proof.
  unfold mk_tfsf, aconst. intros H. inv_ok. match goal with H : (if ?c then _ else _) = Ok _ |- _ => destruct c; [injection H as <-|discriminate] end.
  repeat split.
Qed.
Lemma response_shape tp t v tp' : response tp t = Ok (v, tp') -> tp_shape tp' = tp_shape tp.
Proof.
  unfold response. intros H. apply bind_ok in H. destruct H as (x & Hx & H). injection H as _ <-. unfold tp_update in Hx.
  destruct (tp_dft tp); [|now injection Hx as <-]. apply bind_ok in Hx. destruct Hx as ([a b] & _ & Hx). now injection Hx as <-.
Qed.
Lemma pulse_reset q q' : tfsf_dims q -> tfsf_pulse q = Ok q' ->
  bare_wave (tfsf_reset q') = bare_wave (tfsf_reset q) /\ q_vol q' = q_vol q /\ tp_shape (q_tp q') = tp_shape (q_tp q).
Proof.
  intros D H. destruct (tfsf_pulse_ok q D) as (x & Hx & D' & _). rewrite H in Hx. injection Hx as <-.
  assert (K : q_vol q' = q_vol q /\ (q_ia q' = q_ia q /\ q_ib q' = q_ib q /\ q_ja q' = q_ja q /\ q_jb q' = q_jb q) /\ tp_shape (q_tp q') = tp_shape (q_tp q) /\
    q_N q' = q_N q /\ q_dt q' = q_dt q /\ q_ca q' = q_ca q /\ q_cb q' = q_cb q).
  { clear D D'. unfold tfsf_pulse in H. apply bind_ok in H. destruct H as (pe & _ & H). apply bind_ok in H. destruct H as ([[Da Ea] Ia] & _ & H).
    apply bind_ok in H. destruct H as ([v tp] & Ht & H). apply response_shape in Ht.
    repeat (apply bind_ok in H; destruct H as (? & _ & H)). injection H as <-. repeat split. exact Ht. }
  destruct K as (K1 & (K2 & K3 & K4 & K5) & K6 & K7 & K8 & K9 & K10).
  destruct D as (_ & (L1 & L2 & L3 & L4 & _) & _), D' as (_ & (M1 & M2 & M3 & M4 & _) & _).
  split; [|split; assumption]. unfold bare_wave, tfsf_reset, bare_profile. cbn [q_vol q_ia q_ib q_ja q_jb q_tp q_dft q_N q_dt q_t q_E q_D q_H q_I q_ca q_cb q_l0 q_l1 q_r0 q_r1].
  now rewrite K1, K2, K3, K4, K5, K6, K7, K8, K9, K10, L1, L2, L3, L4, M1, M2, M3, M4, K7.
Qed.

Lemma exec_fed c p p' : apart (ph_grid p) -> wf_phys p -> fed p -> phys_exec c p = Fine p' -> fed p'.
Proof.
  intros Ha Hw B H. assert (G := proj1 (phys_exec_grid _ _ _ H)). assert (Kept : ph_tfsf p' = ph_tfsf p -> fed p') by (intros E q Hq; rewrite G; apply B; congruence).
  destruct c; cbn [phys_exec] in H; try (apply Kept; injection H as <-; reflexivity);
    try (apply Kept; injection H as <-; unfold phys_on_obj; destruct (nth_error (ph_objs p) _) as [o|]; [destruct (o_dyn o)|]; reflexivity).
  - destruct (full_step p p' Ha Hw H) as (E0 & E1 & E2 & E3 & Ls & u & h & []). intros q Hq. rewrite G.
    rewrite Hq in cw_line. unfold line in cw_line. destruct (ph_tfsf p) as [q0|] eqn:E; [|discriminate]. apply bind_ok in cw_line. destruct cw_line as (x & Hx & Ex). injection Ex as ->.
    destruct (pulse_reset q0 q (wf_tfsf p Hw q0 E) Hx) as (R1 & R2 & R3). destruct (B q0 E) as (tp & y & Y1 & Y2 & Y3). exists tp, y. rewrite R1, R2, R3. auto.
  - apply ok_out_fine in H. unfold update_material_grid in H. inv_ok. apply repaint_frame in H. apply Kept. cbn in H. tauto.
  - apply ok_out_fine in H. apply Kept. unfold phys_add_object, paint_phys in H. inv_ok. apply insert_material_frame in Hr0. cbn in *. tauto.
  - injection H as <-. intros q Hq. cbn in Hq. destruct (ph_tfsf p) as [q0|] eqn:E; [|discriminate]. injection Hq as <-.
    destruct (B q0 E) as (tp & y & Y1 & Y2 & Y3). exists tp, y. split; [exact Y1|]. split; [exact Y2|exact Y3].
  - apply ok_out_fine in H. unfold phys_clear_materials in H. inv_ok. now apply Kept.
  - apply ok_out_fine in H. unfold phys_set_tfsf in H. inv_ok. intros q Hq. cbn in Hq. injection Hq as <-. cbn [set_ph_tfsf ph_grid].
    destruct (mk_tfsf_reset _ _ _ _ _ Hr) as (R1 & R2 & R3). exists tp, r. rewrite R2, R3. auto.
Qed.
Lemma run_fed g l : forall s s', apart g -> reachable g s -> fed (f_ph s) -> run l s = Fine s' -> fed (f_ph s').
Proof.
  induction l as [|c l IH]; intros s s' Ha Hr B H; cbn [run] in H; [injection H as <-; exact B|].
  apply obind_fine in H. destruct H as (s1 & H1 & H). destruct (reachable_good g s (apart_roomy _ Ha) Hr) as [W G].
  apply (IH s1); auto.
  - apply (run_reachable g s [c]); [exact Hr|]. cbn [run]. rewrite H1. reflexivity.
  - apply exec_phys in H1. apply (exec_fed c (f_ph s)); auto. now rewrite G.
Qed.
Lemma fresh_fed g name s0 : mk_field g name = Ok s0 -> fed (f_ph s0).
Proof.
  unfold mk_field. intros H. inv_ok. destruct (String.eqb name ""); [discriminate|]. inv_ok. unfold mk_phys in Hr. inv_ok. intros q Hq. discriminate.
Qed.
End Line.
