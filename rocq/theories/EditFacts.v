(** The output file only ever grows: what any call, failed or not, can do to it. *)
From Coq Require Import ZArith String Ascii List Bool Lia.
From Verif Require Import Scalar Base BaseFacts VecM GridM GeometryM MaterialM PmlM DftM TfsfM PolarM
  InterpM H5M ClockM MonitorM FieldM OutFacts PhysFacts SpecClock TimerFacts H5Facts SpecOutput PassiveFacts.
From Verif Require Import OpsFacts.
Import ListNotations.
Local Open Scope Z_scope.

(** the state a call leaves behind, whether or not it raised an exception *)
Definition leaves {S} (P : S -> Prop) (m : out S) : Prop :=
  match m with Fine a | Raise _ a => P a | Undef _ => True end.
Lemma leaves_bind {S} (P : S -> Prop) m k : leaves P m -> (forall a, P a -> leaves P (k a)) -> leaves P (m >>= k).
Proof. destruct m; cbn; auto. Qed.
Lemma leaves_prim {S A} (P : S -> Prop) s (r : res A) k : P s -> (forall a, r = Ok a -> leaves P (k a)) -> leaves P (prim s r k).
Proof. intros H K. destruct r; cbn; auto. Qed.
Lemma leaves_loop {S} (P : S -> Prop) f : (forall i a, P a -> leaves P (f i a)) -> forall n i s, P s -> leaves P (oloop i n f s).
Proof. intros H n. induction n as [|n IH]; intros i s Hs; cbn [oloop]; [exact Hs|]. apply leaves_bind; auto. Qed.

Section Edits.
Context {N : Num}.

Inductive edits (f : h5) : h5 -> Prop :=
| ed_refl : edits f f
| ed_group a b p : edits f a -> h5_group a p = Ok b -> edits f b
| ed_create a b p x v : edits f a -> h5_create a p x v = Ok b -> edits f b
| ed_append a b p v : edits f a -> h5_append a p v = Ok b -> edits f b.
Lemma edits_trans f a b : edits f a -> edits a b -> edits f b.
Proof. intros H K. induction K; eauto using edits. Qed.
Lemma edits_groups l : forall f f', h5_groups f l = Ok f' -> edits f f'.
Proof.
  induction l as [|p l IH]; cbn; intros f f' H; [injection H as <-; constructor|]. apply bind_ok in H. destruct H as (a & Ha & H).
  eapply edits_trans; [eapply ed_group; [constructor|exact Ha]|auto].
Qed.
Lemma edits_creates g l : forall f f', h5_creates f g l = Ok f' -> edits f f'.
Proof.
  induction l as [|[n v] l IH]; cbn; intros f f' H; [injection H as <-; constructor|]. apply bind_ok in H. destruct H as (a & Ha & H).
  eapply edits_trans; [eapply ed_create; [constructor|exact Ha]|auto].
Qed.
Lemma edits_create f p x v f' : h5_create f p x v = Ok f' -> edits f f'. Proof. intros. eapply ed_create; [constructor|eassumption]. Qed.
Lemma edits_append f p v f' : h5_append f p v = Ok f' -> edits f f'. Proof. intros. eapply ed_append; [constructor|eassumption]. Qed.
Lemma edits_group f p f' : h5_group f p = Ok f' -> edits f f'. Proof. intros. eapply ed_group; [constructor|eassumption]. Qed.

(** rows are only added at the end *)
Definition grows (f f' : h5) : Prop := forall p, exists l, data_rows f' p = (data_rows f p ++ l)%list.
Lemma wrote_grows f l f' : wrote f l f' -> grows f f'. Proof. intros H p. eexists. apply H. Qed.
Lemma grows_trans f a b : grows f a -> grows a b -> grows f b.
Proof. intros H K p. destruct (H p) as [l E]. destruct (K p) as [l' E']. exists (l ++ l')%list. now rewrite E', E, app_assoc. Qed.
Lemma edits_grows f f' : edits f f' -> grows f f'.
Proof.
  induction 1; [apply (wrote_grows _ []), wrote_nil| | |]; (eapply grows_trans; [eassumption|]).
  - eapply wrote_grows, h5_group_wrote; eassumption.
  - eapply wrote_grows, h5_create_wrote; eassumption.
  - eapply wrote_grows, h5_append_wrote; eassumption.
Qed.
(** a data set of fixed size is never changed *)
Lemma edits_fixed f f' p r : edits f f' -> slookup p f = Some (HData false r) -> slookup p f' = Some (HData false r).
Proof.
  induction 1 as [|a b q H IH E|a b q x v H IH E|a b q v H IH E]; intros K; auto; specialize (IH K).
  - unfold h5_group in E. destruct (slookup q a) as [[|]|] eqn:Eq; inv_ok; auto. now rewrite slookup_app, IH.
  - unfold h5_create in E. destruct (slookup q a) eqn:Eq; inv_ok. now rewrite slookup_app, IH.
  - unfold h5_append in E. destruct (slookup q a) as [[|[|] rows]|] eqn:Eq; inv_ok. rewrite slookup_sassign by congruence.
    destruct (String.eqb_spec p q) as [->|]; [congruence|exact IH].
Qed.

Lemma op_edits f o f' : h5_op f o = Ok f' -> edits f f'.
Proof.
  destruct o; cbn [h5_op]; [apply edits_group|apply edits_create|apply edits_append|].
  destruct (h5_exists f q); [apply edits_create|discriminate].
Qed.
Lemma ops_edits f l f' : h5_ops f l = Ok f' -> edits f f'.
Proof.
  revert f. induction l as [|o l IH]; intros f H; [injection H as <-; constructor|]. rewrite ops_cons in H.
  apply bind_ok in H. destruct H as (r & Hr & H). eapply edits_trans; [eapply op_edits; exact Hr|auto].
Qed.
Lemma left_edits f l : edits f (h5_left f l).
Proof. apply left_rel; [constructor|apply edits_trans|apply op_edits]. Qed.
Lemma write_mon1_edits f sub name it fr f' : write_mon1 f sub name it fr = Ok f' -> edits f f'.
Proof. apply ops_edits. Qed.
Lemma write_mon_edits f m f' : write_mon f m = Ok f' -> edits f f'.
Proof. apply ops_edits. Qed.
Lemma tm_write1_edits g F f m c f' m' : tm_write1 g F f m c = Ok (f', m') -> edits f f'.
Proof.
  unfold tm_write1. intros H. apply bind_ok in H. destruct H as (v & _ & H). apply bind_ok in H. destruct H as (r & Hr & H).
  injection H as <- <-. eapply ops_edits; exact Hr.
Qed.
Lemma tm_write_edits g F f m f' m' : tm_write g F f m = Ok (f', m') -> edits f f'.
Proof.
  unfold tm_write. generalize (expand (tm_fields m)). intros l. revert f m. induction l as [|c l IH]; cbn; intros f m0 H; [injection H as <- <-; apply ed_refl|].
  apply bind_ok in H. destruct H as ([f1 m1] & H1 & H). eapply edits_trans; [eapply tm_write1_edits; eassumption|eauto].
Qed.
Lemma tm_left_edits g F l : forall f m, edits f (fst (tm_left g F f m l)).
Proof.
  induction l as [|c l IH]; intros f m; cbn [tm_left]; [constructor|].
  destruct (tm_write1 g F f m c) as [[f1 m1]|e|u] eqn:E.
  - eapply edits_trans; [eapply tm_write1_edits; exact E|apply IH].
  - cbn [fst]. destruct (tm_sample _ _ _ _); [apply left_edits|constructor|constructor].
  - cbn [fst]. destruct (tm_sample _ _ _ _); [apply left_edits|constructor|constructor].
Qed.
Lemma write_obj_edits f o f' : write_obj f o = Ok f' -> edits f f'.
Proof. apply ops_edits. Qed.
Lemma write_src_edits f o f' : write_src f o = Ok f' -> edits f f'.
Proof. apply ops_edits. Qed.
Lemma write_mat_edits f o f' : write_mat f o = Ok f' -> edits f f'.
Proof. apply ops_edits. Qed.
Lemma write_tfsf_edits f o f' : write_tfsf f o = Ok f' -> edits f f'.
Proof. apply ops_edits. Qed.

Lemma on_ph_h5 f s : leaves (fun a => f_h5 a = f_h5 s) (on_ph f s).
Proof. unfold on_ph. apply leaves_prim; reflexivity. Qed.

(** every call *)
Lemma exec_edits c s : leaves (fun a => edits (f_h5 s) (f_h5 a)) (exec c s).
Proof.
  assert (Ph : forall h0 f a, edits h0 (f_h5 a) -> leaves (fun b => edits h0 (f_h5 b)) (on_ph f a)).
  { intros h0 f a H. unfold on_ph. apply leaves_prim; [exact H|]. intros b _. exact H. }
  assert (Pho : forall h0 f a, edits h0 (f_h5 a) -> leaves (fun b => edits h0 (f_h5 b)) (on_ph_out f a)).
  { intros h0 f a H. unfold on_ph_out. destruct (f (f_ph a)); cbn; auto. }
  assert (St : forall h0 k a, edits h0 (f_h5 a) -> leaves (fun b => edits h0 (f_h5 b)) (start k a)).
  { intros h0 k a H. unfold start. apply leaves_prim; [exact H|]. intros b _. exact H. }
  assert (Sp : forall h0 k a, edits h0 (f_h5 a) -> leaves (fun b => edits h0 (f_h5 b)) (stop k a)).
  { intros h0 k a H. unfold stop. apply leaves_prim; [exact H|]. intros b _. exact H. }
  assert (Wf : forall h0 c a, edits h0 (f_h5 a) -> leaves (fun b => edits h0 (f_h5 b)) (write_field c a)).
  { intros h0 c0 a H. unfold write_field. apply leaves_bind; [apply leaves_bind; [auto|]|auto].
    intros b Hb. apply leaves_prim; [exact Hb|]. intros f Hf. cbv zeta. apply edits_group in Hf. assert (K := edits_trans _ _ _ Hb Hf).
    destruct c0; try exact K; (apply leaves_prim; [exact K|]; intros f' Hf'; cbn [leaves f_h5 set_f_h5] in *; apply bind_ok in Hf'; destruct Hf' as (x & _ & Hf'); destruct (h5_exists _ _);
      (eapply edits_trans; [exact K|]); [eapply edits_append; exact Hf'|eapply edits_create; exact Hf']). }
  assert (Am : forall m a, leaves (fun b => edits (f_h5 a) (f_h5 b)) (add_monitor m a)).
  { intros m a. unfold add_monitor. apply leaves_prim; [constructor|]. intros m' _. apply leaves_prim; [apply left_edits|]. intros f Hf. cbn. now apply write_mon_edits in Hf. }
  assert (Oo : forall i h a, leaves (fun b => edits (f_h5 a) (f_h5 b)) (on_obj i h a)).
  { intros i h a. unfold on_obj. destruct (nth_error _ _) as [o|]; [destruct (o_dyn o)|]; constructor. }
  pose proof (ed_refl (f_h5 s)) as R0.
  destruct c; cbn [exec].
  - unfold update. repeat (apply leaves_bind; [|intros; auto]); auto.
    + intros. unfold step_monitors. cbv zeta. apply leaves_prim; [assumption|]. intros ? _. assumption.
    + unfold step_tmons. apply leaves_loop; [|assumption]. intros i b Hb. unfold tm_ready. destruct (nth_error (f_tmons b) i) as [m|]; [|exact Hb].
      apply leaves_prim; [exact Hb|]. intros [rdy e] _. cbv zeta. destruct rdy; [|exact Hb]. apply leaves_prim; [eapply edits_trans; [exact Hb|apply tm_left_edits]|]. intros [f m'] Hf. cbn [leaves f_h5 set_f_h5 set_f_tmons] in *.
      eapply edits_trans; [exact Hb|]. eapply tm_write_edits; eassumption.
  - auto.
  - unfold add_object. repeat (apply leaves_bind; [|intros; auto]); auto.
    + unfold register_mat. destruct (str_in _ _); [exact R0|]. cbv zeta. apply leaves_prim; [apply left_edits|]. intros f Hf. cbn in *. now apply write_mat_edits in Hf.
    + intros. apply leaves_prim; [eapply edits_trans; [eassumption|apply left_edits]|]. intros f Hf. cbn in *. apply write_obj_edits in Hf. eapply edits_trans; eassumption.
  - unfold add_source. apply leaves_prim; [apply left_edits|]. intros f Hf. cbn. now apply write_src_edits in Hf.
  - auto.
  - unfold add_tmon. apply leaves_prim; [apply left_edits|]. intros f Hf. cbn. now apply ops_edits in Hf.
  - exact R0.
  - exact R0.
  - unfold clear_materials. auto.
  - unfold set_tfsf. apply leaves_prim; [exact R0|]. intros q _. cbv zeta. apply leaves_prim; [apply left_edits|]. intros f Hf. cbn in *. now apply write_tfsf_edits in Hf.
  - auto.
  - unfold writeE. auto.
  - unfold writeH. apply leaves_bind; auto.
  - unfold write_monitor_data. destruct (nth_error _ _) as [m|]; [|exact R0]. destruct (mon_sub_name m) as [sub name]. cbv zeta. apply leaves_prim; [apply left_edits|]. intros f Hf. cbn. now apply ops_edits in Hf.
  - unfold write_tmon. destruct (nth_error _ _) as [m|]; [|exact R0]. apply leaves_prim; [apply tm_left_edits|]. intros [f m'] Hf. cbn. eapply tm_write_edits; eassumption.
  - auto.
  - auto.
  - auto.
  - auto.
  - unfold write_current. destruct (nth_error _ _) as [o|]; [|exact R0]. destruct (o_dyn o); [|exact R0]. cbv zeta. apply leaves_prim; [apply left_edits|]. intros f Hf. cbn. now apply ops_edits in Hf.
  - unfold get_box_monitor. destruct (nth_error _ _) as [o|]; [|exact R0]. apply leaves_prim; [exact R0|]. auto.
Qed.
Lemma run_edits l : forall s, leaves (fun a => edits (f_h5 s) (f_h5 a)) (run l s).
Proof.
  induction l as [|c l IH]; intros s; cbn [run]; [constructor|]. assert (H := exec_edits c s). destruct (exec c s) as [a|e a|u]; cbn [obind leaves] in *; auto.
  specialize (IH a). destruct (run l a); cbn [leaves] in *; auto; eapply edits_trans; eassumption.
Qed.
Lemma run_catch_edits l : forall s, leaves (fun a => edits (f_h5 s) (f_h5 a)) (run_catch l s).
Proof.
  induction l as [|c l IH]; intros s; cbn [run_catch]; [constructor|]. assert (H := exec_edits c s). destruct (exec c s) as [a|e a|u]; cbn [leaves] in *; auto.
  all: specialize (IH a); destruct (run_catch l a); cbn [leaves] in *; auto; eapply edits_trans; eassumption.
Qed.

(** ** Output calls *)
Lemma output_frame c s : output c = true -> leaves (fun a => f_ph a = f_ph s /\ f_mons a = f_mons s) (exec c s).
Proof.
  assert (Wf : forall c a, f_ph a = f_ph s /\ f_mons a = f_mons s -> leaves (fun b => f_ph b = f_ph s /\ f_mons b = f_mons s) (write_field c a)).
  { intros c0 a H. unfold write_field. apply leaves_bind; [apply leaves_bind|].
    - unfold start. apply leaves_prim; auto.
    - intros b Hb. apply leaves_prim; [exact Hb|]. intros f Hf. cbv zeta. destruct c0; try exact Hb; (apply leaves_prim; [exact Hb|]; intros; exact Hb).
    - intros b Hb. unfold stop. apply leaves_prim; auto. }
  assert (R0 : f_ph s = f_ph s /\ f_mons s = f_mons s) by auto.
  intros Ho. destruct c; try discriminate Ho; clear Ho; cbn [exec].
  - auto.
  - unfold writeE. auto.
  - unfold writeH. apply leaves_bind; auto.
  - unfold write_monitor_data. destruct (nth_error _ _) as [m|]; [|exact R0]. destruct (mon_sub_name m). apply leaves_prim; auto.
  - unfold write_tmon. destruct (nth_error _ _) as [m|]; [|exact R0]. apply leaves_prim; auto. intros [f m'] _. exact R0.
  - unfold write_current. destruct (nth_error _ _) as [o|]; [|exact R0]. destruct (o_dyn o); [|exact R0]. apply leaves_prim; auto.
Qed.
Lemma output_run_frame l : forall s, Forall (fun c => output c = true) l ->
  leaves (fun a => f_ph a = f_ph s /\ f_mons a = f_mons s) (run l s) /\ leaves (fun a => f_ph a = f_ph s /\ f_mons a = f_mons s) (run_catch l s).
Proof.
  induction l as [|c l IH]; intros s H; cbn [run run_catch]; [cbn; auto|]. inversion H as [|? ? Hc Hl]; subst.
  assert (K := output_frame c s Hc). destruct (exec c s) as [a|e a|u]; cbn [obind leaves] in *; [| |auto]; destruct K as [K1 K2]; rewrite <- K1, <- K2.
  - exact (IH a Hl).
  - split; [auto|]. exact (proj2 (IH a Hl)).
Qed.
Lemma without_output_phys l : forall s1 s2 s1' s2', f_ph s2 = f_ph s1 -> run l s1 = Fine s1' -> run (without_output l) s2 = Fine s2' -> f_ph s2' = f_ph s1'.
Proof.
  unfold without_output. induction l as [|c l IH]; intros s1 s2 s1' s2' P H1 H2; cbn [run filter] in *; [congruence|].
  apply obind_fine in H1. destruct H1 as (a & Ha & H1). destruct (output c) eqn:Ec; cbn [negb] in H2.
  - assert (K := output_frame c s1 Ec). rewrite Ha in K. cbn in K. destruct K as [K _]. apply (IH a s2 s1' s2'); [congruence|assumption|assumption].
  - cbn [run] in H2. apply obind_fine in H2. destruct H2 as (b & Hb & H2). apply (IH a b s1' s2'); auto. apply exec_phys in Ha, Hb. rewrite P in Hb. congruence.
Qed.
(** leaving out both the monitors and the output *)
Lemma output_twin c s1 s1' s2 : output c = true -> exec c s1 = Fine s1' -> twin s1 s2 -> twin s1' s2.
Proof.
  intros Hc E T. assert (T' := T). destruct T' as (P & M & R1 & R2 & Q1 & Q2 & S & L). assert (K := output_frame c s1 Hc). rewrite E in K. destruct K as [K _].
  assert (Hm : f_mats s1' = f_mats s1).
  { clear -E Hc. destruct c; try discriminate; cbn [exec] in E.
    - apply write_field_wrote in E. destruct E as (? & ? & ? & ? & ? & ?). auto.
    - apply write_field_wrote in E. destruct E as (? & ? & ? & ? & ? & ?). auto.
    - unfold writeH in E. apply obind_fine in E. destruct E as (a & Ea & E). apply write_field_wrote in Ea, E. destruct Ea as (? & ? & ? & ? & ? & ?). destruct E as (? & ? & ? & ? & ? & ?). congruence.
    - unfold write_monitor_data in E. destruct (nth_error _ _) as [m|]; [|now injection E as <-]. destruct (mon_sub_name m). inv_fine. reflexivity.
    - unfold write_tmon in E. destruct (nth_error _ _) as [m|]; [|now injection E as <-]. inv_fine. destruct r as [f m']. inv_fine. reflexivity.
    - unfold write_current in E. destruct (nth_error _ _) as [o|]; [|now injection E as <-]. destruct (o_dyn o); [|now injection E as <-]. inv_fine. reflexivity. }
  unfold twin. rewrite K, Hm. do 2 (split; [assumption|]). split; [exact (exec_rest c s1 s1' R1 E)|]. do 3 (split; [assumption|]). split; [|exact L].
  eapply sub_file_trans; [exact S|]. assert (G := exec_edits c s1). rewrite E in G. cbn in G. clear -G. induction G; [apply sub_file_refl| | |]; (eapply sub_file_trans; [eassumption|]).
  - eapply group_kind; eassumption.
  - eapply create_kind; eassumption.
  - eapply append_grow; eassumption.
Qed.
Lemma bare_run l : forall s1 s1' s2, run l s1 = Fine s1' -> twin s1 s2 -> exists s2', run (without_output (without_monitors l)) s2 = Fine s2' /\ twin s1' s2'.
Proof.
  unfold without_output, without_monitors. induction l as [|c l IH]; intros s1 s1' s2 H T; cbn [run filter] in *; [injection H as <-; eauto|].
  apply obind_fine in H. destruct H as (a & Ha & H). destruct (watching c) eqn:Ec; cbn [negb].
  - eapply IH; [exact H|]. eapply watching_twin; eassumption.
  - cbn [filter]. destruct (output c) eqn:Eo; cbn [negb].
    + eapply IH; [exact H|]. eapply output_twin; eassumption.
    + destruct (exec_twin _ _ _ _ Ec Ha T) as (b & Eb & Tb). cbn [run]. rewrite Eb. cbn [obind]. eapply IH; eassumption.
Qed.
End Edits.
