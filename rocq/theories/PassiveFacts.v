(** Monitor calls change nothing else; output calls leave the physics alone. *)
From Coq Require Import ZArith String Ascii List Bool Lia.
From Verif Require Import Scalar Base BaseFacts VecM GridM GeometryM MaterialM PmlM DftM TfsfM PolarM
  InterpM H5M ClockM MonitorM FieldM OutFacts PhysFacts ReachFacts SpecClock TimerFacts H5Facts SpecOutput.
From Verif Require Import OpsFacts.
Import ListNotations.
Local Open Scope Z_scope.

Section Passive.
Context {N : Num}.

(** ** Files with fewer entries *)
Definition kind_of (o : option h5obj) : option (option bool) :=
  match o with None => None | Some HGroup => Some None | Some (HData b _) => Some (Some b) end.
Definition kind (f : h5) (p : string) : option (option bool) := kind_of (slookup p f).
(** everything in f2 is in f1 and of the same kind *)
Definition sub_file (f2 f1 : h5) : Prop := forall p, kind f2 p <> None -> kind f1 p = kind f2 p.
Lemma sub_file_refl f : sub_file f f. Proof. intros p _. reflexivity. Qed.
Lemma sub_file_trans a b c : sub_file a b -> sub_file b c -> sub_file a c.
Proof. intros H K p Hp. rewrite K; [now apply H|]. rewrite H; auto. Qed.

Lemma kind_none f p : kind f p = None <-> slookup p f = None.
Proof. unfold kind. destruct (slookup p f) as [[|]|]; cbn; split; congruence. Qed.
Lemma kind_app f p o q : kind (f ++ [(p, o)]) q = match kind f q with None => if String.eqb q p then kind_of (Some o) else None | k => k end.
Proof. unfold kind. rewrite slookup_app. destruct (slookup q f) as [[|]|]; cbn [kind_of]; auto. cbn [slookup]. now destruct (String.eqb q p). Qed.
Lemma kind_assign f p b r r' q : slookup p f = Some (HData b r) -> kind (sassign p (HData b r') f) q = kind f q.
Proof. intros H. unfold kind. rewrite slookup_sassign by congruence. destruct (String.eqb_spec q p) as [->|]; [now rewrite H|reflexivity]. Qed.

Lemma group_kind f p f' : h5_group f p = Ok f' -> kind f' p = Some None /\ (forall q, q <> p -> kind f' q = kind f q) /\ sub_file f f'.
Proof.
  unfold h5_group. destruct (slookup p f) as [[|]|] eqn:E; intros H; try discriminate; injection H as <-.
  - split; [unfold kind; now rewrite E|]. split; [auto|apply sub_file_refl].
  - assert (K : kind f p = None) by now apply kind_none. split; [rewrite kind_app, K, String.eqb_refl; reflexivity|]. split.
    + intros q Hq. rewrite kind_app. apply String.eqb_neq in Hq. rewrite Hq. now destruct (kind f q).
    + intros q Hq. rewrite kind_app. destruct (kind f q); congruence.
Qed.
Lemma create_kind f p b v f' : h5_create f p b v = Ok f' -> kind f p = None /\ kind f' p = Some (Some b) /\ (forall q, q <> p -> kind f' q = kind f q) /\ sub_file f f'.
Proof.
  unfold h5_create. destruct (slookup p f) as [o|] eqn:E; intros H; try discriminate; injection H as <-.
  assert (K : kind f p = None) by now apply kind_none. split; [exact K|]. split; [rewrite kind_app, K, String.eqb_refl; reflexivity|]. split.
  - intros q Hq. rewrite kind_app. apply String.eqb_neq in Hq. rewrite Hq. now destruct (kind f q).
  - intros q Hq. rewrite kind_app. destruct (kind f q); congruence.
Qed.
Lemma append_kind f p v f' : h5_append f p v = Ok f' -> kind f p = Some (Some true) /\ (forall q, kind f' q = kind f q).
Proof.
  unfold h5_append. destruct (slookup p f) as [[|[|] r]|] eqn:E; intros H; try discriminate; injection H as <-.
  split; [unfold kind; now rewrite E|]. intros q. now apply (kind_assign f p true r).
Qed.

(** the same operation on the smaller file *)
Lemma sub_group f2 f1 p f1' : sub_file f2 f1 -> h5_group f1 p = Ok f1' -> exists f2', h5_group f2 p = Ok f2' /\ sub_file f2' f1'.
Proof.
  intros Hs H. destruct (group_kind _ _ _ H) as (K1 & K2 & K3).
  assert (E : exists f2', h5_group f2 p = Ok f2').
  { unfold h5_group. destruct (slookup p f2) as [[|b r]|] eqn:E; eauto. exfalso. unfold h5_group in H.
    assert (kind f1 p = Some (Some b)) as K by (rewrite Hs; unfold kind; rewrite E; cbn; congruence). unfold kind in K. destruct (slookup p f1) as [[|]|]; cbn in *; discriminate. }
  destruct E as (f2' & E). exists f2'. split; [exact E|]. destruct (group_kind _ _ _ E) as (L1 & L2 & L3).
  intros q Hq. destruct (String.eqb_spec q p) as [->|Hn]; [congruence|]. rewrite K2, L2 by exact Hn. rewrite L2 in Hq by exact Hn. now apply Hs.
Qed.
Lemma sub_create f2 f1 p b v f1' : sub_file f2 f1 -> h5_create f1 p b v = Ok f1' -> exists f2', h5_create f2 p b v = Ok f2' /\ sub_file f2' f1'.
Proof.
  intros Hs H. destruct (create_kind _ _ _ _ _ H) as (K0 & K1 & K2 & K3).
  assert (E : exists f2', h5_create f2 p b v = Ok f2').
  { unfold h5_create. destruct (slookup p f2) eqn:E; [|eauto]. exfalso. assert (kind f2 p <> None) as K by (rewrite kind_none; congruence). rewrite <- Hs in K; congruence. }
  destruct E as (f2' & E). exists f2'. split; [exact E|]. destruct (create_kind _ _ _ _ _ E) as (L0 & L1 & L2 & L3).
  intros q Hq. destruct (String.eqb_spec q p) as [->|Hn]; [congruence|]. rewrite K2, L2 by exact Hn. rewrite L2 in Hq by exact Hn. now apply Hs.
Qed.
Lemma append_ok f p v : kind f p = Some (Some true) -> exists f', h5_append f p v = Ok f'.
Proof. unfold kind, h5_append. destruct (slookup p f) as [[|[|] r]|]; cbn; try discriminate. eauto. Qed.
Lemma sub_append f2 f1 p v f1' : sub_file f2 f1 -> h5_append f1 p v = Ok f1' -> kind f2 p = Some (Some true) -> exists f2', h5_append f2 p v = Ok f2' /\ sub_file f2' f1'.
Proof.
  intros Hs H K. destruct (append_ok f2 p v K) as (f2' & E). exists f2'. split; [exact E|].
  destruct (append_kind _ _ _ _ H) as [_ A]. destruct (append_kind _ _ _ _ E) as [_ B]. intros q. rewrite A, B. apply Hs.
Qed.
Lemma sub_groups l : forall f2 f1 f1', sub_file f2 f1 -> h5_groups f1 l = Ok f1' -> exists f2', h5_groups f2 l = Ok f2' /\ sub_file f2' f1'.
Proof.
  induction l as [|p l IH]; intros f2 f1 f1' Hs H; cbn in *; [injection H as <-; eauto|].
  apply bind_ok in H. destruct H as (f & H1 & H). destruct (sub_group _ _ _ _ Hs H1) as (f' & E & Hs'). rewrite E. cbn [bind]. eapply IH; eauto.
Qed.
Lemma sub_creates g l : forall f2 f1 f1', sub_file f2 f1 -> h5_creates f1 g l = Ok f1' -> exists f2', h5_creates f2 g l = Ok f2' /\ sub_file f2' f1'.
Proof.
  induction l as [|[n v] l IH]; intros f2 f1 f1' Hs H; cbn in *; [injection H as <-; eauto|].
  apply bind_ok in H. destruct H as (f & H1 & H). destruct (sub_create _ _ _ _ _ _ Hs H1) as (f' & E & Hs'). rewrite E. cbn [bind]. eapply IH; eauto.
Qed.

(** a file only grows *)
Lemma groups_grow l : forall f f', h5_groups f l = Ok f' -> sub_file f f'.
Proof. induction l as [|p l IH]; cbn; intros f f' H; [injection H as <-; apply sub_file_refl|]. apply bind_ok in H. destruct H as (r & Hr & H). eapply sub_file_trans; [apply (group_kind _ _ _ Hr)|eauto]. Qed.
Lemma creates_grow g l : forall f f', h5_creates f g l = Ok f' -> sub_file f f'.
Proof. induction l as [|[n v] l IH]; cbn; intros f f' H; [injection H as <-; apply sub_file_refl|]. apply bind_ok in H. destruct H as (r & Hr & H). eapply sub_file_trans; [apply (create_kind _ _ _ _ _ Hr)|eauto]. Qed.
Lemma append_grow f p v f' : h5_append f p v = Ok f' -> sub_file f f'.
Proof. intros H q _. now destruct (append_kind _ _ _ _ H). Qed.
Lemma op_grow f o f' : h5_op f o = Ok f' -> sub_file f f'.
Proof.
  destruct o; cbn [h5_op]; intros H; [apply (group_kind _ _ _ H)|apply (create_kind _ _ _ _ _ H)|eapply append_grow; exact H|].
  destruct (h5_exists f q); [apply (create_kind _ _ _ _ _ H)|discriminate].
Qed.
Lemma ops_grow l : forall f f', h5_ops f l = Ok f' -> sub_file f f'.
Proof.
  induction l as [|o l IH]; intros f f' H; [injection H as <-; apply sub_file_refl|]. rewrite ops_cons in H. apply bind_ok in H. destruct H as (r & Hr & H).
  eapply sub_file_trans; [eapply op_grow; exact Hr|eauto].
Qed.
Lemma write_mon_grow f m f' : write_mon f m = Ok f' -> sub_file f f'.
Proof. apply ops_grow. Qed.
Lemma tm_write1_grow g F f m c f' m' : tm_write1 g F f m c = Ok (f', m') -> sub_file f f'.
Proof.
  unfold tm_write1. intros H. apply bind_ok in H. destruct H as (v & _ & H). apply bind_ok in H. destruct H as (r & Hr & H). injection H as <- <-. eapply ops_grow; exact Hr.
Qed.
Lemma tm_write_grow g F f m f' m' : tm_write g F f m = Ok (f', m') -> sub_file f f'.
Proof.
  unfold tm_write. generalize (expand (tm_fields m)). intros l. revert f m. induction l as [|c l IH]; cbn; intros f m0 H; [injection H as <- <-; apply sub_file_refl|].
  apply bind_ok in H. destruct H as ([f1 m1] & H1 & H). eapply sub_file_trans; [eapply tm_write1_grow; eassumption|eauto].
Qed.
Lemma step_tmons_grow s s' : step_tmons s = Fine s' -> sub_file (f_h5 s) (f_h5 s').
Proof.
  unfold step_tmons. intros H. refine (oloop_pres (fun a => sub_file (f_h5 s) (f_h5 a)) _ _ _ _ _ (sub_file_refl _) _ H).
  intros i a b _ Ha Hb. eapply sub_file_trans; [exact Ha|]. unfold tm_ready in Hb. destruct (nth_error (f_tmons a) i) as [m|]; [|injection Hb as <-; apply sub_file_refl].
  inv_fine. destruct r as [[|] e]; inv_fine; cbn; [|apply sub_file_refl]. destruct r as [f m']. inv_fine. cbn. eapply tm_write_grow; eassumption.
Qed.

Lemma step_tmons_mats s s' : step_tmons s = Fine s' -> f_mats s' = f_mats s.
Proof.
  unfold step_tmons. intros H. refine (oloop_pres (fun a => f_mats a = f_mats s) _ _ _ _ _ eq_refl _ H).
  intros i a b _ Ha Hb. unfold tm_ready in Hb. destruct (nth_error (f_tmons a) i) as [m|]; [|injection Hb as <-; exact Ha].
  inv_fine. destruct r as [[|] e]; inv_fine; cbn; [|exact Ha]. destruct r as [f m']. inv_fine. exact Ha.
Qed.

(** ** The run with monitors and the run without *)
Definition listed (f : h5) (mats : list string) (objs : list obj) : Prop :=
  (forall n, In n mats -> kind f (mat_path n) <> None) /\
  (forall o, In o objs -> o_dyn o = true -> kind f (obj_path o // "position") = Some (Some true) /\ kind f (obj_path o // "theta") = Some (Some true)).
Lemma listed_grow f f' mats objs : sub_file f f' -> listed f mats objs -> listed f' mats objs.
Proof.
  intros Hs [H1 H2]. split.
  - intros n Hn. rewrite Hs; auto.
  - intros o Ho Hd. destruct (H2 o Ho Hd) as [A B]. split; rewrite Hs; congruence.
Qed.
Definition twin (s1 s2 : field) : Prop :=
  f_ph s2 = f_ph s1 /\ f_mats s2 = f_mats s1 /\ at_rest s1 /\ at_rest s2 /\ f_mons s2 = [] /\ f_tmons s2 = [] /\
  sub_file (f_h5 s2) (f_h5 s1) /\ listed (f_h5 s2) (f_mats s1) (ph_objs (f_ph s1)).

Lemma update_alone s p' : phys_step (f_ph s) = Fine p' -> f_mons s = [] -> f_tmons s = [] -> at_rest s -> update s = Fine (set_f_ph p' s).
Proof.
  intros E Hm Ht Hr. unfold phys_step in E. inv_fine. destruct s as [ph mons tmons mats h k]. unfold at_rest in Hr. cbn in Hr, Hm, Ht, Hr0. subst k mons tmons. cbn [f_ph] in *.
  unfold update, on_ph, on_ph_out, start, stop, step_monitors, step_tmons, clock_start, clock_stop.
  repeat match goal with
  | H : ?x = Ok _ |- context [?x] => rewrite H; cbn [prim obind set_f_ph set_f_clk set_f_mons f_ph f_clk f_mons f_tmons ticking set_ticking k_looping k_fourier]
  | H : ?x = Fine _ |- context [?x] => rewrite H; cbn [prim obind set_f_ph set_f_clk set_f_mons f_ph f_clk f_mons f_tmons ticking set_ticking k_looping k_fourier]
  | _ => progress cbn [prim obind set_f_ph set_f_clk set_f_mons f_ph f_clk f_mons f_tmons ticking set_ticking k_looping k_fourier mapM length oloop]
  end. reflexivity.
Qed.
Lemma phys_step_objs p p' : phys_step p = Fine p' -> ph_objs p' = ph_objs p.
Proof. intros H. apply phys_step_static, static_eq in H. intuition. Qed.

Lemma exec_rest c s s' : at_rest s -> exec c s = Fine s' -> at_rest s'.
Proof. intros H E. assert (K := exec_calm c s H). rewrite E in K. exact K. Qed.

(** monitor calls keep the physics, the list of materials and the file's entries *)
Lemma watching_frame c s s' : watching c = true -> exec c s = Fine s' -> f_ph s' = f_ph s /\ f_mats s' = f_mats s /\ sub_file (f_h5 s) (f_h5 s').
Proof.
  assert (M : forall m s s', add_monitor m s = Fine s' -> f_ph s' = f_ph s /\ f_mats s' = f_mats s /\ sub_file (f_h5 s) (f_h5 s')).
  { clear. intros m s s' H. unfold add_monitor in H. inv_fine. cbn. split; [reflexivity|]. split; [reflexivity|]. eapply write_mon_grow; eassumption. }
  destruct c; try discriminate; intros _; cbn [exec].
  - apply M.
  - unfold add_tmon. intros H. apply prim_fine in H. destruct H as (f & Hf & H). injection H as <-. cbn. split; [reflexivity|]. split; [reflexivity|]. eapply ops_grow; exact Hf.
  - intros H. injection H as <-. cbn. split; [reflexivity|]. split; [reflexivity|apply sub_file_refl].
  - unfold write_monitor_data. destruct (nth_error (f_mons s) i) as [m|]; [|intros H; injection H as <-; auto using sub_file_refl].
    destruct (mon_sub_name m) as [sub name]. cbv zeta. intros H. apply prim_fine in H. destruct H as (f & Hf & H). injection H as <-. cbn. split; [reflexivity|]. split; [reflexivity|]. eapply ops_grow; exact Hf.
  - unfold write_tmon. destruct (nth_error (f_tmons s) i) as [m|]; [|intros H; injection H as <-; auto using sub_file_refl].
    intros H. inv_fine. destruct r as [f m']. inv_fine. cbn. split; [reflexivity|]. split; [reflexivity|]. eapply tm_write_grow; eassumption.
  - unfold get_box_monitor. destruct (nth_error _ i) as [o|]; [|intros H; injection H as <-; auto using sub_file_refl]. intros H. inv_fine. eapply M; eassumption.
Qed.
Lemma watching_twin c s1 s1' s2 : watching c = true -> exec c s1 = Fine s1' -> twin s1 s2 -> twin s1' s2.
Proof.
  intros Hc E (P & M & R1 & R2 & Q1 & Q2 & S & L). destruct (watching_frame c s1 s1' Hc E) as (P' & M' & G). pose proof (exec_rest c s1 s1' R1 E) as R1'.
  unfold twin. rewrite P', M'. do 6 (split; [assumption|]). split; [eapply sub_file_trans; eassumption|exact L].
Qed.

(** a call that only touches the physics *)
Lemma twin_ph s1 s2 p : twin s1 s2 -> ph_objs p = ph_objs (f_ph s1) -> twin (set_f_ph p s1) (set_f_ph p s2).
Proof. intros (P & M & R1 & R2 & Q1 & Q2 & S & L) H. unfold twin. cbn [f_ph f_mats f_mons f_tmons f_h5 set_f_ph]. rewrite H. split; [reflexivity|]. auto 10. Qed.
Lemma twin_obj f mats objs i o o' : listed f mats objs -> nth_error objs i = Some o -> o_dyn o' = o_dyn o -> obj_path o' = obj_path o -> listed f mats (upd_nth i o' objs).
Proof.
  intros [H1 H2] Ho Hd Hp. split; [exact H1|]. intros q Hq Dq.
  assert (K : In q objs \/ q = o').
  { clear -Hq. revert i Hq. induction objs as [|x l IH]; intros i Hq; [destruct i; now left|]. destruct i as [|i]; cbn in Hq.
    - destruct Hq as [<-|Hq]; [now right|left; now right].
    - destruct Hq as [<-|Hq]; [left; now left|]. destruct (IH i Hq) as [K|K]; [left; now right|now right]. }
  destruct K as [K| ->]; [auto|]. rewrite Hp. apply H2; [eapply nth_error_In; eassumption|congruence].
Qed.
Lemma twin_on_obj i h s1 s1' s2 : (forall o, o_dyn (h o) = o_dyn o /\ obj_path (h o) = obj_path o) -> on_obj i h s1 = Fine s1' -> twin s1 s2 ->
  exists s2', on_obj i h s2 = Fine s2' /\ twin s1' s2'.
Proof.
  intros Hh H T. assert (T' := T). destruct T' as (P & M & R1 & R2 & Q1 & Q2 & S & L). unfold on_obj in *. rewrite P. destruct (nth_error (ph_objs (f_ph s1)) i) as [o|] eqn:Eo; [|injection H as <-; eauto].
  destruct (o_dyn o) eqn:Ed; [|injection H as <-; eauto]. injection H as <-. eexists. split; [reflexivity|]. unfold map_ph. rewrite P.
  unfold twin. cbn [f_ph f_mats f_mons f_tmons f_h5 set_f_ph ph_objs set_ph_objs]. split; [reflexivity|]. do 6 (split; [assumption|]). destruct (Hh o). eapply twin_obj; eauto.
Qed.

Definition put (f : h5) (p : string) (v : payload) : res h5 := if h5_exists f p then h5_append f p v else h5_create f p true v.
Lemma sub_put f2 f1 p v f1' : sub_file f2 f1 -> put f1 p v = Ok f1' -> exists f2', put f2 p v = Ok f2' /\ sub_file f2' f1' /\ sub_file f2 f2'.
Proof.
  intros S H. unfold put, h5_exists in *. destruct (slookup p f2) as [ob|] eqn:E2.
  - assert (K2 : kind f2 p <> None) by (rewrite kind_none; congruence). assert (Kk := S p K2).
    destruct (slookup p f1) as [ob1|] eqn:E1; [|exfalso; apply kind_none in E1; congruence].
    destruct (append_kind _ _ _ _ H) as [Ka _]. destruct (sub_append _ _ _ _ _ S H) as (f2' & X & Y); [congruence|].
    exists f2'. split; [exact X|]. split; [exact Y|]. eapply append_grow; exact X.
  - destruct (slookup p f1) as [ob1|] eqn:E1.
    + destruct (append_kind _ _ _ _ H) as [Ka Kb]. unfold h5_create. rewrite E2. eexists. split; [reflexivity|]. split.
      * intros q Hq. rewrite Kb. rewrite kind_app in Hq |- *. destruct (kind f2 q) eqn:Eq; [rewrite <- Eq; apply S; congruence|].
        destruct (String.eqb_spec q p) as [->|]; [exact Ka|congruence].
      * intros q Hq. rewrite kind_app. destruct (kind f2 q); congruence.
    + destruct (sub_create _ _ _ _ _ _ S H) as (f2' & X & Y). exists f2'. split; [exact X|]. split; [exact Y|]. apply (create_kind _ _ _ _ _ X).
Qed.
Lemma write_field_iff c s s' : at_rest s -> write_field c s = Fine s' <->
  exists a f f', get_field (ph_F (f_ph s)) c = Ok a /\ h5_group (f_h5 s) "fields" = Ok f /\ put f ("fields" // comp_str c) (tensor_pay a) = Ok f' /\ s' = set_f_h5 f' s.
Proof.
  intros R. destruct s as [ph mo tm ma h k]. unfold at_rest in R. cbn [f_clk] in R. subst k.
  unfold write_field, start, stop, put. cbn [f_clk clock_start ticking k_hdf5 prim set_f_clk obind f_ph f_h5 set_f_h5]. split.
  - intros H. inv_fine. cbn [f_ph f_h5 set_f_h5] in *. destruct c; try discriminate; inv_fine; inv_ok; repeat match goal with H : clock_stop _ _ = Ok ?r |- _ => cbn [f_clk clock_stop ticking k_hdf5 set_f_h5 set_f_clk set_ticking] in H; injection H as H; subst r end.
    all: eexists; eexists; eexists; split; [eassumption|]; split; [reflexivity || eassumption|]; split; [eassumption|reflexivity].
  - intros (a & f & f' & Ha & Hf & Hp & ->). rewrite Hf. cbn [prim]. destruct c; try discriminate Ha; cbn [f_ph f_h5 set_f_h5]; rewrite Ha; cbn [bind]; cbv zeta; rewrite Hp; reflexivity.
Qed.
Lemma write_field_twin c s1 s1' s2 : write_field c s1 = Fine s1' -> twin s1 s2 -> exists s2', write_field c s2 = Fine s2' /\ twin s1' s2'.
Proof.
  intros H T. assert (T' := T). destruct T' as (P & M & R1 & R2 & Q1 & Q2 & S & L). apply (write_field_iff _ _ _ R1) in H. destruct H as (a & f & f' & Ha & Hf & Hp & ->).
  destruct (sub_group _ _ _ _ S Hf) as (f2 & Hf2 & S2). destruct (sub_put _ _ _ _ _ S2 Hp) as (f2' & Hp2 & S3 & S4).
  exists (set_f_h5 f2' s2). split.
  - apply (write_field_iff _ _ _ R2). rewrite P. eauto 10.
  - unfold twin. cbn [f_ph f_mats f_mons f_tmons f_h5 set_f_h5]. do 2 (split; [assumption|]). do 2 (split; [exact R1 || exact R2|]). do 2 (split; [assumption|]). split; [exact S3|].
    eapply listed_grow; [|exact L]. eapply sub_file_trans; [apply (group_kind _ _ _ Hf2)|exact S4].
Qed.

Lemma write_obj_listed f o f' : write_obj f o = Ok f' ->
  sub_file f f' /\ (o_dyn o = true -> kind f' (obj_path o // "position") = Some (Some true) /\ kind f' (obj_path o // "theta") = Some (Some true)).
Proof.
  rewrite write_obj_eq. intros H. apply bind_ok in H. destruct H as (f1 & H1 & H). apply bind_ok in H. destruct H as (f2 & H2 & H). apply bind_ok in H. destruct H as (f3 & H3 & H).
  apply bind_ok in H. destruct H as (f4 & H4 & H). destruct (h5_exists f4 _); [|discriminate].
  apply groups_grow in H1. apply create_kind in H2. apply create_kind in H3. apply creates_grow in H4. apply create_kind in H.
  destruct H2 as (_ & A & _ & G2). destruct H3 as (_ & B & _ & G3). destruct H as (_ & _ & _ & G5). split.
  - eauto using sub_file_trans.
  - intros D. rewrite D in *. split.
    + rewrite G5; rewrite H4; rewrite G3; congruence.
    + rewrite G5; rewrite H4; congruence.
Qed.
Lemma sub_write_obj f2 f1 o f1' : sub_file f2 f1 -> write_obj f1 o = Ok f1' -> kind f2 (mat_path (m_name (o_mat o))) <> None -> exists f2', write_obj f2 o = Ok f2' /\ sub_file f2' f1'.
Proof.
  rewrite write_obj_eq. intros S H K. apply bind_ok in H. destruct H as (a1 & H1 & H). apply bind_ok in H. destruct H as (a2 & H2 & H). apply bind_ok in H. destruct H as (a3 & H3 & H).
  apply bind_ok in H. destruct H as (a4 & H4 & H). destruct (h5_exists a4 _); [|discriminate].
  destruct (sub_groups _ _ _ _ S H1) as (b1 & E1 & S1). destruct (sub_create _ _ _ _ _ _ S1 H2) as (b2 & E2 & S2). destruct (sub_create _ _ _ _ _ _ S2 H3) as (b3 & E3 & S3).
  destruct (sub_creates _ _ _ _ _ S3 H4) as (b4 & E4 & S4). destruct (sub_create _ _ _ _ _ _ S4 H) as (b5 & E5 & S5).
  exists b5. split; [|exact S5]. rewrite write_obj_eq, E1. cbn [bind]. rewrite E2. cbn [bind]. rewrite E3. cbn [bind]. rewrite E4. cbn [bind].
  assert (X : h5_exists b4 (mat_path (m_name (o_mat o))) = true).
  { assert (kind b4 (mat_path (m_name (o_mat o))) <> None) as X.
    { apply groups_grow in E1. apply create_kind in E2. apply create_kind in E3. apply creates_grow in E4. destruct E2 as (_ & _ & _ & G2). destruct E3 as (_ & _ & _ & G3).
      assert (K1 := K). rewrite <- E1 in K1 by exact K. assert (K2 := K1). rewrite <- G2 in K2 by exact K1. assert (K3 := K2). rewrite <- G3 in K3 by exact K2. rewrite E4; exact K3. }
    unfold h5_exists. rewrite kind_none in X. destruct (slookup _ b4); congruence. }
  rewrite X. exact E5.
Qed.
Lemma str_in_In x l : str_in x l = true <-> In x l.
Proof. unfold str_in. rewrite existsb_exists. split; [intros (y & Hy & E); apply String.eqb_eq in E; congruence|intros H; exists x; split; [exact H|apply String.eqb_refl]]. Qed.

Lemma register_twin o s1 s1' s2 : register_mat o s1 = Fine s1' -> twin s1 s2 -> exists s2', register_mat o s2 = Fine s2' /\ twin s1' s2' /\ kind (f_h5 s2') (mat_path (m_name (o_mat o))) <> None.
Proof.
  intros H T. assert (T' := T). destruct T' as (P & M & R1 & R2 & Q1 & Q2 & S & L). unfold register_mat in *. rewrite M. destruct (str_in _ (f_mats s1)) eqn:Ein.
  - injection H as <-. exists s2. split; [reflexivity|]. split; [exact T|]. apply L. now apply str_in_In.
  - cbv zeta in H |- *. inv_fine. cbn [f_h5 set_f_mats] in Hr. rewrite write_mat_eq in Hr. apply bind_ok in Hr. destruct Hr as (a1 & H1 & H2).
    destruct (sub_groups _ _ _ _ S H1) as (b1 & E1 & S1). destruct (sub_creates _ _ _ _ _ S1 H2) as (b2 & E2 & S2).
    exists (set_f_h5 b2 (set_f_mats (f_mats s1 ++ [m_name (o_mat o)]) s2)). split.
    { rewrite write_mat_eq. cbn [f_h5 set_f_mats]. rewrite E1. cbn [bind]. rewrite E2. reflexivity. }
    assert (Kp : kind b2 (mat_path (m_name (o_mat o))) <> None).
    { apply creates_grow in E2. cbn [h5_groups foldM] in E1. apply bind_ok in E1. destruct E1 as (c1 & _ & E1). apply bind_ok in E1. destruct E1 as (c2 & E1 & E1'). injection E1' as <-. apply group_kind in E1. destruct E1 as [E1 _]. rewrite E2; rewrite E1; discriminate. }
    split; [|exact Kp].
    unfold twin. cbn [f_ph f_mats f_mons f_tmons f_h5 set_f_h5 set_f_mats]. do 2 (split; [assumption || reflexivity|]). do 2 (split; [exact R1 || exact R2|]). do 2 (split; [assumption|]). split; [exact S2|].
    assert (G : sub_file (f_h5 s2) b2) by (eapply sub_file_trans; [eapply groups_grow; exact E1|eapply creates_grow; exact E2]).
    destruct (listed_grow _ _ _ _ G L) as [LA LB]. split; [|exact LB]. intros n Hn. apply in_app_or in Hn. destruct Hn as [Hn|[<-|[]]]; [auto|exact Kp].
Qed.
Lemma on_ph_twin f s1 s1' s2 : (forall p p', f p = Ok p' -> ph_objs p' = ph_objs p) -> on_ph f s1 = Fine s1' -> twin s1 s2 ->
  exists s2', on_ph f s2 = Fine s2' /\ twin s1' s2' /\ f_h5 s2' = f_h5 s2.
Proof.
  intros Hf H T. apply on_ph_fine in H. destruct H as (p & Hp & ->). exists (set_f_ph p s2). assert (P : f_ph s2 = f_ph s1) by apply T. split; [|split; [|reflexivity]].
  - unfold on_ph. rewrite P, Hp. reflexivity.
  - apply twin_ph; eauto.
Qed.
Lemma paint_objs o p p' : paint_phys o p = Ok p' -> ph_objs p' = ph_objs p.
Proof. unfold paint_phys. intros H. inv_ok. reflexivity. Qed.
Lemma insert_objs o p p' : insert_material o p = Ok p' -> ph_objs p' = ph_objs p.
Proof. intros H. apply insert_material_frame in H. intuition. Qed.

(** a call that has nothing to do with monitors succeeds in the run without them and has the same effect *)
Lemma exec_twin c s1 s1' s2 : watching c = false -> exec c s1 = Fine s1' -> twin s1 s2 -> exists s2', exec c s2 = Fine s2' /\ twin s1' s2'.
Proof.
  intros Hc E T. assert (R1' : at_rest s1') by (eapply exec_rest; [apply (proj1 (proj2 (proj2 T)))|exact E]).
  destruct c; try discriminate Hc; clear Hc; cbn [exec] in *.
  - (* Update *)
    pose proof (update_phys_step _ _ E) as Ep. assert (T' := T). destruct T' as (P & M & R1 & R2 & Q1 & Q2 & S & L).
    exists (set_f_ph (f_ph s1') s2). split; [apply update_alone; auto; now rewrite P|].
    apply update_split in E. destruct E as (a & Ha & Eh & Et & Em & Eph). apply phys_step_objs in Ep.
    assert (Mm : f_mats s1' = f_mats s1) by (rewrite (step_tmons_mats _ _ Ha); exact Em).
    unfold twin. cbn [f_ph f_mats f_mons f_tmons f_h5 set_f_ph]. rewrite Mm, Ep. split; [reflexivity|]. split; [exact M|]. split; [exact R1'|]. split; [exact R2|]. split; [exact Q1|]. split; [exact Q2|].
    split; [|exact L]. eapply sub_file_trans; [exact S|]. rewrite <- Eh. now apply step_tmons_grow.
  - (* UpdateMaterialGrid *)
    assert (Ho : forall p p', update_material_grid p = Ok p' -> ph_objs p' = ph_objs p)
      by (intros p p' H; unfold update_material_grid in H; apply bind_ok in H; destruct H as (c & _ & H); apply repaint_frame in H; cbn in H; tauto).
    destruct (on_ph_twin _ _ _ _ Ho E T) as (s2' & A & B & _). eauto.
  - (* AddObject *)
    unfold add_object in *. apply obind_fine in E. destruct E as (b & E & E5). apply obind_fine in E. destruct E as (b4 & E & E4). apply obind_fine in E. destruct E as (b3 & E & E3).
    apply obind_fine in E. destruct E as (b1 & E1 & E2).
    destruct (register_twin _ _ _ _ E1 T) as (c1 & C1 & T1 & K1). destruct (on_ph_twin _ _ _ _ (paint_objs o) E2 T1) as (c2 & C2 & T2 & F2). destruct (on_ph_twin _ _ _ _ (insert_objs o) E3 T2) as (c3 & C3 & T3 & F3).
    assert (T' := T3). destruct T' as (P & M & R1 & R2 & Q1 & Q2 & S & L). apply prim_fine in E4. destruct E4 as (h & Hh & E4). injection E4 as <-. injection E5 as <-.
    rewrite <- F2, <- F3 in K1. destruct (sub_write_obj _ _ _ _ S Hh K1) as (h2 & Hh2 & S2).
    eexists. rewrite C1. cbn [obind]. rewrite C2. cbn [obind]. rewrite C3. cbn [obind]. rewrite Hh2. cbn [prim obind]. split; [reflexivity|].
    unfold twin, map_ph. cbn [f_ph f_mats f_mons f_tmons f_h5 set_f_ph set_f_h5 ph_objs set_ph_objs]. rewrite P. split; [reflexivity|]. split; [exact M|]. split; [exact R1|]. split; [exact R2|].
    split; [exact Q1|]. split; [exact Q2|]. split; [exact S2|]. destruct (write_obj_listed _ _ _ Hh2) as [G D].
    destruct (listed_grow _ _ _ _ G L) as [LA LB]. split; [exact LA|]. intros q Hq Dq. apply in_app_or in Hq. destruct Hq as [Hq|[<-|[]]]; auto.
  - (* AddSource *)
    unfold add_source in *. apply prim_fine in E. destruct E as (h & Hh & E). injection E as <-. assert (T' := T). destruct T' as (P & M & R1 & R2 & Q1 & Q2 & S & L).
    rewrite write_src_eq in Hh. apply bind_ok in Hh. destruct Hh as (a1 & H1 & Hh). apply bind_ok in Hh. destruct Hh as (a2 & H2 & H3).
    destruct (sub_groups _ _ _ _ S H1) as (b1 & E1 & S1). destruct (sub_creates _ _ _ _ _ S1 H2) as (b2 & E2 & S2). destruct (sub_creates _ _ _ _ _ S2 H3) as (b3 & E3 & S3).
    eexists. rewrite write_src_eq, E1. cbn [bind]. rewrite E2. cbn [bind]. rewrite E3. cbn [prim]. split; [reflexivity|].
    unfold twin, map_ph. cbn [f_ph f_mats f_mons f_tmons f_h5 set_f_ph set_f_h5 ph_objs set_ph_srcs]. rewrite P. split; [reflexivity|]. split; [exact M|]. split; [exact R1|]. split; [exact R2|].
    split; [exact Q1|]. split; [exact Q2|]. split; [exact S3|]. eapply listed_grow; [|exact L]. eapply sub_file_trans; [eapply groups_grow; exact E1|]. eapply sub_file_trans; eapply creates_grow; eassumption.
  - (* ClearFields *)
    unfold clear_fields, map_ph in *. injection E as <-. eexists. split; [reflexivity|]. assert (P : f_ph s2 = f_ph s1) by apply T. rewrite P. now apply twin_ph.
  - (* ClearMaterials *)
    unfold clear_materials in *. match type of E with on_ph ?f _ = _ => assert (Ho : forall p p', f p = Ok p' -> ph_objs p' = ph_objs p)
      by (intros p p' H; apply bind_ok in H; destruct H as (c & _ & H); injection H as <-; reflexivity) end.
    destruct (on_ph_twin _ _ _ _ Ho E T) as (s2' & A & B & _). eauto.
  - (* SetTfsf *)
    unfold set_tfsf in *. apply prim_fine in E. destruct E as (q & Hq & E). cbv zeta in E. apply prim_fine in E. destruct E as (h & Hh & E). injection E as <-. assert (T' := T). destruct T' as (P & M & R1 & R2 & Q1 & Q2 & S & L).
    cbn [f_h5 map_ph set_f_ph] in *.
    assert (K : exists h2, write_tfsf (f_h5 s2) q = Ok h2 /\ sub_file h2 h /\ sub_file (f_h5 s2) h2).
    { rewrite write_tfsf_eq in Hh |- *. apply bind_ok in Hh. destruct Hh as (a1 & H1 & Hh). apply bind_ok in Hh. destruct Hh as (a2 & H2 & H3).
      destruct (sub_groups _ _ _ _ S H1) as (b1 & E1 & S1). destruct (sub_creates _ _ _ _ _ S1 H2) as (b2 & E2 & S2). rewrite E1. cbn [bind]. rewrite E2. cbn [bind].
      apply groups_grow in E1. apply creates_grow in E2. destruct (tp_dft (q_tp q)).
      - destruct (sub_create _ _ _ _ _ _ S2 H3) as (b3 & E3 & S3). exists b3. apply create_kind in E3 as E3'. destruct E3' as (_ & _ & _ & G3). eauto using sub_file_trans.
      - injection H3 as <-. exists b2. eauto using sub_file_trans. }
    destruct K as (h2 & Eh2 & S2 & G2). rewrite P, Hq. eexists. cbn [prim]. cbv zeta. unfold map_ph. cbn [f_h5 set_f_ph]. rewrite Eh2. cbn [prim]. split; [reflexivity|].
    unfold twin. cbn [f_ph f_mats f_mons f_tmons f_h5 set_f_ph set_f_h5 ph_objs set_ph_tfsf]. rewrite P. split; [reflexivity|]. split; [exact M|]. split; [exact R1|]. split; [exact R2|].
    split; [exact Q1|]. split; [exact Q2|]. split; [exact S2|]. eapply listed_grow; [exact G2|exact L].
  - eapply write_field_twin; eassumption.
  - eapply write_field_twin; eassumption.
  - unfold writeH in *. apply obind_fine in E. destruct E as (a & Ea & E). destruct (write_field_twin _ _ _ _ Ea T) as (b & Eb & Tb). destruct (write_field_twin _ _ _ _ E Tb) as (d & Ed & Td).
    exists d. rewrite Eb. cbn [obind]. auto.
  - eapply twin_on_obj; [|eassumption|eassumption]. now split.
  - eapply twin_on_obj; [|eassumption|eassumption]. now split.
  - eapply twin_on_obj; [|eassumption|eassumption]. now split.
  - eapply twin_on_obj; [|eassumption|eassumption]. now split.
  - (* WriteCurrent *)
    assert (T' := T). destruct T' as (P & M & R1 & R2 & Q1 & Q2 & S & L). unfold write_current in *. rewrite P. destruct (nth_error (ph_objs (f_ph s1)) i) as [o|] eqn:Eo; [|injection E as <-; eauto].
    destruct (o_dyn o) eqn:Ed; [|injection E as <-; eauto]. cbv zeta in E. apply prim_fine in E. destruct E as (h & Hh & E). injection E as <-.
    ops_in Hh. apply bind_ok in Hh. destruct Hh as (a1 & H1 & Hh). apply bind_ok in Hh. destruct Hh as (a2 & H2 & H3).
    destruct (sub_groups _ _ _ _ S H1) as (b1 & E1 & S1). destruct L as [LA LB]. destruct (LB o (nth_error_In _ _ Eo) Ed) as [KA KB]. assert (G1 := groups_grow _ _ _ E1).
    destruct (sub_append _ _ _ _ _ S1 H2) as (b2 & E2 & S2); [rewrite G1; congruence|]. assert (G2 := append_grow _ _ _ _ E2).
    destruct (sub_append _ _ _ _ _ S2 H3) as (b3 & E3 & S3); [rewrite G2; rewrite G1; congruence|]. assert (G3 := append_grow _ _ _ _ E3).
    eexists. cbv zeta. rewrite current_eq, E1. cbn [bind]. rewrite E2. cbn [bind]. rewrite E3. cbn [prim]. split; [reflexivity|].
    unfold twin. cbn [f_ph f_mats f_mons f_tmons f_h5 set_f_h5]. split; [exact P|]. split; [exact M|]. split; [exact R1|]. split; [exact R2|]. split; [exact Q1|]. split; [exact Q2|]. split; [exact S3|].
    eapply listed_grow; [|split; eassumption]. eauto using sub_file_trans.
Qed.
Lemma run_twin l : forall s1 s1' s2, run l s1 = Fine s1' -> twin s1 s2 -> exists s2', run (without_monitors l) s2 = Fine s2' /\ twin s1' s2'.
Proof.
  unfold without_monitors. induction l as [|c l IH]; intros s1 s1' s2 H T; cbn [run filter] in *; [injection H as <-; eauto|].
  apply obind_fine in H. destruct H as (a & Ha & H). destruct (watching c) eqn:Ec; cbn [negb].
  - eapply IH; [exact H|]. eapply watching_twin; eassumption.
  - destruct (exec_twin _ _ _ _ Ec Ha T) as (b & Eb & Tb). cbn [run]. rewrite Eb. cbn [obind]. eapply IH; eassumption.
Qed.
Lemma mk_field_twin g name s : mk_field g name = Ok s -> twin s s.
Proof.
  unfold mk_field, mk_phys. intros H. inv_ok. destruct (String.eqb name ""); [discriminate|]. inv_ok. unfold twin. cbn [f_ph f_mats f_mons f_tmons f_h5 ph_objs].
  repeat (split; [reflexivity|]). split; [apply sub_file_refl|]. split; intros ? [].
Qed.
(** monitors are passive *)
Lemma passive g name l s0 s1 : mk_field g name = Ok s0 -> run l s0 = Fine s1 -> exists s2, run (without_monitors l) s0 = Fine s2 /\ f_ph s2 = f_ph s1.
Proof. intros H E. destruct (run_twin l s0 s1 s0 E (mk_field_twin _ _ _ H)) as (s2 & E2 & T). exists s2. split; [exact E2|apply T]. Qed.
End Passive.
