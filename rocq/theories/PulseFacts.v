(** Waveforms, the spectra recorded by sources, and the incident spectrum and flux. *)
From Coq Require Import ZArith Reals String List Bool Lia Lra.
From Verif Require Import Scalar Base BaseFacts VecM GridM GeometryM MaterialM PmlM DftM TfsfM PolarM
  InterpM H5M ClockM MonitorM FieldM OutFacts PhysFacts YeeFacts SpecClock ClockFacts SourceFacts CadenceFacts
  SpecDft DftFacts SpecTfsf TfsfFacts TfsfRun SpecPulse.
Import ListNotations.
Local Open Scope Z_scope.

(** ** One step: every source and the incident line *)
Section Step.
Context {N : Num}.
Definition answers (t : T) (r r' : source) : Prop :=
  sr_name r' = sr_name r /\ sr_c r' = sr_c r /\ sr_kind r' = sr_kind r /\ exists v, response (sr_tp r) t = Ok (v, sr_tp r').
Lemma pulse_src_answers i p p' r : nth_error (ph_srcs p) i = Some r -> pulse_src i p = Fine p' ->
  ph_t p' = ph_t p /\ exists r', answers (ph_t p) r r' /\ ph_srcs p' = upd_nth i r' (ph_srcs p).
Proof.
  intros E H. unfold pulse_src in H. rewrite E in H. apply prim_fine in H. destruct H as ([v tp] & Hv & H). cbv zeta in H. apply prim_fine in H.
  destruct H as (F & _ & H). injection H as <-. split; [reflexivity|]. eexists. split; [|reflexivity]. unfold answers. cbn. eauto.
Qed.
Lemma step_sources_answers p p' : step_sources p = Fine p' ->
  forall i r, nth_error (ph_srcs p) i = Some r -> exists r', nth_error (ph_srcs p') i = Some r' /\ answers (ph_t p) r r'.
Proof.
  intros H. unfold step_sources in H.
  apply (oloop_post (fun n q => ph_t q = ph_t p /\ length (ph_srcs q) = length (ph_srcs p) /\
    forall i r, nth_error (ph_srcs p) i = Some r -> exists r', nth_error (ph_srcs q) i = Some r' /\ if (i <? n)%nat then answers (ph_t p) r r' else r' = r)) in H.
  - destruct H as (_ & _ & H). intros i r Hi. destruct (H i r Hi) as (r' & E & K). exists r'. split; [exact E|].
    assert (i < length (ph_srcs p))%nat by (apply nth_error_Some; congruence). rewrite (proj2 (Nat.ltb_lt i _)) in K by (cbn; lia). exact K.
  - split; [reflexivity|]. split; [reflexivity|]. intros i r Hi. exists r. split; [exact Hi|]. reflexivity.
  - clear H p'. intros n q q' Hn (Ht & Hl & Hs) H. assert (Hn' : (n < length (ph_srcs q))%nat) by lia.
    destruct (nth_error (ph_srcs q) n) as [rq|] eqn:Eq; [|apply nth_error_None in Eq; lia].
    destruct (pulse_src_answers n q q' rq Eq H) as (Et & r' & Hr & Es). split; [congruence|]. split; [rewrite Es, WfFacts.upd_nth_length; exact Hl|].
    intros i r Hi. rewrite Es, upd_nth_nth by exact Hn'. destruct (Hs i r Hi) as (x & Ex & K). destruct (Nat.eqb_spec i n) as [->|Hne].
    + exists r'. rewrite Nat.eqb_refl. split; [reflexivity|]. rewrite (proj2 (Nat.ltb_lt n (S n))) by lia. rewrite (proj2 (Nat.ltb_ge n n)) in K by lia.
      rewrite Eq in Ex. injection Ex as <-. subst rq. now rewrite <- Ht.
    + rewrite (proj2 (Nat.eqb_neq n i)) by congruence. exists x. split; [exact Ex|].
      destruct (Nat.ltb_spec i n), (Nat.ltb_spec i (S n)); try lia; exact K.
Qed.
Lemma phys_step_driven p p' : phys_step p = Fine p' ->
  ph_t p' = (ph_t p + g_dt (ph_grid p))%num /\
  (forall i r, nth_error (ph_srcs p) i = Some r -> exists r', nth_error (ph_srcs p') i = Some r' /\ answers (ph_t p') r r') /\
  (forall q, ph_tfsf p = Some q -> exists q', tfsf_pulse q = Ok q' /\ ph_tfsf p' = Some q').
Proof.
  intros H. assert (C := phys_step_clk _ _ H). destruct C as [_ C]. injection C as _ Ct. split; [exact Ct|].
  unfold phys_step in H. inv_fine. unfold step_clock in *. inv_ok.
  match goal with K : i32 _ = Ok _ |- _ => clear K end.
  match goal with K : step_E (step_prev ?x) = Ok _ |- _ => destruct (step_prev_frame x) as (_ & _ & A1 & A2 & A3 & _); cbn in A1, A2, A3 end.
  unfold step_E, step_pmlE, step_H, step_pmlH in *. inv_ok.
  repeat match goal with
  | K : context [let '(_, _) := ?r in _] |- _ => destruct r; inv_ok
  end.
  match goal with K : step_sources _ = Fine _ |- _ => rename K into Ks; assert (Kf := step_sources_frame _ _ Ks); assert (Ka := step_sources_answers _ _ Ks); cbn in Kf end.
  match goal with K : step_tfsf_pulse _ = Ok _ |- _ => rename K into Kt; assert (Kg := step_tfsf_pulse_frame _ _ Kt); cbn in Kg end.
  repeat match goal with
  | K : step_polar _ = Ok _ |- _ => apply step_polar_frame in K; cbn in K; destruct K as (_ & _ & _ & ? & ? & ? & _)
  | K : step_tfsfD _ = Ok _ |- _ => apply step_tfsfD_frame in K; cbn in K; destruct K as (_ & _ & _ & ? & ? & ? & _)
  | K : step_tfsfH _ = Ok _ |- _ => apply step_tfsfH_frame in K; cbn in K; destruct K as (_ & _ & ? & ? & ? & _)
  end.
  destruct Kf as (_ & Kf1 & Kf2 & _). destruct Kg as (_ & _ & Kg1 & Kg2 & _). split.
  - intros i rr Hrr. destruct (Ka i rr) as (r' & E & An); [congruence|]. exists r'. split; [congruence|].
    match type of An with answers ?t _ _ => replace (ph_t p') with t by congruence end. exact An.
  - intros q Hq. unfold step_tfsf_pulse in Kt. 
    match type of Kt with match ?o with _ => _ end = _ => assert (E : o = Some q) by congruence; rewrite E in Kt end.
    apply bind_ok in Kt. destruct Kt as (q' & Hp & Kt). exists q'. split; [exact Hp|]. injection Kt as Kt. rewrite <- Kt in *. cbn in *. congruence.
Qed.
(** what the other calls leave alone *)
Lemma phys_exec_driven c p p' : c <> Update -> keeps_clock c = true -> phys_exec c p = Fine p' ->
  ph_t p' = ph_t p /\ ph_grid p' = ph_grid p /\ (exists l, ph_srcs p' = ph_srcs p ++ l) /\ (keeps_line c = true -> ph_tfsf p' = ph_tfsf p).
Proof.
  intros Hu Hc H. assert (G := proj1 (phys_exec_grid _ _ _ H)). assert (C := phys_exec_clk _ _ _ H). assert (Kt : ph_t p' = ph_t p) by (destruct c; try congruence; try discriminate Hc; injection C as _ C; exact C).
  clear C. split; [exact Kt|]. split; [exact G|]. clear Kt G.
  assert (Same : ph_srcs p' = ph_srcs p -> ph_tfsf p' = ph_tfsf p -> (exists l, ph_srcs p' = ph_srcs p ++ l) /\ (keeps_line c = true -> ph_tfsf p' = ph_tfsf p)).
  { intros E1 E2. split; [exists []; now rewrite app_nil_r|auto]. }
  destruct c; cbn [phys_exec] in H; try congruence; try discriminate Hc; try (apply Same; injection H as <-; reflexivity);
    try (apply Same; injection H as <-; unfold phys_on_obj; destruct (nth_error (ph_objs p) _) as [o|]; [destruct (o_dyn o)|]; reflexivity).
  - apply ok_out_fine in H. unfold update_material_grid in H. inv_ok. apply repaint_frame in H. cbn in H. apply Same; tauto.
  - apply ok_out_fine in H. unfold phys_add_object, paint_phys in H. inv_ok. apply insert_material_frame in Hr0. cbn in *. apply Same; tauto.
  - injection H as <-. cbn. split; [eauto|reflexivity].
  - apply ok_out_fine in H. unfold phys_clear_materials in H. inv_ok. apply Same; reflexivity.
  - apply ok_out_fine in H. unfold phys_set_tfsf in H. inv_ok. cbn. split; [exists []; now rewrite app_nil_r|discriminate].
  - injection H as <-; apply Same; unfold phys_on_obj; destruct (nth_error (ph_objs p) i) as [o|]; try (destruct (o_dyn o)); reflexivity.
  - injection H as <-; apply Same; unfold phys_on_obj; destruct (nth_error (ph_objs p) i) as [o|]; try (destruct (o_dyn o)); reflexivity.
  - injection H as <-; apply Same; unfold phys_on_obj; destruct (nth_error (ph_objs p) i) as [o|]; try (destruct (o_dyn o)); reflexivity.
  - injection H as <-; apply Same; unfold phys_on_obj; destruct (nth_error (ph_objs p) i) as [o|]; try (destruct (o_dyn o)); reflexivity.
Qed.
End Step.

#[local] Existing Instance RNum.
Local Open Scope R_scope.

(** ** Fourier sums *)
Lemma fourier_snoc f l t g : fourier f (l ++ [(t, g)]) = plus2 (fourier f l) (g * cos (2 * PI * f * t), g * sin (2 * PI * f * t)).
Proof.
  induction l as [|[t1 g1] l IH]; cbn [app fourier]; [unfold plus2; cbn; f_equal; ring|]. rewrite IH. unfold plus2. cbn. f_equal; ring.
Qed.
Lemma stamped_S t0 dt v n : stamped t0 dt v (Datatypes.S n) = stamped t0 dt v n ++ [(t0 + INR (Datatypes.S n) * dt, v (Datatypes.S n))].
Proof. unfold stamped. rewrite seq_S, map_app. reflexivity. Qed.

(** ** Sources *)
Record heard (sh : shape) (freq : list R) (t0 dt : R) (n : nat) (tp : tprofile) : Prop := Heard {
  he_shape : tp_shape tp = sh;
  he_dft : exists d, tp_dft tp = Some d /\ d_freq d = freq /\ shaped d /\ d_t d = match n with O => 0 | _ => t0 + INR n * dt end /\
    forall k f, nth_error freq k = Some f -> coef d "dft" 0 k = Some (fourier f (emitted (shape_val sh) t0 dt n)) }.
Lemma heard_new sh freq t0 dt tp : tp_with_freq sh freq = Ok tp -> heard sh freq t0 dt 0 tp.
Proof.
  unfold tp_with_freq. intros H. apply bind_ok in H. destruct H as (d & Hd & H). injection H as <-.
  destruct (dft_add_fresh _ _ _ _ _ (mk_dft_fresh freq 1) Hd) as (A1 & A2 & A3). cbn in A1, A2.
  constructor; [reflexivity|]. exists d. split; [reflexivity|]. split; [exact A2|]. split; [exact (fresh_shaped _ _ _ A3)|]. split; [exact A1|].
  intros k f Hk. apply (fresh_coef d 1 _ "dft" 0 k A3); [now left|cbn; lia|]. rewrite A2. change (@T RNum) with R. apply nth_error_Some. rewrite Hk. discriminate.
Qed.
Lemma const_isolated K v : isolated K (fun (_ : unit) (_ : string) (n : nat) => Ok (repeat v n, tt)).
Proof. intros [] key n gs [] H _. split; [reflexivity|]. now intros []. Qed.
Lemma const_fills (v : R) : fills (fun (_ : unit) (_ : string) (n : nat) => Ok (repeat v n, tt)).
Proof. intros [] key n gs [] H. injection H as <-. apply repeat_length. Qed.
Lemma heard_step sh freq t0 dt n tp v tp' : 0 <= t0 -> 0 < dt -> heard sh freq t0 dt n tp ->
  response tp (t0 + INR (Datatypes.S n) * dt) = Ok (v, tp') -> heard sh freq t0 dt (Datatypes.S n) tp'.
Proof.
  intros H0 Hdt [Hs (d & Ed & Ef & Sd & Ht & Hc)] H. destruct (response_val _ _ _ _ H) as [Ev Es]. rewrite Hs in Ev, Es. constructor; [exact Es|].
  unfold response in H. apply bind_ok in H. destruct H as (x & Hx & H). injection H as _ <-. unfold tp_update in Hx. rewrite Ed in Hx.
  apply bind_ok in Hx. destruct Hx as ([d' u] & Hu & Hx). injection Hx as <-. cbn [tp_dft].
  assert (Hn : d_t d <> t0 + INR (Datatypes.S n) * dt).
  { rewrite Ht, S_INR. assert (0 <= INR n) by apply pos_INR. destruct n; [cbn in *|rewrite S_INR in *]; nra. }
  destruct (update_isolated EmptyString _ _ _ _ _ _ (const_isolated _ _) (const_fills _) Sd Hn Hu) as (Q1 & Q2 & Q3 & _ & Q4 & _).
  exists d'. split; [reflexivity|]. split; [congruence|]. split; [exact Q3|]. split; [exact Q1|].
  intros k f Hk. assert (Hz := Hc k f Hk). destruct (coef_lookup _ _ _ _ _ Hz) as (e & row & L1 & L2 & L3).
  destruct (Q4 _ _ L1) as (gs & e' & G1 & G2 & G3 & G4 & G5). injection G1 as <-.
  unfold emitted. rewrite stamped_S, fourier_snoc. fold (emitted (shape_val sh) t0 dt n).
  rewrite <- Hs. apply G5; [rewrite Ef; exact Hk| |rewrite Hs; exact Hz].
  destruct e as [|e0 e]; [discriminate L2|]. reflexivity.
Qed.

Lemma heard_run sh freq t0 dt : 0 <= t0 -> 0 < dt -> forall l n p p' i r, g_dt (ph_grid p) = dt -> forallb keeps_clock l = true -> phys_run l p = Fine p' ->
  ph_t p = t0 + INR n * dt -> nth_error (ph_srcs p) i = Some r -> heard sh freq t0 dt n (sr_tp r) ->
  exists r', nth_error (ph_srcs p') i = Some r' /\ sr_name r' = sr_name r /\ sr_c r' = sr_c r /\ sr_kind r' = sr_kind r /\ heard sh freq t0 dt (n + updates l) (sr_tp r').
Proof.
  intros H0 Hdt. induction l as [|c l IH]; intros n p p' i r Hg Hk H Ht Hi Hh; cbn [phys_run forallb] in *.
  - injection H as <-. exists r. rewrite Nat.add_0_r. auto.
  - apply andb_prop in Hk. destruct Hk as [Hc Hk]. apply obind_fine in H. destruct H as (p1 & H1 & H). destruct (is_update c) eqn:Eu.
    + destruct c; try discriminate Eu. cbn [phys_exec] in H1. assert (G := proj1 (phys_exec_grid Update _ _ H1)). destruct (phys_step_driven _ _ H1) as (T1 & S1 & _).
      destruct (S1 i r Hi) as (r1 & E1 & N1 & N2 & N3 & v & An).
      assert (Et : ph_t p1 = t0 + INR (Datatypes.S n) * dt) by (rewrite T1, Ht, Hg, S_INR; rnum; change (@T RNum) with R; ring). rewrite Et in An.
      destruct (IH (Datatypes.S n) p1 p' i r1) as (r' & E & M1 & M2 & M3 & Hr'); auto; [congruence|exact (heard_step _ _ _ _ _ _ _ _ H0 Hdt Hh An)|].
      exists r'. split; [exact E|]. split; [congruence|]. split; [congruence|]. split; [congruence|]. unfold updates in *. cbn [filter is_update length]. rewrite Nat.add_succ_r. exact Hr'.
    + destruct (phys_exec_driven c p p1) as (T1 & G1 & (x & S1) & _); auto; [intros ->; discriminate Eu|].
      destruct (IH n p1 p' i r) as (r' & Q); auto; [congruence|congruence|rewrite S1, nth_error_app1 by (apply nth_error_Some; rewrite Hi; discriminate); exact Hi|].
      exists r'. unfold updates in *. cbn [filter]. rewrite Eu. exact Q.
Qed.
Lemma source_spectrum g name s0 l1 s1 sh freq tp nm c k l2 s : 0 < g_dt g -> mk_field g name = Ok s0 -> run l1 s0 = Fine s1 ->
  tp_with_freq sh freq = Ok tp -> forallb keeps_clock l2 = true -> run (AddSource (Source nm c k tp) :: l2) s1 = Fine s ->
  exists r d, nth_error (ph_srcs (f_ph s)) (List.length (ph_srcs (f_ph s1))) = Some r /\ sr_name r = nm /\ tp_dft (sr_tp r) = Some d /\ d_freq d = freq /\
    forall kf f, nth_error freq kf = Some f -> coef d "dft" 0 kf = Some (fourier f (emitted (shape_val sh) (ph_t (f_ph s1)) (g_dt g) (updates l2))).
Proof.
  intros Hdt E0 R1 Et Hk R2. destruct (t_follows (fun n x => (0 <= n)%Z /\ 0 <= x) g) with (3 := E0) (4 := R1) as [_ [_ Ht]].
  { split; [lia|]. rnum. lra. }
  { intros n x Hn [_ Hx]. split; [lia|]. rnum. change (@T RNum) with R in *. lra. }
  assert (G1 : ph_grid (f_ph s1) = g) by (destruct (mk_field_clk _ _ _ E0) as [_ <-]; apply run_phys, phys_run_grid in R1; apply R1).
  apply run_phys in R2. cbn [phys_run phys_exec obind] in R2. 
  destruct (heard_run sh freq (ph_t (f_ph s1)) (g_dt g) Ht Hdt l2 0 _ _ (List.length (ph_srcs (f_ph s1))) (Source nm c k tp) (f_equal g_dt G1 : g_dt (ph_grid (set_ph_srcs _ (f_ph s1))) = _) Hk R2) as (r & E & M1 & _ & _ & [_ (d & D1 & D2 & _ & _ & D)]).
  - cbn. rewrite Rmult_0_l, Rplus_0_r. reflexivity.
  - cbn. rewrite nth_error_app2, Nat.sub_diag by lia. reflexivity.
  - cbn. exact (heard_new sh freq _ _ tp Et).
  - exists r, d. auto.
Qed.

(** ** The incident line *)
Lemma pulse_dft q q' d : tfsf_pulse q = Ok q' -> q_dft q = Some d -> (5 <= q_N q)%Z ->
  exists d' u, q_dft q' = Some d' /\ q_t q' = q_t q + q_dt q /\
    dft_update (tfsf_sample ((aval (q_E q') 2 + aval (q_E q) 2) / 2) ((aval (q_H q) 2 + aval (q_H q) 1) / 2)) tt d (q_t q') = Ok (d', u).
Proof.
  intros H Ed HN. unfold tfsf_pulse in H.
  apply bind_ok in H. destruct H as (pe & Hp & H). apply bind_ok in H. destruct H as ([[D E] J] & _ & H).
  apply bind_ok in H. destruct H as ([v tp] & _ & H). apply bind_ok in H. destruct H as (E1 & H1 & H). apply bind_ok in H. destruct H as (E2 & H2 & H).
  apply bind_ok in H. destruct H as (l0 & Hl0 & H). apply bind_ok in H. destruct H as (E3 & H3 & H).
  apply bind_ok in H. destruct H as (r0 & Hr0 & H). rewrite Ed in H. apply bind_ok in H. destruct H as (dd & Hd & H). apply bind_ok in H. destruct H as (Hn & _ & H).
  apply bind_ok in Hd. destruct Hd as (e2 & He & Hd). apply bind_ok in Hd. destruct Hd as (h2 & Hh2 & Hd). apply bind_ok in Hd. destruct Hd as (h1 & Hh1 & Hd).
  apply bind_ok in Hd. destruct Hd as ([d' u] & Hu & Hd). injection Hd as <-. injection H as <-. cbn [q_dft q_t q_E].
  apply aget_inv in Hp, He, Hh2, Hh1. destruct Hp as [-> _], He as [-> _], Hh2 as [-> _], Hh1 as [-> _]. exists d', u. auto.
Qed.
Lemma line_isolated K a b : isolated K (tfsf_sample a b).
Proof.
  intros [] key n gs [] H _. split; [reflexivity|]. intros []. exact H.
Qed.
Lemma line_fills a b : fills (tfsf_sample a b).
Proof.
  intros [] key n gs [] H. unfold tfsf_sample in H. destruct (String.eqb key "E"); [injection H as <-; apply repeat_length|].
  destruct (String.eqb key "H"); [injection H as <-; apply repeat_length|discriminate].
Qed.
Record lined (f : R -> R) (freq : list R) (N : Z) (dt : R) (n : nat) (q : tfsf) : Prop := Lined {
  li_N : q_N q = N;
  li_ok : line_ok f dt q (fst (history f N dt n)) (snd (history f N dt n)) n;
  li_dft : exists d, q_dft q = Some d /\ d_freq d = freq /\ shaped d /\ d_t d = INR n * dt /\
    (forall k fr, nth_error freq k = Some fr -> coef d "E" 0 k = Some (fourier fr (stamped 0 dt (line_E f N dt) n))) /\
    (forall k fr, nth_error freq k = Some fr -> coef d "H" 0 k = Some (fourier fr (stamped 0 dt (line_H f N dt) n))) /\
    (exists rE rH, slookup "E" (d_map d) = Some [rE] /\ slookup "H" (d_map d) = Some [rH]) }.
Lemma coef_row d key row k : slookup key (d_map d) = Some [row] -> coef d key 0 k = nth_error row k.
Proof. intros H. unfold coef. rewrite H. reflexivity. Qed.
Lemma lined_step f freq N dt n q q' : 0 < dt -> lined f freq N dt n q -> tfsf_pulse q = Ok q' -> lined f freq N dt (Datatypes.S n) q'.
Proof.
  intros Hdt [HN L (d & Ed & Ef & Sd & Ht & HE & HH & rE & rH & LE & LH)] H.
  assert (L' := line_step f dt q q' _ _ n L H). destruct L' as (L' & _ & _ & _ & _ & HN'). rewrite HN in L'.
  assert (Eh : history f N dt (Datatypes.S n) = (advance f N (INR (Datatypes.S n) * dt) (fst (history f N dt n)) (snd (history f N dt n)), fst (history f N dt n))).
  { cbn [history]. now destruct (history f N dt n). }
  constructor; [congruence|rewrite Eh; exact L'|].
  destruct (pulse_dft q q' d H Ed (lo_N _ _ _ _ _ _ L)) as (d' & u & Ed' & Et & Hu).
  assert (Tq : q_t q' = INR (Datatypes.S n) * dt) by (exact (lo_t _ _ _ _ _ _ L')).
  assert (Hn : d_t d <> q_t q') by (rewrite Ht, Tq, S_INR; nra).
  destruct (update_isolated EmptyString _ _ _ _ _ _ (line_isolated _ _ _) (line_fills _ _) Sd Hn Hu) as (Q1 & Q2 & Q3 & _ & Q4 & _).
  assert (VE : (aval (q_E q') 2 + aval (q_E q) 2) / 2 = line_E f N dt (Datatypes.S n)).
  { unfold line_E, incident. cbn [Nat.sub]. rewrite Nat.sub_0_r, Eh. cbn [fst]. rewrite (lo_E _ _ _ _ _ _ L'), (lo_E _ _ _ _ _ _ L); [reflexivity| |].
    - assert (K := lo_N _ _ _ _ _ _ L). lia.
    - assert (K := lo_N _ _ _ _ _ _ L'). lia. }
  assert (VH : (aval (q_H q) 2 + aval (q_H q) 1) / 2 = line_H f N dt (Datatypes.S n)).
  { unfold line_H, incident. cbn [Nat.sub]. rewrite Nat.sub_0_r. rewrite !(lo_H _ _ _ _ _ _ L) by (assert (K := lo_N _ _ _ _ _ _ L); lia).
    change (@T RNum) with R. lra. }
  destruct (Q4 _ _ LE) as (gs & e' & G1 & G2 & G3 & G4 & G5). injection G1 as <-.
  destruct (Q4 _ _ LH) as (gh & h' & F1 & F2 & F3 & F4 & F5). injection F1 as <-.
  exists d'. split; [exact Ed'|]. split; [congruence|]. split; [exact Q3|]. split; [congruence|]. split; [|split].
  - intros k fr Hk. rewrite stamped_S, fourier_snoc. rewrite Rplus_0_l, <- Tq, <- VE. apply G5; [rewrite Ef; exact Hk|reflexivity|exact (HE k fr Hk)].
  - intros k fr Hk. rewrite stamped_S, fourier_snoc. rewrite Rplus_0_l, <- Tq, <- VH. apply F5; [rewrite Ef; exact Hk|reflexivity|exact (HH k fr Hk)].
  - destruct e' as [|x [|? ?]]; try discriminate G4. destruct h' as [|y [|? ?]]; try discriminate F4. exists x, y. auto.
Qed.
Lemma lined_new g sh freq tp v q ia ib ja jb : tp_with_freq sh freq = Ok tp -> to_grid g (v_a v) = Ok (ia, ja) -> to_grid g (v_b v) = Ok (ib, jb) ->
  mk_tfsf g tp v (g_dt g) = Ok q -> lined (shape_val sh) freq (Z.abs (jb - ja) + 5) (g_dt g) 0 q.
Proof.
  unfold tp_with_freq. intros Et Va Vb Hq. apply bind_ok in Et. destruct Et as (d0 & Hd0 & Et). injection Et as <-.
  assert (Ef0 : d_freq d0 = freq) by (destruct (dft_add_fresh _ _ _ _ _ (mk_dft_fresh freq 1) Hd0) as (_ & A & _); exact A).
  unfold mk_tfsf, to_grid_volume in Hq. rewrite Va in Hq. cbn [bind] in Hq. rewrite Vb in Hq. cbn [bind mk_ivolume iv_dim iv_a iv_b fst snd tp_dft] in Hq.
  apply bind_ok in Hq. destruct Hq as (M & HM & Hq). apply bind_ok in Hq. destruct Hq as (z & Hz & Hq). apply bind_ok in Hq. destruct Hq as (d & Hd & Hq).
  unfold i32 in HM. destruct (in_i32 _); [|discriminate]. injection HM as HM.
  unfold aconst in Hz. destruct (0 <=? M)%Z; [|discriminate]. injection Hz as <-.
  assert (EN : M = (Z.abs (jb - ja) + 5)%Z) by lia. clear HM. subst M.
  apply bind_ok in Hd. destruct Hd as (d1 & Hd1 & Hd). apply bind_ok in Hd. destruct Hd as (d2 & Hd2 & Hd). injection Hd as <-.
  destruct (dft_add_fresh _ _ _ _ _ (mk_dft_fresh (d_freq d0) 1) Hd1) as (A1 & A2 & A3). destruct (dft_add_fresh _ _ _ _ _ A3 Hd2) as (B1 & B2 & B3).
  cbn in A1, A2. rewrite Ef0 in A2.
  apply (f_equal (fun r => match r with Ok q => Some q | _ => None end)) in Hq. injection Hq as Hq. rewrite <- Hq. constructor; [reflexivity| |].
  - cbn [history fst snd]. constructor; cbn; intros; try reflexivity; try (rnum; change (@T RNum) with R; unfold Rdiv; lra).
    + lia.
    + auto.
    + change (@T RNum) with R. field.
  - cbn [q_dft]. exists d2. split; [reflexivity|]. split; [congruence|]. split; [exact (fresh_shaped _ _ _ B3)|]. split; [cbn; rnum; rewrite B1, A1; change (@T RNum) with R; lra|].
    assert (Z : forall k fr, nth_error freq k = Some fr -> (k < List.length (d_freq d2))%nat).
    { intros k fr Hk. rewrite B2. cbn in A2 |- *. rewrite A2. apply (proj1 (nth_error_Some freq k)). rewrite Hk. discriminate. }
    split; [|split].
    + intros k fr Hk. apply (fresh_coef d2 1 _ "E" 0 k B3); [now left|cbn; lia|exact (Z k fr Hk)].
    + intros k fr Hk. apply (fresh_coef d2 1 _ "H" 0 k B3); [now right; left|cbn; lia|exact (Z k fr Hk)].
    + destruct B3 as [_ B3]. assert (K1 := B3 "E"%string). assert (K2 := B3 "H"%string). cbn in K1, K2. rewrite K1, K2. unfold zeros. eexists. eexists. split; reflexivity.
Qed.
Lemma lined_run f freq N dt : 0 < dt -> forall l n p p' q, forallb keeps_line l = true -> phys_run l p = Fine p' -> ph_tfsf p = Some q -> lined f freq N dt n q ->
  exists q', ph_tfsf p' = Some q' /\ lined f freq N dt (n + updates l) q'.
Proof.
  intros Hdt. induction l as [|c l IH]; intros n p p' q Hk H Hq Hh; cbn [phys_run forallb] in *.
  - injection H as <-. exists q. rewrite Nat.add_0_r. auto.
  - apply andb_prop in Hk. destruct Hk as [Hc Hk]. apply obind_fine in H. destruct H as (p1 & H1 & H). destruct (is_update c) eqn:Eu.
    + destruct c; try discriminate Eu. cbn [phys_exec] in H1. destruct (phys_step_driven _ _ H1) as (_ & _ & S1). destruct (S1 q Hq) as (q1 & Hp & E1).
      destruct (IH (Datatypes.S n) p1 p' q1) as (q' & E & Q); auto; [exact (lined_step _ _ _ _ _ _ _ Hdt Hh Hp)|].
      exists q'. split; [exact E|]. unfold updates in *. cbn [filter is_update length]. rewrite Nat.add_succ_r. exact Q.
    + destruct (phys_exec_driven c p p1) as (_ & _ & _ & S1); auto; [intros ->; discriminate Eu|destruct c; auto|].
      destruct (IH n p1 p' q) as (q' & Q); auto; [rewrite S1; auto|]. exists q'. unfold updates in *. cbn [filter]. rewrite Eu. exact Q.
Qed.
Lemma incident_flux g name s0 l1 s1 v sh freq tp s2 l2 s ia ib ja jb : 0 < g_dt g -> mk_field g name = Ok s0 -> run l1 s0 = Fine s1 ->
  tp_with_freq sh freq = Ok tp -> exec (SetTfsf v tp) s1 = Fine s2 -> forallb keeps_line l2 = true -> run l2 s2 = Fine s ->
  to_grid g (v_a v) = Ok (ia, ja) -> to_grid g (v_b v) = Ok (ib, jb) ->
  exists q d fl, ph_tfsf (f_ph s) = Some q /\ q_dft q = Some d /\ tfsf_flux q = Ok fl /\ List.length fl = List.length freq /\
    forall k f, nth_error freq k = Some f ->
      let E := fourier f (stamped 0 (g_dt g) (line_E (shape_val sh) (Z.abs (jb - ja) + 5) (g_dt g)) (updates l2)) in
      let H := fourier f (stamped 0 (g_dt g) (line_H (shape_val sh) (Z.abs (jb - ja) + 5) (g_dt g)) (updates l2)) in
      coef d "E" 0 k = Some E /\ coef d "H" 0 k = Some H /\ nth_error fl k = Some (re_conj E H).
Proof.
  intros Hdt E0 R1 Et E2 Hk R2 Va Vb.
  assert (G1 : ph_grid (f_ph s1) = g) by (destruct (mk_field_clk _ _ _ E0) as [_ <-]; apply run_phys, phys_run_grid in R1; apply R1).
  apply exec_phys in E2. cbn [phys_exec] in E2. apply ok_out_fine in E2. unfold phys_set_tfsf in E2. apply bind_ok in E2. destruct E2 as (q0 & Hq0 & E2). injection E2 as E2.
  rewrite G1 in Hq0. assert (L0 := lined_new g sh freq tp v q0 ia ib ja jb Et Va Vb Hq0). apply run_phys in R2.
  destruct (lined_run _ _ _ _ Hdt l2 0 (f_ph s2) (f_ph s) q0 Hk R2 ltac:(rewrite <- E2; reflexivity) L0) as (q & Eq & [HN _ (d & Ed & Ef & Sd & _ & HE & HH & rE & rH & LE & LH)]).
  cbn [plus] in HE, HH. destruct Sd as [_ Sd]. assert (NE := Sd _ _ rE LE (or_introl eq_refl)). assert (NH := Sd _ _ rH LH (or_introl eq_refl)). rewrite Ef in NE, NH.
  exists q, d, (map (fun '((er, ei), (hr, hi)) => 0 + (er * hr + ei * hi)) (combine rE rH)).
  split; [exact Eq|]. split; [exact Ed|]. split; [|split].
  - unfold tfsf_flux. rewrite Ed. unfold dft_get. rewrite LE, LH. reflexivity.
  - rewrite map_length, combine_length. rewrite NE, NH. change (@T RNum) with R. apply Nat.min_id.
  - intros k f Hf. cbv zeta. assert (CE := HE k f Hf). assert (CH := HH k f Hf). split; [exact CE|]. split; [exact CH|].
    rewrite (coef_row _ _ _ _ LE) in CE. rewrite (coef_row _ _ _ _ LH) in CH. etransitivity; [exact (map_nth_error _ k _ (nth_error_combine _ _ _ _ _ CE CH))|].
    unfold re_conj. destruct (fourier f _) as [a b]. destruct (fourier f _) as [a' b']. cbn [fst snd]. f_equal. ring.
Qed.

(** ** Waveforms *)
Lemma slope_line k t : derivable_pt_lim (fun t => k * t) t k.
Proof. assert (A := derivable_pt_lim_scal id k t 1 (derivable_pt_lim_id t)). rewrite Rmult_1_r in A. exact A. Qed.
Lemma sine_wave f : oscillates f (fun t => sin (2 * PI * f * t)).
Proof.
  unfold oscillates. set (k := 2 * PI * f). split; [rewrite Rmult_0_r; apply sin_0|].
  exists (fun t => k * cos (k * t)). split; [rewrite Rmult_0_r, cos_0; ring|]. split; intros t.
  - replace (k * cos (k * t)) with (cos (k * t) * k) by ring. apply (derivable_pt_lim_comp (fun t => k * t) sin t k); [apply slope_line|apply derivable_pt_lim_sin].
  - replace (- k * k * sin (k * t)) with (k * (- sin (k * t) * k)) by ring.
    apply (derivable_pt_lim_scal (fun t => cos (k * t))). apply (derivable_pt_lim_comp (fun t => k * t) cos t k); [apply slope_line|apply derivable_pt_lim_cos].
Qed.
Lemma bell_curve sig t0 : bell sig t0 (fun t => exp (- ((t - t0) * sig * 2 * PI) ^ 2)).
Proof.
  unfold bell. split; [rewrite <- exp_0; f_equal; ring|]. intros t. set (k := 2 * PI * sig).
  assert (D1 : derivable_pt_lim (fun t => k * (t - t0)) t k).
  { assert (A := derivable_pt_lim_scal (fun t => t - t0) k t (1 - 0) (derivable_pt_lim_minus id (fct_cte t0) t 1 0 (derivable_pt_lim_id t) (derivable_pt_lim_const t0 t))).
    replace (k * (1 - 0)) with k in A by ring. exact A. }
  assert (D2 : derivable_pt_lim (fun t => - (k * (t - t0)) ^ 2) t (- (2 * (k * (t - t0)) * k))).
  { apply (derivable_pt_lim_opp (fun t => (k * (t - t0)) ^ 2)). assert (B := derivable_pt_lim_comp (fun t => k * (t - t0)) (fun y => y ^ 2) t _ _ D1 (derivable_pt_lim_pow _ 2)).
    replace (2 * (k * (t - t0)) * k) with (INR 2 * (k * (t - t0)) ^ Init.Nat.pred 2 * k) by (cbn; ring). exact B. }
  assert (D3 := derivable_pt_lim_comp _ exp t _ _ D2 (derivable_pt_lim_exp _)). unfold Ranalysis1.comp in D3.
  assert (Ex : forall x, - ((x - t0) * sig * 2 * PI) ^ 2 = - (k * (x - t0)) ^ 2) by (intros x; unfold k; ring).
  rewrite (Ex t). replace (-2 * k * k * (t - t0) * exp (- (k * (t - t0)) ^ 2)) with (exp (- (k * (t - t0)) ^ 2) * - (2 * (k * (t - t0)) * k)) by ring.
  intros eps He. destruct (D3 eps He) as [del Hd]. exists del. intros h Hh Hl. rewrite !Ex. exact (Hd h Hh Hl).
Qed.
Lemma continuous_wave f : oscillates f (shape_val (Continuous f)) /\ forall t, Rabs (shape_val (Continuous f) t) <= 1.
Proof.
  split; [exact (sine_wave f)|]. intros t. unfold shape_val. rnumg. apply Rabs_le. apply SIN_bound.
Qed.
Lemma gaussian_wave f sig T0 : exists w e, oscillates f w /\ bell sig T0 e /\ (forall t, shape_val (Gaussian f sig T0) t = w t * e t) /\
  forall t, Rabs (shape_val (Gaussian f sig T0) t) <= e t <= 1.
Proof.
  exists (fun t => sin (2 * PI * f * t)), (fun t => exp (- ((t - T0) * sig * 2 * PI) ^ 2)). split; [apply sine_wave|]. split; [apply bell_curve|].
  assert (E : forall t, shape_val (Gaussian f sig T0) t = sin (2 * PI * f * t) * exp (- ((t - T0) * sig * 2 * PI) ^ 2)).
  { intros t. unfold shape_val. rnumg. change (@T RNum) with R. change (Z.to_nat 2) with 2%nat. f_equal. f_equal. ring. }
  split; [exact E|]. intros t. rewrite E. change (@T RNum) with R. rewrite Rabs_mult. assert (P := exp_pos (- ((t - T0) * sig * 2 * PI) ^ 2)). rewrite (Rabs_pos_eq (exp _)) by lra.
  split.
  - assert (Rabs (sin (2 * PI * f * t)) <= 1) by (apply Rabs_le, SIN_bound). nra.
  - rewrite <- exp_0. destruct (Req_dec (((t - T0) * sig * 2 * PI) ^ 2) 0) as [->|N]; [right; f_equal; ring|]. left. apply exp_increasing.
    assert (0 <= ((t - T0) * sig * 2 * PI) ^ 2) by (apply pow2_ge_0). lra.
Qed.
(** ** The characterisations leave no freedom *)
Lemma flat F : (forall t, derivable_pt_lim F t 0) -> forall a b, F a = F b.
Proof.
  intros D. assert (K : forall a b, a < b -> F a = F b).
  { intros a b Hab. destruct (MVT_cor2 F (fun _ => 0) a b Hab (fun c _ => D c)) as (c & E & _). lra. }
  intros a b. destruct (Rtotal_order a b) as [H|[->|H]]; [now apply K|reflexivity|symmetry; now apply K].
Qed.
Lemma one_bell sig t0 e e' : bell sig t0 e -> bell sig t0 e' -> forall t, e t = e' t.
Proof.
  assert (K : forall e, bell sig t0 e -> forall t, e t = exp (- ((t - t0) * sig * 2 * PI) ^ 2)).
  { clear. intros e [E0 E1] t. set (k := 2 * PI * sig).
    set (b := fun t : R => exp (- ((t - t0) * sig * 2 * PI) ^ 2)). assert (Bb : bell sig t0 b) by apply bell_curve. destruct Bb as [B0 B1].
    assert (P : forall t, 0 < b t) by (intros; apply exp_pos).
    assert (F : forall x y, e x / b x = e y / b y).
    { apply (flat (fun x => e x / b x)). intros x. assert (Nx := P x).
      assert (D := derivable_pt_lim_div e b x _ _ (E1 x) (B1 x) ltac:(lra)).
      replace 0 with ((-2 * (2 * PI * sig) * (2 * PI * sig) * (x - t0) * e x * b x - -2 * (2 * PI * sig) * (2 * PI * sig) * (x - t0) * b x * e x) / Rsqr (b x)) by (unfold Rsqr; field; lra). exact D. }
    assert (Q := F t t0). rewrite E0, B0 in Q. assert (Nx := P t). fold (b t). apply (Rmult_eq_reg_r (/ b t)); [|apply Rinv_neq_0_compat; lra]. unfold Rdiv in Q. rewrite Q. field. lra. }
  intros H H' t. rewrite (K e H), (K e' H'). reflexivity.
Qed.
Lemma one_wave f w w' : oscillates f w -> oscillates f w' -> forall t, w t = w' t.
Proof.
  intros (W0 & v & V0 & V1 & V2) (W0' & v' & V0' & V1' & V2'). set (k := 2 * PI * f) in *.
  set (u := fun t => w t - w' t). set (x := fun t => v t - v' t).
  assert (U1 : forall t, derivable_pt_lim u t (x t)) by (intros t; apply derivable_pt_lim_minus; auto).
  assert (U2 : forall t, derivable_pt_lim x t (- k * k * u t)).
  { intros t. replace (- k * k * u t) with (- k * k * w t - - k * k * w' t) by (unfold u; ring). apply derivable_pt_lim_minus; auto. }
  assert (Q : forall a b, (fun t => x t * x t + k * k * (u t * u t)) a = (fun t => x t * x t + k * k * (u t * u t)) b).
  { apply flat. intros t. assert (D1 := derivable_pt_lim_mult x x t _ _ (U2 t) (U2 t)). assert (D2 := derivable_pt_lim_mult u u t _ _ (U1 t) (U1 t)).
    assert (D3 := derivable_pt_lim_plus _ _ t _ _ D1 (derivable_pt_lim_scal _ (k * k) t _ D2)).
    replace 0 with (- k * k * u t * x t + x t * (- k * k * u t) + k * k * (x t * u t + u t * x t)) by ring. exact D3. }
  assert (Z : forall t, x t = 0).
  { intros t. assert (E := Q t 0). cbv beta in E. unfold x, u in E |- *. rewrite V0, V0', W0, W0' in E.
    assert (A1 := Rle_0_sqr (v t - v' t)). assert (A2 := Rle_0_sqr (k * (w t - w' t))). unfold Rsqr in *. apply Rsqr_0_uniq. unfold Rsqr. nra. }
  intros t. assert (F : u t = u 0) by (apply flat; intros y; rewrite <- (Z y); apply U1). unfold u in F. lra.
Qed.
