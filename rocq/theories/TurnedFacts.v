(** A total-field box whose corners are the other way round injects nothing. *)
From Coq Require Import ZArith Reals String List Bool Lia Lra.
From Verif Require Import Scalar Base BaseFacts VecM GridM GeometryM MaterialM PmlM DftM TfsfM PolarM
  InterpM H5M ClockM MonitorM FieldM SpecGrid GridFacts OutFacts PhysFacts PaintFacts WfFacts ReachFacts InvFacts SafeFacts PaintSafe ExampleFacts RestartRun
  SpecStep StepFacts EngineFacts YeeFacts PolarFacts FullStep MediumFacts SpecWave DarkFacts SpecTfsf TfsfFacts TfsfRun SpecTurned.
Import ListNotations.
Local Open Scope Z_scope.
#[local] Existing Instance RNum.

Section Turned.
Variable g : grid.
Definition turned_box (o : option tfsf) : Prop := forall q, o = Some q -> q_ib q < q_ia q /\ q_jb q < q_ja q.
Record turned (p : phys) : Prop := Turned { tu_grid : ph_grid p = g; tu_srcs : ph_srcs p = []; tu_box : turned_box (ph_tfsf p); tu_dark : dark p }.

(** without its box the field is unlit *)
Lemma turned_unlit p : turned p -> unlit (set_ph_tfsf None p).
Proof. intros [] _. destruct tu_dark0. constructor; assumption. Qed.
Lemma dark_box o p : dark (set_ph_tfsf o p) -> dark p.
Proof. intros []. constructor; assumption. Qed.
Lemma by_unlit (f : phys -> res phys) : (forall p p', unlit p -> f p = Ok p' -> unlit p') ->
  (forall p p', f p = Ok p' -> f (set_ph_tfsf None p) = Ok (set_ph_tfsf None p') /\ ph_grid p' = ph_grid p /\ ph_srcs p' = ph_srcs p /\ ph_tfsf p' = ph_tfsf p) ->
  forall p p', turned p -> f p = Ok p' -> turned p'.
Proof.
  intros Hk Hc p p' Hp H. destruct (Hc _ _ H) as (E & A & B & C). assert (K := Hk _ _ (turned_unlit p Hp) E). destruct Hp as [G S Q D].
  constructor; [congruence|congruence|rewrite C; exact Q|]. apply (dark_box None). apply K. cbn. split; [congruence|reflexivity].
Qed.
Lemma pulse_box q q' : tfsf_pulse q = Ok q' -> q_ia q' = q_ia q /\ q_ib q' = q_ib q /\ q_ja q' = q_ja q /\ q_jb q' = q_jb q.
Proof.
  unfold tfsf_pulse. intros H. apply bind_ok in H. destruct H as (? & _ & H). apply bind_ok in H. destruct H as ([[? ?] ?] & _ & H).
  apply bind_ok in H. destruct H as ([? ?] & _ & H). do 4 (apply bind_ok in H; destruct H as (? & _ & H)).
  repeat (apply bind_ok in H; destruct H as (? & _ & H)). injection H as <-. cbn. auto.
Qed.
Ltac comm f := apply (by_unlit f); [apply unlit_keeps|]; intros p p' H.
Lemma turned_keeps : keeps_for (turned_cmd g) turned.
Proof.
  assert (U := unlit_keeps). constructor.
  - comm step_clock. unfold step_clock in *. apply bind_ok in H. destruct H as (? & E & H). injection H as <-. cbn in *. rewrite E. cbn. auto.
  - intros p Hp. refine (by_unlit (fun p => Ok (step_prev p)) _ _ p _ Hp eq_refl).
    + intros a b Ha E. injection E as <-. now apply (k_prev _ _ U).
    + intros a b E. injection E as <-. unfold step_prev. cbn. destruct (ph_prev2E a); cbn; destruct (ph_prevE a); cbn; auto.
  - comm step_E. unfold step_E in *. apply bind_ok in H. destruct H as (? & E & H). injection H as <-. cbn in *. rewrite E. cbn. auto.
  - comm step_pmlE. unfold step_pmlE in *. apply bind_ok in H. destruct H as ([? ?] & E & H). injection H as <-. cbn in *. rewrite E. cbn. auto.
  - comm step_polar. unfold step_polar in *. apply bind_ok in H. destruct H as ([? ?] & E1 & H). apply bind_ok in H. destruct H as ([? ?] & E2 & H). apply bind_ok in H. destruct H as ([? ?] & E3 & H).
    injection H as <-. cbn in *. rewrite E1. cbn. rewrite E2. cbn. rewrite E3. cbn. auto.
  - intros p p' Hp H. unfold step_tfsfD in H. destruct (ph_tfsf p) as [q|] eqn:E; [|injection H as <-; exact Hp]. destruct (tu_box _ Hp q E) as [B1 B2].
    unfold tfsf_updateD in H. rewrite for_up_empty in H by lia. cbn in H. injection H as <-. destruct Hp as [G S Q []]. constructor; try assumption. constructor; assumption.
  - intros p l [G S Q D] H. assert (l = []) as ->.
    { destruct H as [H|(r & H & _)]; [|contradiction]. rewrite S in H. cbn in H. now apply map_eq_nil in H. }
    constructor; try assumption; [reflexivity|]. destruct D. constructor; assumption.
  - intros p r v F [G S Q D] H. rewrite S in H. destruct H.
  - intros p p' Hp H. unfold step_tfsf_pulse in H. destruct (ph_tfsf p) as [q|] eqn:E; [|injection H as <-; exact Hp]. destruct (tu_box _ Hp q E) as [B1 B2].
    apply bind_ok in H. destruct H as (q' & Hq & H). injection H as <-. apply pulse_box in Hq. destruct Hq as (Q1 & Q2 & Q3 & Q4).
    destruct Hp as [G S Q []]. constructor; try assumption; [|constructor; assumption]. intros x Hx. cbn in Hx. injection Hx as <-. lia.
  - comm step_H. unfold step_H in *. apply bind_ok in H. destruct H as ([? ?] & E & H). injection H as <-. cbn in *. rewrite E. cbn. auto.
  - comm step_pmlH. unfold step_pmlH in *. apply bind_ok in H. destruct H as ([[? ?] ?] & E & H). injection H as <-. cbn in *. rewrite E. cbn. auto.
  - intros p p' Hp H. unfold step_tfsfH in H. destruct (ph_tfsf p) as [q|] eqn:E; [|injection H as <-; exact Hp]. destruct (tu_box _ Hp q E) as [B1 B2].
    unfold tfsf_updateH in H. rewrite !for_up_empty in H by lia. cbn in H. injection H as <-.
    destruct Hp as [G S Q []]. constructor; try assumption. constructor; assumption.
  - intros o. comm (paint_phys o). unfold paint_phys in *. apply bind_ok in H. destruct H as (? & E & H). injection H as <-. cbn in *. rewrite E. cbn. auto.
  - intros o. apply (by_unlit (insert_material o)); [apply U|]. intros p p' H. unfold insert_material in *. destruct (m_kind (o_mat o)); cbn in *; inv_ok;
      repeat match goal with K : _ = Ok _ |- _ => rewrite K; clear K end; cbn; auto.
  - intros o. apply (by_unlit (reinsert_material o)); [apply U|]. intros p p' H. unfold reinsert_material in *. destruct (m_kind (o_mat o)); cbn in *; inv_ok;
      repeat match goal with K : _ = Ok _ |- _ => rewrite K; clear K end; cbn; auto.
  - intros p l [G S Q []]. constructor; try assumption. constructor; assumption.
  - intros p Hp. assert (K := k_clearF _ _ U _ (turned_unlit p Hp)). destruct Hp as [G S Q D]. constructor; try assumption.
    + intros q Hq. cbn in Hq. destruct (ph_tfsf p) as [q0|] eqn:E; [|discriminate]. cbn in Hq. injection Hq as <-. exact (Q q0 eq_refl).
    + apply (dark_box None). assert (K' := K (conj S eq_refl)). destruct K'. constructor; assumption.
  - intros p c [G S Q []] H. constructor; try assumption. constructor; assumption.
  - intros p v tp q [G S Q D] (a & b & Ea & Eb & B1 & B2) H. rewrite G in H. constructor; try assumption.
    + intros x Hx. cbn in Hx. injection Hx as <-. unfold mk_tfsf, to_grid_volume in H. rewrite Ea, Eb in H. cbn [bind] in H.
      apply bind_ok in H. destruct H as (? & _ & H). apply bind_ok in H. destruct H as (? & _ & H). apply bind_ok in H. destruct H as (? & _ & H). injection H as <-. cbn. auto.
    + destruct D. constructor; assumption.
Qed.
Lemma turned_dark name s0 l s : mk_field g name = Ok s0 -> Forall (turned_cmd g) l -> run_catch l s0 = Fine s -> dark (f_ph s).
Proof.
  intros E0 Hl H. refine (tu_dark _ (run_from_new _ _ turned_keeps g name s0 l s _ E0 Hl H)). intros p Hp. unfold mk_phys, mk_pml, mk_pml_psi in Hp. inv_ok.
  unfold tconst in *. repeat match goal with H : (if ?b then _ else _) = Ok _ |- _ => destruct b; inversion H; clear H; subst end.
  constructor; [reflexivity|reflexivity|intros q Hq; discriminate|].
  constructor; cbn; try (intros ? ?; reflexivity); try (intros ? K; discriminate); intros ? ? ? [].
Qed.
End Turned.

(** ** a 2 by 2 box in the middle of an 8 by 8 grid *)
Definition turned_pane : volume := mk_volume (4%R, 4%R) (3%R, 3%R).
Lemma turned_case n : (n < 1000)%nat -> exists (g : grid) s0 s2 s,
  mk_grid 8%R 8%R 1%R 1 = Ok g /\ mk_field g "out" = Ok s0 /\ exec (SetTfsf turned_pane sun) s0 = Fine s2 /\ run (repeat Update n) s2 = Fine s /\
  to_grid g (v_a turned_pane) = Ok (4, 4) /\ to_grid g (v_b turned_pane) = Ok (3, 3) /\ clear_of_pml g 3 4 3 4 /\ g_dt g = (/ 2)%R /\
  Forall (turned_cmd g) (SetTfsf turned_pane sun :: repeat Update n) /\ run_catch (SetTfsf turned_pane sun :: repeat Update n) s0 = Fine s.
Proof.
  intros Hn. destruct grid8 as (g & Eg & Hok & Nx & Ny & Dx & HLx & HLy & Hp).
  assert (Ha : apart g) by (unfold apart; lia). assert (Hr := apart_roomy _ Ha). assert (Dt := grid8_dt g Eg).
  destruct (mk_field_fresh g "out" Hr) as (p & Ep & E0); [discriminate|].
  destruct (mk_phys_ok g Hr) as (p' & Ep' & Hw & Gp & Sp & Tp & Op & Np). rewrite Ep in Ep'. injection Ep' as <-.
  set (s0 := Field p [] [] [] (fresh_h5 g) mk_clocks) in *.
  assert (R0 : reachable g s0) by (exists "out"%string, s0, []; split; [exact E0|reflexivity]).
  assert (Vb : to_grid g (v_b turned_pane) = Ok (3, 3)).
  { assert (H := round_trip_R g 3 3 ltac:(rewrite Dx; lra) ltac:(unfold is_int32; lia) ltac:(unfold is_int32; lia)). unfold to_real in H. rewrite Dx in H. revert H. rnum. cbn [fst snd]. rewrite !Rmult_1_l. auto. }
  assert (Va : to_grid g (v_a turned_pane) = Ok (4, 4)).
  { assert (H := round_trip_R g 4 4 ltac:(rewrite Dx; lra) ltac:(unfold is_int32; lia) ltac:(unfold is_int32; lia)). unfold to_real in H. rewrite Dx in H. revert H. rnum. cbn [fst snd]. rewrite !Rmult_1_l. auto. }
  assert (Hc : clear_of_pml g 3 4 3 4) by (unfold clear_of_pml; lia).
  assert (Q : exists q, mk_tfsf g sun turned_pane (g_dt g) = Ok q /\ q_ia q = 4 /\ q_ja q = 4 /\ q_ib q = 3 /\ q_jb q = 3 /\ q_tp q = sun /\ q_vol q = turned_pane).
  { unfold mk_tfsf, to_grid_volume. rewrite Va, Vb. cbn. eexists. split; [reflexivity|]. cbn. auto 10. }
  destruct Q as (q & Eq & Q1 & Q2 & Q3 & Q4 & Q5 & Q6).
  assert (Hf : exists f, write_tfsf (f_h5 s0) q = Ok f) by (unfold write_tfsf, tfsf_ops; rewrite Q5, Q6; eexists; reflexivity). destruct Hf as [f Hf].
  set (s2 := set_f_h5 f (map_ph (set_ph_tfsf (Some q)) s0)).
  assert (E2 : exec (SetTfsf turned_pane sun) s0 = Fine s2).
  { cbn [exec]. unfold set_tfsf. change (ph_grid (f_ph s0)) with (ph_grid p). rewrite Gp, Eq. cbn [prim]. cbv zeta.
    change (f_h5 (map_ph (set_ph_tfsf (Some q)) s0)) with (f_h5 s0). rewrite Hf. reflexivity. }
  assert (R2 : reachable g s2) by (apply (SafeFacts.run_reachable g s0 [SetTfsf turned_pane sun] s2 R0); cbn [run]; rewrite E2; reflexivity).
  destruct (reachable_good g s2 Hr R2) as [W2 G2].
  destruct (updates_ok n s2) as (s & E & _); try assumption; try reflexivity.
  - rewrite G2. exact Hr.
  - split; [cbn; rewrite Sp; constructor|]. rewrite G2. intros q' Hq'. cbn in Hq'. injection Hq' as <-. unfold tfsf_placed. lia.
  - unfold idle. cbn. auto 10.
  - cbn. rewrite Np. unfold INT_MIN. lia.
  - cbn [s2 set_f_h5 map_ph set_f_ph f_ph set_ph_tfsf ph_step s0]. rewrite Np. unfold INT_MAX. lia.
  - exists g, s0, s2, s. repeat (split; [assumption || reflexivity|]). split.
    + constructor; [exists (4, 4), (3, 3); cbn [fst snd]; repeat split; try assumption; lia|]. clear. induction n; constructor; [exact Logic.I|assumption].
    + change (match exec (SetTfsf turned_pane sun) s0 with Fine s' | Raise _ s' => run_catch (repeat Update n) s' | Undef u => Undef u end = Fine s).
      rewrite E2. now apply run_run_catch.
Qed.
Lemma turned_refuted : exists (g : grid) s0 s2 s,
  mk_grid 8%R 8%R 1%R 1 = Ok g /\ mk_field g "out" = Ok s0 /\ exec (SetTfsf turned_pane sun) s0 = Fine s2 /\ run (repeat Update 3) s2 = Fine s /\
  to_grid g (v_a turned_pane) = Ok (4, 4) /\ to_grid g (v_b turned_pane) = Ok (3, 3) /\ clear_of_pml g 3 4 3 4 /\
  ~ lit_box 3 4 3 4 (incident (shape_val (tp_shape sun)) (4 - 3 + 5) (g_dt g) 3)
    (tval (fEz (ph_F (f_ph s)))) (tval (fHx (ph_F (f_ph s)))) (tval (fHy (ph_F (f_ph s)))).
Proof.
  destruct (turned_case 3 ltac:(lia)) as (g & s0 & s2 & s & Eg & E0 & E2 & E & Va & Vb & Hc & Dt & Hl & Er).
  exists g, s0, s2, s. repeat (split; [assumption|]). intros H. destruct (H 3 3) as (H1 & _). assert (D := d_E _ (turned_dark g _ _ _ _ E0 Hl Er) 3 3).
  rewrite D, Dt in H1. change (0%R = wE (incident (shape_val (tp_shape sun)) 6 (/ 2) 3) 3) in H1. rewrite sun_third in H1. lra.
Qed.
