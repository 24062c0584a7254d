(** The magnetic update: every cell has Da = 1 and Db = dt whatever the materials are. *)
From Coq Require Import ZArith Reals String List Bool Lia Lra.
From Verif Require Import Scalar Base BaseFacts VecM GridM GeometryM MaterialM PmlM DftM TfsfM PolarM
  InterpM H5M ClockM MonitorM FieldM SpecGrid GridFacts OutFacts PhysFacts PaintFacts WfFacts ReachFacts InvFacts SpecStep StepFacts
  EngineFacts YeeFacts TextbookFacts SpecSource SourceFacts SpecMedium PolarFacts FullStep SpecRim MediumFacts SpecMaterial MediaFacts.
Import ListNotations.

Section Gen.
Context {N : Num}.
Local Open Scope Z_scope.

Section NonMag.
Variable g : grid.
Definition nonmag (p : phys) : Prop :=
  ph_grid p = g /\ forall i j, 0 <= i < g_Nx g -> 0 <= j < g_Ny g ->
    tval (cDa (ph_C p)) i j = 1%num /\ tval (cDb (ph_C p)) i j = g_dt g.
Lemma nonmag_static p p' : static p' = static p -> nonmag p -> nonmag p'.
Proof. intros H [A B]. apply static_eq in H. destruct H as (E & F & _). unfold nonmag. rewrite E, F. auto. Qed.
Lemma gmat_nonmag k dt c i j : gcell c i j = gmat_cell k dt -> tval (cDa c) i j = 1%num /\ tval (cDb c) i j = dt.
Proof. unfold gcell, gmat_cell. intros H. injection H as _ _ A B. destruct k; auto. Qed.

Lemma nonmag_keeps : keeps nonmag.
Proof.
  constructor.
  - intros p p' H E. exact (nonmag_static _ _ (step_clock_static _ _ E) H).
  - intros p H. exact (nonmag_static _ _ (step_prev_static p) H).
  - intros p p' H E. exact (nonmag_static _ _ (step_E_static _ _ E) H).
  - intros p p' H E. exact (nonmag_static _ _ (step_pmlE_static _ _ E) H).
  - intros p p' H E. exact (nonmag_static _ _ (step_polar_static _ _ E) H).
  - intros p p' H E. exact (nonmag_static _ _ (step_tfsfD_static _ _ E) H).
  - intros p l H _. exact H.
  - intros p r v F H _ _. exact H.
  - intros p p' H E. exact (nonmag_static _ _ (step_tfsf_pulse_static _ _ E) H).
  - intros p p' H E. exact (nonmag_static _ _ (step_H_static _ _ E) H).
  - intros p p' H E. exact (nonmag_static _ _ (step_pmlH_static _ _ E) H).
  - intros p p' H E. exact (nonmag_static _ _ (step_tfsfH_static _ _ E) H).
  - intros o p p' [Hg H] E. unfold paint_phys in E. inv_ok. split; [exact Hg|]. intros i j Hi Hj. cbn [ph_C set_ph_C].
    apply paint_post in Hr. destruct Hr as (_ & ib & _ & P). destruct (P i j) as [P1 P2]. clear P.
    assert (D : in_ibox (iv_a (iclip (ph_grid p) ib)) (iv_b (iclip (ph_grid p) ib)) (i, j) \/ ~ in_ibox (iv_a (iclip (ph_grid p) ib)) (iv_b (iclip (ph_grid p) ib)) (i, j)).
    { unfold in_ibox. set (a := iv_a _). set (b := iv_b _). cbn [fst snd].
      destruct (Z_le_dec (fst a) i), (Z_le_dec i (fst b)), (Z_le_dec (snd a) j), (Z_le_dec j (snd b)); first [left; lia|right; lia]. }
    destruct D as [D|D].
    + specialize (P1 D). destruct (obj_inside o (to_real (ph_grid p) (i, j))).
      * apply gmat_nonmag in P1. rewrite Hg in P1. exact P1.
      * unfold gcell in P1. injection P1 as _ _ A B. rewrite A, B. now apply H.
    + specialize (P2 D). unfold gcell in P2. injection P2 as _ _ A B. rewrite A, B. now apply H.
  - intros o p p' H E. apply insert_material_frame in E. destruct E as (A & B & _). unfold nonmag in *. now rewrite A, B.
  - intros o p p' H E. apply reinsert_material_frame in E. destruct E as (A & B & _). unfold nonmag in *. now rewrite A, B.
  - intros p l H. exact H.
  - intros p H. exact H.
  - intros p c [Hg H] E. split; [exact Hg|]. intros i j Hi Hj. cbn [ph_C set_ph_C]. apply clear_coefs_post in E. destruct E as [E _].
    rewrite Hg in E. specialize (E i j Hi Hj). now apply gmat_nonmag in E.
  - intros p v tp q H _ _. exact H.
Qed.
Lemma reachable_nonmag s : reachable g s -> nonmag (f_ph s).
Proof.
  apply (reachable_inv nonmag nonmag_keeps). intros p H. unfold mk_phys in H. inv_ok. split; [reflexivity|].
  cbn. intros i j Hi Hj.
  match goal with H : clear_coefs _ _ _ = Ok _ |- _ => apply clear_coefs_post in H; destruct H as [H _]; specialize (H i j Hi Hj); now apply gmat_nonmag in H end.
Qed.
End NonMag.

(** the magnetic half of a step: sources first, then the leap-frog formula with the final Ez, then
    the TFSF corrections *)
Lemma step_magnet p p' : apart (ph_grid p) -> wf_phys p -> phys_step p = Fine p' ->
  let g := ph_grid p in
  exists Ls, Forall2 (fun r L => src_cells g (sr_kind r) L) (ph_srcs p) Ls /\ line (ph_tfsf p) = Ok (ph_tfsf p') /\
  let lh c i j := lit (ph_t p + g_dt g)%num (combine (ph_srcs p) Ls) c i j (fval (ph_F p) c i j) in
  let h := Hmag (lh Hx) (hXl (h_of p)) (hXh (h_of p)) (lh Hy) (hYl (h_of p)) (hYh (h_of p)) in
  let u := next_h (g_Nx g) (g_Ny g) (g_pml g) (g_dx g) (med p) (tval (fEz (ph_F p'))) h in
  forall i j, tval (fHx (ph_F p')) i j = tf tfHx1 (ph_tfsf p') (hX u) i j /\
    tval (fHy (ph_F p')) i j = tf tfHy1 (ph_tfsf p') (hY u) i j.
Proof.
  intros Ha Hw Hs g. destruct (full_step p p' Ha Hw Hs) as (E0 & E1 & E2 & E3 & Ls & u' & h' & []). exists Ls. split.
  { clear -cw_cells. induction cw_cells as [|r L ? ? [K _] ? ?]; constructor; auto. }
  split; [exact cw_line|]. intros lh h u i j. rewrite cw_hm in cw_h. destruct cw_h as (Vx & _ & _ & Vy & _).
  split; [exact (Vx i j)|exact (Vy i j)].
Qed.
Lemma pulse_box q q' : tfsf_pulse q = Ok q' -> q_ia q' = q_ia q /\ q_ib q' = q_ib q /\ q_ja q' = q_ja q /\ q_jb q' = q_jb q.
Proof.
  unfold tfsf_pulse. intros H. repeat (apply bind_ok in H; destruct H as (? & _ & H)).
  repeat match type of H with (let '(_, _) := ?x in _) = _ => destruct x | bind _ _ = _ => apply bind_ok in H; destruct H as (? & _ & H) end.
  injection H as <-. cbn. auto.
Qed.
Lemma tf_off_H o o' i j a : line o = Ok o' ->
  (off_Hx o i j -> tf tfHx1 o' a i j = a i j) /\ (off_Hy o i j -> tf tfHy1 o' a i j = a i j).
Proof.
  unfold line, off_Hx, off_Hy, tf, tfHx1, tfHy1, band. destruct o as [q|]; intros H; [|injection H as <-; auto].
  apply bind_ok in H. destruct H as (q' & H & E). injection E as <-. destruct (pulse_box _ _ H) as (-> & -> & -> & ->). split; intros K.
  - destruct (Z.leb_spec (q_ia q) i), (Z.leb_spec i (q_ib q)); cbn [andb]; try reflexivity.
    destruct (Z.eqb_spec j (q_ja q - 1)), (Z.eqb_spec j (q_jb q)); try reflexivity; exfalso; apply K; auto.
  - destruct (Z.leb_spec (q_ja q) j), (Z.leb_spec j (q_jb q)); cbn [andb]; try reflexivity.
    destruct (Z.eqb_spec i (q_ia q - 1)), (Z.eqb_spec i (q_ib q)); try reflexivity; exfalso; apply K; auto.
Qed.
End Gen.

Section Real.
#[local] Existing Instance RNum.
Local Open Scope R_scope.

(** outside the PML, away from driven cells; only the layers across the component matter *)
Lemma magnetic_laws g s s' i j : apart g -> reachable g s -> 0 < g_dt g -> update s = Fine s' ->
  (1 <= i)%Z -> (1 <= j)%Z -> (i < g_Nx g - 1)%Z -> (j < g_Ny g - 1)%Z ->
  ((g_pml g <= j < g_Ny g - 1 - g_pml g)%Z -> off_Hx (ph_tfsf (f_ph s)) i j -> undriven (ph_t (f_ph s) + g_dt g) g (ph_srcs (f_ph s)) Hx i j ->
   faraday 1 (g_dt g) (Hx_at (f_ph s) i j) (Hx_at (f_ph s') i j) (curl_e_x (f_ph s') i j)) /\
  ((g_pml g <= i < g_Nx g - 1 - g_pml g)%Z -> off_Hy (ph_tfsf (f_ph s)) i j -> undriven (ph_t (f_ph s) + g_dt g) g (ph_srcs (f_ph s)) Hy i j ->
   faraday 1 (g_dt g) (Hy_at (f_ph s) i j) (Hy_at (f_ph s') i j) (curl_e_y (f_ph s') i j)).
Proof.
  intros Hg Hr Hd Hs Hi1 Hj1 Hi2 Hj2. destruct (reachable_good g s (apart_roomy g Hg) Hr) as [Hw Gg].
  assert (Nm := reachable_nonmag g s Hr). destruct Nm as [_ Nm]. assert (Cf := reachable_coefs g s Hg Hr).
  destruct Cf as (_ & _ & Sx & Sy). apply update_phys_step in Hs.
  assert (Gs : ph_grid (f_ph s') = g) by (apply phys_step_static, grid_static in Hs; congruence).
  rewrite <- Gg in Hg. destruct (step_magnet _ _ Hg Hw Hs) as (Ls & HL & Hq & V). rewrite Gg in *. destruct (V i j) as [Vx Vy].
  destruct (Nm i j ltac:(lia) ltac:(lia)) as [Da Db].
  assert (Cc : core (g_Nx g) (g_Ny g) i j = true) by (unfold core; lia).
  unfold faraday, Hx_at, Hy_at, curl_e_x, curl_e_y, Ez_at. rewrite Gs.
  split; intros Hb Ho Hu; [rewrite Vx, (proj1 (tf_off_H _ _ _ _ _ Hq) Ho)|rewrite Vy, (proj2 (tf_off_H _ _ _ _ _ Hq) Ho)].
  all: unfold next_h; cbn [hX hY]; rewrite Cc; unfold addHx, addHy, yeeHx, yeeHy.
  1: replace (j <? g_pml g)%Z with false by lia; replace (g_Ny g - 1 - g_pml g <=? j)%Z with false by lia; destruct (Sy j ltac:(lia)) as [_ Qq].
  2: replace (i <? g_pml g)%Z with false by lia; replace (g_Nx g - 1 - g_pml g <=? i)%Z with false by lia; destruct (Sx i ltac:(lia)) as [_ Qq].
  all: cbn [andb hX hY]; rewrite ?Qq.
  all: change (mDa (med (f_ph s)) i j) with (tval (cDa (ph_C (f_ph s))) i j); change (mDb (med (f_ph s)) i j) with (tval (cDb (ph_C (f_ph s))) i j).
  all: rewrite Da, Db, (undriven_lit _ _ _ _ _ _ _ _ Hu HL); cbn [fval]; rnumg;
    (destruct (Req_dec (g_dx g) 0) as [E|E]; [rewrite E; unfold Rdiv; rewrite ?Rmult_0_l, ?Rinv_0; field; lra|field; lra]).
Qed.
Lemma magnetic_law g s s' i j : apart g -> reachable g s -> 0 < g_dt g -> update s = Fine s' ->
  (g_pml g <= i < g_Nx g - 1 - g_pml g)%Z -> (g_pml g <= j < g_Ny g - 1 - g_pml g)%Z -> (1 <= i)%Z -> (1 <= j)%Z ->
  (i < g_Nx g - 1)%Z -> (j < g_Ny g - 1)%Z ->
  (off_Hx (ph_tfsf (f_ph s)) i j -> undriven (ph_t (f_ph s) + g_dt g) g (ph_srcs (f_ph s)) Hx i j ->
   faraday 1 (g_dt g) (Hx_at (f_ph s) i j) (Hx_at (f_ph s') i j) (curl_e_x (f_ph s') i j)) /\
  (off_Hy (ph_tfsf (f_ph s)) i j -> undriven (ph_t (f_ph s) + g_dt g) g (ph_srcs (f_ph s)) Hy i j ->
   faraday 1 (g_dt g) (Hy_at (f_ph s) i j) (Hy_at (f_ph s') i j) (curl_e_y (f_ph s') i j)).
Proof.
  intros Hg Hr Hd Hs Hi Hj Hi1 Hj1 Hi2 Hj2. destruct (magnetic_laws g s s' i j) as [A B]; auto.
Qed.
End Real.
