(** One call of update as a chain of phases with the Yee/CPML phases in closed form. *)
From Coq Require Import ZArith String List Bool Lia.
From Verif Require Import Scalar Base BaseFacts VecM GridM GeometryM MaterialM PmlM DftM TfsfM PolarM
  InterpM H5M ClockM MonitorM FieldM OutFacts PhysFacts WfFacts ReachFacts SpecStep StepFacts EngineFacts.
Import ListNotations.
Local Open Scope Z_scope.

Section Yee.
Context {N : Num}.

(** ** The textbook step depends on the cells only *)
Lemma next_e_same n m th dx md hx hx' hy hy' u u' : same hx hx' -> same hy hy' -> same_e u u' ->
  same_e (next_e n m th dx md hx hy u) (next_e n m th dx md hx' hy' u').
Proof.
  intros Hx Hy (A & B & C & D & E). unfold same_e, same, next_e in *.
  cbn [eE eXl eXh eYl eYh]. unfold addX, addY, memXl, memXh, memYl, memYh, yeeE.
  repeat split; intros i j; rewrite ?A, ?B, ?C, ?D, ?E, ?Hx, ?Hy; reflexivity.
Qed.
Lemma next_h_same n m th dx md e e' u u' : same e e' -> same_h u u' ->
  same_h (next_h n m th dx md e u) (next_h n m th dx md e' u').
Proof.
  intros He (A & B & C & D & E & F). unfold same_h, same, next_h in *.
  cbn [hX hXl hXh hY hYl hYh]. unfold addHx, addHy, memHxl, memHxh, memHyl, memHyh, yeeHx, yeeHy.
  repeat split; intros i j; rewrite ?A, ?B, ?C, ?D, ?E, ?F, ?He; reflexivity.
Qed.
Lemma same_refl a : same a a. Proof. intros i j. reflexivity. Qed.
Lemma same_sym a b : same a b -> same b a. Proof. intros H i j. now rewrite H. Qed.
Lemma same_trans a b c : same a b -> same b c -> same a c. Proof. intros H K i j. now rewrite H, K. Qed.
Lemma same_e_refl u : same_e u u. Proof. repeat split. Qed.
Lemma same_h_refl u : same_h u u. Proof. repeat split. Qed.
Lemma same_e_trans a b c : same_e a b -> same_e b c -> same_e a c.
Proof. intros (A & B & C & D & E) (A' & B' & C' & D' & E'). unfold same_e. repeat split; eapply same_trans; eauto. Qed.
Lemma same_h_trans a b c : same_h a b -> same_h b c -> same_h a c.
Proof. intros (A & B & C & D & E & F) (A' & B' & C' & D' & E' & F'). unfold same_h. repeat split; eapply same_trans; eauto. Qed.

(** ** What the middle phases leave alone *)
Lemma step_polar_frame p p' : step_polar p = Ok p' ->
  ph_pml p' = ph_pml p /\ fHx (ph_F p') = fHx (ph_F p) /\ fHy (ph_F p') = fHy (ph_F p) /\
  ph_tfsf p' = ph_tfsf p /\ ph_srcs p' = ph_srcs p /\ ph_t p' = ph_t p /\ ph_step p' = ph_step p /\
  ph_prevE p' = ph_prevE p /\ ph_prev2E p' = ph_prev2E p.
Proof.
  unfold step_polar. intros H. inv_ok. destruct r. inv_ok. destruct r. inv_ok. destruct r. inv_ok.
  cbn. auto 10.
Qed.
Lemma step_tfsfD_frame p p' : step_tfsfD p = Ok p' ->
  ph_pml p' = ph_pml p /\ fHx (ph_F p') = fHx (ph_F p) /\ fHy (ph_F p') = fHy (ph_F p) /\
  ph_tfsf p' = ph_tfsf p /\ ph_srcs p' = ph_srcs p /\ ph_t p' = ph_t p /\ ph_step p' = ph_step p /\
  ph_debye p' = ph_debye p /\ ph_drude p' = ph_drude p /\ ph_lorentz p' = ph_lorentz p /\
  ph_prevE p' = ph_prevE p /\ ph_prev2E p' = ph_prev2E p.
Proof. unfold step_tfsfD. destruct (ph_tfsf p) eqn:E; intros H; inv_ok; cbn; auto 20. Qed.
Lemma pulse_src_frame i p p' : pulse_src i p = Fine p' ->
  ph_pml p' = ph_pml p /\ ph_tfsf p' = ph_tfsf p /\ ph_t p' = ph_t p /\ ph_step p' = ph_step p /\
  length (ph_srcs p') = length (ph_srcs p) /\
  ph_debye p' = ph_debye p /\ ph_drude p' = ph_drude p /\ ph_lorentz p' = ph_lorentz p /\
  ph_prevE p' = ph_prevE p /\ ph_prev2E p' = ph_prev2E p.
Proof.
  assert (L : forall A n (v : A) l, length (upd_nth n v l) = length l).
  { intros A n v l. revert n. induction l; intros [|n]; cbn; auto. }
  unfold pulse_src. destruct (nth_error (ph_srcs p) i); intros H; inv_fine; [|auto 20].
  destruct r. inv_fine. cbn. rewrite L. auto 20.
Qed.
Lemma step_sources_frame p p' : step_sources p = Fine p' ->
  ph_pml p' = ph_pml p /\ ph_tfsf p' = ph_tfsf p /\ ph_t p' = ph_t p /\ ph_step p' = ph_step p /\
  length (ph_srcs p') = length (ph_srcs p) /\
  ph_debye p' = ph_debye p /\ ph_drude p' = ph_drude p /\ ph_lorentz p' = ph_lorentz p /\
  ph_prevE p' = ph_prevE p /\ ph_prev2E p' = ph_prev2E p.
Proof.
  unfold step_sources. intros H.
  apply (oloop_pres (fun q => ph_pml q = ph_pml p /\ ph_tfsf q = ph_tfsf p /\ ph_t q = ph_t p /\ ph_step q = ph_step p /\
    length (ph_srcs q) = length (ph_srcs p) /\ ph_debye q = ph_debye p /\ ph_drude q = ph_drude p /\
    ph_lorentz q = ph_lorentz p /\ ph_prevE q = ph_prevE p /\ ph_prev2E q = ph_prev2E p)) in H; auto 20.
  intros i a b _ (A1 & A2 & A3 & A4 & A5 & A6 & A7 & A8 & A9 & A0) Hb. apply pulse_src_frame in Hb.
  destruct Hb as (B1 & B2 & B3 & B4 & B5 & B6 & B7 & B8 & B9 & B0). repeat split; congruence.
Qed.
Lemma step_tfsf_pulse_frame p p' : step_tfsf_pulse p = Ok p' ->
  ph_pml p' = ph_pml p /\ ph_F p' = ph_F p /\ ph_srcs p' = ph_srcs p /\ ph_t p' = ph_t p /\ ph_step p' = ph_step p /\
  ph_debye p' = ph_debye p /\ ph_drude p' = ph_drude p /\ ph_lorentz p' = ph_lorentz p /\
  ph_prevE p' = ph_prevE p /\ ph_prev2E p' = ph_prev2E p.
Proof. unfold step_tfsf_pulse. destruct (ph_tfsf p) eqn:E; intros H; inv_ok; cbn; auto 20. Qed.
Lemma step_tfsfH_frame p p' : step_tfsfH p = Ok p' ->
  ph_pml p' = ph_pml p /\ fEz (ph_F p') = fEz (ph_F p) /\
  ph_tfsf p' = ph_tfsf p /\ ph_srcs p' = ph_srcs p /\ ph_t p' = ph_t p /\ ph_step p' = ph_step p /\
  ph_debye p' = ph_debye p /\ ph_drude p' = ph_drude p /\ ph_lorentz p' = ph_lorentz p /\
  ph_prevE p' = ph_prevE p /\ ph_prev2E p' = ph_prev2E p.
Proof.
  unfold step_tfsfH. destruct (ph_tfsf p) eqn:E; intros H; inv_ok; [destruct r; inv_ok|]; cbn; auto 20.
Qed.
Lemma step_prev_frame p :
  ph_pml (step_prev p) = ph_pml p /\ ph_F (step_prev p) = ph_F p /\ ph_tfsf (step_prev p) = ph_tfsf p /\
  ph_srcs (step_prev p) = ph_srcs p /\ ph_t (step_prev p) = ph_t p /\ ph_step (step_prev p) = ph_step p /\
  ph_debye (step_prev p) = ph_debye p /\ ph_drude (step_prev p) = ph_drude p /\ ph_lorentz (step_prev p) = ph_lorentz p.
Proof. destruct p. unfold step_prev. cbn. destruct ph_prev2E; cbn; destruct ph_prevE; cbn; auto 20. Qed.

(** the phases of one step: p0 after the clock and the saved Ez, p1 after the Yee/CPML update
    of Ez, p2 after the polarization currents, p3 after TFSF on Ez, p4 after the sources,
    p5 after the TFSF line, p6 after the Yee/CPML update of H *)
Record phases (p p' p0 p1 p2 p3 p4 p5 p6 : phys) : Prop := Phases {
  ph_i32 : in_i32 (ph_step p + 1) = true;
  ph_0 : p0 = step_prev (set_ph_t (ph_t p + g_dt (ph_grid p))%num (set_ph_step (ph_step p + 1) p));
  ph_1 : exists E b, p1 = set_EP E b p0;
  ph_1e : same_e (e_of p1) (grid_next_e p (e_of p) (hX (h_of p)) (hY (h_of p)));
  ph_1h : h_of p1 = h_of p;
  ph_2 : step_polar p1 = Ok p2;
  ph_3 : step_tfsfD p2 = Ok p3;
  ph_4 : step_sources p3 = Fine p4;
  ph_5 : step_tfsf_pulse p4 = Ok p5;
  ph_6 : exists X Y b, p6 = set_HP X Y b p5;
  ph_6e : e_of p6 = e_of p5;
  ph_6h : same_h (h_of p6) (grid_next_h p (h_of p5) (eE (e_of p5)));
  ph_7 : step_tfsfH p6 = Ok p';
  ph_wf : wf_phys p0 /\ wf_phys p1 /\ wf_phys p2 /\ wf_phys p3 /\ wf_phys p4 /\ wf_phys p5 /\ wf_phys p6 /\ wf_phys p';
  ph_st : static p0 = static p /\ static p1 = static p /\ static p2 = static p /\ static p3 = static p /\
          static p4 = static p /\ static p5 = static p /\ static p6 = static p /\ static p' = static p;
  ph_psi : p_psi (ph_pml p2) = p_psi (ph_pml p1) /\ p_psi (ph_pml p3) = p_psi (ph_pml p1) /\
           p_psi (ph_pml p4) = p_psi (ph_pml p1) /\ p_psi (ph_pml p5) = p_psi (ph_pml p1) /\
           p_psi (ph_pml p') = p_psi (ph_pml p6) }.

Lemma med_static p q : static p = static q -> med p = med q.
Proof.
  intros H. apply static_eq in H. destruct H as (_ & E1 & _ & _ & _ & E2 & E3). unfold med. now rewrite E1, E2, E3.
Qed.
Lemma grid_static p q : static p = static q -> ph_grid p = ph_grid q.
Proof. intros H. apply static_eq in H. tauto. Qed.

Lemma step_sources_wf p p' : step_sources p = Fine p' -> wf_phys p -> wf_phys p'.
Proof. intros H Hw. assert (P := step_sources_post p Hw). now rewrite H in P. Qed.

Lemma phys_step_phases p p' : apart (ph_grid p) -> wf_phys p -> phys_step p = Fine p' ->
  exists p0 p1 p2 p3 p4 p5 p6, phases p p' p0 p1 p2 p3 p4 p5 p6.
Proof.
  intros Hg Hw H. unfold phys_step in H.
  destruct (step_clock p) as [pc|e|u] eqn:Ec; try discriminate. cbn [prim] in H.
  assert (Wc := step_clock_wf _ _ Ec Hw). assert (Sc := step_clock_static _ _ Ec).
  assert (Hi : in_i32 (ph_step p + 1) = true /\ pc = set_ph_t (ph_t p + g_dt (ph_grid p))%num (set_ph_step (ph_step p + 1) p)).
  { unfold step_clock, i32 in Ec. destruct (in_i32 (ph_step p + 1)); [|discriminate]. cbn [bind] in Ec. injection Ec as <-. auto. }
  destruct Hi as [Hi Epc].
  assert (W0 := step_prev_wf _ Wc). assert (S0 := step_prev_static pc). rewrite Sc in S0.
  assert (G0 : apart (ph_grid (step_prev pc))) by now rewrite (grid_static _ _ S0).
  destruct (e_half (step_prev pc) G0 W0) as (p1' & E & b & R1 & R2 & Bp & Bc & W1 & H1 & E1).
  rewrite R1 in H. cbn [prim] in H. rewrite R2 in H. cbn [prim] in H.
  set (p1 := set_EP E b (step_prev pc)) in *.
  assert (S1 : static p1 = static p).
  { rewrite <- S0. apply static_eq. cbn. repeat split; assumption. }
  destruct (step_polar_ok p1 W1) as [p2 [R3 W2]]. rewrite R3 in H. cbn [prim] in H.
  assert (S2 := step_polar_static _ _ R3). rewrite S1 in S2.
  destruct (step_tfsfD p2) as [p3|e|u] eqn:R4; try discriminate. cbn [prim] in H.
  assert (W3 := step_tfsfD_wf _ _ R4 W2). assert (S3 := step_tfsfD_static _ _ R4). rewrite S2 in S3.
  destruct (step_sources p3) as [p4|e p4|u] eqn:R5; try discriminate. cbn [obind] in H.
  assert (W4 := step_sources_wf _ _ R5 W3). assert (S4 := step_sources_static _ _ R5). rewrite S3 in S4.
  destruct (step_tfsf_pulse_ok p4 W4) as (p5 & R6 & W5 & _). rewrite R6 in H. cbn [prim] in H.
  assert (S5 := step_tfsf_pulse_static _ _ R6). rewrite S4 in S5.
  assert (G5 : apart (ph_grid p5)) by now rewrite (grid_static _ _ S5).
  destruct (h_half p5 G5 W5) as (p6' & X & Y & b' & R7 & R8 & Bp' & Bc' & W6 & E6 & H6).
  rewrite R7 in H. cbn [prim] in H. rewrite R8 in H. cbn [prim] in H.
  set (p6 := set_HP X Y b' p5) in *.
  assert (S6 : static p6 = static p).
  { rewrite <- S5. apply static_eq. cbn. repeat split; assumption. }
  destruct (step_tfsfH p6) as [p7|e|u] eqn:R9; try discriminate. cbn [prim] in H. injection H as <-.
  assert (W7 := step_tfsfH_wf _ _ R9 W6). assert (S7 := step_tfsfH_static _ _ R9). rewrite S6 in S7.
  exists (step_prev pc), p1, p2, p3, p4, p5, p6.
  destruct (step_prev_frame pc) as (A1 & A2 & _).
  assert (Ve : e_of (step_prev pc) = e_of p) by (unfold e_of; rewrite A1, A2, Epc; reflexivity).
  assert (Vh : h_of (step_prev pc) = h_of p) by (unfold h_of; rewrite A1, A2, Epc; reflexivity).
  assert (Vn : forall u a b, grid_next_e (step_prev pc) u a b = grid_next_e p u a b).
  { intros. unfold grid_next_e. now rewrite (med_static _ _ S0), (grid_static _ _ S0). }
  assert (Vm : forall u a, grid_next_h p5 u a = grid_next_h p u a).
  { intros. unfold grid_next_h. now rewrite (med_static _ _ S5), (grid_static _ _ S5). }
  constructor; auto.
  - now rewrite Epc.
  - exists E, b. reflexivity.
  - rewrite <- Ve, <- Vh, <- Vn. exact E1.
  - now rewrite <- Vh.
  - exists X, Y, b'. reflexivity.
  - rewrite <- Vm. exact H6.
  - auto 10.
  - repeat (split; [assumption|]). assumption.
  - apply step_polar_frame in R3. apply step_tfsfD_frame in R4. apply step_sources_frame in R5.
    apply step_tfsf_pulse_frame in R6. apply step_tfsfH_frame in R9.
    destruct R3 as (B1 & _), R4 as (B2 & _), R5 as (B3 & _), R6 as (B4 & _), R9 as (B5 & _).
    rewrite B5, B4, B3, B2, B1. auto.
Qed.

(** ** Without dispersive materials, sources and TFSF *)
Definition plain (p : phys) : Prop :=
  ph_debye p = [] /\ ph_drude p = [] /\ ph_lorentz p = [] /\ ph_srcs p = [] /\ ph_tfsf p = None.

Lemma step_polar_none p : ph_debye p = [] -> ph_drude p = [] -> ph_lorentz p = [] ->
  exists p', step_polar p = Ok p' /\ ph_F p' = ph_F p /\ ph_pml p' = ph_pml p /\ ph_tfsf p' = ph_tfsf p /\
    ph_srcs p' = ph_srcs p.
Proof.
  intros H1 H2 H3. unfold step_polar. rewrite H1. cbn. rewrite H2. cbn. rewrite H3. cbn.
  eexists. split; [reflexivity|]. cbn. destruct (ph_F p). auto.
Qed.

Definition textbook (p : phys) (u : emag * hmag) : emag * hmag :=
  let g := ph_grid p in yee_step (g_Nx g) (g_Ny g) (g_pml g) (g_dx g) (med p) u.

Lemma plain_step p p' : apart (ph_grid p) -> wf_phys p -> plain p -> phys_step p = Fine p' ->
  same_e (e_of p') (fst (textbook p (e_of p, h_of p))) /\ same_h (h_of p') (snd (textbook p (e_of p, h_of p))) /\
  plain p'.
Proof.
  intros Hg Hw (P1 & P2 & P3 & P4 & P5) H.
  destruct (phys_step_phases p p' Hg Hw H) as (p0 & p1 & p2 & p3 & p4 & p5 & p6 & F).
  destruct F as [Hi E0 [E [b E1]] Ve Vh R2 R3 R4 R5 [X [Y [b' E6]]] V6 W6 R7 _ _ (K2 & K3 & K4 & K5 & K6)].
  destruct (step_prev_frame (set_ph_t (ph_t p + g_dt (ph_grid p))%num (set_ph_step (ph_step p + 1) p)))
    as (A1 & A2 & A3 & A4 & A5 & A6 & A7 & A8 & A9). rewrite <- E0 in *. cbn in A3, A4, A7, A8, A9.
  destruct (step_polar_none p1) as (q & Rq & Q1 & Q2 & Q3 & Q4);
    [rewrite E1; cbn; congruence..|]. rewrite R2 in Rq. injection Rq as <-.
  assert (T2 : ph_tfsf p2 = None) by (rewrite Q3, E1; cbn; congruence).
  unfold step_tfsfD in R3. rewrite T2 in R3. injection R3 as <-.
  assert (S2 : ph_srcs p2 = []) by (rewrite Q4, E1; cbn; congruence).
  unfold step_sources in R4. rewrite S2 in R4. cbn in R4. injection R4 as <-.
  unfold step_tfsf_pulse in R5. rewrite T2 in R5. injection R5 as <-.
  assert (T6 : ph_tfsf p6 = None) by (rewrite E6; exact T2).
  unfold step_tfsfH in R7. rewrite T6 in R7. injection R7 as <-.
  assert (Ve2 : e_of p2 = e_of p1) by (unfold e_of; now rewrite Q1, Q2).
  assert (Vh2 : h_of p2 = h_of p) by (rewrite <- Vh; unfold h_of; now rewrite Q1, Q2).
  unfold textbook, yee_step. cbn [fst snd]. split; [|split].
  - rewrite V6, Ve2. exact Ve.
  - eapply same_h_trans; [exact W6|]. apply next_h_same; [|rewrite Vh2; apply same_h_refl].
    rewrite Ve2. apply Ve.
  - assert (X2 : ph_debye p2 = [] /\ ph_drude p2 = [] /\ ph_lorentz p2 = []).
    { unfold step_polar in R2. rewrite E1 in R2. cbn in R2. rewrite A7, P1 in R2. cbn in R2.
      rewrite A8, P2 in R2. cbn in R2. rewrite A9, P3 in R2. cbn in R2. injection R2 as <-. cbn. auto. }
    destruct X2 as (X1 & X2 & X3). rewrite E6. unfold plain. cbn. auto 10.
Qed.

End Yee.
