(** The recursion coefficients of the PML over the reals, and what its corrections do to the
    interior of the grid. *)
From Coq Require Import ZArith Reals String List Bool Lia Lra.
From Verif Require Import Scalar Base BaseFacts VecM GridM GeometryM MaterialM PmlM DftM TfsfM PolarM
  InterpM H5M ClockM MonitorM FieldM SpecGrid GridFacts OutFacts PhysFacts PaintFacts WfFacts ReachFacts InvFacts
  SpecStep StepFacts EngineFacts YeeFacts PolarFacts FullStep.
Import ListNotations.
Local Open Scope Z_scope.
#[local] Existing Instance RNum.

Section Bounds.
Variables (p : pml_par (N := RNum)).
Hypothesis Hth : (2 <= p_th p)%Z.
Hypothesis Hdx : (0 < p_dx p)%R.
Hypothesis Hdt : (0 < p_dt p)%R.
Hypothesis Hm : p_m p = 3%Z.
Hypothesis Hma : p_ma p = 1%Z.
Hypothesis Hk : p_kmax p = 1%R.
Hypothesis Hs : (0 < p_sigmax p)%R.
Hypothesis Ha : (0 < p_amax p)%R.
Local Open Scope R_scope.

Lemma th_pos : 0 < IZR (p_th p - 1).
Proof. apply IZR_lt. lia. Qed.
Lemma k_func_1 t : k_func p t = 1.
Proof. unfold k_func. rewrite Hk. rnum. ring. Qed.
Lemma sig_eq t : sig_func p t = p_sigmax p * ((IZR (p_th p) - t) / IZR (p_th p - 1)) ^ 3.
Proof. unfold sig_func. rewrite Hm. reflexivity. Qed.
Lemma a_eq t : a_func p t = p_amax p * ((t - 1) / IZR (p_th p - 1)).
Proof. unfold a_func. rewrite Hma. rnum. change (Z.to_nat 1) with 1%nat. now rewrite pow_1. Qed.

Lemma profile t : 1 <= t <= IZR (p_th p) ->
  0 <= sig_func p t /\ 0 <= a_func p t /\ 0 < sig_func p t + a_func p t /\
  (t < IZR (p_th p) -> 0 < sig_func p t) /\ (t = IZR (p_th p) -> sig_func p t = 0).
Proof.
  intros [H1 H2]. assert (T := th_pos).
  assert (A : 0 <= a_func p t). { rewrite a_eq. apply Rmult_le_pos; [lra|]. apply Rle_mult_inv_pos; lra. }
  assert (S : 0 <= sig_func p t). { rewrite sig_eq. apply Rmult_le_pos; [lra|]. apply pow_le, Rle_mult_inv_pos; lra. }
  assert (S' : t < IZR (p_th p) -> 0 < sig_func p t).
  { intros H. rewrite sig_eq. apply Rmult_lt_0_compat; [lra|]. apply pow_lt, Rlt_mult_inv_pos; lra. }
  repeat split; auto.
  - destruct (Rlt_le_dec t (IZR (p_th p))) as [H|H]; [specialize (S' H); lra|].
    assert (0 < a_func p t); [|lra]. rewrite a_eq. apply Rmult_lt_0_compat; [lra|]. apply Rlt_mult_inv_pos; [|exact T].
    rewrite minus_IZR in T. lra.
  - intros ->. rewrite sig_eq. unfold Rminus. rewrite Rplus_opp_r. unfold Rdiv. rewrite Rmult_0_l. cbn. ring.
Qed.

Lemma b_eq t : b_func p t = exp (- p_dt p * (sig_func p t + a_func p t)).
Proof. unfold b_func. rewrite k_func_1. rnum. f_equal. field. Qed.
Lemma c_eq t : c_func p t = sig_func p t / (sig_func p t + a_func p t) * (b_func p t - 1).
Proof.
  unfold c_func. rewrite k_func_1. rnum. change (Z.to_nat 2) with 2%nat.
  replace (sig_func p t * 1 + 1 ^ 2 * a_func p t) with (sig_func p t + a_func p t) by ring. reflexivity.
Qed.

Lemma coef_bounds t : 1 <= t <= IZR (p_th p) ->
  0 < b_func p t < 1 /\ -1 < c_func p t <= 0 /\ Rabs (c_func p t) <= 1 - b_func p t.
Proof.
  intros Ht. destruct (profile t Ht) as (S & A & SA & _ & _).
  assert (B : 0 < b_func p t < 1).
  { rewrite b_eq. split; [apply exp_pos|]. rewrite <- exp_0. apply exp_increasing.
    assert (0 < p_dt p * (sig_func p t + a_func p t)) by now apply Rmult_lt_0_compat. lra. }
  assert (F : 0 <= sig_func p t / (sig_func p t + a_func p t) <= 1).
  { split; [apply Rle_mult_inv_pos; lra|]. apply (Rmult_le_reg_r (sig_func p t + a_func p t)); [exact SA|].
    unfold Rdiv. rewrite Rmult_assoc, Rinv_l by lra. lra. }
  set (f := sig_func p t / (sig_func p t + a_func p t)) in *.
  assert (C : @eq R (c_func p t) (- (f * (1 - b_func p t)))%R) by (rewrite c_eq; fold f; change (@T RNum) with R; ring).
  assert (0 <= f * (1 - b_func p t) <= 1 * (1 - b_func p t)).
  { split; [apply Rmult_le_pos; lra|]. apply Rmult_le_compat_r; lra. }
  split; [exact B|]. rewrite C. split; [lra|]. rewrite Rabs_Ropp, Rabs_pos_eq; lra.
Qed.
Lemma c_edge : c_func p (IZR (p_th p)) = 0.
Proof.
  assert (Hq := th_pos). rewrite minus_IZR in Hq.
  destruct (profile (IZR (p_th p))) as (_ & _ & _ & _ & Z0); [lra|]. rewrite c_eq, (Z0 eq_refl). change (@T RNum) with R. unfold Rdiv. ring.
Qed.
End Bounds.

(** the parameters of a grid *)
Lemma par_ok g : (2 <= g_pml g)%Z -> (0 < g_dx g)%R -> (2 * g_dt g = g_dx g)%R ->
  let p := mk_pml_par (N := RNum) g in
  (2 <= p_th p)%Z /\ (0 < p_dx p)%R /\ (0 < p_dt p)%R /\ p_m p = 3%Z /\ p_ma p = 1%Z /\ p_kmax p = 1%R /\
  (0 < p_sigmax p)%R /\ (0 < p_amax p)%R.
Proof.
  intros H1 H2 H3 p. cbn. rnum. repeat split; try assumption; try lra.
  assert (0 < / g_dx g)%R by now apply Rinv_0_lt_compat. unfold Rdiv. rewrite Rmult_1_r.
  apply Rmult_lt_0_compat; lra.
Qed.

Lemma state_coef g s : (0 <= g_pml g)%Z -> reachable g s ->
  forall d, (0 <= d <= g_pml g)%Z -> coef_at (mk_pml_par g) (p_coef (ph_pml (f_ph s))) d.
Proof.
  intros H0 Hr d Hd. destruct (reachable_engine g s Hr) as (c & sc & Ec & _ & Ee). injection Ee as _ _ _ -> _.
  exact (mk_pml_coef_val (mk_pml_par g) c H0 Ec d Hd).
Qed.

(** ** The edge row of the electric layers carries no memory *)
Section Edge.
Variable g : grid (N := RNum).
Let th := g_pml g.
Definition edge_free (s : pml_psi) : Prop :=
  (forall j, tval (Ezx1 s) th j = 0%R /\ tval (Ezx2 s) th j = 0%R) /\
  (forall i, tval (Ezy1 s) i th = 0%R /\ tval (Ezy2 s) i th = 0%R).
Definition edge_coef (c : pml_coef) : Prop := aval (ce_x c) th = 0%R /\ aval (ce_y c) th = 0%R.

Ltac cells := repeat match goal with
  | H : tget _ _ _ = Ok _ |- _ => apply tget_inv in H; destruct H as (_ & _ & ->)
  | H : tset _ _ _ _ = Ok _ |- _ => apply tset_inv in H; destruct H as (_ & _ & ->)
  | H : aget _ _ = Ok _ |- _ => apply aget_val in H; subst
  end.
Lemma dead_value b q d x : q = 0%R -> (b * q + 0 * d / x = 0)%R.
Proof. intros ->. unfold Rdiv. ring. Qed.

(** cells the layers along y (x) do not reach, or only with their edge row *)
Lemma Ey_edge p c Cb hx p1 p2 E p1' p2' E' :
  p_th p = th -> p_Ny p = g_Ny g -> aval (ce_y c) th = 0%R ->
  (forall i, tval p1 i th = 0%R /\ tval p2 i th = 0%R) ->
  pml_Ey p c Cb hx (p1, p2, E) = Ok (p1', p2', E') ->
  (forall i, tval p1' i th = 0%R /\ tval p2' i th = 0%R) /\
  (forall i j, th <= j <= g_Ny g - 1 - th -> tval E' i j = tval E i j).
Proof.
  intros Et En Ec H0 H. unfold pml_Ey in H.
  apply (for_up_pres (fun s : tensor * tensor * tensor => (forall i, tval (fst (fst s)) i th = 0%R /\ tval (snd (fst s)) i th = 0%R) /\
    (forall i j, th <= j <= g_Ny g - 1 - th -> tval (snd s) i j = tval E i j))) in H; [exact H|split; [exact H0|reflexivity]|].
  clear H p1' p2' E'. intros i s s' Hi Hs H.
  apply (for_up_pres (fun s : tensor * tensor * tensor => (forall i, tval (fst (fst s)) i th = 0%R /\ tval (snd (fst s)) i th = 0%R) /\
    (forall i j, th <= j <= g_Ny g - 1 - th -> tval (snd s) i j = tval E i j))) in H; [exact H|exact Hs|].
  clear s Hs s' H H0 p1 p2. intros j [[p1 p2] F] [[p1' p2'] F'] Hj [H0 HF] H. cbn [fst snd] in *.
  unfold Ey_body in H. inv_ok. cells. rewrite Et, En in *.
  assert (Z : forall a k v, tval (tupd a k j v) k th = (if (th =? j)%Z then v else tval a k th)).
  { intros a k v. destruct (Z.eqb_spec th j) as [->|]; [apply tupd_same|apply tupd_other; intros [_ K]; lia]. }
  assert (M : forall (a : tensor) k v, (forall k', tval a k' th = 0%R) -> (th = j -> v = 0%R) -> forall k', tval (tupd a k j v) k' th = 0%R).
  { intros a k v Ka Kv k'. destruct (Z.eq_dec k' k) as [->|Hn].
    - rewrite Z. destruct (Z.eqb_spec th j); auto.
    - rewrite tupd_other by (intros [K _]; lia). apply Ka. }
  rnum.
  assert (V1 : th = j -> (aval (be_y c) j * tval p1 i j + aval (ce_y c) j * (tval hx i j - tval hx i (j - 1)) / p_dx p = 0)%R).
  { intros <-. rewrite Ec. apply dead_value, H0. }
  assert (V2 : th = j -> (aval (be_y c) j * tval p2 i j + aval (ce_y c) j * (tval hx i (g_Ny g - 1 - j) - tval hx i (g_Ny g - 1 - j - 1)) / p_dx p = 0)%R).
  { intros <-. rewrite Ec. apply dead_value, H0. }
  split.
  - intros k. split; apply M; auto; intros k'; apply H0.
  - intros k l Hl.
    assert (W : forall (a : tensor) r v, (k = i -> l = r -> v = tval a i r) -> tval (tupd a i r v) k l = tval a k l).
    { intros a r v K. destruct (Z.eq_dec k i) as [->|Hn]; [destruct (Z.eq_dec l r) as [->|Hn]|].
      - rewrite tupd_same. now apply K.
      - apply tupd_other. intros [_ ?]. lia.
      - apply tupd_other. intros [? _]. lia. }
    rewrite W; [rewrite W; [now apply HF|]|].
    + intros -> ->. rewrite tupd_same, V1 by lia. change (@T RNum) with R. ring.
    + intros -> ->. rewrite (tupd_same p2), V2 by lia. change (@T RNum) with R. ring.
Qed.
Lemma Ex_edge p c Cb hy p1 p2 E p1' p2' E' :
  p_th p = th -> p_Nx p = g_Nx g -> aval (ce_x c) th = 0%R ->
  (forall j, tval p1 th j = 0%R /\ tval p2 th j = 0%R) ->
  pml_Ex p c Cb hy (p1, p2, E) = Ok (p1', p2', E') ->
  (forall j, tval p1' th j = 0%R /\ tval p2' th j = 0%R) /\
  (forall i j, th <= i <= g_Nx g - 1 - th -> tval E' i j = tval E i j).
Proof.
  intros Et En Ec H0 H. unfold pml_Ex in H.
  apply (for_up_pres (fun s : tensor * tensor * tensor => (forall j, tval (fst (fst s)) th j = 0%R /\ tval (snd (fst s)) th j = 0%R) /\
    (forall i j, th <= i <= g_Nx g - 1 - th -> tval (snd s) i j = tval E i j))) in H; [exact H|split; [exact H0|reflexivity]|].
  clear H p1' p2' E'. intros i s s' Hi Hs H.
  apply (for_up_pres (fun s : tensor * tensor * tensor => (forall j, tval (fst (fst s)) th j = 0%R /\ tval (snd (fst s)) th j = 0%R) /\
    (forall i j, th <= i <= g_Nx g - 1 - th -> tval (snd s) i j = tval E i j))) in H; [exact H|exact Hs|].
  clear s Hs s' H H0 p1 p2. intros j [[p1 p2] F] [[p1' p2'] F'] Hj [H0 HF] H. cbn [fst snd] in *.
  unfold Ex_body in H. inv_ok. cells. rewrite Et, En in *.
  assert (Z : forall a k v, tval (tupd a i k v) th k = (if (th =? i)%Z then v else tval a th k)).
  { intros a k v. destruct (Z.eqb_spec th i) as [->|]; [apply tupd_same|apply tupd_other; intros [K _]; lia]. }
  assert (M : forall (a : tensor) k v, (forall k', tval a th k' = 0%R) -> (th = i -> v = 0%R) -> forall k', tval (tupd a i k v) th k' = 0%R).
  { intros a k v Ka Kv k'. destruct (Z.eq_dec k' k) as [->|Hn].
    - rewrite Z. destruct (Z.eqb_spec th i); auto.
    - rewrite tupd_other by (intros [_ K]; lia). apply Ka. }
  rnum.
  assert (V1 : th = i -> (aval (be_x c) i * tval p1 i j + aval (ce_x c) i * (tval hy i j - tval hy (i - 1) j) / p_dx p = 0)%R).
  { intros <-. rewrite Ec. apply dead_value, H0. }
  assert (V2 : th = i -> (aval (be_x c) i * tval p2 i j + aval (ce_x c) i * (tval hy (g_Nx g - 1 - i) j - tval hy (g_Nx g - 1 - i - 1) j) / p_dx p = 0)%R).
  { intros <-. rewrite Ec. apply dead_value, H0. }
  split.
  - intros k. split; apply M; auto; intros k'; apply H0.
  - intros k l Hl.
    assert (W : forall (a : tensor) r v, (k = r -> l = j -> v = tval a r j) -> tval (tupd a r j v) k l = tval a k l).
    { intros a r v K. destruct (Z.eq_dec k r) as [->|Hn]; [destruct (Z.eq_dec l j) as [->|Hn]|].
      - rewrite tupd_same. now apply K.
      - apply tupd_other. intros [_ ?]. lia.
      - apply tupd_other. intros [? _]. lia. }
    rewrite W; [rewrite W; [now apply HF|]|].
    + intros -> ->. rewrite tupd_same, V1 by lia. change (@T RNum) with R. ring.
    + intros -> ->. rewrite (tupd_same p2), V2 by lia. change (@T RNum) with R. ring.
Qed.

Definition edge_state (p : phys) : Prop := edge_coef (p_coef (ph_pml p)) /\ p_par (ph_pml p) = mk_pml_par g /\ edge_free (p_psi (ph_pml p)).

Lemma pml_E_edge b Cb X Y E b' E' :
  edge_coef (p_coef b) -> p_par b = mk_pml_par g -> edge_free (p_psi b) -> pml_update_E b Cb X Y E = Ok (b', E') ->
  edge_free (p_psi b') /\
  (forall i j, th <= i <= g_Nx g - 1 - th -> th <= j <= g_Ny g - 1 - th -> tval E' i j = tval E i j).
Proof.
  intros [C1 C2] Ep [F1 F2] H. unfold pml_update_E in H. rewrite Ep in H.
  apply bind_ok in H. destruct H as ([[y1 y2] E1] & Hy & H). apply bind_ok in H. destruct H as ([[x1 x2] E2] & Hx & H).
  injection H as <- <-. apply Ey_edge in Hy; auto. apply Ex_edge in Hx; auto.
  destruct Hy as [Y1 Y2], Hx as [X1 X2]. split; [split; assumption|]. intros i j Hi Hj. rewrite X2, Y2 by assumption. reflexivity.
Qed.

Definition sameY (H : tensor) (s : tensor * tensor * tensor) : Prop := forall i j, th <= j <= g_Ny g - 2 - th -> tval (snd s) i j = tval H i j.
Definition sameX (H : tensor) (s : tensor * tensor * tensor) : Prop := forall i j, th <= i <= g_Nx g - 2 - th -> tval (snd s) i j = tval H i j.
Lemma Hx_edge p c Db E p1 p2 H p1' p2' H' :
  p_th p = th -> p_Ny p = g_Ny g ->
  pml_Hx p c Db E (p1, p2, H) = Ok (p1', p2', H') ->
  forall i j, th <= j <= g_Ny g - 2 - th -> tval H' i j = tval H i j.
Proof.
  intros Et En K. unfold pml_Hx in K.
  apply (for_up_pres (sameY H)) in K; [exact K|intros ? ? ?; reflexivity|].
  clear K p1' p2' H'. intros i s s' Hi Hs K.
  apply (for_up_pres (sameY H)) in K; [exact K|exact Hs|].
  clear s Hs s' K p1 p2. intros j [[p1 p2] F] [[p1' p2'] F'] Hj HF K. unfold sameY in *. cbn [fst snd] in *.
  unfold Hx_body in K. inv_ok. cells. rewrite Et, En in *. intros k l Hl.
  rewrite !tupd_other by lia. now apply HF.
Qed.
Lemma Hy_edge p c Db E p1 p2 H p1' p2' H' :
  p_th p = th -> p_Nx p = g_Nx g ->
  pml_Hy p c Db E (p1, p2, H) = Ok (p1', p2', H') ->
  forall i j, th <= i <= g_Nx g - 2 - th -> tval H' i j = tval H i j.
Proof.
  intros Et En K. unfold pml_Hy in K.
  apply (for_up_pres (sameX H)) in K; [exact K|intros ? ? ?; reflexivity|].
  clear K p1' p2' H'. intros i s s' Hi Hs K.
  apply (for_up_pres (sameX H)) in K; [exact K|exact Hs|].
  clear s Hs s' K p1 p2. intros j [[p1 p2] F] [[p1' p2'] F'] Hj HF K. unfold sameX in *. cbn [fst snd] in *.
  unfold Hy_body in K. inv_ok. cells. rewrite Et, En in *. intros k l Hl.
  rewrite !tupd_other by lia. now apply HF.
Qed.
Lemma pml_H_edge b Db E X Y b' X' Y' : p_par b = mk_pml_par g -> pml_update_H b Db E X Y = Ok (b', X', Y') ->
  (forall i j, th <= j <= g_Ny g - 2 - th -> tval X' i j = tval X i j) /\
  (forall i j, th <= i <= g_Nx g - 2 - th -> tval Y' i j = tval Y i j) /\
  (edge_free (p_psi b) -> edge_free (p_psi b')).
Proof.
  intros Ep H. unfold pml_update_H in H. rewrite Ep in H.
  apply bind_ok in H. destruct H as ([[y1 y2] E1] & Hy & H). apply bind_ok in H. destruct H as ([[x1 x2] E2] & Hx & H).
  injection H as <- <- <-. split; [|split].
  - exact (Hx_edge (mk_pml_par g) _ _ _ _ _ _ _ _ _ eq_refl eq_refl Hy).
  - exact (Hy_edge (mk_pml_par g) _ _ _ _ _ _ _ _ _ eq_refl eq_refl Hx).
  - intros F. exact F.
Qed.

Lemma edge_keeps : keeps edge_state.
Proof.
  constructor; unfold edge_state; intros; auto.
  - unfold step_clock in H0. inv_ok. exact H.
  - destruct (step_prev_frame p) as (-> & _). exact H.
  - unfold step_E in H0. inv_ok. exact H.
  - destruct H as (A & B & C). unfold step_pmlE in H0. apply bind_ok in H0. destruct H0 as ([b E] & Hb & H0). injection H0 as <-. cbn.
    assert (K := pml_update_E_par _ _ _ _ _ _ _ Hb). destruct K as [K1 K2].
    destruct (pml_E_edge _ _ _ _ _ _ _ A B C Hb) as [D _]. rewrite K1, K2. auto.
  - destruct (step_polar_frame _ _ H0) as (-> & _). exact H.
  - destruct (step_tfsfD_frame _ _ H0) as (-> & _). exact H.
  - destruct (step_tfsf_pulse_frame _ _ H0) as (-> & _). exact H.
  - unfold step_H in H0. apply bind_ok in H0. destruct H0 as ([hx hy] & _ & H0). injection H0 as <-. exact H.
  - destruct H as (A & B & C). unfold step_pmlH in H0. apply bind_ok in H0. destruct H0 as ([[b X] Y] & Hb & H0). injection H0 as <-. cbn.
    assert (K := pml_update_H_par _ _ _ _ _ _ _ _ Hb). destruct K as [K1 K2].
    destruct (pml_H_edge _ _ _ _ _ _ _ _ B Hb) as (_ & _ & D). rewrite K1, K2. auto.
  - destruct (step_tfsfH_frame _ _ H0) as (-> & _). exact H.
  - unfold paint_phys in H0. inv_ok. exact H.
  - unfold insert_material in H0. destruct (m_kind (o_mat o)); inv_ok; exact H.
  - unfold reinsert_material in H0. destruct (m_kind (o_mat o)); inv_ok; exact H.
Qed.

Lemma reachable_edge s : (2 <= g_pml g)%Z -> (0 < g_dx g)%R -> (2 * g_dt g = g_dx g)%R -> reachable g s -> edge_state (f_ph s).
Proof.
  intros H1 H2 H3 H. refine (reachable_inv _ edge_keeps g s _ H). intros p Hp.
  unfold mk_phys, mk_pml, mk_pml_psi in Hp. inv_ok. unfold edge_state. cbn. rnum. cbn.
  destruct (par_ok g H1 H2 H3) as (A1 & A2 & A3 & A4 & A5 & A6 & A7 & A8).
  match goal with K : mk_pml_coef _ = Ok ?c |- _ => assert (K' := mk_pml_coef_val (mk_pml_par g) c ltac:(lia) K th ltac:(cbn [p_th mk_pml_par]; unfold th; lia)) end.
  destruct K' as ((K1 & K2 & K3 & K4) & _).
  assert (Ce := c_edge (mk_pml_par g) A1 A4 A5 A6 A7 A8). cbn [p_th mk_pml_par] in Ce.
  split; [split; [rewrite K2; exact Ce|rewrite K4; exact Ce]|]. split; [reflexivity|].
  unfold tconst in *. repeat match goal with H : (if ?b then _ else _) = Ok _ |- _ => destruct b; inversion H; clear H; subst end.
  cbn. split; intros; split; reflexivity.
Qed.
End Edge.
