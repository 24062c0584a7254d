(** The material equations solved by one update(). *)
From Coq Require Import ZArith Reals String List Bool Lia Lra Permutation.
From Verif Require Import Scalar Base BaseFacts VecM GridM GeometryM MaterialM PmlM DftM TfsfM PolarM
  InterpM H5M ClockM MonitorM FieldM GridFacts OutFacts PhysFacts PaintFacts WfFacts ReachFacts InvFacts SpecStep StepFacts
  EngineFacts YeeFacts SpecSource SourceFacts SpecMedium PolarFacts FullStep SpecRim MediumFacts SpecMaterial MediaFacts.
Import ListNotations.
Local Open Scope R_scope.
#[local] Existing Instance RNum.

(** ** Sums *)
Lemma rsum_ext n f h : (forall k, (k < n)%nat -> f k = h k) -> rsum n f = rsum n h.
Proof. induction n as [|n IH]; intros H; cbn [rsum]; [reflexivity|]. rewrite IH by (intros; apply H; lia). now rewrite H by lia. Qed.
Lemma rsum_add n f h : rsum n (fun k => f k + h k) = rsum n f + rsum n h.
Proof. induction n as [|n IH]; cbn [rsum]; [ring|]. rewrite IH. ring. Qed.
Lemma rsum_scal n c f : rsum n (fun k => c * f k) = c * rsum n f.
Proof. induction n as [|n IH]; cbn [rsum]; [ring|]. rewrite IH. ring. Qed.
Lemma rsum_nonneg n f : (forall k, (k < n)%nat -> 0 <= f k) -> 0 <= rsum n f.
Proof. induction n as [|n IH]; intros H; cbn [rsum]; [lra|]. assert (0 <= rsum n f) by (apply IH; intros; apply H; lia). assert (0 <= f n) by (apply H; lia). lra. Qed.
Lemma rsum_S n f : rsum (S n) f = f O + rsum n (fun k => f (S k)).
Proof. induction n as [|n IH]; [cbn; ring|]. change (rsum (S (S n)) f) with (rsum (S n) f + f (S n)). rewrite IH. cbn [rsum]. ring. Qed.
Lemma rsum_split n m f : rsum (n + m) f = rsum n f + rsum m (fun k => f (n + k)%nat).
Proof. induction m as [|m IH]; [rewrite Nat.add_0_r; cbn; ring|]. rewrite Nat.add_succ_r. cbn [rsum]. rewrite IH. ring. Qed.

Lemma fold_sum l a : fold_left Rplus l a = a + fold_left Rplus l 0.
Proof. revert a. induction l as [|x l IH]; intros a; cbn [fold_left]; [ring|]. rewrite IH, (IH (0 + x)). ring. Qed.
Lemma nsum_rsum (l : list R) : nsum l = rsum (length l) (fun k => nth k l 0).
Proof.
  induction l as [|x l IH]; [reflexivity|]. cbn [length]. rewrite rsum_S. cbn [nth].
  replace (nsum (x :: l)) with (x + nsum l); [now rewrite IH|].
  unfold nsum. cbn [fold_left]. rnumg. rewrite (fold_sum l (0 + x)). ring.
Qed.

(** ** The chain of pole updates: every pole subtracts a fixed amount from the field *)
Lemma chain_sum n (a : nat -> R) (fj : Z -> R -> R) (e0 e1 : R) (J' : Z -> R) :
  chain (Z.of_nat n) (fun k e => e - a (Z.to_nat k)) fj e0 e1 J' ->
  e1 = e0 - rsum n a /\ forall k, (k < n)%nat -> J' (Z.of_nat k) = fj (Z.of_nat k) (e0 - rsum (S k) a).
Proof.
  intros (e & A & B & C). rnum. assert (G : forall k, (k <= n)%nat -> e (Z.of_nat k) = e0 - rsum k a).
  { induction k as [|k IH]; intros Hk; [cbn [Z.of_nat rsum]; rewrite A; rnumg; ring|].
    rewrite Nat2Z.inj_succ, <- Z.add_1_r, (proj1 (C (Z.of_nat k) ltac:(lia))), IH, Nat2Z.id by lia. cbn [rsum]. rnumg. ring. }
  split; [now rewrite <- B, G|]. intros k Hk. rewrite (proj2 (C (Z.of_nat k) ltac:(lia))).
  f_equal. rewrite <- G by lia. f_equal. lia.
Qed.

(** ** Coefficients *)
Lemma simple_coefs m dt : 0 < dt -> 0 < sm_eps m -> 0 <= sm_conduc m ->
  Rabs (mat_Ca (KSimple m) dt) <= 1 /\ 0 < mat_Cb (KSimple m) dt /\ (sm_conduc m = 0 -> mat_Ca (KSimple m) dt = 1).
Proof.
  intros Hd He Hs. cbn [mat_Ca mat_Cb]. unfold simple_Ca, simple_Cb. rnumg. set (x := sm_conduc m * dt / (2 * sm_eps m)).
  assert (Hx : 0 <= x). { unfold x. apply Rmult_le_pos; [nra|]. apply Rlt_le, Rinv_0_lt_compat. lra. }
  split; [|split].
  - apply Rabs_le. split; [apply Rmult_le_reg_r with (1 + x)|apply Rmult_le_reg_r with (1 + x)]; try lra;
      unfold Rdiv; rewrite Rmult_assoc, Rinv_l by lra; lra.
  - apply Rdiv_lt_0_compat; [apply Rdiv_lt_0_compat; lra|lra].
  - intros E. assert (x = 0) by (unfold x; rewrite E; field; lra). rewrite H. field.
Qed.

(** ** Simple media *)
Section Cell.
Variables (p p' : phys) (i j : Z).
Notation g := (ph_grid p).
Notation dt := (g_dt g).
Notation E := (Ez_at p i j).
Notation E' := (Ez_at p' i j).
Notation curl := (curl_at p i j).
Hypotheses (Ha : apart g) (Hw : wf_phys p) (Ht : tame p) (Hf : off_E (ph_tfsf p) i j) (Hs : phys_step p = Fine p').
Hypotheses (Hi : (1 <= i < g_Nx g - 1)%Z) (Hj : (1 <= j < g_Ny g - 1)%Z).
Hypotheses (Hd : 0 < dt) (Hu : undriven (ph_t p + dt) g (ph_srcs p) Ez i j).

Lemma simple_step m : simple_only p m i j -> E' = simple_Ca m dt * E + simple_Cb m dt * curl.
Proof.
  intros ((Ca & Cb) & Z1 & Z2 & Z3).
  destruct (step_media p p' Ha Hw Hs) as (E0 & E1 & E2 & E3 & V0 & K1 & K2 & K3 & (Ls & HL & V3) & _).
  rewrite Z3 in K3. cbn [polar_all] in K3. injection K3 as _ ->.
  destruct Ht as (_ & T1 & T2 & _).
  unfold Ez_at at 1. rewrite V3, (tf_off_E _ _ _ _ Hf). rewrite (undriven_lit _ _ _ _ _ _ _ _ Hu HL).
  rewrite (idle_drude _ _ _ _ _ _ i j T2 ltac:(lia) ltac:(lia) Z2 K2).
  rewrite (idle_debye _ _ _ _ _ _ i j T1 ltac:(lia) ltac:(lia) Z1 K1).
  rewrite V0, (yee_value p i j Hi Hj), Ca, Cb. reflexivity.
Qed.
Lemma simple_law m : 0 < sm_eps m -> 0 <= sm_conduc m -> simple_only p m i j ->
  conductor_law (sm_eps m) (sm_conduc m) dt E E' curl.
Proof.
  intros He Hc Ho. unfold conductor_law. rewrite (simple_step m Ho). unfold simple_Ca, simple_Cb. rnumg.
  assert (2 * sm_eps m + sm_conduc m * dt <> 0) by nra. field. repeat split; try lra. 
Qed.

(** ** Debye media of any number of poles *)
Definition dpos (d : dpole) : Prop := 0 < dp_tau d /\ 0 <= dp_deps d.
Lemma debye_kappa_range d : 0 < dp_tau d -> -1 < debye_kappa1 dt d < 1.
Proof.
  intros H. unfold debye_kappa1. rnumg. assert (0 < dt / (2 * dp_tau d)) by (apply Rdiv_lt_0_compat; lra). set (x := dt / (2 * dp_tau d)) in *.
  split; apply Rmult_lt_reg_r with (1 + x); try lra; unfold Rdiv; rewrite Rmult_assoc, Rinv_l by lra; lra.
Qed.
Lemma debye_beta_nonneg d : dpos d -> 0 <= debye_beta1 dt d.
Proof.
  intros [H1 H2]. unfold debye_beta1. rnumg. assert (0 < dt / (2 * dp_tau d)) by (apply Rdiv_lt_0_compat; lra).
  apply Rmult_le_pos; [|apply Rlt_le, Rinv_0_lt_compat; lra]. apply Rmult_le_pos; [nra|]. apply Rlt_le, Rinv_0_lt_compat; lra.
Qed.
(** the pole equation, solved for the new current *)
Lemma debye_pole_solved d J e' : 0 < dp_tau d ->
  debye_law (dp_deps d) (dp_tau d) dt E e' J (debye_kappa1 dt d * J + debye_beta1 dt d / dt * (e' - E)).
Proof.
  intros H. unfold debye_law, debye_kappa1, debye_beta1. rnumg.
  assert (2 * dp_tau d + dt <> 0) by lra. field. repeat split; lra.
Qed.

Lemma nth_map_list {A} (f : A -> R) (l : list A) k d0 a : nth_error l k = Some a -> nth k (map f l) d0 = f a.
Proof. intros H. apply nth_error_nth. rewrite nth_error_map, H. reflexivity. Qed.
Lemma nth_some {A} (l : list A) k : (k < length l)%nat -> exists a, nth_error l k = Some a.
Proof. intros H. destruct (nth_error l k) eqn:K; [eauto|]. apply nth_error_None in K. lia. Qed.

(** amount of polarization current each pole takes from the field *)
Definition debye_share (x : debye) (q : polar) (k : nat) : R :=
  debye_Cb x dt / 2 * (1 + nth k (debye_kappa x dt) 0) * J_at q i j (Z.of_nat k).

Lemma debye_raw n nm x q : debye_only p n nm x q i j ->
  exists q' e1, entry (ph_debye p') n nm x q' /\ pl_c q' = pl_c q /\
    (undriven (ph_t p + dt) g (ph_srcs p) Ez i j -> E' = e1) /\
    e1 = E + debye_Cb x dt * curl - rsum (length (db_poles x)) (debye_share x q) /\
    forall k d, nth_error (db_poles x) k = Some d ->
      J_at q' i j (Z.of_nat k) = debye_kappa1 dt d * J_at q i j (Z.of_nat k) + debye_beta1 dt d / dt *
        (E + debye_Cb x dt * curl - rsum (S k) (debye_share x q) - E).
Proof.
  intros Ho. destruct (debye_step p p' i j Ha Hw Ht Hf Hs Hi Hj n nm x q Ho) as (q' & En & Ec & Eq & e1 & He & W).
  exists q', e1. split; [exact En|]. split; [exact Ec|]. split; [exact He|]. unfold np_debye in W.
  eapply chain_extf in W; [apply (chain_sum _ (debye_share x q)) in W| |intros; reflexivity].
  - destruct W as [W1 W2]. split; [exact W1|]. intros k d Hk. rewrite W2 by (apply nth_error_Some; congruence). rnumg.
    rewrite Nat2Z.id. unfold debye_kappa, debye_beta. now rewrite !(nth_map_list _ _ _ _ d) by exact Hk.
  - cbn beta. intros k e Hk. unfold debye_share. rewrite Z2Nat.id by lia. rnumg. field.
Qed.

Lemma debye_formula n nm x q : debye_only p n nm x q i j ->
  exists q', entry (ph_debye p') n nm x q' /\ pl_c q' = pl_c q /\
    E' = E + debye_Cb x dt * curl - rsum (length (db_poles x)) (debye_share x q) /\
    forall k d, nth_error (db_poles x) k = Some d ->
      J_at q' i j (Z.of_nat k) = debye_kappa1 dt d * J_at q i j (Z.of_nat k) + debye_beta1 dt d / dt *
        (E + debye_Cb x dt * curl - rsum (S k) (debye_share x q) - E).
Proof.
  intros Ho. destruct (debye_raw n nm x q Ho) as (q' & e1 & A & B & C & D & F). exists q'. rewrite (C Hu). auto.
Qed.

(** E' solves Ampere's law together with the pole equations *)
Lemma debye_solves n nm x q : 0 < db_eps x -> Forall dpos (db_poles x) -> debye_only p n nm x q i j ->
  let np := length (db_poles x) in
  let J k := J_at q i j (Z.of_nat k) in
  exists q' Jx, entry (ph_debye p') n nm x q' /\
    (forall k d, nth_error (db_poles x) k = Some d -> debye_law (dp_deps d) (dp_tau d) dt E E' (J k) (Jx k)) /\
    ampere (db_eps x) dt E E' curl (rsum np J) (rsum np Jx) /\
    forall k d, nth_error (db_poles x) k = Some d -> J_at q' i j (Z.of_nat k) = Jx k +
      debye_beta1 dt d / dt * (rsum (np - S k) (fun l => debye_share x q (S k + l))).
Proof.
  intros He Hp Ho np J. destruct (debye_formula n nm x q Ho) as (q' & En & _ & EE & JJ).
  set (Jx := fun k => nth k (debye_kappa x dt) 0 * J k + nth k (debye_beta x dt) 0 / dt * (E' - E)).
  exists q', Jx. split; [exact En|]. rewrite Forall_forall in Hp. split; [|split].
  - intros k d Hk. unfold Jx, debye_kappa, debye_beta. rewrite !(nth_map_list _ _ _ _ d) by exact Hk.
    apply debye_pole_solved. apply Hp. eapply nth_error_In; exact Hk.
  - assert (Sb : nsum (debye_beta x dt) = rsum np (fun k => nth k (debye_beta x dt) 0)).
    { rewrite nsum_rsum. unfold debye_beta at 1. now rewrite map_length. }
    set (s := rsum np (fun k => nth k (debye_beta x dt) 0)) in *.
    assert (Hs0 : 0 <= s).
    { apply rsum_nonneg. intros k Hk. destruct (nth_some (db_poles x) k Hk) as [d Hd']. unfold debye_beta.
      rewrite (nth_map_list _ _ _ _ d) by exact Hd'. apply debye_beta_nonneg, Hp. eapply nth_error_In; exact Hd'. }
    assert (SJ : rsum np J + rsum np Jx = rsum np (fun k => (1 + nth k (debye_kappa x dt) 0) * J k) + s / dt * (E' - E)).
    { unfold Jx. rewrite <- rsum_add. unfold s, Rdiv.
      replace (rsum np (fun k => nth k (debye_beta x dt) 0) * / dt * (E' - E))
        with (rsum np (fun k => (/ dt * (E' - E)) * nth k (debye_beta x dt) 0)) by (rewrite rsum_scal; ring).
      rewrite <- rsum_add. apply rsum_ext. intros; ring. }
    assert (SS : rsum np (debye_share x q) = debye_Cb x dt / 2 * rsum np (fun k => (1 + nth k (debye_kappa x dt) 0) * J k)).
    { rewrite <- rsum_scal. apply rsum_ext. intros. unfold debye_share, J. ring. }
    unfold ampere. replace (rsum np Jx + rsum np J) with (rsum np J + rsum np Jx) by ring. rewrite SJ.
    fold np in EE. rewrite SS in EE.
    assert (Cb : debye_Cb x dt = 2 * dt / (2 * db_eps x + s)) by (unfold debye_Cb; rewrite Sb; reflexivity).
    rewrite Cb in EE. set (S1 := rsum np (fun k => (1 + nth k (debye_kappa x dt) 0) * J k)) in *.
    assert (EE2 : (2 * db_eps x + s) * (E' - E) = 2 * dt * curl - dt * S1) by (rewrite EE; field; lra).
    apply Rmult_eq_reg_l with (2 * dt); [|lra].
    replace (2 * dt * (db_eps x * (E' - E) / dt)) with (2 * db_eps x * (E' - E)) by (field; lra).
    replace (2 * dt * (curl - (S1 + s / dt * (E' - E)) / 2)) with (2 * dt * curl - dt * S1 - s * (E' - E)) by (field; lra). lra.
  - intros k d Hk. rewrite (JJ k d Hk). unfold Jx, debye_kappa, debye_beta. rewrite !(nth_map_list _ _ _ _ d) by exact Hk.
    assert (Hkn : (k < np)%nat) by (apply nth_error_Some; congruence).
    fold (J k). rewrite EE. fold np. replace np with (S k + (np - S k))%nat at 1 by lia. rewrite rsum_split. rnum. ring.
Qed.

(** ** Drude media *)
Definition upos (d : upole) : Prop := 0 <= up_gamma d.
Lemma drude_beta_nonneg d : upos d -> 0 <= drude_beta1 dt d.
Proof.
  intros H. unfold drude_beta1, upos in *. rnumg. assert (0 <= up_gamma d * dt / 2) by (apply Rmult_le_pos; [nra|lra]).
  apply Rmult_le_pos; [|apply Rlt_le, Rinv_0_lt_compat; lra]. apply Rmult_le_pos; [|lra]. apply Rmult_le_pos; [|lra]. apply pow2_ge_0.
Qed.
Lemma drude_kappa_range d : upos d -> -1 < drude_kappa1 dt d <= 1.
Proof.
  intros H. unfold drude_kappa1, upos in *. rnumg. assert (0 <= up_gamma d * dt / 2) by (apply Rmult_le_pos; [nra|lra]).
  set (x := up_gamma d * dt / 2) in *.
  split; [apply Rmult_lt_reg_r with (1 + x)|apply Rmult_le_reg_r with (1 + x)]; try lra; unfold Rdiv; rewrite Rmult_assoc, Rinv_l by lra; lra.
Qed.
Lemma drude_pole_solved d J e' : upos d ->
  drude_law (up_omega d) (up_gamma d) dt E e' J (drude_kappa1 dt d * J + drude_beta1 dt d * (e' + E)).
Proof.
  intros H. unfold drude_law, drude_kappa1, drude_beta1, upos in *. rnumg. change (Z.to_nat 2) with 2%nat.
  assert (2 + up_gamma d * dt <> 0) by nra. field. repeat split; try lra; nra.
Qed.
Definition drude_share (x : drude) (q : polar) (k : nat) : R :=
  drude_Cb x dt / 2 * (1 + nth k (drude_kappa x dt) 0) * J_at q i j (Z.of_nat k).

Lemma drude_formula n nm x q : drude_only p n nm x q i j ->
  exists q', entry (ph_drude p') n nm x q' /\ pl_c q' = pl_c q /\
    E' = drude_Ca x dt * E + drude_Cb x dt * curl - rsum (length (dr_poles x)) (drude_share x q) /\
    forall k d, nth_error (dr_poles x) k = Some d ->
      J_at q' i j (Z.of_nat k) = drude_kappa1 dt d * J_at q i j (Z.of_nat k) + drude_beta1 dt d *
        (drude_Ca x dt * E + drude_Cb x dt * curl - rsum (S k) (drude_share x q) + E).
Proof.
  intros Ho. destruct (drude_step p p' i j Ha Hw Ht Hf Hs Hi Hj n nm x q Ho) as (q' & En & Ec & Eq & e1 & He & W).
  exists q'. split; [exact En|]. split; [exact Ec|]. rewrite (He Hu). unfold np_drude in W.
  eapply chain_extf in W; [apply (chain_sum _ (drude_share x q)) in W| |intros; reflexivity].
  - destruct W as [W1 W2]. split; [exact W1|]. intros k d Hk. rewrite W2 by (apply nth_error_Some; congruence). rnumg.
    rewrite Nat2Z.id. unfold drude_kappa, drude_beta. now rewrite !(nth_map_list _ _ _ _ d) by exact Hk.
  - cbn beta. intros k e Hk. unfold drude_share. rewrite Z2Nat.id by lia. rnumg. field.
Qed.

Lemma drude_solves n nm x q : 0 < dr_eps x -> Forall upos (dr_poles x) -> drude_only p n nm x q i j ->
  let np := length (dr_poles x) in
  let J k := J_at q i j (Z.of_nat k) in
  exists q' Jx, entry (ph_drude p') n nm x q' /\
    (forall k d, nth_error (dr_poles x) k = Some d -> drude_law (up_omega d) (up_gamma d) dt E E' (J k) (Jx k)) /\
    ampere (dr_eps x) dt E E' curl (rsum np J) (rsum np Jx) /\
    forall k d, nth_error (dr_poles x) k = Some d -> J_at q' i j (Z.of_nat k) = Jx k +
      drude_beta1 dt d * (rsum (np - S k) (fun l => drude_share x q (S k + l))).
Proof.
  intros He Hp Ho np J. destruct (drude_formula n nm x q Ho) as (q' & En & _ & EE & JJ).
  set (Jx := fun k => nth k (drude_kappa x dt) 0 * J k + nth k (drude_beta x dt) 0 * (E' + E)).
  exists q', Jx. split; [exact En|]. rewrite Forall_forall in Hp. split; [|split].
  - intros k d Hk. unfold Jx, drude_kappa, drude_beta. rewrite !(nth_map_list _ _ _ _ d) by exact Hk.
    apply drude_pole_solved. apply Hp. eapply nth_error_In; exact Hk.
  - assert (Sb : nsum (drude_beta x dt) = rsum np (fun k => nth k (drude_beta x dt) 0)).
    { rewrite nsum_rsum. unfold drude_beta at 1. now rewrite map_length. }
    set (s := rsum np (fun k => nth k (drude_beta x dt) 0)) in *.
    assert (Hs0 : 0 <= s).
    { apply rsum_nonneg. intros k Hk. destruct (nth_some (dr_poles x) k Hk) as [d Hd']. unfold drude_beta.
      rewrite (nth_map_list _ _ _ _ d) by exact Hd'. apply drude_beta_nonneg, Hp. eapply nth_error_In; exact Hd'. }
    assert (SJ : rsum np J + rsum np Jx = rsum np (fun k => (1 + nth k (drude_kappa x dt) 0) * J k) + s * (E' + E)).
    { unfold Jx. rewrite <- rsum_add. unfold s, Rdiv.
      replace (rsum np (fun k => nth k (drude_beta x dt) 0) * (E' + E))
        with (rsum np (fun k => (E' + E) * nth k (drude_beta x dt) 0)) by (rewrite rsum_scal; ring).
      rewrite <- rsum_add. apply rsum_ext. intros; ring. }
    assert (SS : rsum np (drude_share x q) = drude_Cb x dt / 2 * rsum np (fun k => (1 + nth k (drude_kappa x dt) 0) * J k)).
    { rewrite <- rsum_scal. apply rsum_ext. intros. unfold drude_share, J. ring. }
    unfold ampere. replace (rsum np Jx + rsum np J) with (rsum np J + rsum np Jx) by ring. rewrite SJ.
    fold np in EE. rewrite SS in EE.
    assert (Cb : drude_Cb x dt = 2 * dt / (2 * dr_eps x + dt * s)) by (unfold drude_Cb; rewrite Sb; reflexivity).
    assert (Ca : drude_Ca x dt = (2 * dr_eps x - dt * s) / (2 * dr_eps x + dt * s)) by (unfold drude_Ca; rewrite Sb; reflexivity).
    rewrite Cb, Ca in EE. set (S1 := rsum np (fun k => (1 + nth k (drude_kappa x dt) 0) * J k)) in *. assert (0 < 2 * dr_eps x + dt * s) by nra.
    assert (EE2 : (2 * dr_eps x + dt * s) * E' = (2 * dr_eps x - dt * s) * E + 2 * dt * curl - dt * S1) by (rewrite EE; field; lra).
    apply Rmult_eq_reg_l with (2 * dt); [|lra].
    replace (2 * dt * (dr_eps x * (E' - E) / dt)) with (2 * dr_eps x * (E' - E)) by (field; lra).
    replace (2 * dt * (curl - (S1 + s * (E' + E)) / 2)) with (2 * dt * curl - dt * S1 - dt * s * (E' + E)) by (field; lra). lra.
  - intros k d Hk. rewrite (JJ k d Hk). unfold Jx, drude_kappa, drude_beta. rewrite !(nth_map_list _ _ _ _ d) by exact Hk.
    assert (Hkn : (k < np)%nat) by (apply nth_error_Some; congruence).
    fold (J k). rewrite EE. fold np. replace np with (S k + (np - S k))%nat at 1 by lia. rewrite rsum_split. rnum. ring.
Qed.

(** ** Lorentz media *)
Definition lpos (d : lpole) : Prop := 0 <= lp_gamma d /\ 0 <= lp_deps d.
Lemma lorentz_delta_nonneg d : lpos d -> 0 <= lorentz_delta1 dt d.
Proof.
  intros [H1 H2]. unfold lorentz_delta1. rnumg. assert (0 <= lp_gamma d * dt) by nra.
  apply Rmult_le_pos; [|apply Rlt_le, Rinv_0_lt_compat; lra]. apply Rmult_le_pos; [apply Rmult_le_pos; [lra|]|]; apply pow2_ge_0.
Qed.
Lemma lorentz_pole_solved d J0 J e0 e' : 0 <= lp_gamma d ->
  resonator_law (lp_omega d) (lp_deps d) (lp_gamma d) dt e0 e' J0 J
    (lorentz_alpha1 dt d * J + lorentz_beta1 dt d * J0 + lorentz_delta1 dt d / (2 * dt) * (e' - e0)).
Proof.
  intros H. unfold resonator_law, lorentz_alpha1, lorentz_beta1, lorentz_delta1. rnumg. change (Z.to_nat 2) with 2%nat.
  assert (1 + lp_gamma d * dt <> 0) by nra. assert (lp_gamma d * dt + 1 <> 0) by nra. field. repeat split; try lra; nra.
Qed.
Definition lorentz_share (x : lorentz) (q : polar) (e2 : R) (k : nat) : R :=
  lorentz_Cb x dt / 2 * ((1 + nth k (lorentz_alpha x dt) 0) * J_at q i j (Z.of_nat k)
    + nth k (lorentz_beta x dt) 0 * t3val (pl_pJ q) i j (Z.of_nat k)) - lorentz_Ca_prev x dt * e2.

Lemma lorentz_formula nm x q : lorentz_only p nm x q i j ->
  exists q' e2, ph_lorentz p' = [(nm, (x, q'))] /\ pl_c q' = pl_c q /\ ph_prevE p = Some e2 /\
    E' = lorentz_Ca x dt * E + lorentz_Cb x dt * curl - rsum (length (lo_poles x)) (lorentz_share x q (tval e2 i j)) /\
    (forall k, (k < length (lo_poles x))%nat -> t3val (pl_pJ q') i j (Z.of_nat k) = J_at q i j (Z.of_nat k)) /\
    forall k d, nth_error (lo_poles x) k = Some d ->
      J_at q' i j (Z.of_nat k) = lorentz_alpha1 dt d * J_at q i j (Z.of_nat k) + lorentz_beta1 dt d * t3val (pl_pJ q) i j (Z.of_nat k)
        + lorentz_delta1 dt d / (2 * dt) *
        (lorentz_Ca x dt * E + lorentz_Cb x dt * curl - rsum (S k) (lorentz_share x q (tval e2 i j)) - tval e2 i j).
Proof.
  intros Ho. destruct (lorentz_step p p' i j Ha Hw Ht Hf Hs Hi Hj nm x q Ho) as (q' & En & Ec & Eq & e2 & e1 & H2 & He & Hp & W).
  exists q', e2. split; [exact En|]. split; [exact Ec|]. split.
  { destruct (step_media p p' Ha Hw Hs) as (_ & _ & _ & _ & _ & _ & _ & _ & _ & _ & PE2). rewrite PE2 in H2.
    destruct (ph_prev2E p); [exact H2|discriminate]. }
  rewrite (He Hu). unfold np_lorentz in *.
  eapply chain_extf in W; [apply (chain_sum _ (lorentz_share x q (tval e2 i j))) in W| |intros; reflexivity].
  - destruct W as [W1 W2]. split; [exact W1|]. split; [intros; apply Hp; lia|]. intros k d Hk. rewrite W2 by (apply nth_error_Some; congruence). rnumg.
    rewrite Nat2Z.id. unfold lorentz_alpha, lorentz_beta, lorentz_delta. now rewrite !(nth_map_list _ _ _ _ d) by exact Hk.
  - cbn beta. intros k e Hk. unfold lorentz_share. rewrite Z2Nat.id by lia. rnumg. field.
Qed.

(** one pole: the resonator equation holds; Ampere's law is off by a multiple of the field two
    steps back *)
Lemma lorentz_one_pole nm x q d : 0 < lo_eps x -> lpos d -> lo_poles x = [d] -> lorentz_only p nm x q i j ->
  exists q' e2, ph_lorentz p' = [(nm, (x, q'))] /\ ph_prevE p = Some e2 /\
    t3val (pl_pJ q') i j 0 = J_at q i j 0 /\
    resonator_law (lp_omega d) (lp_deps d) (lp_gamma d) dt (tval e2 i j) E' (t3val (pl_pJ q) i j 0) (J_at q i j 0) (J_at q' i j 0) /\
    let s := lorentz_delta1 dt d in
    lo_eps x * (E' - E) / dt = curl - (J_at q' i j 0 + J_at q i j 0) / 2 - s ^ 2 / (8 * dt * (2 * lo_eps x + s)) * tval e2 i j.
Proof.
  intros He Hp Ep Ho. destruct (lorentz_formula nm x q Ho) as (q' & e2 & En & _ & H2 & EE & PJ & JJ).
  exists q', e2. split; [exact En|]. split; [exact H2|]. rewrite Ep in *. cbn [length rsum] in *.
  split; [exact (PJ 0%nat ltac:(lia))|]. specialize (JJ 0%nat d eq_refl). change (Z.of_nat 0) with 0%Z in JJ. cbn [rsum] in JJ. rewrite <- EE in JJ.
  split. { rewrite JJ. apply lorentz_pole_solved. apply Hp. }
  assert (Hs0 := lorentz_delta_nonneg d Hp). set (s := lorentz_delta1 dt d) in *.
  assert (Sd : nsum (lorentz_delta x dt) = s). { unfold lorentz_delta. rewrite Ep. unfold nsum. cbn [map fold_left]. rnumg. unfold s. ring. }
  assert (Cb : lorentz_Cb x dt = 2 * dt / (2 * lo_eps x + s / 2)) by (unfold lorentz_Cb; rewrite Sd; reflexivity).
  assert (Ca : lorentz_Ca x dt = (2 * lo_eps x) / (2 * lo_eps x + s / 2)) by (unfold lorentz_Ca; rewrite Sd; reflexivity).
  assert (Cp : lorentz_Ca_prev x dt = (s / 2) / (2 * lo_eps x + s)) by (unfold lorentz_Ca_prev; rewrite Sd; reflexivity).
  unfold lorentz_share in EE. rewrite Ca, Cb, Cp in EE. unfold lorentz_alpha, lorentz_beta in EE. rewrite Ep in EE. cbn [map nth] in EE.
  change (Z.of_nat 0) with 0%Z in EE.
  set (a := lorentz_alpha1 dt d) in *. set (b := lorentz_beta1 dt d) in *. set (J := J_at q i j 0) in *. set (J0 := t3val (pl_pJ q) i j 0) in *.
  assert (EE2 : (2 * lo_eps x + s / 2) * E' = 2 * lo_eps x * E + 2 * dt * curl - dt * ((1 + a) * J + b * J0)
     + (2 * lo_eps x + s / 2) * ((s / 2) / (2 * lo_eps x + s)) * tval e2 i j) by (rewrite EE; field; lra).
  rewrite JJ. apply Rmult_eq_reg_l with (2 * dt); [|lra].
  replace (2 * dt * (lo_eps x * (E' - E) / dt)) with ((2 * lo_eps x + s / 2) * E' - s / 2 * E' - 2 * lo_eps x * E) by (field; lra).
  rewrite EE2. field. lra.
Qed.
End Cell.
