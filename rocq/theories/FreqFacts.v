(** Media answer with their permittivity: Fourier sums along a run. *)
From Coq Require Import ZArith Reals String List Bool Lia Lra Psatz.
From Verif Require Import Scalar Base BaseFacts VecM GridM GeometryM MaterialM PmlM DftM TfsfM PolarM
  InterpM H5M ClockM MonitorM FieldM SpecGrid GridFacts OutFacts PhysFacts SpecGeometry GeometryFacts SpecPaint PaintFacts WfFacts ReachFacts
  SpecStep StepFacts EngineFacts SpecSource SpecMedium PolarFacts SpecRim MediumFacts StrengthFacts
  MediaFacts SpecMedia MediaRun SpecMaterial MaterialFacts SpecTrace TraceFacts CellFacts MediaCases SpecLoss LossFacts SpecFreq.
Import ListNotations.
Local Open Scope R_scope.
#[local] Existing Instance RNum.

(** ** Complex numbers *)
Lemma cx_eq (a b : cx) : fst a = fst b -> snd a = snd b -> a = b.
Proof. destruct a, b. cbn. congruence. Qed.
Lemma cx_ring : ring_theory (re 0) (re 1) cx_add cx_mul cx_sub cx_opp eq.
Proof. constructor; intros; apply cx_eq; unfold cx_add, cx_mul, cx_sub, cx_opp, re; cbn; ring. Qed.
Lemma cx_nz (a : cx) : a <> re 0 -> fst a ^ 2 + snd a ^ 2 <> 0.
Proof.
  intros H E. apply H. assert (A := pow2_ge_0 (fst a)). assert (B := pow2_ge_0 (snd a)). apply cx_eq; cbn; nra.
Qed.
Lemma cx_field : field_theory (re 0) (re 1) cx_add cx_mul cx_sub cx_opp cx_div cx_inv eq.
Proof.
  constructor; [exact cx_ring| |reflexivity|].
  - intros E. injection E. lra.
  - intros a Ha. assert (N0 := cx_nz a Ha). apply cx_eq; unfold cx_mul, cx_inv, re; cbn [fst snd]; field; intros K; apply N0; rewrite <- K; ring.
Qed.
Add Field cx_f : cx_field.

Lemma cx_abs_mul a b : cx_abs (cx_mul a b) = cx_abs a * cx_abs b.
Proof. unfold cx_abs, cx_mul. cbn [fst snd]. rewrite <- sqrt_mult by nra. f_equal. ring. Qed.
Lemma cx_abs_pos a : 0 <= cx_abs a.
Proof. apply sqrt_pos. Qed.
Lemma cx_abs_re x : cx_abs (re x) = Rabs x.
Proof. unfold cx_abs, re. cbn [fst snd]. rewrite <- sqrt_Rsqr_abs. f_equal. unfold Rsqr. ring. Qed.
Lemma cx_abs_add a b : cx_abs (cx_add a b) <= cx_abs a + cx_abs b.
Proof.
  destruct a as [a b'], b as [c d]. unfold cx_abs, cx_add. cbn [fst snd].
  assert (P := sqrt_pos (a ^ 2 + b' ^ 2)). assert (Q := sqrt_pos (c ^ 2 + d ^ 2)).
  assert (P2 := sqrt_sqrt (a ^ 2 + b' ^ 2) ltac:(nra)). assert (Q2 := sqrt_sqrt (c ^ 2 + d ^ 2) ltac:(nra)).
  set (u := sqrt (a ^ 2 + b' ^ 2)) in *. set (v := sqrt (c ^ 2 + d ^ 2)) in *.
  rewrite <- (sqrt_Rsqr (u + v)) by lra. apply sqrt_le_1_alt. unfold Rsqr.
  assert (C : a * c + b' * d <= u * v).
  { assert (UV : 0 <= u * v) by (now apply Rmult_le_pos).
    destruct (Rle_dec (a * c + b' * d) 0) as [N|N]; [lra|]. apply Rsqr_incr_0_var; [|exact UV]. unfold Rsqr.
    replace (u * v * (u * v)) with ((u * u) * (v * v)) by ring. rewrite P2, Q2. assert (K := pow2_ge_0 (a * d - b' * c)). lra. }
  replace ((u + v) * (u + v)) with (u * u + v * v + 2 * (u * v)) by ring. rewrite P2, Q2. lra.
Qed.
Lemma cx_abs_sub a b : cx_abs (cx_sub a b) <= cx_abs a + cx_abs b.
Proof.
  replace (cx_sub a b) with (cx_add a (cx_mul (re (-1)) b)) by (apply cx_eq; unfold cx_sub, cx_add, cx_mul, re; cbn; ring).
  eapply Rle_trans; [apply cx_abs_add|]. rewrite cx_abs_mul, cx_abs_re. replace (Rabs (-1)) with 1 by (rewrite Rabs_left; lra). lra.
Qed.
Lemma cx_abs_div_le a b m : 0 < m -> m <= cx_abs b -> cx_abs (cx_div a b) <= cx_abs a / m.
Proof.
  intros Hm Hb. assert (Nz : b <> re 0). { intros ->. rewrite cx_abs_re, Rabs_R0 in Hb. lra. }
  assert (E : cx_abs (cx_div a b) * cx_abs b = cx_abs a) by (rewrite <- cx_abs_mul; f_equal; field; exact Nz).
  apply Rmult_le_reg_r with m; [exact Hm|]. replace (cx_abs a / m * m) with (cx_abs a) by (field; lra). rewrite <- E.
  apply Rmult_le_compat_l; [apply cx_abs_pos|exact Hb].
Qed.

(** ** Sums of differences and of averages *)
Section Sums.
Variables (w : R) (x : nat -> R).
(** the two ends of the run, turned by half a step *)
Definition ends (N : nat) : cx :=
  (x N * cos (w * (INR N + / 2)) - x O * cos (w / 2), - (x N * sin (w * (INR N + / 2)) - x O * sin (w / 2))).
Lemma ends_abs N : cx_abs (ends N) <= Rabs (x O) + Rabs (x N).
Proof.
  replace (ends N) with (cx_add (cx_mul (re (x N)) (cos (w * (INR N + / 2)), - sin (w * (INR N + / 2)))) (cx_mul (re (- x O)) (cos (w / 2), - sin (w / 2)))).
  2:{ apply cx_eq; unfold ends, cx_add, cx_mul, re; cbn; ring. }
  eapply Rle_trans; [apply cx_abs_add|]. rewrite !cx_abs_mul, !cx_abs_re, Rabs_Ropp.
  assert (U : forall t, cx_abs (cos t, - sin t) = 1).
  { intros t. unfold cx_abs. cbn [fst snd]. replace (cos t ^ 2 + (- sin t) ^ 2) with 1; [apply sqrt_1|].
    generalize (sin2_cos2 t). unfold Rsqr. lra. }
  rewrite !U. lra.
Qed.
Lemma half_arg n : w * (INR n + / 2) = w * INR (S n) - w / 2 /\ w * (INR (S n) + / 2) = w * INR (S n) + w / 2.
Proof. rewrite S_INR. split; lra. Qed.
Lemma diff_spectrum N : half_spectrum w (fun n => x (S n) - x n) N =
  cx_add (cx_mul (0, 2 * sin (w / 2)) (spectrum w x N)) (ends N).
Proof.
  induction N as [|N IH].
  - apply cx_eq; unfold half_spectrum, spectrum, ends, cx_add, cx_mul; cbn [rsum fst snd]; change (INR 0) with 0;
      replace (w * (0 + / 2)) with (w / 2) by lra; ring.
  - destruct (half_arg N) as [E1 E2]. unfold half_spectrum, spectrum, ends, cx_add, cx_mul in *. cbn [rsum fst snd] in *.
    assert (H1 := f_equal fst IH). assert (H2 := f_equal snd IH). clear IH. cbn [fst snd] in H1, H2. rewrite E2. rewrite E1 in *. set (f := w * INR (S N)) in *.
    rewrite cos_minus, sin_minus, cos_plus, sin_plus in *. apply cx_eq; cbn [fst snd]; lra.
Qed.
Lemma mean_spectrum N : half_spectrum w (fun n => (x (S n) + x n) / 2) N =
  cx_sub (cx_mul (re (cos (w / 2))) (spectrum w x N)) (cx_mul (re (/ 2)) (ends N)).
Proof.
  induction N as [|N IH].
  - apply cx_eq; unfold half_spectrum, spectrum, ends, cx_sub, cx_mul, re; cbn [rsum fst snd]; change (INR 0) with 0;
      replace (w * (0 + / 2)) with (w / 2) by lra; field.
  - destruct (half_arg N) as [E1 E2]. unfold half_spectrum, spectrum, ends, cx_sub, cx_mul, re in *. cbn [rsum fst snd] in *.
    assert (H1 := f_equal fst IH). assert (H2 := f_equal snd IH). clear IH. cbn [fst snd] in H1, H2. rewrite E2. rewrite E1 in *. set (f := w * INR (S N)) in *.
    rewrite cos_minus, sin_minus, cos_plus, sin_plus in *. apply cx_eq; cbn [fst snd]; lra.
Qed.
End Sums.

Lemma half_lin w a b (x y : nat -> R) N : half_spectrum w (fun n => a * x n + b * y n) N =
  cx_add (cx_mul (re a) (half_spectrum w x N)) (cx_mul (re b) (half_spectrum w y N)).
Proof.
  unfold half_spectrum, cx_add, cx_mul, re. cbn [fst snd].
  induction N as [|N IH]; cbn [rsum]; [apply cx_eq; cbn; ring|]. assert (H1 := f_equal fst IH). assert (H2 := f_equal snd IH). clear IH. cbn [fst snd] in H1, H2. apply cx_eq; cbn [fst snd]; lra.
Qed.
Lemma half_ext w (x y : nat -> R) N : (forall n, (n < N)%nat -> x n = y n) -> half_spectrum w x N = half_spectrum w y N.
Proof. intros H. unfold half_spectrum. f_equal; [|f_equal]; apply rsum_ext; intros k Hk; now rewrite H. Qed.

(** ** The three media *)
Section Laws.
Variables (w dt : R) (N : nat) (E J c : nat -> R).
Hypotheses (Hdt : 0 < dt) (Hw : 0 < w < PI).
Notation sh := (sin (w / 2)).
Notation ch := (cos (w / 2)).
Notation om := (warped dt w).
Notation Es := (spectrum w E N).
Notation Js := (spectrum w J N).
Notation Cs := (half_spectrum w c N).
Notation eE := (ends w E N).
Notation eJ := (ends w J N).

Lemma ch_pos : 0 < ch. Proof. apply cos_gt_0; lra. Qed.
Lemma sh_pos : 0 < sh. Proof. apply sin_gt_0; lra. Qed.
Lemma om_pos : 0 < om.
Proof.
  unfold warped, tan. assert (A := ch_pos). assert (B := sh_pos). apply Rmult_lt_0_compat; apply Rdiv_lt_0_compat; lra.
Qed.
Lemma om_ch : om * ch = 2 * sh / dt.
Proof. unfold warped, tan. assert (A := ch_pos). field. lra. Qed.
Lemma re_nz r : r <> 0 -> re r <> re 0.
Proof. intros H K. injection K. exact H. Qed.
Lemma im_nz a r : r <> 0 -> (a, r) <> re 0.
Proof. intros H K. injection K. auto. Qed.

Lemma simple_sum eps s : 0 < eps -> 0 <= s -> (forall n, (n < N)%nat -> conductor_law eps s dt (E n) (E (S n)) (c n)) ->
  cx_abs (cx_sub Cs (cx_mul (cx_mul (0, 2 * sh / dt) (cx_add (re eps) (cx_div (re s) (0, om)))) Es))
  <= (eps / dt + s / 2) * (Rabs (E O) + Rabs (E N)).
Proof.
  intros He Hs L. assert (X : Cs = half_spectrum w (fun n => eps / dt * (E (S n) - E n) + s * ((E (S n) + E n) / 2)) N).
  { apply half_ext. intros n Hn. rewrite <- (L n Hn). field. lra. }
  rewrite X, half_lin, diff_spectrum, mean_spectrum.
  assert (Q : (0, om) <> re 0) by (apply im_nz; generalize om_pos; lra).
  replace (cx_sub _ _) with (cx_mul (re (eps / dt - s / 2)) eE).
  2:{ replace (re (eps / dt - s / 2)) with (cx_sub (re (eps / dt)) (cx_mul (re s) (re (/ 2)))) by (apply cx_eq; unfold cx_sub, cx_mul, re; cbn; field; lra).
      replace (re (cos (w / 2))) with (cx_div (0, 2 * sh / dt) (0, om)).
      2:{ rewrite <- om_ch. apply cx_eq; unfold cx_div, cx_mul, cx_inv, re; cbn; field; generalize om_pos; lra. }
      replace (0, 2 * sh) with (cx_mul (0, 2 * sh / dt) (re dt)) by (apply cx_eq; unfold cx_mul, re; cbn; field; lra).
      replace (re (eps / dt)) with (cx_div (re eps) (re dt)) by (apply cx_eq; unfold cx_div, cx_mul, cx_inv, re; cbn; field; lra).
      field. split; [exact Q|apply re_nz; lra]. }
  rewrite cx_abs_mul, cx_abs_re. apply Rmult_le_compat; [apply Rabs_pos|apply cx_abs_pos| |apply ends_abs].
  assert (0 < eps / dt) by (apply Rdiv_lt_0_compat; lra). apply Rabs_le. lra.
Qed.

Lemma ampere_sum eps : (forall n, (n < N)%nat -> ampere eps dt (E n) (E (S n)) (c n) (J n) (J (S n))) ->
  Cs = cx_add (cx_mul (re (eps / dt)) (cx_add (cx_mul (0, 2 * sh) Es) eE))
              (cx_sub (cx_mul (re ch) Js) (cx_mul (re (/ 2)) eJ)).
Proof.
  intros L. transitivity (half_spectrum w (fun n => eps / dt * (E (S n) - E n) + 1 * ((J (S n) + J n) / 2)) N).
  - apply half_ext. intros n Hn. assert (K := L n Hn). unfold ampere in K. replace (c n) with (eps * (E (S n) - E n) / dt + (J (S n) + J n) / 2) by lra. field. lra.
  - rewrite half_lin, diff_spectrum, mean_spectrum. change (re 1) with (re 1). ring.
Qed.

Lemma debye_sum eps deps tau : 0 < eps -> 0 <= deps -> 0 < tau ->
  (forall n, (n < N)%nat -> ampere eps dt (E n) (E (S n)) (c n) (J n) (J (S n))) ->
  (forall n, (n < N)%nat -> debye_law deps tau dt (E n) (E (S n)) (J n) (J (S n))) ->
  cx_abs (cx_sub Cs (cx_mul (cx_mul (0, 2 * sh / dt) (cx_add (re eps) (cx_div (re deps) (1, om * tau)))) Es))
  <= (eps + deps) / dt * (Rabs (E O) + Rabs (E N)) + (1 + tau / dt) * (Rabs (J O) + Rabs (J N)).
Proof.
  intros He Hp Ht A L. rewrite (ampere_sum eps A).
  assert (X : cx_add (cx_mul (re (tau / dt)) (cx_add (cx_mul (0, 2 * sh) Js) eJ)) (cx_sub (cx_mul (re ch) Js) (cx_mul (re (/ 2)) eJ)) =
              cx_mul (re (deps / dt)) (cx_add (cx_mul (0, 2 * sh) Es) eE)).
  { rewrite <- !diff_spectrum, <- mean_spectrum.
    transitivity (half_spectrum w (fun n => tau / dt * (J (S n) - J n) + 1 * ((J (S n) + J n) / 2)) N); [rewrite half_lin; ring|].
    transitivity (half_spectrum w (fun n => deps / dt * (E (S n) - E n) + 0 * (E n)) N); [|rewrite half_lin; ring].
    apply half_ext. intros n Hn. assert (K := L n Hn). unfold debye_law in K.
    transitivity (tau * (J (S n) - J n) / dt + (J (S n) + J n) / 2); [field; lra|]. rewrite K. field. lra. }
  assert (Q : (1, om * tau) <> re 0) by (intros K; injection K; lra).
  set (y := cx_mul (re ch) Js) in *.
  assert (Y : y = cx_div (cx_sub (cx_mul (re (deps / dt)) (cx_add (cx_mul (0, 2 * sh) Es) eE)) (cx_mul (re (tau / dt - / 2)) eJ)) (1, om * tau)).
  { assert (Z : cx_mul (1, om * tau) y = cx_sub (cx_mul (re (deps / dt)) (cx_add (cx_mul (0, 2 * sh) Es) eE)) (cx_mul (re (tau / dt - / 2)) eJ)).
    { rewrite <- X. replace (re (tau / dt - / 2)) with (cx_sub (re (tau / dt)) (re (/ 2))) by (apply cx_eq; unfold cx_sub, re; cbn; field; lra).
      replace (1, om * tau) with (cx_add (re 1) (cx_div (cx_mul (re (tau / dt)) (0, 2 * sh)) (re ch))).
      2:{ replace (2 * sh) with (om * ch * dt) by (rewrite om_ch; field; lra).
          apply cx_eq; unfold cx_add, cx_div, cx_mul, cx_inv, re; cbn; field; generalize ch_pos; lra. }
      unfold y. field. apply re_nz. generalize ch_pos; lra. }
    rewrite <- Z. field. exact Q. }
  rewrite Y.
  replace (cx_sub _ (cx_mul (cx_mul (0, 2 * sh / dt) _) _)) with
    (cx_add (cx_sub (cx_mul (re (eps / dt)) eE) (cx_mul (re (/ 2)) eJ))
            (cx_div (cx_sub (cx_mul (re (deps / dt)) eE) (cx_mul (re (tau / dt - / 2)) eJ)) (1, om * tau))).
  2:{ replace (0, 2 * sh) with (cx_mul (0, 2 * sh / dt) (re dt)) by (apply cx_eq; unfold cx_mul, re; cbn; field; lra).
      replace (re (eps / dt)) with (cx_div (re eps) (re dt)) by (apply cx_eq; unfold cx_div, cx_mul, cx_inv, re; cbn; field; lra).
      replace (re (deps / dt)) with (cx_div (re deps) (re dt)) by (apply cx_eq; unfold cx_div, cx_mul, cx_inv, re; cbn; field; lra).
      field. split; [exact Q|apply re_nz; lra]. }
  eapply Rle_trans; [apply cx_abs_add|]. eapply Rle_trans; [apply Rplus_le_compat; [apply cx_abs_sub|apply (cx_abs_div_le _ _ 1); [lra|]]|].
  - unfold cx_abs. cbn [fst snd]. rewrite <- sqrt_1 at 1. apply sqrt_le_1_alt. nra.
  - eapply Rle_trans; [apply Rplus_le_compat_l, Rmult_le_compat_r; [lra|apply cx_abs_sub]|].
    rewrite !cx_abs_mul, !cx_abs_re. assert (B1 := ends_abs w E N). assert (B2 := ends_abs w J N).
    assert (P1 := cx_abs_pos eE). assert (P2 := cx_abs_pos eJ).
    assert (D1 : 0 < eps / dt) by (apply Rdiv_lt_0_compat; lra). assert (D2 : 0 <= deps / dt) by (apply Rmult_le_pos; [lra|left; apply Rinv_0_lt_compat; lra]).
    assert (D3 : 0 < tau / dt) by (apply Rdiv_lt_0_compat; lra).
    rewrite (Rabs_pos_eq (eps / dt)), (Rabs_pos_eq (deps / dt)), (Rabs_pos_eq (/ 2)) by lra.
    assert (D4 : Rabs (tau / dt - / 2) <= tau / dt + / 2) by (apply Rabs_le; lra).
    assert (D5 : Rabs (tau / dt - / 2) * cx_abs eJ <= (tau / dt + / 2) * cx_abs eJ) by (apply Rmult_le_compat_r; lra).
    replace ((eps + deps) / dt) with (eps / dt + deps / dt) by (field; lra). nra.
Qed.

Lemma drude_sum eps wp ga : 0 < eps -> 0 <= ga ->
  (forall n, (n < N)%nat -> ampere eps dt (E n) (E (S n)) (c n) (J n) (J (S n))) ->
  (forall n, (n < N)%nat -> drude_law wp ga dt (E n) (E (S n)) (J n) (J (S n))) ->
  cx_abs (cx_sub Cs (cx_mul (cx_mul (0, 2 * sh / dt) (cx_add (re eps) (cx_div (re (wp ^ 2)) (cx_mul (0, om) (ga, om))))) Es))
  <= eps / dt * (Rabs (E O) + Rabs (E N)) + / 2 * (Rabs (J O) + Rabs (J N)) +
     (wp ^ 2 / 2 * (Rabs (E O) + Rabs (E N)) + (/ dt + ga / 2) * (Rabs (J O) + Rabs (J N))) / om.
Proof.
  intros He Hg A L. rewrite (ampere_sum eps A).
  assert (X : cx_add (cx_mul (re (/ dt)) (cx_add (cx_mul (0, 2 * sh) Js) eJ)) (cx_mul (re ga) (cx_sub (cx_mul (re ch) Js) (cx_mul (re (/ 2)) eJ))) =
              cx_mul (re (wp ^ 2)) (cx_sub (cx_mul (re ch) Es) (cx_mul (re (/ 2)) eE))).
  { rewrite <- !diff_spectrum, <- !mean_spectrum.
    transitivity (half_spectrum w (fun n => / dt * (J (S n) - J n) + ga * ((J (S n) + J n) / 2)) N); [rewrite half_lin; ring|].
    transitivity (half_spectrum w (fun n => wp ^ 2 * ((E (S n) + E n) / 2) + 0 * (E n)) N); [|rewrite half_lin; ring].
    apply half_ext. intros n Hn. assert (K := L n Hn). unfold drude_law in K.
    transitivity ((J (S n) - J n) / dt + ga * (J (S n) + J n) / 2); [field; lra|]. rewrite K. field. }
  assert (Op := om_pos).
  assert (Q : (ga, om) <> re 0) by (apply im_nz; lra). assert (Q2 : (0, om) <> re 0) by (apply im_nz; lra).
  set (y := cx_mul (re ch) Js) in *.
  assert (Y : y = cx_div (cx_sub (cx_mul (re (wp ^ 2)) (cx_sub (cx_mul (re ch) Es) (cx_mul (re (/ 2)) eE))) (cx_mul (re (/ dt - ga / 2)) eJ)) (ga, om)).
  { assert (Z : cx_mul (ga, om) y = cx_sub (cx_mul (re (wp ^ 2)) (cx_sub (cx_mul (re ch) Es) (cx_mul (re (/ 2)) eE))) (cx_mul (re (/ dt - ga / 2)) eJ)).
    { rewrite <- X. replace (re (/ dt - ga / 2)) with (cx_sub (re (/ dt)) (cx_mul (re ga) (re (/ 2)))) by (apply cx_eq; unfold cx_sub, cx_mul, re; cbn; field; lra).
      replace (ga, om) with (cx_add (re ga) (cx_div (cx_mul (re (/ dt)) (0, 2 * sh)) (re ch))).
      2:{ replace (2 * sh) with (om * ch * dt) by (rewrite om_ch; field; lra).
          apply cx_eq; unfold cx_add, cx_div, cx_mul, cx_inv, re; cbn; field; generalize ch_pos; lra. }
      unfold y. field. apply re_nz. generalize ch_pos; lra. }
    rewrite <- Z. field. exact Q. }
  rewrite Y.
  replace (cx_sub _ (cx_mul (cx_mul (0, 2 * sh / dt) _) _)) with
    (cx_sub (cx_sub (cx_mul (re (eps / dt)) eE) (cx_mul (re (/ 2)) eJ))
            (cx_div (cx_add (cx_mul (re (wp ^ 2 / 2)) eE) (cx_mul (re (/ dt - ga / 2)) eJ)) (ga, om))).
  2:{ replace (re (wp ^ 2 / 2)) with (cx_mul (re (wp ^ 2)) (re (/ 2))) by (apply cx_eq; unfold cx_mul, re; cbn; field).
      replace (re (cos (w / 2))) with (cx_div (0, 2 * sh / dt) (0, om)).
      2:{ rewrite <- om_ch. apply cx_eq; unfold cx_div, cx_mul, cx_inv, re; cbn; field; lra. }
      replace (0, 2 * sh) with (cx_mul (0, 2 * sh / dt) (re dt)) by (apply cx_eq; unfold cx_mul, re; cbn; field; lra).
      replace (re (eps / dt)) with (cx_div (re eps) (re dt)) by (apply cx_eq; unfold cx_div, cx_mul, cx_inv, re; cbn; field; lra).
      field. repeat split; auto. apply re_nz; lra. }
  eapply Rle_trans; [apply cx_abs_sub|]. eapply Rle_trans; [apply Rplus_le_compat; [apply cx_abs_sub|apply (cx_abs_div_le _ _ om); [lra|]]|].
  - unfold cx_abs. cbn [fst snd]. rewrite <- (sqrt_Rsqr om) at 1 by lra. apply sqrt_le_1_alt. unfold Rsqr. nra.
  - assert (B1 := ends_abs w E N). assert (B2 := ends_abs w J N).
    assert (P1 := cx_abs_pos eE). assert (P2 := cx_abs_pos eJ).
    assert (D1 : 0 < eps / dt) by (apply Rdiv_lt_0_compat; lra). assert (D2 : 0 <= wp ^ 2 / 2) by (assert (K := pow2_ge_0 wp); lra).
    assert (D3 : 0 < / dt) by (apply Rinv_0_lt_compat; lra).
    assert (D4 : Rabs (/ dt - ga / 2) <= / dt + ga / 2) by (apply Rabs_le; lra).
    rewrite !cx_abs_mul, !cx_abs_re. rewrite (Rabs_pos_eq (eps / dt)), (Rabs_pos_eq (/ 2)) by lra.
    apply Rplus_le_compat; [nra|]. apply Rmult_le_compat_r; [left; apply Rinv_0_lt_compat; lra|].
    eapply Rle_trans; [apply cx_abs_add|]. rewrite !cx_abs_mul, !cx_abs_re. rewrite (Rabs_pos_eq (wp ^ 2 / 2)) by lra.
    apply Rplus_le_compat; apply Rmult_le_compat; auto using Rabs_pos; lra.
Qed.
End Laws.

(** ** Programs *)
Lemma added_updates l n : added (l ++ repeat Update n) = added l.
Proof. unfold added. rewrite flat_map_app. replace (flat_map _ (repeat Update n)) with (@nil obj); [apply app_nil_r|]. induction n; cbn; auto. Qed.
Lemma still_updates l n : forallb (fun c => negb (repositions c)) l = true -> forallb (fun c => negb (repositions c)) (l ++ repeat Update n) = true.
Proof. intros H. rewrite forallb_app, H. cbn. induction n; cbn; auto. Qed.
Lemma clear_updates l n : ~ In ClearFields l -> ~ In ClearFields (l ++ repeat Update n).
Proof. intros H K. apply in_app_or in K. destruct K as [K|K]; [auto|]. apply repeat_spec in K. discriminate. Qed.

Lemma response g name s0 l i j mt (tr : nat -> field) N w : grid_ok g -> mk_field g name = Ok s0 ->
  (forall n, (n <= N)%nat -> run (l ++ repeat Update n) s0 = Fine (tr n)) ->
  forallb (fun c => negb (repositions c)) l = true -> ~ In ClearFields l ->
  Forall (fun o => SpecGeometry.shape_ok (o_geom o)) (added l) -> (forall o y, In o (added l) -> m_kind (o_mat o) <> KLorentz y) ->
  plain_medium (m_kind mt) -> point_of (added l) mt (g_dx g * IZR i, g_dx g * IZR j) ->
  (forall n, (n < N)%nat -> step_at g (tr n) (tr (S n)) i j) -> (0 < N)%nat -> 0 < w < PI ->
  let E n := Ez_at (f_ph (tr n)) i j in
  let J n := J_of (f_ph (tr n)) mt i j in
  let c n := curl_at (f_ph (tr n)) i j in
  let om := warped (g_dt g) w in
  cx_abs (cx_sub (half_spectrum w c N)
    (cx_mul (cx_mul (0, 2 * sin (w / 2) / g_dt g) (permittivity (m_kind mt) om)) (spectrum w E N)))
  <= leftover (m_kind mt) (g_dt g) om (Rabs (E O) + Rabs (E N)) (Rabs (J O) + Rabs (J N)).
Proof.
  intros Hg H0 Hr Hl Hc Hs Nl Pm Po St HN Hw E J c om.
  assert (Dt : 0 < g_dt g) by exact (sa_dt _ _ _ _ _ (St O HN)).
  assert (Hi : (0 <= i < g_Nx g)%Z) by (assert (K := sa_i _ _ _ _ _ (St O HN)); lia).
  assert (Hj : (0 <= j < g_Ny g)%Z) by (assert (K := sa_j _ _ _ _ _ (St O HN)); lia).
  assert (Nd : forall n, (n <= N)%nat -> NoDup (map fst (ph_debye (f_ph (tr n)))) /\ NoDup (map fst (ph_drude (f_ph (tr n))))).
  { intros n Hn. destruct (run_str g name s0 (tr n) (l ++ repeat Update n) Hg H0 (Hr n Hn) (still_updates l n Hl) (clear_updates l n Hc)) as (_ & (N1 & _) & (N2 & _) & _); [now rewrite added_updates|auto]. }
  unfold point_of in Po. unfold J, J_of. destruct (m_kind mt) as [m|x|x|x] eqn:Km; cbn [plain_medium permittivity leftover] in *.
  - destruct Po as [P1 P2]. destruct Pm as [E1 E2].
    apply (simple_sum w (g_dt g) N E c Dt Hw (sm_eps m) (sm_conduc m) E1 E2). intros n Hn.
    apply (cell_simple g (tr n) (tr (S n)) i j (St n Hn) m E1 E2).
    apply (run_simple g name s0 (tr n) (l ++ repeat Update n) i j m Hg H0 (Hr n ltac:(lia)) (still_updates l n Hl) (clear_updates l n Hc)); rewrite ?added_updates; auto.
  - destruct Pm as (E1 & d & Hp & E2 & E3). rewrite Hp.
    assert (L : forall n, (n < N)%nat -> ampere (db_eps x) (g_dt g) (E n) (E (S n)) (c n) (current (ph_debye (f_ph (tr n))) (m_name mt) i j) (current (ph_debye (f_ph (tr (S n)))) (m_name mt) i j) /\
      debye_law (dp_deps d) (dp_tau d) (g_dt g) (E n) (E (S n)) (current (ph_debye (f_ph (tr n))) (m_name mt) i j) (current (ph_debye (f_ph (tr (S n)))) (m_name mt) i j)).
    { intros n Hn. destruct (debye_objects g name s0 (tr n) (tr (S n)) (l ++ repeat Update n) i j (m_name mt) x d Hg H0 (Hr n ltac:(lia)) (still_updates l n Hl) (clear_updates l n Hc)) as (k & q & q' & Q1 & Q2 & A & B);
        rewrite ?added_updates; auto.
      rewrite (current_entry _ _ _ _ _ i j (proj1 (Nd n ltac:(lia))) Q1), (current_entry _ _ _ _ _ i j (proj1 (Nd (S n) ltac:(lia))) Q2). auto. }
    apply (debye_sum w (g_dt g) N E (fun n => current (ph_debye (f_ph (tr n))) (m_name mt) i j) c Dt Hw (db_eps x) (dp_deps d) (dp_tau d)); auto; intros n Hn; apply (L n Hn).
  - destruct Pm as (E1 & d & Hp & E2). rewrite Hp.
    assert (L : forall n, (n < N)%nat -> ampere (dr_eps x) (g_dt g) (E n) (E (S n)) (c n) (current (ph_drude (f_ph (tr n))) (m_name mt) i j) (current (ph_drude (f_ph (tr (S n)))) (m_name mt) i j) /\
      drude_law (up_omega d) (up_gamma d) (g_dt g) (E n) (E (S n)) (current (ph_drude (f_ph (tr n))) (m_name mt) i j) (current (ph_drude (f_ph (tr (S n)))) (m_name mt) i j)).
    { intros n Hn. destruct (drude_objects g name s0 (tr n) (tr (S n)) (l ++ repeat Update n) i j (m_name mt) x d Hg H0 (Hr n ltac:(lia)) (still_updates l n Hl) (clear_updates l n Hc)) as (k & q & q' & Q1 & Q2 & A & B);
        rewrite ?added_updates; auto.
      rewrite (current_entry _ _ _ _ _ i j (proj2 (Nd n ltac:(lia))) Q1), (current_entry _ _ _ _ _ i j (proj2 (Nd (S n) ltac:(lia))) Q2). auto. }
    apply (drude_sum w (g_dt g) N E (fun n => current (ph_drude (f_ph (tr n))) (m_name mt) i j) c Dt Hw (dr_eps x) (up_omega d) (up_gamma d)); auto; intros n Hn; apply (L n Hn).
  - destruct Pm.
Qed.

(** the imaginary part never feeds energy *)
Lemma permittivity_sign k om : plain_medium k -> 0 < om -> snd (permittivity k om) <= 0.
Proof.
  intros P Ho. assert (K : forall a b, 0 <= a -> 0 < b -> - (a / b) <= 0).
  { intros a b Ha Hb. assert (0 <= a / b) by (apply Rmult_le_pos; [exact Ha|left; now apply Rinv_0_lt_compat]). lra. }
  destruct k as [m|x|x|x]; cbn [plain_medium permittivity] in *.
  - unfold cx_add, cx_div, cx_mul, cx_inv, re. cbn [fst snd]. replace (_ + _) with (- (sm_conduc m / om)) by (field; lra). apply K; lra.
  - destruct P as (P1 & d & -> & P2 & P3). unfold cx_add, cx_div, cx_mul, cx_inv, re. cbn [fst snd].
    replace (_ + _) with (- (dp_deps d * (om * dp_tau d) / (1 + (om * dp_tau d) ^ 2))) by (field; nra).
    assert (0 < om * dp_tau d) by (now apply Rmult_lt_0_compat). apply K; [apply Rmult_le_pos; lra|nra].
  - destruct P as (P1 & d & -> & P2). unfold cx_add, cx_div, cx_mul, cx_inv, re. cbn [fst snd].
    replace (_ + _) with (- (up_omega d ^ 2 * up_gamma d / (om * (om ^ 2 + up_gamma d ^ 2)))).
    2:{ assert (Q1 : 0 < om ^ 2) by (apply pow_lt; lra). assert (Q2 := pow2_ge_0 (up_gamma d)).
        assert (Q3 : 0 < om ^ 2 * (om ^ 2 + up_gamma d ^ 2)) by (apply Rmult_lt_0_compat; lra).
        field. repeat split; try lra; intros Z0; nra. }
    apply K; [apply Rmult_le_pos; [apply pow2_ge_0|lra]|]. apply Rmult_lt_0_compat; [lra|]. nra.
  - destruct P.
Qed.
