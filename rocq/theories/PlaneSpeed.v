(** Numerical waves are never faster than light. *)
From Coq Require Import ZArith Reals List Bool Lia Lra Psatz.
From Verif Require Import Scalar SpecPlane.
Local Open Scope R_scope.
#[local] Existing Instance RNum.

Lemma rising f f' a b : a <= b -> (forall x, a <= x <= b -> derivable_pt_lim f x (f' x)) -> (forall x, a <= x <= b -> 0 <= f' x) -> f a <= f b.
Proof.
  intros Hab D P. destruct (Rle_lt_or_eq_dec a b Hab) as [L|<-]; [|lra].
  destruct (MVT_cor2 f f' a b L D) as (c & E & Hc). assert (0 <= f' c * (b - a)) by (apply Rmult_le_pos; [apply P; lra|lra]). lra.
Qed.

Lemma sin_chord t y : 0 <= t <= 1 -> 0 <= y <= PI -> t * sin y <= sin (t * y).
Proof.
  intros Ht Hy. enough (H : sin (t * 0) - t * sin 0 <= sin (t * y) - t * sin y). { rewrite Rmult_0_r, sin_0 in H. lra. }
  apply (rising (fun x => sin (t * x) - t * sin x) (fun x => t * cos (t * x) - t * cos x)); [lra| |].
  - intros x _. replace (t * cos (t * x) - t * cos x) with (cos (t * x) * t - (0 * sin x + t * cos x)) by ring.
    apply derivable_pt_lim_minus.
    + apply (derivable_pt_lim_comp (fun x => t * x) sin); [|apply derivable_pt_lim_sin].
      assert (S := derivable_pt_lim_scal id t x 1 (derivable_pt_lim_id x)). rewrite Rmult_1_r in S. exact S.
    + apply (derivable_pt_lim_mult (fun _ => t) sin); [apply derivable_pt_lim_const|apply derivable_pt_lim_sin].
  - intros x Hx. replace (t * cos (t * x) - t * cos x) with (t * (cos (t * x) - cos x)) by ring. apply Rmult_le_pos; [lra|].
    assert (cos x <= cos (t * x)); [|lra]. apply cos_decr_1; try lra; nra.
Qed.

(** sin x squared, less a multiple of x squared *)
Definition hump (K x : R) : R := sin x * sin x - K * (x * x).
Lemma hump_slope K x : derivable_pt_lim (hump K) x (sin (2 * x) - 2 * K * x).
Proof.
  unfold hump. replace (sin (2 * x) - 2 * K * x) with ((cos x * sin x + sin x * cos x) - K * (1 * x + x * 1)) by (rewrite sin_2a; ring).
  apply derivable_pt_lim_minus.
  - apply (derivable_pt_lim_mult sin sin); apply derivable_pt_lim_sin.
  - apply (derivable_pt_lim_scal (fun x => x * x) K x (1 * x + x * 1)). apply (derivable_pt_lim_mult id id); apply derivable_pt_lim_id.
Qed.
Lemma hump_top m x : 0 < m -> m <= PI / 2 -> 0 <= x <= PI / 2 -> hump (sin (2 * m) / (2 * m)) x <= hump (sin (2 * m) / (2 * m)) m.
Proof.
  intros Hm Hm' Hx. set (K := sin (2 * m) / (2 * m)). assert (HK : K * (2 * m) = sin (2 * m)) by (unfold K; field; lra).
  destruct (Rle_lt_dec x m) as [L|L].
  - apply (rising (hump K) (fun x => sin (2 * x) - 2 * K * x)); [exact L|intros; apply hump_slope|].
    intros z Hz. assert (C := sin_chord (z / m) (2 * m)). replace (z / m * (2 * m)) with (2 * z) in C by (field; lra).
    assert (B : z / m * sin (2 * m) = 2 * K * z) by (rewrite <- HK; field; lra). rewrite B in C.
    assert (D : 0 <= z / m <= 1). { split; [apply Rmult_le_pos; [lra|apply Rlt_le, Rinv_0_lt_compat; lra]|]. apply Rmult_le_reg_r with m; [lra|]. unfold Rdiv. rewrite Rmult_assoc, Rinv_l by lra. lra. }
    specialize (C D ltac:(lra)). lra.
  - enough (- hump K m <= - hump K x) by lra.
    apply (rising (fun x => - hump K x) (fun x => - (sin (2 * x) - 2 * K * x))); [lra|intros; apply derivable_pt_lim_opp, hump_slope|].
    intros z Hz. assert (C := sin_chord (m / z) (2 * z)). replace (m / z * (2 * z)) with (2 * m) in C by (field; lra).
    assert (D : 0 <= m / z <= 1). { split; [apply Rmult_le_pos; [lra|apply Rlt_le, Rinv_0_lt_compat; lra]|]. apply Rmult_le_reg_r with z; [lra|]. unfold Rdiv. rewrite Rmult_assoc, Rinv_l by lra. lra. }
    specialize (C D ltac:(lra)). rewrite <- HK in C.
    assert (B : z / m * (m / z * sin (2 * z)) <= z / m * (K * (2 * m))). { apply Rmult_le_compat_l; [|exact C]. apply Rmult_le_pos; [lra|apply Rlt_le, Rinv_0_lt_compat; lra]. }
    replace (z / m * (m / z * sin (2 * z))) with (sin (2 * z)) in B by (field; lra). replace (z / m * (K * (2 * m))) with (2 * K * z) in B by (field; lra). lra.
Qed.

Lemma mean_sin a b m : 0 <= a <= PI / 2 -> 0 <= b <= PI / 2 -> 0 <= m <= PI / 2 -> a * a + b * b = 2 * (m * m) -> sin a * sin a + sin b * sin b <= 2 * (sin m * sin m).
Proof.
  intros Ha Hb Hm E. destruct (Rle_lt_or_eq_dec 0 m (proj1 Hm)) as [L|<-].
  - assert (Ta := hump_top m a L ltac:(lra) Ha). assert (Tb := hump_top m b L ltac:(lra) Hb). unfold hump in Ta, Tb. set (K := sin (2 * m) / (2 * m)) in *.
    assert (K * (a * a) + K * (b * b) = K * (2 * (m * m))) by (rewrite <- E; ring). lra.
  - assert (a = 0) by nra. assert (b = 0) by nra. subst. rewrite sin_0. lra.
Qed.

Lemma slower_than_light eps w : 1 <= eps -> 0 <= w_kx w <= PI -> 0 <= w_ky w <= PI -> 0 <= w_om w <= PI / 2 -> dispersion eps w ->
  4 * eps * (w_om w) ^ 2 <= (w_kx w) ^ 2 + (w_ky w) ^ 2.
Proof.
  intros He Hx Hy Ho D. unfold dispersion in D. assert (P := PI_RGT_0).
  set (a := w_kx w / 2) in *. set (b := w_ky w / 2) in *. set (o := w_om w / 2) in *.
  assert (Ha : 0 <= a <= PI / 2) by (unfold a; lra). assert (Hb : 0 <= b <= PI / 2) by (unfold b; lra). assert (Hoo : 0 <= o <= PI / 4) by (unfold o; lra).
  replace (w_kx w) with (2 * a) by (unfold a; field). replace (w_ky w) with (2 * b) by (unfold b; field). replace (w_om w) with (2 * o) by (unfold o; field).
  clearbody a b o. clear Hx Hy Ho.
  set (m := sqrt ((a * a + b * b) / 2)). assert (M2 : m * m = (a * a + b * b) / 2) by (apply sqrt_sqrt; nra). assert (M0 : 0 <= m) by apply sqrt_pos.
  assert (M1 : m <= PI / 2). { apply Rsqr_incr_0_var; [|lra]. unfold Rsqr. nra. }
  assert (Mn := mean_sin a b m Ha Hb (conj M0 M1) ltac:(lra)).
  set (t := sqrt (/ (2 * eps))). assert (T2 : t * t = / (2 * eps)) by (apply sqrt_sqrt, Rlt_le, Rinv_0_lt_compat; lra). assert (T0 : 0 <= t) by apply sqrt_pos.
  assert (T3 : 2 * eps * (t * t) = 1) by (rewrite T2; field; lra). assert (T1 : t <= 1) by nra.
  assert (C := sin_chord t m ltac:(lra) ltac:(lra)). assert (S0 : 0 <= sin m) by (apply sin_ge_0; lra).
  assert (L : o <= t * m).
  { destruct (Rle_lt_dec o (t * m)) as [K|K]; [exact K|]. exfalso. assert (0 <= t * m) by (apply Rmult_le_pos; lra).
    assert (I := sin_increasing_1 (t * m) o ltac:(lra) ltac:(lra) ltac:(lra) ltac:(lra) K).
    assert (N1 : t * sin m * (t * sin m) < sin o * sin o).
    { assert (0 <= t * sin m) by (apply Rmult_le_pos; lra). apply Rmult_le_0_lt_compat; lra. }
    assert (N2 : eps * (t * sin m * (t * sin m)) < eps * (sin o * sin o)) by (apply Rmult_lt_compat_l; lra).
    replace (eps * (t * sin m * (t * sin m))) with (2 * eps * (t * t) * (sin m * sin m) / 2) in N2 by field. rewrite T3 in N2.
    replace (sin o ^ 2) with (sin o * sin o) in D by ring. rewrite D in N2. lra. }
  assert (L2 : o * o <= t * m * (t * m)) by (apply Rmult_le_compat; lra).
  assert (L3 : 2 * eps * (o * o) <= 2 * eps * (t * m * (t * m))) by (apply Rmult_le_compat_l; lra).
  replace (2 * eps * (t * m * (t * m))) with (2 * eps * (t * t) * (m * m)) in L3 by ring. rewrite T3, M2 in L3. nra.
Qed.
