(** The smallest box around a turned ellipse, and the one the code gives. *)
From Coq Require Import ZArith Reals List Bool Lia Lra Psatz.
From Verif Require Import Scalar Base BaseFacts VecM GridM GeometryM SpecGrid GridFacts SpecGeometry GeometryFacts SpecAround AroundFacts.
Local Open Scope R_scope.
#[local] Existing Instance RNum.

Lemma tight_unique (A : vec -> Prop) a b a' b' : tight A a b -> tight A a' b' -> a = a' /\ b = b'.
Proof.
  intros [I H] [I' H']. destruct a as [a0 a1], b as [b0 b1], a' as [c0 c1], b' as [d0 d1]. unfold in_box in I, I'. cbn [fst snd] in *. change (@T RNum) with R in *.
  assert (L : forall x y : R, (forall e, 0 < e -> x < y + e) -> x <= y) by (intros x y Q; destruct (Rle_dec x y) as [|n]; [assumption|]; specialize (Q (x - y)); lra).
  assert (E : forall x y : R, x <= y -> y <= x -> x = y) by (intros; lra).
  split; f_equal; apply E; apply L; intros e He; destruct (H e He) as ((p1 & J1 & L1) & (p2 & J2 & L2) & (p3 & J3 & L3) & (p4 & J4 & L4));
    destruct (H' e He) as ((q1 & K1 & M1) & (q2 & K2 & M2) & (q3 & K3 & M3) & (q4 & K4 & M4));
    generalize (I _ K1) (I _ K2) (I _ K3) (I _ K4) (I' _ J1) (I' _ J2) (I' _ J3) (I' _ J4); intros; lra.
Qed.

(** half the extent of an ellipse with half-axes u, v along and across a direction *)
Definition span (u v : R) : R := sqrt (u * u + v * v).
Lemma span_sq u v : span u v * span u v = u * u + v * v.
Proof. unfold span. apply sqrt_sqrt. nra. Qed.
Lemma span_pos u v : u <> 0 \/ v <> 0 -> 0 < span u v.
Proof. intros H. unfold span. apply sqrt_lt_R0. destruct H; nra. Qed.
Lemma span_ge0 u v : 0 <= span u v.
Proof. apply sqrt_pos. Qed.
Lemma span_bound u v p q : p ^ 2 + q ^ 2 < 1 -> - span u v <= u * p + v * q <= span u v.
Proof.
  intros H. assert (S := span_sq u v). assert (P := span_ge0 u v).
  assert (Q : (u * p + v * q) * (u * p + v * q) <= span u v * span u v).
  { rewrite S. assert ((u * p + v * q) * (u * p + v * q) + (u * q - v * p) * (u * q - v * p) = (u * u + v * v) * (p ^ 2 + q ^ 2)) by ring.
    assert ((u * u + v * v) * (p ^ 2 + q ^ 2) <= (u * u + v * v) * 1) by (apply Rmult_le_compat_l; nra). assert (0 <= (u * q - v * p) * (u * q - v * p)) by apply Rle_0_sqr. lra. }
  apply Rsqr_le_abs_0 in Q. rewrite (Rabs_pos_eq (span u v)) in Q by assumption. revert Q. unfold Rabs. destruct (Rcase_abs _); lra.
Qed.
Lemma span_hit u v t : u <> 0 \/ v <> 0 -> 0 < t < 1 ->
  let p := t * u / span u v in let q := t * v / span u v in p ^ 2 + q ^ 2 < 1 /\ u * p + v * q = t * span u v.
Proof.
  intros H Ht. cbv zeta. assert (S := span_sq u v). assert (P := span_pos u v H). split.
  - replace (_ + _) with (t * t * (u * u + v * v) / (span u v * span u v)) by (field; lra). rewrite S. replace (_ / _) with (t * t) by (field; nra). nra.
  - replace (_ + _) with (t * (u * u + v * v) / span u v) by (field; lra). rewrite <- S. field. lra.
Qed.
Lemma span_lt_sum u v : span u v <= Rabs u + Rabs v /\ (span u v = Rabs u + Rabs v <-> u = 0 \/ v = 0).
Proof.
  assert (S := span_sq u v). assert (P := span_ge0 u v). assert (A := Rabs_pos u). assert (B := Rabs_pos v).
  assert (U : Rabs u * Rabs u = u * u) by (rewrite <- Rabs_mult, Rabs_pos_eq; nra). assert (V : Rabs v * Rabs v = v * v) by (rewrite <- Rabs_mult, Rabs_pos_eq; nra).
  split; [nra|]. split.
  - intros E. rewrite E in S. assert (Z : Rabs u * Rabs v = 0) by nra. apply Rmult_integral in Z. destruct Z as [Z|Z]; [left|right]; destruct (Req_dec u 0), (Req_dec v 0); auto; exfalso; [apply (Rabs_no_R0 u); auto|apply (Rabs_no_R0 u); auto|apply (Rabs_no_R0 v); auto|apply (Rabs_no_R0 v); auto].
  - intros [-> | ->]; rewrite Rabs_R0; [assert (Q : span 0 v * span 0 v = Rabs v * Rabs v) by lra|assert (Q : span u 0 * span u 0 = Rabs u * Rabs u) by lra]; nra.
Qed.
Lemma turned_spans rx ry th : rx <> 0 -> ry <> 0 -> (rx * cos th <> 0 \/ ry * sin th <> 0) /\ (rx * sin th <> 0 \/ ry * cos th <> 0).
Proof.
  intros Hx Hy. assert (C := sc1 th). destruct (Req_dec (cos th) 0) as [E|E].
  - rewrite E in C. assert (sin th <> 0) by (intros Z; rewrite Z in C; lra). split; [right|left]; now apply Rmult_integral_contrapositive_currified.
  - split; [left|right]; now apply Rmult_integral_contrapositive_currified.
Qed.
Theorem ellipse_smallest rx ry px py th : rx <> 0 -> ry <> 0 ->
  let w := sqrt ((rx * cos th) * (rx * cos th) + (ry * sin th) * (ry * sin th)) in
  let h := sqrt ((rx * sin th) * (rx * sin th) + (ry * cos th) * (ry * cos th)) in
  tight (fun p => place_inside (Ellipse rx ry) (px, py) th p = true) (px - w, py - h) (px + w, py + h).
Proof.
  intros Hx Hy. cbv zeta. fold (span (rx * cos th) (ry * sin th)) (span (rx * sin th) (ry * cos th)). destruct (turned_spans rx ry th Hx Hy) as [Nx Ny]. split.
  - intros p Hp. apply place_inside_iff in Hp. destruct Hp as ([q0 q1] & Hq & ->). unfold in_shape in Hq. cbn [fst snd] in Hq.
    unfold in_box, rot, vadd. cbn [fst snd]. rnumg. change (@T RNum) with R in *.
    assert (Bx := span_bound (rx * cos th) (- (ry * sin th)) _ _ Hq). assert (By := span_bound (rx * sin th) (ry * cos th) _ _ Hq).
    replace (span (rx * cos th) (- (ry * sin th))) with (span (rx * cos th) (ry * sin th)) in Bx by (unfold span; f_equal; ring).
    replace (rx * cos th * (q0 / rx) + - (ry * sin th) * (q1 / ry)) with (cos th * q0 - sin th * q1) in Bx by (field; auto).
    replace (rx * sin th * (q0 / rx) + ry * cos th * (q1 / ry)) with (sin th * q0 + cos th * q1) in By by (field; auto). lra.
  - intros e He.
    assert (K : forall q0 q1, (q0 / rx) ^ 2 + (q1 / ry) ^ 2 < 1 -> place_inside (Ellipse rx ry) (px, py) th (px + (cos th * q0 - sin th * q1), py + (sin th * q0 + cos th * q1)) = true).
    { intros q0 q1 Hq. apply place_inside_iff. exists (q0, q1). split; [exact Hq|]. unfold rot, vadd. cbn [fst snd]. rnum. reflexivity. }
    destruct (near_one _ e (span_pos _ _ Nx) He) as (t & Ht & Lt). destruct (near_one _ e (span_pos _ _ Ny) He) as (u & Hu & Lu).
    destruct (span_hit (rx * cos th) (ry * sin th) t Nx Ht) as [X1 X2]. destruct (span_hit (rx * sin th) (ry * cos th) u Ny Hu) as [Y1 Y2].
    set (xp := t * (rx * cos th) / span (rx * cos th) (ry * sin th)) in *. set (xq := t * (ry * sin th) / span (rx * cos th) (ry * sin th)) in *.
    set (yp := u * (rx * sin th) / span (rx * sin th) (ry * cos th)) in *. set (yq := u * (ry * cos th) / span (rx * sin th) (ry * cos th)) in *.
    assert (D : forall r x, r <> 0 -> r * x / r = x) by (intros; field; assumption).
    cbn [fst snd]. repeat split; [eexists; split; [apply (K (rx * - xp) (ry * xq)); rewrite !D by assumption; nra|]|eexists; split; [apply (K (rx * xp) (ry * - xq)); rewrite !D by assumption; nra|]
      |eexists; split; [apply (K (rx * - yp) (ry * - yq)); rewrite !D by assumption; nra|]|eexists; split; [apply (K (rx * yp) (ry * yq)); rewrite !D by assumption; nra|]]; cbn [fst snd]; nra.
Qed.
Theorem ellipse_box rx ry px py th : let v := place_box (Ellipse rx ry) (px, py) th in
  let w := Rabs (rx * cos th) + Rabs (ry * sin th) in let h := Rabs (rx * sin th) + Rabs (ry * cos th) in v_a v = (px - w, py - h) /\ v_b v = (px + w, py + h).
Proof.
  cbv zeta. unfold place_box, vol_translate, mk_volume, vadd, geom_box, stored_box, mk_volume. cbn [v_a v_b v_dim]. unfold vdivs, vneg, vabs, vsub. cbn [fst snd]. rnumg. change (@T RNum) with R in *.
  rewrite Rabs_Ropp, !Rabs_mult. replace (- rx - rx) with (- (2 * rx)) by ring. replace (- ry - ry) with (- (2 * ry)) by ring. rewrite !Rabs_Ropp, !Rabs_mult, !(Rabs_pos_eq 2) by lra.
  split; f_equal; lra.
Qed.
Theorem ellipse_tight_iff rx ry pos th : rx <> 0 -> ry <> 0 ->
  (tight (fun p => place_inside (Ellipse rx ry) pos th p = true) (v_a (place_box (Ellipse rx ry) pos th)) (v_b (place_box (Ellipse rx ry) pos th)) <-> sin th = 0 \/ cos th = 0).
Proof.
  intros Hx Hy. split.
  - intros H. destruct pos as [px py]. destruct (tight_unique _ _ _ _ _ H (ellipse_smallest rx ry px py th Hx Hy)) as [E _].
    destruct (ellipse_box rx ry px py th) as [-> _] in E. apply (f_equal fst) in E. cbn [fst] in E. change (@T RNum) with R in *.
    destruct (span_lt_sum (rx * cos th) (ry * sin th)) as [_ Q]. unfold span in Q. destruct (proj1 Q) as [Z|Z]; [lra| |];
      apply Rmult_integral in Z; destruct Z; auto; contradiction.
  - intros H. apply plain_tight. cbn. auto.
Qed.
Lemma sum_le_span u v : Rabs u + Rabs v <= sqrt 2 * span u v.
Proof.
  unfold span. rewrite <- sqrt_mult by nra. apply Rsqr_incr_0_var; [|apply sqrt_pos]. rewrite Rsqr_sqrt by nra.
  assert (U : Rabs u * Rabs u = u * u) by (rewrite <- Rabs_mult, Rabs_pos_eq; nra). assert (V : Rabs v * Rabs v = v * v) by (rewrite <- Rabs_mult, Rabs_pos_eq; nra).
  unfold Rsqr. assert (0 <= (Rabs u - Rabs v) * (Rabs u - Rabs v)) by apply Rle_0_sqr. nra.
Qed.
Theorem ellipse_slack rx ry px py th a b : rx <> 0 -> ry <> 0 -> tight (fun p => place_inside (Ellipse rx ry) (px, py) th p = true) a b ->
  let v := place_box (Ellipse rx ry) (px, py) th in
  fst (v_b v) - fst (v_a v) <= sqrt 2 * (fst b - fst a) /\ snd (v_b v) - snd (v_a v) <= sqrt 2 * (snd b - snd a).
Proof.
  intros Hx Hy H. destruct (tight_unique _ _ _ _ _ H (ellipse_smallest rx ry px py th Hx Hy)) as [-> ->]. cbv zeta. destruct (ellipse_box rx ry px py th) as [-> ->]. cbn [fst snd]. change (@T RNum) with R in *.
  assert (A := sum_le_span (rx * cos th) (ry * sin th)). assert (B := sum_le_span (rx * sin th) (ry * cos th)). unfold span in A, B. lra.
Qed.
Lemma ellipse_turned : 3 <> 0 /\ 1 <> 0 /\ ~ (sin (PI / 4) = 0 \/ cos (PI / 4) = 0).
Proof. split; [lra|]. split; [lra|]. assert (A := sin_PI4). assert (B := cos_PI4). assert (C : 0 < 1 / sqrt 2) by (apply Rdiv_lt_0_compat; [lra|apply sqrt_lt_R0; lra]). lra. Qed.
