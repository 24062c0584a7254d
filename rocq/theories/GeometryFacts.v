(** Proofs about shapes and poses. *)
From Coq Require Import ZArith Reals List Bool Lia Psatz.
From Flocq Require Import Core.Raux.
From Verif Require Import Scalar Base BaseFacts VecM GridM GeometryM MaterialM FieldM
  SpecGrid GridFacts SpecGeometry.
Import ListNotations.
Local Open Scope R_scope.
#[local] Existing Instance RNum.

Lemma sc1 a : sin a * sin a + cos a * cos a = 1.
Proof. generalize (sin2_cos2 a). unfold Rsqr. auto. Qed.

Lemma geom_inside_iff (g : geometry) (p : vec) : geom_inside g p = true <-> in_shape g p.
Proof.
  destruct p as [x y]. destruct g as [r|rx ry|[dx dy]]; simpl geom_inside; unfold in_shape.
  - unfold vsqnorm, vdot. cbn [fst snd]. rnum. change (Z.to_nat 2) with 2%nat.
    rewrite Rltb_true. simpl. rewrite Rmult_1_r. tauto.
  - cbn [fst snd]. rnum. change (Z.to_nat 2) with 2%nat. apply Rltb_true.
  - unfold vsub, vabs, vdivs. cbn [fst snd]. rnum.
    rewrite negb_true_iff, orb_false_iff, !Rltb_false. lra.
Qed.

Lemma rot_unrotate a (p : vec) : rot a (unrotate a p) = p.
Proof.
  destruct p as [x y]. unfold rot, unrotate. cbn [fst snd]. rnum.
  rewrite cos_neg, sin_neg.
  assert (Hc : cos a * cos a = 1 - sin a * sin a) by (generalize (sc1 a); lra).
  f_equal; ring [Hc].
Qed.
Lemma unrotate_rot a (p : vec) : unrotate a (rot a p) = p.
Proof.
  destruct p as [x y]. unfold rot, unrotate. cbn [fst snd]. rnum.
  rewrite cos_neg, sin_neg.
  assert (Hc : cos a * cos a = 1 - sin a * sin a) by (generalize (sc1 a); lra).
  f_equal; ring [Hc].
Qed.
Lemma unrotate_add a (p q : vec) : vadd (unrotate a p) (unrotate a q) = unrotate a (vadd p q).
Proof.
  destruct p as [x y], q as [z w]. unfold unrotate, vadd. cbn [fst snd]. rnum. f_equal; ring.
Qed.
Lemma vadd_cancel (p q : vec) : vadd p (vadd q (vneg p)) = q.
Proof.
  destruct p as [x y], q as [z w]. unfold vneg, vadd. cbn [fst snd]. rnum. f_equal; ring.
Qed.
Lemma vadd_cancel' (p q : vec) : vadd (vadd p q) (vneg p) = q.
Proof.
  destruct p as [x y], q as [z w]. unfold vneg, vadd. cbn [fst snd]. rnum. f_equal; ring.
Qed.

Lemma place_inside_iff (g : geometry) (pos : vec) (th : R) (p : vec) :
  place_inside g pos th p = true <-> in_placed g pos th p.
Proof.
  unfold place_inside. rewrite geom_inside_iff, unrotate_add. split.
  - intros H. exists (unrotate th (vadd p (vneg pos))). split; [exact H|].
    rewrite rot_unrotate, vadd_cancel. reflexivity.
  - intros [q [Hq ->]]. rewrite vadd_cancel', unrotate_rot. exact Hq.
Qed.

(** ** C08 *)
Lemma sum_sq_lt1 a b : a ^ 2 + b ^ 2 < 1 -> Rabs a <= 1 /\ Rabs b <= 1.
Proof.
  intros H. split; apply Rabs_le; split; nra.
Qed.

(** every point of a shape is within half the stored dimensions *)
Lemma shape_extent (g : geometry) (q : vec) : shape_ok g -> in_shape g q ->
  Rabs (fst q) <= fst (v_dim (stored_box g)) / 2 /\ Rabs (snd q) <= snd (v_dim (stored_box g)) / 2.
Proof.
  destruct q as [x y]. destruct g as [r|rx ry|[dx dy]]; unfold in_shape, shape_ok, stored_box, mk_volume;
    cbn [v_dim]; unfold vabs, vsub, vdivs, vneg; cbn [fst snd]; rnum.
  - intros Hr H. replace (Rabs (- r - r)) with (2 * r) by (rewrite Rabs_left1; lra).
    replace (2 * r / 2) with r by field. split; apply Rabs_le; split; nra.
  - intros [Hx Hy] H. destruct (sum_sq_lt1 _ _ H) as [H1 H2].
    replace (- rx - rx) with (- (2 * rx)) by ring. replace (- ry - ry) with (- (2 * ry)) by ring.
    rewrite !Rabs_Ropp, !Rabs_mult. rewrite !(Rabs_pos_eq 2) by lra.
    replace (2 * Rabs rx / 2) with (Rabs rx) by field. replace (2 * Rabs ry / 2) with (Rabs ry) by field.
    assert (W : forall u r, r <> 0 -> Rabs (u / r) <= 1 -> Rabs u <= Rabs r).
    { intros u r Hr Hu. replace u with (u / r * r) by (field; exact Hr). rewrite Rabs_mult.
      generalize (Rabs_pos r). nra. }
    auto.
  - intros _ [H1 H2].
    assert (0 <= dx / 2) by (generalize (Rabs_pos x); lra).
    assert (0 <= dy / 2) by (generalize (Rabs_pos y); lra).
    rewrite (Rabs_left1 (- dx / 2 - dx / 2)), (Rabs_left1 (- dy / 2 - dy / 2)) by lra. lra.
Qed.

Lemma rot_extent a (q : vec) u w : Rabs (fst q) <= u -> Rabs (snd q) <= w ->
  Rabs (fst (rot a q)) <= Rabs (cos a) * u + Rabs (sin a) * w /\
  Rabs (snd (rot a q)) <= Rabs (sin a) * u + Rabs (cos a) * w.
Proof.
  destruct q as [x y]. unfold rot. cbn [fst snd]. intros H1 H2.
  assert (M : forall k z b, Rabs z <= b -> Rabs (k * z) <= Rabs k * b).
  { intros k z b Hz. rewrite Rabs_mult. apply Rmult_le_compat_l; [apply Rabs_pos|exact Hz]. }
  split.
  - replace (cos a * x - sin a * y) with (cos a * x + - (sin a * y)) by ring.
    eapply Rle_trans; [apply Rabs_triang|]. rewrite Rabs_Ropp.
    generalize (M (cos a) x u H1), (M (sin a) y w H2). lra.
  - eapply Rle_trans; [apply Rabs_triang|].
    generalize (M (sin a) x u H1), (M (cos a) y w H2). lra.
Qed.

Lemma bounding_box_contains (g : geometry) (pos : vec) (th : R) (p : vec) :
  shape_ok g -> place_inside g pos th p = true ->
  in_box (v_a (place_box g pos th)) (v_b (place_box g pos th)) p.
Proof.
  intros Hg H. apply place_inside_iff in H. destruct H as [q [Hq ->]].
  generalize (shape_extent g q Hg Hq). intros [E1 E2].
  generalize (rot_extent th q _ _ E1 E2). intros [R1 R2].
  destruct (rot th q) as [x y] eqn:Er. destruct pos as [px py]. cbn [fst snd] in *.
  unfold place_box, vol_translate, in_box, mk_volume. cbn [v_a v_b].
  destruct g as [r|rx ry|[dx dy]].
  - assert (E3 : Rabs x <= r /\ Rabs y <= r).
    { unfold in_shape in Hq. destruct q as [q0 q1]. unfold rot in Er. injection Er as <- <-. cbn [fst snd] in *.
      cbn in Hg. assert (Hc : cos th * cos th = 1 - sin th * sin th) by (generalize (sc1 th); lra).
      set (u := cos th * q0 - sin th * q1) in *. set (w := sin th * q0 + cos th * q1) in *.
      assert (Hn : u * u + w * w = q0 * q0 + q1 * q1) by (unfold u, w; ring [Hc]).
      split; apply Rabs_le; split; nra. }
    destruct E3 as [E3 E4]. apply Rabs_le_inv in E3, E4.
    unfold geom_box, stored_box, mk_volume, vadd. cbn [v_a v_b fst snd]. rnum. lra.
  - unfold geom_box, stored_box, mk_volume, vadd, vdivs, vneg, vabs, vsub in *. cbn [v_a v_b v_dim fst snd] in *.
    rnum. rewrite Rabs_Ropp. apply Rabs_le_inv in R1, R2. lra.
  - unfold geom_box, stored_box, mk_volume, vadd, vdivs, vneg, vabs, vsub in *. cbn [v_a v_b v_dim fst snd] in *.
    rnum. rewrite Rabs_Ropp. apply Rabs_le_inv in R1, R2. lra.
Qed.

(** ** C09 *)
Lemma bool_eq_iff (a b : bool) : (a = true <-> b = true) -> a = b.
Proof. destruct a, b; intuition congruence. Qed.

Lemma in_placed_shift g (pos d p : vec) th :
  in_placed g (vadd pos d) th (vadd p d) <-> in_placed g pos th p.
Proof.
  destruct pos as [px py], d as [dx dy], p as [x y]. unfold in_placed, vadd. cbn [fst snd]. rnum.
  split; intros [q [Hq E]]; exists q; (split; [exact Hq|]); destruct (rot th q) as [u w]; cbn [fst snd] in *;
    injection E as E1 E2; f_equal; lra.
Qed.

Lemma rot_rot a b (p : vec) : rot a (rot b p) = rot (a + b) p.
Proof.
  destruct p as [x y]. unfold rot. cbn [fst snd]. rewrite cos_plus, sin_plus. apply injective_projections; cbn [fst snd]; rnumg; ring.
Qed.
Lemma rot_0 (p : vec) : rot 0 p = p.
Proof. destruct p as [x y]. unfold rot. cbn [fst snd]. rewrite cos_0, sin_0. apply injective_projections; cbn [fst snd]; rnumg; ring. Qed.

Lemma in_placed_rotate g (pos p : vec) th a :
  in_placed g pos (th + a) (vadd pos (rot a (vsub p pos))) <-> in_placed g pos th p.
Proof.
  unfold in_placed. split.
  - intros [q [Hq E]]. exists q. split; [exact Hq|].
    assert (E' : rot a (vsub p pos) = rot (th + a) q).
    { revert E. destruct (rot a (vsub p pos)) as [u w], (rot (th + a) q) as [u' w'], pos as [px py].
      unfold vadd. cbn [fst snd]. rnum. intros E. injection E as E1 E2. f_equal; lra. }
    apply (f_equal (rot (- a))) in E'. rewrite !rot_rot in E'.
    replace (- a + a) with 0 in E' by ring. replace (- a + (th + a)) with th in E' by ring.
    rewrite rot_0 in E'. rewrite <- E'. destruct p as [x y], pos as [px py].
    unfold vadd, vsub. cbn [fst snd]. rnum. f_equal; ring.
  - intros [q [Hq ->]]. exists q. split; [exact Hq|]. f_equal.
    replace (vsub (vadd pos (rot th q)) pos) with (rot th q).
    + rewrite rot_rot. f_equal. ring.
    + destruct (rot th q) as [u w], pos as [px py]. unfold vadd, vsub. cbn [fst snd]. rnum. f_equal; ring.
Qed.

Lemma obj_inside_move (o : obj) (d p : vec) : obj_inside (obj_move d o) (vadd p d) = obj_inside o p.
Proof.
  unfold obj_inside, obj_move. cbn [o_geom o_pos o_theta]. apply bool_eq_iff.
  rewrite !place_inside_iff. apply in_placed_shift.
Qed.
Lemma obj_inside_rotate (o : obj) (a : R) (p : vec) :
  obj_inside (obj_rotate a o) (vadd (o_pos o) (rot a (vsub p (o_pos o)))) = obj_inside o p.
Proof.
  unfold obj_inside, obj_rotate. cbn [o_geom o_pos o_theta]. apply bool_eq_iff. rnum.
  rewrite !place_inside_iff. apply in_placed_rotate.
Qed.

Lemma apply_pose_pos l : forall o,
  o_pos (apply_pose o l) = vadd (o_pos o) (total_shift l) /\
  o_theta (apply_pose o l) = (o_theta o + total_turn l) /\
  o_geom (apply_pose o l) = o_geom o /\ o_mat (apply_pose o l) = o_mat o /\ o_name (apply_pose o l) = o_name o.
Proof.
  induction l as [|[d|a] l IH]; intros o.
  - cbn. destruct o as [n b g m [px py] th]. unfold vadd. cbn [o_pos o_theta fst snd]. rnum.
    repeat split; first [ring | f_equal; ring].
  - change (apply_pose o (PMove d :: l)) with (apply_pose (obj_move d o) l).
    change (total_shift (PMove d :: l)) with (vadd d (total_shift l)).
    change (total_turn (PMove d :: l)) with (total_turn l).
    destruct (IH (obj_move d o)) as (E1 & E2 & E3 & E4 & E5). rewrite E1, E2, E3, E4, E5.
    destruct o as [n b g m [px py] th]. cbn. destruct d as [dx dy], (total_shift l) as [sx sy].
    unfold vadd. cbn [fst snd]. rnum. repeat split; f_equal; ring.
  - change (apply_pose o (PRotate a :: l)) with (apply_pose (obj_rotate a o) l).
    change (total_shift (PRotate a :: l)) with (total_shift l).
    change (total_turn (PRotate a :: l)) with (a + total_turn l).
    destruct (IH (obj_rotate a o)) as (E1 & E2 & E3 & E4 & E5). rewrite E1, E2, E3, E4, E5.
    destruct o as [n b g m [px py] th]. cbn. rnum. repeat split. ring.
Qed.

Lemma full_turn (o : obj) p : obj_inside (obj_rotate (2 * PI) o) p = obj_inside o p.
Proof.
  unfold obj_inside, obj_rotate, place_inside, unrotate. cbn [o_geom o_pos o_theta]. rnum.
  assert (Ec : cos (- (o_theta o + 2 * PI)) = cos (- o_theta o)).
  { rewrite !cos_neg, cos_plus, cos_2PI, sin_2PI. ring. }
  assert (Es : sin (- (o_theta o + 2 * PI)) = sin (- o_theta o)).
  { rewrite !sin_neg, sin_plus, cos_2PI, sin_2PI. ring. }
  rewrite Ec, Es. reflexivity.
Qed.

Lemma apply_pose_set (o : obj) l (p : vec) t :
  o_pos (obj_set_pos p (apply_pose o l)) = p /\ o_theta (obj_set_theta t (apply_pose o l)) = t /\
  o_theta (obj_set_pos p (apply_pose o l)) = o_theta (apply_pose o l) /\
  o_pos (obj_set_theta t (apply_pose o l)) = o_pos (apply_pose o l).
Proof. repeat split. Qed.

Lemma pose_history_region (o : obj) l (p : vec) :
  obj_inside (apply_pose o l) p = true <->
  in_placed (o_geom o) (vadd (o_pos o) (total_shift l)) (o_theta o + total_turn l) p.
Proof.
  destruct (apply_pose_pos l o) as (E1 & E2 & E3 & _). unfold obj_inside.
  rewrite E1, E2, E3. apply place_inside_iff.
Qed.
