(** Box monitors made around objects, and how tight bounding boxes are. *)
From Coq Require Import ZArith Reals String List Bool Lia Lra Psatz.
From Verif Require Import Scalar Base BaseFacts VecM GridM GeometryM MaterialM PmlM DftM TfsfM PolarM
  InterpM H5M ClockM MonitorM FieldM OutFacts SpecGrid GridFacts SpecGeometry GeometryFacts SpecAround.
Import ListNotations.
Local Open Scope R_scope.
#[local] Existing Instance RNum.

(** ** Sides of a box *)
Lemma box_sides_margin (v : volume) : fst (v_a v) < fst (v_b v) -> snd (v_a v) < snd (v_b v) ->
  exists s1 s2 s3 s4, get_surface v y_bottom = Ok s1 /\ get_surface v x_top = Ok s2 /\ get_surface v y_top = Ok s3 /\ get_surface v x_bottom = Ok s4 /\
    chained [s1; s2; s3; s4; s1] /\
    (forall s, In s [s1; s2; s3; s4] -> dot2 (s_normal s) (s_normal s) = 1 /\ dot2 (s_tangent s) (s_tangent s) = 1 /\ cross2 (s_normal s) (s_tangent s) = 1 /\ beyond s (s_b s) = 0) /\
    (forall p, beyond s1 p = snd p - snd (v_a v)) /\ (forall p, beyond s2 p = fst (v_b v) - fst p) /\
    (forall p, beyond s3 p = snd (v_b v) - snd p) /\ (forall p, beyond s4 p = fst p - fst (v_a v)).
Proof.
  destruct v as [[a0 a1] [b0 b1] dm]. cbn [v_a v_b fst snd]. intros Hx Hy.
  unfold get_surface. cbn [v_a v_b fst snd]. rewrite !mk_surface_vert. rewrite !mk_surface_horiz by lra.
  do 4 eexists. do 4 (split; [reflexivity|]). split; [cbn; auto|].
  assert (P1 : Rabs (b0 - a0) = b0 - a0) by (apply Rabs_pos_eq; lra).
  assert (P2 : Rabs (b1 - a1) = b1 - a1) by (apply Rabs_pos_eq; lra).
  assert (P3 : Rabs (a0 - b0) = b0 - a0) by (rewrite Rabs_left; lra).
  assert (P4 : Rabs (a1 - b1) = b1 - a1) by (rewrite Rabs_left; lra).
  rewrite ?P1, ?P2, ?P3, ?P4. split.
  - intros s Hs. cbn [In] in Hs. destruct Hs as [<-|[<-|[<-|[<-|[]]]]];
      unfold beyond; cbn [s_a s_b s_normal s_tangent sgnZ]; unfold dot2, cross2, vsub; cbn [fst snd]; rnum;
      (split; [lra|]); (split; [field; lra|]); (split; [field; lra|]); simpl; lra.
  - unfold beyond, dot2, vsub. cbn [s_a s_normal sgnZ fst snd]. rnum. change (@T RNum) with R. repeat split; intros; simpl; lra.
Qed.
Lemma attach_surfs g l : forall l', mapM (surf_attach g) l = Ok l' -> map sm_surf l' = map sm_surf l.
Proof.
  induction l as [|m l IH]; intros l' H; cbn [mapM] in H; [injection H as <-; reflexivity|].
  apply bind_ok in H. destruct H as (m' & Hm & H). apply bind_ok in H. destruct H as (r & Hr & H). injection H as <-. cbn [map]. f_equal; [|now apply IH].
  unfold surf_attach in Hm. apply bind_ok in Hm. destruct Hm as (is' & _ & Hm). apply bind_ok in Hm. destruct Hm as (len & _ & Hm). apply bind_ok in Hm. destruct Hm as (d & _ & Hm). injection Hm as <-. reflexivity.
Qed.
Lemma box_added i name freq b s s' o : nth_error (ph_objs (f_ph s)) i = Some o -> exec (GetBoxMonitor i name freq b) s = Fine s' ->
  exists m sides, f_ph s' = f_ph s /\ f_mons s' = f_mons s ++ [MBox m] /\ bm_name m = name /\ bm_freq m = freq /\ sides = map sm_surf (bm_sides m) /\
    exists s1 s2 s3 s4, sides = [s1; s2; s3; s4] /\ let v := vol_pad (obj_box o) (IZR b) in
      get_surface v y_bottom = Ok s1 /\ get_surface v x_top = Ok s2 /\ get_surface v y_top = Ok s3 /\ get_surface v x_bottom = Ok s4.
Proof.
  intros Eo H. cbn [exec] in H. unfold get_box_monitor in H. rewrite Eo in H. apply prim_fine in H. destruct H as (m0 & Hm & H).
  unfold mk_box_mon in Hm. apply bind_ok in Hm. destruct Hm as (s1 & H1 & Hm). apply bind_ok in Hm. destruct Hm as (s2 & H2 & Hm).
  apply bind_ok in Hm. destruct Hm as (s3 & H3 & Hm). apply bind_ok in Hm. destruct Hm as (s4 & H4 & Hm). injection Hm as <-.
  unfold add_monitor in H. apply prim_fine in H. destruct H as (m1 & Hm & H). apply prim_fine in H. destruct H as (f & _ & H). injection H as <-.
  cbn [mon_attach] in Hm. apply bind_ok in Hm. destruct Hm as (m & Hm & E). injection E as <-. unfold box_attach in Hm. apply bind_ok in Hm. destruct Hm as (l & Hl & Hm). injection Hm as <-.
  apply attach_surfs in Hl. cbn [bm_sides map mk_surf_mon sm_surf] in Hl.
  eexists. eexists. split; [reflexivity|]. split; [reflexivity|]. split; [reflexivity|]. split; [reflexivity|]. split; [reflexivity|]. cbn [bm_sides].
  exists s1, s2, s3, s4. split; [exact Hl|]. cbv zeta. auto.
Qed.
(** ** Objects *)
Lemma obj_inside_box (o : obj) p : shape_ok (o_geom o) -> obj_inside o p = true -> in_box (v_a (obj_box o)) (v_b (obj_box o)) p.
Proof. intros. now apply (bounding_box_contains (o_geom o) (o_pos o) (o_theta o)). Qed.
Lemma obj_box_order (o : obj) : shape_ok (o_geom o) -> fst (v_a (obj_box o)) <= fst (v_b (obj_box o)) /\ snd (v_a (obj_box o)) <= snd (v_b (obj_box o)).
Proof.
  unfold obj_box, place_box, vol_translate, mk_volume. cbn [v_a v_b]. unfold vadd. cbn [fst snd]. intros H.
  assert (Q : forall a b x y : R, 0 <= x -> 0 <= y -> 0 <= Rabs a * x + Rabs b * y) by (intros; assert (A := Rabs_pos a); assert (B := Rabs_pos b); nra).
  destruct (o_geom o) as [r|rx ry|[d0 d1]]; cbn [shape_ok] in H; unfold geom_box, stored_box, mk_volume; cbn [v_a v_b v_dim]; unfold vdivs, vneg, vabs, vsub; cbn [fst snd]; rnum; change (@T RNum) with R in *; [lra| |].
  - split; match goal with |- - ?X / 2 + _ <= _ => assert (0 <= X) by (apply Q; apply Rabs_pos); lra end.
  - split; match goal with |- - ?X / 2 + _ <= _ => assert (0 <= X) by (apply Q; apply Rabs_pos); lra end.
Qed.
Theorem box_around i name freq b s s' o : nth_error (ph_objs (f_ph s)) i = Some o -> shape_ok (o_geom o) -> (0 < b)%Z -> exec (GetBoxMonitor i name freq b) s = Fine s' ->
  exists m, f_ph s' = f_ph s /\ f_mons s' = f_mons s ++ [MBox m] /\ bm_name m = name /\ bm_freq m = freq /\
    surrounds (fun p => obj_inside o p = true) (IZR b) (map sm_surf (bm_sides m)) /\
    (tight (fun p => obj_inside o p = true) (v_a (obj_box o)) (v_b (obj_box o)) -> reaches (fun p => obj_inside o p = true) (IZR b) (map sm_surf (bm_sides m))).
Proof.
  intros Eo Ho Hb H. destruct (box_added _ _ _ _ _ _ _ Eo H) as (m & sides & A1 & A2 & A3 & A4 & -> & s1 & s2 & s3 & s4 & Es & B1 & B2 & B3 & B4).
  exists m. do 4 (split; [assumption|]). rewrite Es. destruct (obj_box_order o Ho) as [O1 O2]. assert (Hb' : 0 < IZR b) by now apply IZR_lt.
  set (v := vol_pad (obj_box o) (IZR b)) in *.
  assert (V : fst (v_a v) = fst (v_a (obj_box o)) - IZR b /\ snd (v_a v) = snd (v_a (obj_box o)) - IZR b /\ fst (v_b v) = fst (v_b (obj_box o)) + IZR b /\ snd (v_b v) = snd (v_b (obj_box o)) + IZR b) by (cbn; rnum; auto).
  destruct V as (V1 & V2 & V3 & V4). change (@T RNum) with R in *.
  destruct (box_sides_margin v) as (t1 & t2 & t3 & t4 & T1 & T2 & T3 & T4 & Ch & Un & M1 & M2 & M3 & M4); [change (@T RNum) with R; lra|change (@T RNum) with R; lra|].
  rewrite T1 in B1. rewrite T2 in B2. rewrite T3 in B3. rewrite T4 in B4. injection B1 as <-. injection B2 as <-. injection B3 as <-. injection B4 as <-. split.
  - exists t1, t2, t3, t4. split; [reflexivity|]. split; [exact Ch|]. intros s0 Hs. destruct (Un s0 Hs) as (U1 & U2 & U3 & U4). do 4 (split; [assumption|]). intros p Hp.
    apply obj_inside_box in Hp; [|exact Ho]. destruct Hp as [Q1 Q2]. change (@T RNum) with R in *.
    destruct Hs as [<-|[<-|[<-|[<-|[]]]]]; rewrite ?M1, ?M2, ?M3, ?M4; lra.
  - intros [_ Ht] s0 Hs e He. destruct (Ht e He) as ((p1 & I1 & L1) & (p2 & I2 & L2) & (p3 & I3 & L3) & (p4 & I4 & L4)). change (@T RNum) with R in *.
    destruct Hs as [<-|[<-|[<-|[<-|[]]]]]; [exists p3|exists p2|exists p4|exists p1]; (split; [assumption|]); rewrite ?M1, ?M2, ?M3, ?M4; lra.
Qed.
(** ** Tight boxes *)
Definition reached (S : vec -> Prop) (a b : vec) : Prop := forall e, 0 < e -> (exists p, S p /\ fst p < fst a + e) /\ (exists p, S p /\ fst b - e < fst p) /\
    (exists p, S p /\ snd p < snd a + e) /\ (exists p, S p /\ snd b - e < snd p).
Lemma circle_point r th e : 0 < r -> 0 < e -> exists t, r - e < t < r /\ 0 < t /\ forall u w, u * u + w * w = 1 -> in_shape (Cylinder r) (unrotate th (t * u, t * w)).
Proof.
  intros Hr He. set (d := Rmin e r / 2). assert (D : 0 < d < r /\ d < e) by (unfold d, Rmin; destruct (Rle_dec e r); lra). exists (r - d). split; [lra|]. split; [lra|]. intros u w Huw.
  unfold in_shape, unrotate. cbn [fst snd]. rnumg. rewrite cos_neg, sin_neg. change (@T RNum) with R.
  assert (C := sc1 th). replace (_ + _) with ((r - d) * (r - d) * (u * u + w * w) * (sin th * sin th + cos th * cos th)) by ring. rewrite Huw, C. nra.
Qed.
Lemma sgn_abs (x : R) : exists s, (s = 1 \/ s = -1) /\ s * x = Rabs x.
Proof. destruct (Rle_dec 0 x) as [H|H]; [exists 1; rewrite Rabs_pos_eq by lra; lra|exists (-1); rewrite Rabs_left by lra; lra]. Qed.
Lemma near_one M e : 0 < M -> 0 < e -> exists t, 0 < t < 1 /\ M - e < t * M.
Proof.
  intros HM He. exists (1 - Rmin (1 / 2) (e / (2 * M))). assert (P : 0 < e / (2 * M)) by (apply Rdiv_lt_0_compat; lra).
  assert (Q : e / (2 * M) * M = e / 2) by (field; lra). unfold Rmin. destruct (Rle_dec (1 / 2) (e / (2 * M))); split; try lra; nra.
Qed.
Lemma ellipse_axis rx ry t k : rx <> 0 -> ry <> 0 -> 0 < t < 1 -> k = 1 \/ k = -1 -> in_shape (Ellipse rx ry) (t * k * rx, 0) /\ in_shape (Ellipse rx ry) (0, t * k * ry).
Proof.
  intros Hx Hy Ht Hk. unfold in_shape. cbn [fst snd].
  replace (t * k * rx / rx) with (t * k) by (field; exact Hx). replace (t * k * ry / ry) with (t * k) by (field; exact Hy).
  replace (0 / ry) with 0 by (field; exact Hy). replace (0 / rx) with 0 by (field; exact Hx). destruct Hk as [-> | ->]; nra.
Qed.
Lemma block_corner d0 d1 s1 s2 : 0 <= d0 -> 0 <= d1 -> s1 = 1 \/ s1 = -1 -> s2 = 1 \/ s2 = -1 -> in_shape (Block (d0, d1)) (s1 * (d0 / 2), s2 * (d1 / 2)).
Proof. intros H0 H1 S1 S2. unfold in_shape. cbn [fst snd]. split; apply Rabs_le; destruct S1 as [-> | ->], S2 as [-> | ->]; lra. Qed.
Lemma flip_sign s : s = 1 \/ s = -1 -> - s = 1 \/ - s = -1.
Proof. intros [-> | ->]; lra. Qed.
Theorem plain_tight (g : geometry) (pos : vec) th : plain_shape g th ->
  tight (fun p => place_inside g pos th p = true) (v_a (place_box g pos th)) (v_b (place_box g pos th)).
Proof.
  intros Hg. split.
  - intros p Hp. apply bounding_box_contains; [|exact Hp]. destruct g; cbn in *; tauto || lra.
  - intros e He. destruct pos as [px py]. unfold place_box, vol_translate, mk_volume, vadd. cbn [v_a v_b fst snd].
    assert (K : forall q x y, in_shape g q -> rot th q = (x, y) -> place_inside g (px, py) th (px + x, py + y) = true).
    { intros q x y Hq E. apply place_inside_iff. exists q. split; [exact Hq|]. rewrite E. unfold vadd. cbn [fst snd]. rnum. reflexivity. }
    destruct g as [r|rx ry|[d0 d1]]; cbn [plain_shape fst snd] in Hg; unfold geom_box, stored_box, mk_volume; cbn [v_a v_b v_dim]; unfold vdivs, vneg, vabs, vsub; cbn [fst snd]; rnumg; change (@T RNum) with R in *.
    + destruct (circle_point r th e Hg He) as (t & Ht & H0 & Hc).
      repeat split; [exists (px + t * -1, py + t * 0)|exists (px + t * 1, py + t * 0)|exists (px + t * 0, py + t * -1)|exists (px + t * 0, py + t * 1)];
        (split; [eapply K; [apply Hc|apply rot_unrotate]; lra|cbn [fst snd]; lra]).
    + destruct Hg as (Hx & Hy & Hth). rewrite Rabs_Ropp.
      replace (- rx - rx) with (- (2 * rx)) by ring. replace (- ry - ry) with (- (2 * ry)) by ring. rewrite !Rabs_Ropp, !Rabs_mult. rewrite !(Rabs_pos_eq 2) by lra.
      assert (Ax := Rabs_pos_lt rx Hx). assert (Ay := Rabs_pos_lt ry Hy). assert (Sc := sc1 th).
      destruct (near_one _ e Ax He) as (t & Ht & Lt). destruct (near_one _ e Ay He) as (u & Hu & Lu).
      assert (Px : forall k, k = 1 \/ k = -1 -> place_inside (Ellipse rx ry) (px, py) th (px + (cos th * (t * k * rx) - sin th * 0), py + (sin th * (t * k * rx) + cos th * 0)) = true)
        by (intros k Hk; eapply K; [apply (proj1 (ellipse_axis rx ry t k Hx Hy Ht Hk))|reflexivity]).
      assert (Py : forall k, k = 1 \/ k = -1 -> place_inside (Ellipse rx ry) (px, py) th (px + (cos th * 0 - sin th * (u * k * ry)), py + (sin th * 0 + cos th * (u * k * ry))) = true)
        by (intros k Hk; eapply K; [apply (proj2 (ellipse_axis rx ry u k Hx Hy Hu Hk))|reflexivity]).
      destruct Hth as [Z|Z].
      * assert (C1 : Rabs (cos th) = 1). { assert (Rabs (cos th) * Rabs (cos th) = 1) by (rewrite <- Rabs_mult, Rabs_pos_eq; nra). assert (N := Rabs_pos (cos th)). nra. }
        rewrite Z in *. rewrite C1, Rabs_R0. destruct (sgn_abs (cos th * rx)) as (k & Sk & Ek). destruct (sgn_abs (cos th * ry)) as (l & Sl & El). rewrite Rabs_mult, C1 in Ek, El.
        assert (Ek' : t * (k * (cos th * rx)) = t * Rabs rx) by (rewrite Ek; ring). assert (El' : u * (l * (cos th * ry)) = u * Rabs ry) by (rewrite El; ring).
        repeat split; [exists (px + (cos th * (t * - k * rx) - 0 * 0), py + (0 * (t * - k * rx) + cos th * 0))|exists (px + (cos th * (t * k * rx) - 0 * 0), py + (0 * (t * k * rx) + cos th * 0))
          |exists (px + (cos th * 0 - 0 * (u * - l * ry)), py + (0 * 0 + cos th * (u * - l * ry)))|exists (px + (cos th * 0 - 0 * (u * l * ry)), py + (0 * 0 + cos th * (u * l * ry)))];
          (split; [|cbn [fst snd]; lra]); [apply Px; now apply flip_sign|now apply Px|apply Py; now apply flip_sign|now apply Py].
      * assert (C1 : Rabs (sin th) = 1). { assert (Rabs (sin th) * Rabs (sin th) = 1) by (rewrite <- Rabs_mult, Rabs_pos_eq; nra). assert (N := Rabs_pos (sin th)). nra. }
        rewrite Z in *. rewrite C1, Rabs_R0. destruct (sgn_abs (sin th * rx)) as (k & Sk & Ek). destruct (sgn_abs (sin th * ry)) as (l & Sl & El). rewrite Rabs_mult, C1 in Ek, El.
        assert (Ek' : t * (k * (sin th * rx)) = t * Rabs rx) by (rewrite Ek; ring). assert (El' : u * (l * (sin th * ry)) = u * Rabs ry) by (rewrite El; ring).
        repeat split; [exists (px + (0 * 0 - sin th * (u * l * ry)), py + (sin th * 0 + 0 * (u * l * ry)))|exists (px + (0 * 0 - sin th * (u * - l * ry)), py + (sin th * 0 + 0 * (u * - l * ry)))
          |exists (px + (0 * (t * - k * rx) - sin th * 0), py + (sin th * (t * - k * rx) + 0 * 0))|exists (px + (0 * (t * k * rx) - sin th * 0), py + (sin th * (t * k * rx) + 0 * 0))];
          (split; [|cbn [fst snd]; lra]); [now apply Py|apply Py; now apply flip_sign|apply Px; now apply flip_sign|now apply Px].
    + destruct Hg as [H0 H1]. rewrite Rabs_Ropp. rewrite (Rabs_left1 (- d0 / 2 - d0 / 2)), (Rabs_left1 (- d1 / 2 - d1 / 2)) by lra.
      destruct (sgn_abs (cos th)) as (k & Sk & Ek). destruct (sgn_abs (sin th)) as (l & Sl & El). rewrite <- Ek, <- El.
      assert (P : forall a b, a = 1 \/ a = -1 -> b = 1 \/ b = -1 ->
        place_inside (Block (d0, d1)) (px, py) th (px + (cos th * (a * (d0 / 2)) - sin th * (b * (d1 / 2))), py + (sin th * (a * (d0 / 2)) + cos th * (b * (d1 / 2)))) = true)
        by (intros a b Ha Hb; eapply K; [apply (block_corner d0 d1 a b); assumption|reflexivity]).
      repeat split; [exists (px + (cos th * (- k * (d0 / 2)) - sin th * (l * (d1 / 2))), py + (sin th * (- k * (d0 / 2)) + cos th * (l * (d1 / 2))))|exists (px + (cos th * (k * (d0 / 2)) - sin th * (- l * (d1 / 2))), py + (sin th * (k * (d0 / 2)) + cos th * (- l * (d1 / 2))))|exists (px + (cos th * (- l * (d0 / 2)) - sin th * (- k * (d1 / 2))), py + (sin th * (- l * (d0 / 2)) + cos th * (- k * (d1 / 2))))|exists (px + (cos th * (l * (d0 / 2)) - sin th * (k * (d1 / 2))), py + (sin th * (l * (d0 / 2)) + cos th * (k * (d1 / 2))))];
        (split; [|cbn [fst snd]; lra]); apply P; solve [assumption|now apply flip_sign].
Qed.
Lemma box_surrounds i name freq b s s' o : nth_error (ph_objs (f_ph s)) i = Some o -> shape_ok (o_geom o) -> (0 < b)%Z -> exec (GetBoxMonitor i name freq b) s = Fine s' ->
  exists m, f_ph s' = f_ph s /\ f_mons s' = f_mons s ++ [MBox m] /\ bm_name m = name /\ bm_freq m = freq /\
    surrounds (fun p => obj_inside o p = true) (IZR b) (map sm_surf (bm_sides m)).
Proof. intros A B C D. destruct (box_around _ _ _ _ _ _ _ A B C D) as (m & H1 & H2 & H3 & H4 & H5 & _). exists m. auto. Qed.
Lemma box_reaches i name freq b s s' o : nth_error (ph_objs (f_ph s)) i = Some o -> plain_shape (o_geom o) (o_theta o) -> (0 < b)%Z -> exec (GetBoxMonitor i name freq b) s = Fine s' ->
  exists m, f_mons s' = f_mons s ++ [MBox m] /\ reaches (fun p => obj_inside o p = true) (IZR b) (map sm_surf (bm_sides m)).
Proof.
  intros A B C D. assert (B' : shape_ok (o_geom o)) by (destruct (o_geom o); cbn in *; tauto || lra).
  destruct (box_around _ _ _ _ _ _ _ A B' C D) as (m & _ & H2 & _ & _ & _ & H5). exists m. split; [exact H2|]. apply H5. exact (plain_tight (o_geom o) (o_pos o) (o_theta o) B).
Qed.
