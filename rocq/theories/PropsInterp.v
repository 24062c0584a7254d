(** Properties of interpolation and of the grid averages: C35, C36, C59. *)
From Coq Require Import ZArith Reals List Bool Lia Lra.
From Verif Require Import Scalar Base BaseFacts VecM InterpM SpecInterp InterpFacts.
Local Open Scope R_scope.
#[local] Existing Instance RNum.

(** ** C35 *)
(** a value is returned exactly where the surrounding cells exist *)
Theorem C35_defined : forall dx F p, fits (fEz F) ->
  (exists r, interpolate dx F Ez p = Ok r) <-> around (fEz F) (fst p / dx) (snd p / dx).
Proof. exact ez_defined. Qed.
Print Assumptions C35_defined.
Theorem C35_grid_point : forall dx F i j, 0 < dx -> fits (fEz F) -> (0 <= i < rows (fEz F))%Z -> (0 <= j < cols (fEz F))%Z ->
  interpolate dx F Ez (place dx Ez i j) = Ok (tval (fEz F) i j).
Proof. exact ez_at_node. Qed.
Print Assumptions C35_grid_point.
Theorem C35_bilinear : forall dx F p a b c d r, 0 < dx -> samples dx Ez (fEz F) (bilin a b c d) ->
  interpolate dx F Ez p = Ok r -> r = bilin a b c d (fst p) (snd p).
Proof. exact ez_bilinear. Qed.
Print Assumptions C35_bilinear.
Theorem C35_between : forall dx F p r, interpolate dx F Ez p = Ok r ->
  exists i j k l, near (fst p / dx) i /\ near (snd p / dx) j /\ near (fst p / dx) k /\ near (snd p / dx) l /\
    tval (fEz F) i j <= r <= tval (fEz F) k l.
Proof. exact ez_between. Qed.
Print Assumptions C35_between.
(** a 6x5 array with cell size 1/10 holding 1 + 2x + 3y + 4xy, asked at (1/4, 1/8) *)
Example C35_case : let F := affine_fields (/ 10) 6 5 1 2 3 4 in
  fits (fEz F) /\ samples (/ 10) Ez (fEz F) (bilin 1 2 3 4) /\ interpolate (/ 10) F Ez (/ 4, / 8) = Ok 2.
Proof.
  intros F. assert (Hf : fits (fEz F)) by (split; cbn; lia). split; [exact Hf|]. split; [apply affine_samples|].
  destruct (proj2 (ez_defined (/ 10) F (/ 4, / 8) Hf)) as [r Hr].
  - split; intros i Hi; unfold near in Hi; cbn [fst snd F affine_fields fEz affine_field rows cols] in *; apply Rabs_def2 in Hi;
      (assert (-1 < i < 5)%Z by (split; apply lt_IZR; lra)); lia.
  - rewrite Hr. f_equal. rnumg. rewrite (ez_bilinear (/ 10) F (/ 4, / 8) 1 2 3 4 r) by (first [lra | apply affine_samples | exact Hr]). unfold bilin. cbn [fst snd]. field.
Qed.

(** ** C36: the half-cell shift is written as dx/2 lengths, doubled, and added to cell units *)
Theorem C36_at_half_partial : forall F c i j, c = Hx \/ c = Hy -> fits (h_field F c) ->
  (0 <= i < rows (h_field F c))%Z -> (0 <= j < cols (h_field F c))%Z ->
  interpolate (/ 2) F c (place (/ 2) c i j) = Ok (tval (h_field F c) i j).
Proof. exact h_at_node_half. Qed.
Print Assumptions C36_at_half_partial.
Theorem C36_bilinear_at_half_partial : forall F c p a b d e r, c = Hx \/ c = Hy -> samples (/ 2) c (h_field F c) (bilin a b d e) ->
  interpolate (/ 2) F c p = Ok r -> r = bilin a b d e (fst p) (snd p).
Proof. exact h_bilinear_half. Qed.
Print Assumptions C36_bilinear_at_half_partial.
(** at any cell size the stored value is found at (i*dx, (j+dx)*dx) instead of (i*dx, (j+1/2)*dx) *)
Theorem C36_skewed_partial : forall dx F c i j, 0 < dx -> c = Hx \/ c = Hy -> fits (h_field F c) ->
  (0 <= i < rows (h_field F c))%Z -> (0 <= j < cols (h_field F c))%Z ->
  interpolate dx F c (skewed dx c i j) = Ok (tval (h_field F c) i j).
Proof. exact h_at_skewed. Qed.
Print Assumptions C36_skewed_partial.
(** every other cell size is wrong, for both components, on every array and at every cell *)
Theorem C36_stagger_refuted : forall dx c n m i j, 0 < dx -> dx <> / 2 -> c = Hx \/ c = Hy ->
  (1 <= n <= 2147483647)%Z -> (1 <= m <= 2147483647)%Z -> (0 <= i < n)%Z -> (0 <= j < m)%Z ->
  ~ (forall F, rows (h_field F c) = n -> cols (h_field F c) = m ->
     interpolate dx F c (place dx c i j) = Ok (tval (h_field F c) i j)).
Proof.
  intros dx c n m i j Hd Hn Hc _ _ _ _ H. destruct (h_place_fails dx c n m i j Hd Hn Hc) as [V W]. apply W. rewrite <- V.
  apply H; destruct Hc as [-> | ->]; reflexivity.
Qed.
Print Assumptions C36_stagger_refuted.
(** 4x4 cells of size 1 with Hx = 1 at (1, 2) only: asked at the place of that cell, half of it comes back *)
Example C36_case : let F := Fields (spike 4 4 1 2) (spike 4 4 1 2) (spike 4 4 1 2) in
  place 1 Hx 1 2 = ((1 + 0) * 1, (2 + / 2) * 1) /\ tval (fHx F) 1 2 = 1 /\ interpolate 1 F Hx (place 1 Hx 1 2) = Ok (/ 2).
Proof.
  intros F. split; [reflexivity|]. split; [reflexivity|].
  rewrite interpolate_coords, coords_at_place by (auto; lra). cbn [get_field bind F fHx stagger fst snd].
  assert (Fu : Raux.Zfloor (1 + 0 * (1 - 2 * 1)) = 1%Z) by (apply Raux.Zfloor_imp; rewrite plus_IZR; lra).
  assert (Cu : Raux.Zceil (1 + 0 * (1 - 2 * 1)) = 1%Z) by (apply Raux.Zceil_imp; rewrite minus_IZR; lra).
  assert (Fv : Raux.Zfloor (2 + / 2 * (1 - 2 * 1)) = 1%Z) by (apply Raux.Zfloor_imp; rewrite plus_IZR; lra).
  assert (Cv : Raux.Zceil (2 + / 2 * (1 - 2 * 1)) = 2%Z) by (apply Raux.Zceil_imp; rewrite minus_IZR; lra).
  rewrite bilinear_ok.
  - unfold blend. rewrite Fu, Cu, Fv, Cv. cbn [spike tval Z.eqb Pos.eqb andb]. f_equal. rnumg. field.
  - split; intros k Hk; apply near_two in Hk; rewrite ?Fu, ?Cu, ?Fv, ?Cv in Hk; destruct Hk as [-> | ->]; cbn; lia.
  - split; cbn; lia.
Qed.

(** ** C59 *)
Theorem C59_defined : forall F c i j, c = Ez \/ c = Hx \/ c = Hy ->
  (1 <= i < rows (ez_or_h F c) - 1)%Z -> (1 <= j < cols (ez_or_h F c) - 1)%Z ->
  (exists r, on_grid F c (i, j) = Ok r) /\ (exists r, on_xgrid F c (i, j) = Ok r) /\ (exists r, on_ygrid F c (i, j) = Ok r).
Proof. exact averages_defined. Qed.
Print Assumptions C59_defined.
Theorem C59_node : forall dx F c i j a b d r, c = Ez \/ c = Hx \/ c = Hy -> samples dx c (ez_or_h F c) (bilin a b d 0) ->
  on_grid F c (i, j) = Ok r -> r = bilin a b d 0 (IZR i * dx) (IZR j * dx).
Proof. exact grid_affine. Qed.
Print Assumptions C59_node.
Theorem C59_y_edge : forall dx F c i j a b d r, c = Ez \/ c = Hx \/ c = Hy -> samples dx c (ez_or_h F c) (bilin a b d 0) ->
  on_ygrid F c (i, j) = Ok r -> r = bilin a b d 0 (IZR i * dx) ((IZR j + / 2) * dx).
Proof. exact ygrid_affine. Qed.
Print Assumptions C59_y_edge.
Theorem C59_x_edge_partial : forall dx F c i j a b d r, c = Ez \/ c = Hy -> samples dx c (ez_or_h F c) (bilin a b d 0) ->
  on_xgrid F c (i, j) = Ok r -> r = bilin a b d 0 ((IZR i + / 2) * dx) (IZR j * dx).
Proof.
  intros dx F c i j a b d r Hc Hs H. apply (xgrid_affine dx) with (A := a) (B := b) (C := d) in H; [|tauto|exact Hs].
  destruct Hc as [-> | ->]; exact H.
Qed.
Print Assumptions C59_x_edge_partial.
(** to_xgrid(Hx) averages the four values around ((i-1/2)*dx, (j+1)*dx) *)
Theorem C59_x_edge_refuted : ~ (forall dx F i j a b d r, 0 < dx -> samples dx Hx (ez_or_h F Hx) (bilin a b d 0) ->
  on_xgrid F Hx (i, j) = Ok r -> r = bilin a b d 0 ((IZR i + / 2) * dx) (IZR j * dx)).
Proof.
  intros H. set (F := affine_fields 1 4 4 0 1 0 0).
  destruct (averages_defined F Hx 1 1) as (_ & [r Hr] & _); [tauto|cbn; lia|cbn; lia|].
  assert (A := H 1 F 1%Z 1%Z 0 1 0 r ltac:(lra) (affine_samples _ _ _ _ _ _ _ _) Hr).
  assert (B := xgrid_affine 1 F Hx 1 1 0 1 0 r ltac:(tauto) (affine_samples _ _ _ _ _ _ _ _) Hr).
  unfold bilin, xgrid_point in *. cbn [fst snd] in *. lra.
Qed.
Print Assumptions C59_x_edge_refuted.
Example C59_case : let F := affine_fields (/ 2) 4 4 1 2 3 0 in
  samples (/ 2) Hy (ez_or_h F Hy) (bilin 1 2 3 0) /\ on_ygrid F Hy (1, 2)%Z = Ok (23 / 4).
Proof.
  intros F. split; [apply affine_samples|].
  destruct (averages_defined F Hy 1 2) as (_ & _ & [r Hr]); [tauto|cbn; lia|cbn; lia|]. rewrite Hr. f_equal. rnumg.
  rewrite (ygrid_affine (/ 2) F Hy 1 2 1 2 3 r) by (auto; apply affine_samples). unfold bilin. field.
Qed.
