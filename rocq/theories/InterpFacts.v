(** Interpolation. *)
From Coq Require Import ZArith Reals Lia Lra Psatz List Bool.
From Flocq Require Import Core.Raux.
From Verif Require Import Scalar Base BaseFacts VecM InterpM SpecInterp.
Import ListNotations.
Local Open Scope R_scope.
#[local] Existing Instance RNum.

Lemma near_floor u : near u (Zfloor u).
Proof. unfold near. assert (A := Zfloor_lb u). assert (B := Zfloor_ub u). unfold Rabs. destruct Rcase_abs; lra. Qed.
Lemma near_ceil u : near u (Zceil u).
Proof. unfold near. assert (A := Zceil_lb u). assert (B := Zceil_ub u). unfold Rabs. destruct Rcase_abs; lra. Qed.
Lemma near_two u i : near u i -> i = Zfloor u \/ i = Zceil u.
Proof.
  unfold near. intros H. apply Rabs_def2 in H. destruct H as [H1 H2].
  destruct (Rle_lt_dec (IZR i) u) as [H|H].
  - left. symmetry. apply Zfloor_imp. rewrite plus_IZR. lra.
  - right. symmetry. apply Zceil_imp. rewrite minus_IZR. lra.
Qed.
Lemma near_int k i : near (IZR k) i -> i = k.
Proof. intros H. apply near_two in H. rewrite Zfloor_IZR, Zceil_IZR in H. tauto. Qed.

(** weights of the two neighbours *)
Lemma ceil_weight u f : (u - IZR (Zfloor u)) * f (Zceil u) = (u - IZR (Zfloor u)) * f (Zfloor u + 1)%Z.
Proof.
  destruct (Req_dec (IZR (Zfloor u)) u) as [E|E].
  - rewrite E. replace (u - u) with 0 by ring. ring.
  - now rewrite Zceil_floor_neq.
Qed.

Lemma tget_in (a : tensor) i j : (0 <= i < rows a)%Z -> (0 <= j < cols a)%Z -> tget a i j = Ok (tval a i j).
Proof. intros Hi Hj. unfold tget, inr. replace ((0 <=? i) && (i <? rows a))%Z with true by lia. replace ((0 <=? j) && (j <? cols a))%Z with true by lia. reflexivity. Qed.
Lemma tget_ok (a : tensor) i j v : tget a i j = Ok v -> (0 <= i < rows a)%Z /\ (0 <= j < cols a)%Z /\ v = tval a i j.
Proof.
  unfold tget, inr. destruct ((0 <=? i)%Z && (i <? rows a)%Z) eqn:E1; [|discriminate]. destruct ((0 <=? j)%Z && (j <? cols a)%Z) eqn:E2; [|discriminate].
  intros H. injection H as <-. apply andb_prop in E1, E2. split; [lia|]. split; [lia|reflexivity].
Qed.

Definition blend (a : tensor) (u v : R) : R :=
  let x := u - IZR (Zfloor u) in let y := v - IZR (Zfloor v) in
  (1 - x) * (1 - y) * tval a (Zfloor u) (Zfloor v) + x * (1 - y) * tval a (Zceil u) (Zfloor v)
  + x * y * tval a (Zceil u) (Zceil v) + (1 - x) * y * tval a (Zfloor u) (Zceil v).

Lemma bilinear_ok a u v : around a u v -> fits a -> bilinear a (u, v) = Ok (blend a u v).
Proof.
  intros [Hu Hv] [F1 F2]. unfold bilinear, tat. cbn [fst snd].
  assert (A1 := Hu _ (near_floor u)). assert (A2 := Hu _ (near_ceil u)). assert (A3 := Hv _ (near_floor v)). assert (A4 := Hv _ (near_ceil v)).
  assert (C : forall z, (0 <= z < rows a \/ 0 <= z < cols a)%Z -> cast_i32 z = Some z) by (intros z Hz; apply cast_i32_ok; unfold INT_MIN, INT_MAX; lia).
  rnumg. rewrite !C by auto. cbn [ofOption bind]. rewrite !tget_in by assumption. cbn [bind]. reflexivity.
Qed.
Lemma bilinear_inv a u v r : bilinear a (u, v) = Ok r -> around a u v /\ r = blend a u v.
Proof.
  unfold bilinear, tat. cbn [fst snd]. intros H. rnum.
  repeat match type of H with context [cast_i32 ?z] => let E := fresh in destruct (cast_i32 z) eqn:E; cbn [ofOption bind] in H; [apply cast_i32_some in E; destruct E as [-> _]|discriminate] end.
  repeat match type of H with bind (tget a ?i ?j) _ = _ => let E := fresh in destruct (tget a i j) eqn:E; cbn [bind] in H; [apply tget_ok in E; destruct E as (? & ? & ->)|discriminate|discriminate] end.
  injection H as <-. split; [|reflexivity]. split; intros k Hk; apply near_two in Hk; destruct Hk as [-> | ->]; assumption.
Qed.

(** the four weights are non-negative and sum to one *)
Lemma frac_range u : 0 <= u - IZR (Zfloor u) < 1.
Proof. assert (A := Zfloor_lb u). assert (B := Zfloor_ub u). lra. Qed.

Lemma wsum2 w x y lo hi : 0 <= w <= 1 -> lo <= x <= hi -> lo <= y <= hi -> lo <= (1 - w) * x + w * y <= hi.
Proof. intros. nra. Qed.
Lemma blend_bounds a u v lo hi :
  (forall i j, near u i -> near v j -> lo <= tval a i j <= hi) -> lo <= blend a u v <= hi.
Proof.
  intros H. unfold blend. assert (X := frac_range u). assert (Y := frac_range v).
  assert (H1 := H _ _ (near_floor u) (near_floor v)). assert (H2 := H _ _ (near_ceil u) (near_floor v)).
  assert (H3 := H _ _ (near_ceil u) (near_ceil v)). assert (H4 := H _ _ (near_floor u) (near_ceil v)).
  set (x := u - IZR (Zfloor u)) in *. set (y := v - IZR (Zfloor v)) in *.
  match goal with |- lo <= ?e <= hi => replace e with
    ((1 - y) * ((1 - x) * tval a (Zfloor u) (Zfloor v) + x * tval a (Zceil u) (Zfloor v)) + y * ((1 - x) * tval a (Zfloor u) (Zceil v) + x * tval a (Zceil u) (Zceil v))) by ring end.
  apply wsum2; [lra| |]; (apply wsum2; [lra|assumption|assumption]).
Qed.
Lemma min_of (P : R -> Prop) (l : list R) : l <> [] -> exists m, In m l /\ forall x, In x l -> m <= x.
Proof.
  induction l as [|a l IH]; [congruence|]. intros _. destruct l as [|b l].
  - exists a. split; [now left|]. intros x [<-|[]]. lra.
  - destruct IH as (m & Hm & H); [discriminate|]. destruct (Rle_lt_dec a m).
    + exists a. split; [now left|]. intros x [<-|Hx]; [lra|]. specialize (H x Hx). lra.
    + exists m. split; [now right|]. intros x [<-|Hx]; [lra|]. now apply H.
Qed.
Lemma blend_between a u v : exists i j k l, near u i /\ near v j /\ near u k /\ near v l /\ tval a i j <= blend a u v <= tval a k l.
Proof.
  set (cs := [(Zfloor u, Zfloor v); (Zceil u, Zfloor v); (Zceil u, Zceil v); (Zfloor u, Zceil v)]).
  assert (Cs : forall c, In c cs <-> near u (fst c) /\ near v (snd c)).
  { intros [i j]. cbn. split.
    - intros [E|[E|[E|[E|[]]]]]; injection E as <- <-; auto using near_floor, near_ceil.
    - intros [Hi Hj]. apply near_two in Hi, Hj. destruct Hi as [-> | ->], Hj as [-> | ->]; tauto. }
  destruct (min_of (fun _ => True) (map (fun c => tval a (fst c) (snd c)) cs)) as (m & Hm & Lo); [discriminate|].
  destruct (min_of (fun _ => True) (map (fun c => - tval a (fst c) (snd c)) cs)) as (n & Hn & Hi); [discriminate|].
  apply in_map_iff in Hm, Hn. destruct Hm as ([i j] & Em & Hm), Hn as ([k l] & En & Hn). apply Cs in Hm, Hn. cbn [fst snd] in *.
  exists i, j, k, l. split; [tauto|]. split; [tauto|]. split; [tauto|]. split; [tauto|]. apply blend_bounds. intros i' j' Hi' Hj'.
  assert (K : In (i', j') cs) by now apply Cs.
  assert (K1 := Lo _ (in_map (fun c => tval a (fst c) (snd c)) _ _ K)). assert (K2 := Hi _ (in_map (fun c => - tval a (fst c) (snd c)) _ _ K)).
  cbn [fst snd] in *. lra.
Qed.
Lemma blend_int a i j : blend a (IZR i) (IZR j) = tval a i j.
Proof. unfold blend. rewrite !Zfloor_IZR, !Zceil_IZR. ring. Qed.
(** at integer u only the column varies *)
Lemma blend_bilin a u v dx A B C D : dx <> 0 -> around a u v -> samples dx Ez a (bilin A B C D) ->
  blend a u v = bilin A B C D (u * dx) (v * dx).
Proof.
  intros Hd [Hu Hv] Hs. unfold samples in Hs. unfold place, stagger in Hs. cbn [fst snd] in Hs.
  assert (A1 := Hu _ (near_floor u)). assert (A2 := Hu _ (near_ceil u)). assert (A3 := Hv _ (near_floor v)). assert (A4 := Hv _ (near_ceil v)).
  unfold blend. rewrite !Hs by assumption. unfold bilin.
  assert (CW : forall w, IZR (Zfloor w) = w /\ IZR (Zceil w) = w \/ IZR (Zceil w) = IZR (Zfloor w) + 1).
  { intros w. destruct (Req_dec (IZR (Zfloor w)) w) as [E|E].
    - left. split; [exact E|]. rewrite <- E at 1. now rewrite Zceil_IZR.
    - right. rewrite Zceil_floor_neq by exact E. apply plus_IZR. }
  destruct (CW u) as [[-> ->]| ->], (CW v) as [[-> ->]| ->]; ring.
Qed.

(** the cell coordinates the code uses; the shift of Hx and Hy is -dx, in cells *)
Definition cell_coords (dx : R) (c : comp) (p : vec) : R * R :=
  match c with Hx => (fst p / dx, snd p / dx - dx) | Hy => (fst p / dx - dx, snd p / dx) | _ => (fst p / dx, snd p / dx) end.
Lemma interpolate_coords dx F c p : interpolate dx F c p = (f <- get_field F c ;; bilinear f (cell_coords dx c p)).
Proof.
  unfold interpolate, cell_coords, vadd, vdivs, vscale. destruct p as [px py].
  destruct c; cbn [get_field bind fst snd]; try reflexivity; f_equal; rnumg; cbn [fst snd]; f_equal; unfold Rdiv; ring_simplify; try ring.
  all: lra.
Qed.

Lemma interpolate_ez dx F p : interpolate dx F Ez p = bilinear (fEz F) (fst p / dx, snd p / dx).
Proof. apply interpolate_coords. Qed.
Lemma interpolate_ez_ok dx F p : around (fEz F) (fst p / dx) (snd p / dx) -> fits (fEz F) ->
  interpolate dx F Ez p = Ok (blend (fEz F) (fst p / dx) (snd p / dx)).
Proof. intros. rewrite interpolate_ez. now apply bilinear_ok. Qed.
Lemma interpolate_ez_inv dx F p r : interpolate dx F Ez p = Ok r ->
  around (fEz F) (fst p / dx) (snd p / dx) /\ r = blend (fEz F) (fst p / dx) (snd p / dx).
Proof. rewrite interpolate_ez. apply bilinear_inv. Qed.

Lemma around_int a i j : (0 <= i < rows a)%Z -> (0 <= j < cols a)%Z -> around a (IZR i) (IZR j).
Proof. intros Hi Hj. split; intros k Hk; apply near_int in Hk; now subst. Qed.

Lemma ez_defined dx F p : fits (fEz F) -> (exists r, interpolate dx F Ez p = Ok r) <-> around (fEz F) (fst p / dx) (snd p / dx).
Proof.
  intros Hf. split; [intros [r H]; now apply interpolate_ez_inv in H|].
  intros H. eexists. now apply interpolate_ez_ok.
Qed.
Lemma ez_at_node dx F i j : 0 < dx -> fits (fEz F) -> (0 <= i < rows (fEz F))%Z -> (0 <= j < cols (fEz F))%Z ->
  interpolate dx F Ez (place dx Ez i j) = Ok (tval (fEz F) i j).
Proof.
  intros Hd Hf Hi Hj. unfold place, stagger. cbn [fst snd].
  assert (Q : forall z, (IZR z + 0) * dx / dx = IZR z) by (intros; field; lra).
  rewrite interpolate_ez_ok; cbn [fst snd]; rewrite ?Q; [now rewrite blend_int|now apply around_int|assumption].
Qed.
Lemma ez_bilinear dx F p A B C D r : 0 < dx -> samples dx Ez (fEz F) (bilin A B C D) ->
  interpolate dx F Ez p = Ok r -> r = bilin A B C D (fst p) (snd p).
Proof.
  intros Hd Hs H. apply interpolate_ez_inv in H. destruct H as [Ha ->].
  rewrite (blend_bilin _ _ _ dx A B C D) by (auto; lra). f_equal; field; lra.
Qed.
Lemma ez_between dx F p r : interpolate dx F Ez p = Ok r ->
  exists i j k l, near (fst p / dx) i /\ near (snd p / dx) j /\ near (fst p / dx) k /\ near (snd p / dx) l /\
    tval (fEz F) i j <= r <= tval (fEz F) k l.
Proof. intros H. apply interpolate_ez_inv in H. destruct H as [_ ->]. apply blend_between. Qed.

(** *** H *)
Lemma coords_half c p : c = Ez \/ c = Hx \/ c = Hy ->
  cell_coords (/ 2) c p = (fst p / (/ 2) - fst (stagger c), snd p / (/ 2) - snd (stagger c)).
Proof. intros [-> | [-> | ->]]; unfold cell_coords, stagger; cbn [fst snd]; f_equal; ring. Qed.

Lemma blend_staggered a c u v A B C D dx : dx <> 0 -> around a u v -> samples dx c a (bilin A B C D) ->
  blend a u v = bilin A B C D ((u + fst (stagger c)) * dx) ((v + snd (stagger c)) * dx).
Proof.
  intros Hd Ha Hs. set (sx := fst (stagger c)) in *. set (sy := snd (stagger c)) in *.
  rewrite (blend_bilin a u v dx (bilin A B C D (sx * dx) (sy * dx)) (B + D * (sy * dx)) (C + D * (sx * dx)) D Hd Ha).
  - unfold bilin. ring.
  - intros i j Hi Hj. rewrite (Hs i j Hi Hj). unfold place, stagger in *. fold sx sy in Hs |- *. cbn [fst snd].
    unfold bilin, sx, sy. rnumg. cbn [fst snd]. ring.
Qed.

Definition h_field (F : fields) (c : comp) : tensor := match c with Hx => fHx F | _ => fHy F end.
Lemma h_at_node_half F c i j : c = Hx \/ c = Hy -> fits (h_field F c) ->
  (0 <= i < rows (h_field F c))%Z -> (0 <= j < cols (h_field F c))%Z ->
  interpolate (/ 2) F c (place (/ 2) c i j) = Ok (tval (h_field F c) i j).
Proof.
  intros Hc Hf Hi Hj. rewrite interpolate_coords, coords_half by tauto. unfold place. cbn [fst snd].
  replace ((IZR i + fst (stagger c)) * / 2 / / 2 - fst (stagger c)) with (IZR i) by field.
  replace ((IZR j + snd (stagger c)) * / 2 / / 2 - snd (stagger c)) with (IZR j) by field.
  rewrite <- blend_int. destruct Hc as [-> | ->]; cbn [get_field bind h_field] in *; apply bilinear_ok; auto using around_int.
Qed.
Lemma h_bilinear_half F c p A B C D r : c = Hx \/ c = Hy -> samples (/ 2) c (h_field F c) (bilin A B C D) ->
  interpolate (/ 2) F c p = Ok r -> r = bilin A B C D (fst p) (snd p).
Proof.
  intros Hc Hs H. rewrite interpolate_coords, coords_half in H by tauto.
  assert (H2 : bilinear (h_field F c) (fst p / / 2 - fst (stagger c), snd p / / 2 - snd (stagger c)) = Ok r)
    by (destruct Hc as [-> | ->]; exact H).
  apply bilinear_inv in H2. destruct H2 as [Ha ->]. rewrite (blend_staggered _ c _ _ A B C D (/ 2)); [|lra|exact Ha|exact Hs].
  f_equal; field.
Qed.
(** what the code does for any cell size: the sample point of cell (i, j) is shifted by dx cells, not by half a cell *)
Definition skewed (dx : R) (c : comp) (i j : Z) : vec :=
  match c with Hx => (IZR i * dx, (IZR j + dx) * dx) | _ => ((IZR i + dx) * dx, IZR j * dx) end.
Lemma h_at_skewed dx F c i j : 0 < dx -> c = Hx \/ c = Hy -> fits (h_field F c) ->
  (0 <= i < rows (h_field F c))%Z -> (0 <= j < cols (h_field F c))%Z ->
  interpolate dx F c (skewed dx c i j) = Ok (tval (h_field F c) i j).
Proof.
  intros Hd Hc Hf Hi Hj. rewrite interpolate_coords.
  replace (cell_coords dx c (skewed dx c i j)) with (IZR i, IZR j)
    by (destruct Hc as [-> | ->]; unfold cell_coords, skewed; cbn [fst snd]; f_equal; field; lra).
  rewrite <- blend_int. destruct Hc as [-> | ->]; cbn [get_field bind h_field] in *; apply bilinear_ok; auto using around_int.
Qed.

Definition spike (n m i j : Z) : tensor := @Tensor RNum n m (fun a b => if (a =? i)%Z && (b =? j)%Z then 1 else 0).
Lemma blend_spike n m i j u v : u <> IZR i \/ v <> IZR j -> blend (spike n m i j) u v <> 1.
Proof.
  intros H. unfold blend, spike. cbn [tval]. assert (X := frac_range u). assert (Y := frac_range v).
  assert (CW : forall w, IZR (Zfloor w) = w /\ Zceil w = Zfloor w \/ Zceil w = (Zfloor w + 1)%Z).
  { intros w. destruct (Req_dec (IZR (Zfloor w)) w) as [E|E]; [left|right].
    - split; [exact E|]. rewrite <- E at 1. now rewrite Zceil_IZR.
    - now apply Zceil_floor_neq. }
  assert (N : forall w k, w <> IZR k -> Zfloor w = k -> 0 < w - IZR (Zfloor w)).
  { intros w k Hn E. assert (A := frac_range w). rewrite E in *. lra. }
  set (x := u - IZR (Zfloor u)) in *. set (y := v - IZR (Zfloor v)) in *.
  destruct (CW u) as [[Eu ->]| ->], (CW v) as [[Ev ->]| ->];
  destruct (Z.eqb_spec (Zfloor u) i) as [Fi|Fi]; destruct (Z.eqb_spec (Zfloor v) j) as [Fj|Fj];
  repeat match goal with |- context [(?a =? ?b)%Z] => destruct (Z.eqb_spec a b); [try lia|] end; cbn [andb];
  try (assert (Xn : u <> IZR i -> 0 < x) by (intros Hn; exact (N u i Hn Fi)));
  try (assert (Yn : v <> IZR j -> 0 < y) by (intros Hn; exact (N v j Hn Fj)));
  try (assert (X0 : x = 0) by (unfold x; lra)); try (assert (Y0 : y = 0) by (unfold y; lra)).
  all: try (rewrite X0 in *). all: try (rewrite Y0 in *).
  all: intros Q; ring_simplify in Q; try lra.
  all: destruct H as [H|H]; try specialize (Xn H); try specialize (Yn H); try nra.
Qed.

Lemma coords_at_place dx c i j : 0 < dx -> c = Hx \/ c = Hy ->
  cell_coords dx c (place dx c i j) = (IZR i + fst (stagger c) * (1 - 2 * dx), IZR j + snd (stagger c) * (1 - 2 * dx)).
Proof. intros Hd [-> | ->]; unfold cell_coords, place, stagger; cbn [fst snd]; f_equal; field; lra. Qed.
(** on any array, at any cell, whenever dx is not 1/2: some field is not returned *)
Lemma h_place_fails dx c n m i j : 0 < dx -> dx <> / 2 -> c = Hx \/ c = Hy ->
  let F := Fields (spike n m i j) (spike n m i j) (spike n m i j) in
  tval (h_field F c) i j = 1 /\ interpolate dx F c (place dx c i j) <> Ok 1.
Proof.
  intros Hd Hn Hc F. split; [destruct Hc as [-> | ->]; cbn; now rewrite !Z.eqb_refl|].
  intros H. rewrite interpolate_coords, coords_at_place in H by assumption.
  assert (H2 : bilinear (spike n m i j) (IZR i + fst (stagger c) * (1 - 2 * dx), IZR j + snd (stagger c) * (1 - 2 * dx)) = Ok 1)
    by (destruct Hc as [-> | ->]; exact H).
  apply bilinear_inv in H2. destruct H2 as [_ H2]. symmetry in H2. revert H2. apply blend_spike.
  destruct Hc as [-> | ->]; cbn [stagger fst snd]; [right|left]; intros E; apply Hn; lra.
Qed.

(** *** Averages to the nodes and to the middles of the edges *)
Definition ez_or_h (F : fields) (c : comp) : tensor := match c with Ez => fEz F | Hx => fHx F | _ => fHy F end.
Lemma grid_affine dx F c i j A B C r : c = Ez \/ c = Hx \/ c = Hy -> samples dx c (ez_or_h F c) (bilin A B C 0) ->
  on_grid F c (i, j) = Ok r -> r = bilin A B C 0 (IZR i * dx) (IZR j * dx).
Proof.
  intros Hc Hs H. unfold samples, place, stagger in Hs.
  destruct Hc as [-> | [-> | ->]]; unfold on_grid in H; cbn [ez_or_h fst snd] in *;
    repeat match type of H with bind (tget ?a ?i ?j) _ = _ => let E := fresh in destruct (tget a i j) eqn:E; cbn [bind] in H; [apply tget_ok in E; destruct E as (? & ? & ->)|discriminate|discriminate] end.
  - apply tget_ok in H. destruct H as (? & ? & ->). rewrite Hs by assumption. unfold bilin. rnumg. cbn [fst snd]. ring.
  - injection H as <-. rewrite !Hs by assumption. unfold bilin. rnumg. cbn [fst snd]. rewrite minus_IZR. field.
  - injection H as <-. rewrite !Hs by assumption. unfold bilin. rnumg. cbn [fst snd]. rewrite minus_IZR. field.
Qed.
(** the point at which the value of to_xgrid is exact; wrong for Hx *)
Definition xgrid_point (dx : R) (c : comp) (i j : Z) : vec :=
  match c with Hx => ((IZR i - / 2) * dx, (IZR j + 1) * dx) | _ => ((IZR i + / 2) * dx, IZR j * dx) end.
Lemma xgrid_affine dx F c i j A B C r : c = Ez \/ c = Hx \/ c = Hy -> samples dx c (ez_or_h F c) (bilin A B C 0) ->
  on_xgrid F c (i, j) = Ok r -> r = bilin A B C 0 (fst (xgrid_point dx c i j)) (snd (xgrid_point dx c i j)).
Proof.
  intros Hc Hs H. unfold samples, place, stagger in Hs.
  destruct Hc as [-> | [-> | ->]]; unfold on_xgrid in H; cbn [ez_or_h xgrid_point fst snd] in *;
    repeat match type of H with bind (tget ?a ?i ?j) _ = _ => let E := fresh in destruct (tget a i j) eqn:E; cbn [bind] in H; [apply tget_ok in E; destruct E as (? & ? & ->)|discriminate|discriminate] end.
  - injection H as <-. rewrite !Hs by assumption. unfold bilin. rnumg. cbn [fst snd]. rewrite plus_IZR. field.
  - injection H as <-. rewrite !Hs by assumption. unfold bilin. rnumg. cbn [fst snd]. rewrite minus_IZR, plus_IZR. field.
  - apply tget_ok in H. destruct H as (? & ? & ->). rewrite Hs by assumption. unfold bilin. rnumg. cbn [fst snd]. ring.
Qed.
Lemma ygrid_affine dx F c i j A B C r : c = Ez \/ c = Hx \/ c = Hy -> samples dx c (ez_or_h F c) (bilin A B C 0) ->
  on_ygrid F c (i, j) = Ok r -> r = bilin A B C 0 (IZR i * dx) ((IZR j + / 2) * dx).
Proof.
  intros Hc Hs H. unfold samples, place, stagger in Hs.
  destruct Hc as [-> | [-> | ->]]; unfold on_ygrid in H; cbn [ez_or_h fst snd] in *;
    repeat match type of H with bind (tget ?a ?i ?j) _ = _ => let E := fresh in destruct (tget a i j) eqn:E; cbn [bind] in H; [apply tget_ok in E; destruct E as (? & ? & ->)|discriminate|discriminate] end.
  - injection H as <-. rewrite !Hs by assumption. unfold bilin. rnumg. cbn [fst snd]. rewrite plus_IZR. field.
  - apply tget_ok in H. destruct H as (? & ? & ->). rewrite Hs by assumption. unfold bilin. rnumg. cbn [fst snd]. ring.
  - injection H as <-. rewrite !Hs by assumption. unfold bilin. rnumg. cbn [fst snd]. rewrite minus_IZR, plus_IZR. field.
Qed.
(** interior cells are served by all three *)
Lemma averages_defined F c i j : c = Ez \/ c = Hx \/ c = Hy ->
  (1 <= i < rows (ez_or_h F c) - 1)%Z -> (1 <= j < cols (ez_or_h F c) - 1)%Z ->
  (exists r, on_grid F c (i, j) = Ok r) /\ (exists r, on_xgrid F c (i, j) = Ok r) /\ (exists r, on_ygrid F c (i, j) = Ok r).
Proof.
  intros [-> | [-> | ->]]; cbn [ez_or_h]; intros Hi Hj; unfold on_grid, on_xgrid, on_ygrid;
    (split; [|split]); eexists; repeat (rewrite tget_in by lia; cbn [bind]); reflexivity.
Qed.

(** a field that is a + b*x + c*y + d*xy at the places of component c *)
Definition affine_field (dx : R) (n m : Z) (a b c d : R) (k : comp) : tensor :=
  @Tensor RNum n m (fun i j => bilin a b c d (fst (place dx k i j)) (snd (place dx k i j))).
Lemma affine_samples dx n m a b c d k : samples dx k (affine_field dx n m a b c d k) (bilin a b c d).
Proof. intros i j _ _. reflexivity. Qed.
Definition affine_fields dx n m a b c d : fields :=
  Fields (affine_field dx n m a b c d Ez) (affine_field dx n m a b c d Hx) (affine_field dx n m a b c d Hy).
