(** Subtraction of monitors, and the cells read by time monitors *)
From Coq Require Import ZArith Reals List Bool String Lia Lra Psatz.
From Verif Require Import Scalar Base BaseFacts VecM GridM DftM InterpM H5M ClockM MonitorM TfsfM PolarM FieldM OutFacts GridFacts
  SpecDft DftFacts SpecSample SampleFacts MonFacts SpecStress FluxFacts.
Import ListNotations.
Local Open Scope R_scope.
#[local] Existing Instance RNum.

(** *** Monitors of the same make have the same shape *)
Lemma same_shape_sym d o : same_shape d o -> same_shape o d.
Proof. intros H key. specialize (H key). destruct (slookup key (d_map d)), (slookup key (d_map o)); auto. Qed.
Lemma same_shape_trans d o u : same_shape d o -> same_shape o u -> same_shape d u.
Proof.
  intros H1 H2 key. specialize (H1 key). specialize (H2 key).
  destruct (slookup key (d_map d)), (slookup key (d_map o)), (slookup key (d_map u)); try contradiction; auto. congruence.
Qed.
Lemma row_lengths (e : list (list (R * R))) nf : (forall row, In row e -> List.length row = nf) -> map (@List.length (R * R)) e = repeat nf (List.length e).
Proof. induction e as [|r e IH]; cbn; intros H; [reflexivity|]. rewrite H, IH by auto. reflexivity. Qed.
Lemma update_same_shape {S} K (f : sampler S) s d t d' s' : isolated K f -> fills f -> shaped d -> dft_update f s d t = Ok (d', s') -> same_shape d' d /\ shaped d' /\ d_freq d' = d_freq d.
Proof.
  intros Hi Hf Hs H. destruct (Req_dec (d_t d) t) as [E|E].
  - unfold dft_update in H. rewrite (proj2 (neqb_R _ _) E) in H. injection H as <- <-. split; [apply same_shape_refl|]. auto.
  - destruct (update_isolated K f s d t d' s' Hi Hf Hs E H) as (_ & A2 & A3 & A4 & A5 & _). split; [|auto]. intros key.
    destruct (slookup key (d_map d)) as [e|] eqn:E1.
    + destruct (A5 _ _ E1) as (gs & e' & _ & _ & B3 & B4 & _). change (@T RNum) with R in *. rewrite B3.
      destruct Hs as [_ Hs], A3 as [_ A3]. rewrite (row_lengths e' (List.length (d_freq d'))) by (intros row Hr; exact (A3 _ _ _ B3 Hr)).
      rewrite (row_lengths e (List.length (d_freq d))) by (intros row Hr; exact (Hs _ _ _ E1 Hr)). rewrite A2. now rewrite B4.
    + assert (N : slookup key (d_map d') = None) by (apply slookup_none_notin; rewrite A4; now apply slookup_none_notin). now rewrite N.
Qed.
Lemma surf_feed_shape g : forall l m m', surf_feed g l m = Ok m' -> shaped (sm_dft m) -> same_shape (sm_dft m') (sm_dft m) /\ shaped (sm_dft m').
Proof.
  induction l as [|[t F] l IH]; intros m m' H Hr; unfold surf_feed in *; cbn [foldM fst snd] in *.
  - injection H as <-. split; [apply same_shape_refl|exact Hr].
  - destruct (surf_update g F t m) as [m1| |] eqn:E; cbn [bind] in H; try discriminate. unfold surf_update in E.
    destruct (to_grid_surface g (sm_surf m)) as [ic| |]; cbn [bind] in E; try discriminate.
    destruct (dft_update (surf_sample g F (sm_surf m) ic) (sm_prevE m) (sm_dft m) t) as [[d pe]| |] eqn:E2; cbn [bind] in E; try discriminate. injection E as <-.
    destruct (update_same_shape _ _ _ _ _ _ _ (surf_isolated _ _ _ _) (surf_fills _ _ _ _) Hr E2) as (R1 & R2 & _).
    destruct (IH _ _ H R2) as [B1 B2]. cbn [sm_dft] in *. split; [|exact B2]. exact (same_shape_trans _ _ _ B1 R1).
Qed.
Lemma cyl_feed_shape g : forall l m m', cyl_feed g l m = Ok m' -> shaped (cm_dft m) -> same_shape (cm_dft m') (cm_dft m) /\ shaped (cm_dft m').
Proof.
  induction l as [|[t F] l IH]; intros m m' H Hr; unfold cyl_feed in *; cbn [foldM fst snd] in *.
  - injection H as <-. split; [apply same_shape_refl|exact Hr].
  - destruct (cyl_update g F t m) as [m1| |] eqn:E; cbn [bind] in H; try discriminate. unfold cyl_update in E.
    destruct (dft_update (cyl_sample g F (cm_surf m) (cm_len m)) (cm_prevE m) (cm_dft m) t) as [[d pe]| |] eqn:E2; cbn [bind] in E; try discriminate. injection E as <-.
    destruct (update_same_shape _ _ _ _ _ _ _ (cyl_isolated _ _ _ _) (cyl_fills _ _ _ _) Hr E2) as (R1 & R2 & _).
    destruct (IH _ _ H R2) as [B1 B2]. cbn [cm_dft] in *. split; [|exact B2]. exact (same_shape_trans _ _ _ B1 R1).
Qed.
(** two surface monitors of the same make on the same segment, fed with anything *)
Lemma surf_alike g s nm nm2 k freq m0 o0 m o l l2 :
  surf_attach g (mk_surf_mon nm s k freq) = Ok m0 -> surf_feed g l m0 = Ok m ->
  surf_attach g (mk_surf_mon nm2 s k freq) = Ok o0 -> surf_feed g l2 o0 = Ok o -> same_shape (sm_dft m) (sm_dft o) /\ shaped (sm_dft m).
Proof.
  intros A1 B1 A2 B2.
  assert (E : sm_dft m0 = sm_dft o0).
  { unfold surf_attach in A1, A2. cbn [mk_surf_mon sm_surf sm_dft sm_kind] in *.
    destruct (to_grid_surface g s) as [ic| |]; cbn [bind] in *; try discriminate. destruct (inorm (is_dim ic)) as [len| |]; cbn [bind] in *; try discriminate.
    match type of A1 with bind ?x _ = _ => destruct x as [d| |]; cbn [bind] in *; try discriminate end. injection A1 as <-. injection A2 as <-. reflexivity. }
  destruct (surf_attach_fresh g _ _ (eq_refl : d_map (sm_dft (mk_surf_mon nm s k freq)) = []) A1) as (ic & _ & _ & _ & _ & _ & _ & _ & I8).
  assert (S0 := fresh_shaped _ _ _ I8). destruct (surf_feed_shape _ _ _ _ B1 S0) as [C1 C2]. rewrite E in S0. destruct (surf_feed_shape _ _ _ _ B2 S0) as [C3 _].
  split; [|exact C2]. rewrite E in C1. exact (same_shape_trans _ _ _ C1 (same_shape_sym _ _ C3)).
Qed.
Lemma cyl_alike g s nm nm2 all freq m0 o0 m o l l2 :
  cyl_attach g (mk_cyl_mon nm s all freq) = Ok m0 -> cyl_feed g l m0 = Ok m ->
  cyl_attach g (mk_cyl_mon nm2 s all freq) = Ok o0 -> cyl_feed g l2 o0 = Ok o -> same_shape (cm_dft m) (cm_dft o) /\ shaped (cm_dft m).
Proof.
  intros A1 B1 A2 B2.
  assert (E : cm_dft m0 = cm_dft o0).
  { unfold cyl_attach in A1, A2. cbn [mk_cyl_mon cm_surf cm_dft cm_all] in *.
    match type of A1 with bind ?x _ = _ => destruct x as [len| |]; cbn [bind] in *; try discriminate end. destruct (len <? 0)%Z; [discriminate|].
    match type of A1 with bind ?x _ = _ => destruct x as [d| |]; cbn [bind] in *; try discriminate end. injection A1 as <-. injection A2 as <-. reflexivity. }
  destruct (cyl_attach_fresh g _ _ (eq_refl : d_map (cm_dft (mk_cyl_mon nm s all freq)) = []) A1) as (_ & _ & _ & _ & _ & _ & I8).
  assert (S0 := fresh_shaped _ _ _ I8). destruct (cyl_feed_shape _ _ _ _ B1 S0) as [C1 C2]. rewrite E in S0. destruct (cyl_feed_shape _ _ _ _ B2 S0) as [C3 _].
  split; [|exact C2]. rewrite E in C1. exact (same_shape_trans _ _ _ C1 (same_shape_sym _ _ C3)).
Qed.

Lemma surf_sub_ok m o : shaped (sm_dft m) -> same_shape (sm_dft m) (sm_dft o) ->
  exists m', surf_sub m o = Ok m' /\ less (sm_dft m') (sm_dft m) (sm_dft o) /\
    d_t (sm_dft m') = d_t (sm_dft m) /\ d_freq (sm_dft m') = d_freq (sm_dft m) /\ sm_surf m' = sm_surf m /\ sm_len m' = sm_len m /\ sm_prevE m' = sm_prevE m.
Proof.
  intros [H1 _] H2. destruct (dft_sub_ok _ _ H1 H2) as (d & A & B & C & _ & D & E). unfold surf_sub. rewrite A. cbn [bind]. eexists. split; [reflexivity|].
  cbn [sm_dft sm_surf sm_len sm_prevE]. split; [split; assumption|]. auto.
Qed.
Lemma cyl_sub_ok m o : shaped (cm_dft m) -> same_shape (cm_dft m) (cm_dft o) ->
  exists m', cyl_sub m o = Ok m' /\ less (cm_dft m') (cm_dft m) (cm_dft o) /\
    d_t (cm_dft m') = d_t (cm_dft m) /\ d_freq (cm_dft m') = d_freq (cm_dft m) /\ cm_surf m' = cm_surf m /\ cm_len m' = cm_len m /\ cm_prevE m' = cm_prevE m.
Proof.
  intros [H1 _] H2. destruct (dft_sub_ok _ _ H1 H2) as (d & A & B & C & _ & D & E). unfold cyl_sub. rewrite A. cbn [bind]. eexists. split; [reflexivity|].
  cbn [cm_dft cm_surf cm_len cm_prevE]. split; [split; assumption|]. auto.
Qed.
Lemma box_sub_ok m o : List.length (bm_sides m) = List.length (bm_sides o) ->
  (forall j x y, nth_error (bm_sides m) j = Some x -> nth_error (bm_sides o) j = Some y -> shaped (sm_dft x) /\ same_shape (sm_dft x) (sm_dft y)) ->
  exists m', box_sub m o = Ok m' /\ List.length (bm_sides m') = List.length (bm_sides m) /\
    forall j x y, nth_error (bm_sides m) j = Some x -> nth_error (bm_sides o) j = Some y ->
      exists z, nth_error (bm_sides m') j = Some z /\ less (sm_dft z) (sm_dft x) (sm_dft y) /\ sm_surf z = sm_surf x.
Proof.
  intros L H. assert (X : exists l, mapM (fun '(a, b) => surf_sub a b) (combine (bm_sides m) (bm_sides o)) = Ok l).
  { revert L H. generalize (bm_sides m), (bm_sides o). induction l as [|x l IH]; intros [|y l0] L H; try discriminate; cbn [combine mapM]; [eauto|].
    destruct (H 0%nat x y eq_refl eq_refl) as [S1 S2]. destruct (surf_sub_ok x y S1 S2) as (z & E & _). rewrite E. cbn [bind].
    destruct (IH l0) as [r Er]; [now injection L|intros j; exact (H (S j))|]. rewrite Er. cbn [bind]. eauto. }
  destruct X as [l El]. unfold box_sub. rewrite El. cbn [bind]. eexists. split; [reflexivity|]. cbn [bm_sides].
  split; [rewrite (mapM_length _ _ _ El), combine_length; lia|]. intros j x y Hx Hy.
  destruct (mapM_inv _ _ _ El j (x, y) (nth_error_combine _ _ _ _ _ Hx Hy)) as (z & Z1 & Z2). destruct (H _ _ _ Hx Hy) as [S1 S2].
  destruct (surf_sub_ok x y S1 S2) as (z' & E & Lz & _ & _ & Sz & _). rewrite E in Z2. injection Z2 as ->. eauto.
Qed.
(** the coefficients of d less those of d itself are zero *)
Lemma less_self d' d : less d' d d -> forall key i k, coef d' key i k = match coef d key i k with Some _ => Some (0, 0) | None => None end.
Proof.
  intros [S H] key i k. destruct (coef d key i k) as [z|] eqn:E.
  - rewrite (H _ _ _ _ _ E E). unfold minus2. do 2 f_equal; ring.
  - now apply (same_shape_coef d' d).
Qed.

Lemma block_In A B c : In c (block A B) <-> (fst A <= fst c <= fst B)%Z /\ (snd A <= snd c <= snd B)%Z.
Proof. unfold block. destruct c as [i j]. rewrite in_prod_iff, !zrange_In. cbn [fst snd]. lia. Qed.
Lemma NoDup_zseq lo n : NoDup (zseq lo n).
Proof.
  apply (proj2 (NoDup_nth _ 0%Z)). rewrite zseq_length. intros i j Hi Hj. rewrite !zseq_nth by assumption. lia.
Qed.
Lemma NoDup_prod {A B} (l : list A) (l2 : list B) : NoDup l -> NoDup l2 -> NoDup (list_prod l l2).
Proof.
  induction l as [|x l IH]; intros H H2; cbn [list_prod]; [constructor|]. inversion H as [|? ? N1 N2]; subst.
  assert (D : forall u v : list (A * B), NoDup u -> NoDup v -> (forall z, In z u -> ~ In z v) -> NoDup (u ++ v)).
  { clear. induction u as [|z u IH]; cbn; intros v Hu Hv Hd; [exact Hv|]. inversion Hu as [|? ? Z1 Z2]; subst. constructor.
    - intros X. apply in_app_or in X. destruct X as [X|X]; [auto|]. apply (Hd z); auto.
    - apply IH; auto. }
  apply D; [|now apply IH|].
  - clear - H2. induction l2 as [|y l2 IH]; cbn; [constructor|]. inversion H2 as [|? ? N1 N2]; subst. constructor; [|auto].
    intros X. apply in_map_iff in X. destruct X as (z & E & X). injection E as ->. auto.
  - intros [a b] X Y. apply in_map_iff in X. destruct X as (z & E & X). injection E as <- <-. apply in_prod_iff in Y. tauto.
Qed.
Lemma block_NoDup A B : NoDup (block A B).
Proof. apply NoDup_prod; apply NoDup_zseq. Qed.
Lemma zrange_shift a n : map (Z.add a) (zrange 0 n) = zrange a (a + n).
Proof.
  unfold zrange. rewrite Z.sub_0_r. replace (a + n - a)%Z with n by lia. apply (nth_ext _ _ (a + 0)%Z 0%Z); [now rewrite map_length, !zseq_length|].
  rewrite map_length, zseq_length. intros i Hi. rewrite (map_nth (Z.add a)), !zseq_nth by assumption. lia.
Qed.
Lemma list_prod_map {A B C D} (f : A -> C) (h : B -> D) l l2 : list_prod (map f l) (map h l2) = map (fun xy => (f (fst xy), h (snd xy))) (list_prod l l2).
Proof. induction l as [|x l IH]; cbn [map list_prod]; [reflexivity|]. rewrite map_app, <- IH, !map_map. reflexivity. Qed.
Lemma mapM_Forall2 {A B} (f : A -> res B) l r : mapM f l = Ok r -> Forall2 (fun x y => f x = Ok y) l r.
Proof.
  revert r. induction l as [|x l IH]; cbn [mapM]; intros r H; [injection H as <-; constructor|].
  destruct (f x) as [y| |] eqn:E; cbn [bind] in H; try discriminate. destruct (mapM f l) as [r'| |]; cbn [bind] in H; try discriminate. injection H as <-. constructor; auto.
Qed.
Lemma Forall2_map_l {A B C} (P : B -> C -> Prop) (f : A -> B) l r : Forall2 (fun x y => P (f x) y) l r -> Forall2 P (map f l) r.
Proof. induction 1; cbn; constructor; auto. Qed.
Lemma tm_volume_cells g F v c y A B : to_grid g (v_a v) = Ok A -> to_grid g (v_b v) = Ok B -> (fst A <= fst B)%Z -> (snd A <= snd B)%Z ->
  tm_sample g F (TVol v) c = Ok y -> exists f l, get_field F c = Ok f /\ y = PReals l /\ cells_of f (block A B) l.
Proof.
  intros HA HB Hx Hy H. cbn [tm_sample] in H. unfold to_grid_volume in H. rewrite HA, HB in H. cbn [bind] in H.
  destruct (get_field F c) as [f| |] eqn:Ef; cbn [bind] in H; try discriminate.
  match type of H with bind ?x _ = _ => destruct x as [l| |] eqn:El; cbn [bind] in H; try discriminate end. injection H as <-.
  exists f, l. split; [reflexivity|]. split; [reflexivity|]. cbn [mk_ivolume iv_a iv_dim fst snd] in El. apply mapM_Forall2 in El. unfold cells_of, block.
  replace (Z.abs (fst A - fst B) + 1)%Z with (fst B + 1 - fst A)%Z in El by lia. replace (Z.abs (snd A - snd B) + 1)%Z with (snd B + 1 - snd A)%Z in El by lia.
  replace (fst B + 1)%Z with (fst A + (fst B + 1 - fst A))%Z by lia. replace (snd B + 1)%Z with (snd A + (snd B + 1 - snd A))%Z by lia.
  rewrite <- !zrange_shift, list_prod_map. apply Forall2_map_l. revert El. apply Forall2_weaken. intros [i j] z. cbn. auto.
Qed.
Lemma tm_surface_cells g F (a b : R * R) sg s c y A B : mk_surface a b sg = Ok s -> to_grid g a = Ok A -> to_grid g b = Ok B ->
  tm_sample g F (TSurf s) c = Ok y -> exists f l, get_field F c = Ok f /\ y = PReals l /\
    cells_of f (map (fun i => (fst A + i * Z.sgn (fst B - fst A), snd A + i * Z.sgn (snd B - snd A))%Z) (zrange 0 (edges A B))) l.
Proof.
  intros Hs HA HB H. cbn [tm_sample] in H. destruct (to_grid_surface g s) as [ic| |] eqn:E; cbn [bind] in H; try discriminate.
  destruct (surface_cells _ _ _ _ _ _ Hs E) as (C1 & C2 & _ & _ & _ & _ & C7). rewrite HA in C1. rewrite HB in C2. injection C1 as ->. injection C2 as ->.
  rewrite (edges_norm _ _ _ _ _ _ Hs E) in H. cbn [bind] in H. destruct (get_field F c) as [f| |] eqn:Ef; cbn [bind] in H; try discriminate.
  match type of H with bind ?x _ = _ => destruct x as [l| |] eqn:El; cbn [bind] in H; try discriminate end. injection H as <-.
  exists f, l. split; [reflexivity|]. split; [reflexivity|]. apply mapM_Forall2 in El. unfold cells_of. apply Forall2_map_l. revert El. apply Forall2_weaken.
  intros i z. rewrite C7. unfold tat, iadd, iscale. cbn [fst snd]. auto.
Qed.
