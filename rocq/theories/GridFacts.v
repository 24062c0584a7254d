(** Proofs about the grid, surfaces and volumes (exact reals and binary64). *)
From Coq Require Import ZArith Reals List Bool Lia Psatz.
From Flocq Require Import Core.Core IEEE754.BinarySingleNaN.
From Verif Require Import Scalar Base BaseFacts VecM GridM Float FloatFacts SpecGrid.
Import ListNotations.
Local Open Scope R_scope.
#[local] Existing Instance RNum.

Lemma is_int32_range z : is_int32 z <-> (INT_MIN <= z <= INT_MAX)%Z.
Proof. unfold is_int32, INT_MIN, INT_MAX. change (2 ^ 31)%Z with 2147483648%Z. lia. Qed.

(** ** Rounding *)
Lemma Rround_nearest x : nearest_away x (Rround x).
Proof.
  unfold nearest_away, Rround. destruct (Rle_dec 0 x) as [Hx|Hx].
  - generalize (Zfloor_lb (x + / 2)), (Zfloor_ub (x + / 2)). intros H1 H2.
    set (n := Zfloor (x + / 2)) in *.
    assert (Hn : (0 <= n)%Z).
    { apply le_IZR. assert (IZR (-1) < IZR n); [|apply lt_IZR in H; apply IZR_le; lia].
      lra. }
    apply IZR_le in Hn. split.
    + apply Rabs_le. lra.
    + intros H. rewrite !Rabs_pos_eq by lra. revert H. unfold Rabs. destruct Rcase_abs; lra.
  - generalize (Zfloor_lb (- x + / 2)), (Zfloor_ub (- x + / 2)). intros H1 H2.
    set (n := Zfloor (- x + / 2)) in *.
    assert (Hn : (0 <= n)%Z).
    { apply le_IZR. assert (IZR (-1) < IZR n); [|apply lt_IZR in H; apply IZR_le; lia].
      lra. }
    apply IZR_le in Hn. rewrite opp_IZR. split.
    + apply Rabs_le. lra.
    + intros H. rewrite Rabs_left by lra. rewrite Rabs_Ropp, Rabs_pos_eq by lra.
      revert H. unfold Rabs. destruct Rcase_abs; lra.
Qed.

Lemma nearest_away_unique x n m : nearest_away x n -> nearest_away x m -> n = m.
Proof.
  assert (W : forall n m, nearest_away x n -> nearest_away x m -> (n < m)%Z -> False).
  { clear. intros n m [H1 H2] [H3 H4] Hlt.
    assert (Hm : (m = n + 1)%Z).
    { assert (m < n + 2)%Z; [|lia]. apply lt_IZR. rewrite plus_IZR.
      apply Rabs_le_inv in H1, H3. apply IZR_lt in Hlt.
      destruct (Rle_lt_dec (IZR n + 2) (IZR m)); [|lra].
      lra. }
    subst m. rewrite plus_IZR in *.
    assert (Hx : x = IZR n + / 2).
    { apply Rabs_le_inv in H1, H3. lra. }
    subst x.
    assert (E1 : Rabs (IZR n + / 2 - IZR n) = / 2) by (rewrite Rabs_pos_eq; lra).
    assert (E2 : Rabs (IZR n + / 2 - (IZR n + 1)) = / 2) by (rewrite Rabs_left; lra).
    specialize (H2 E1). specialize (H4 E2).
    destruct (Z.le_gt_cases 0 n) as [Hn|Hn].
    - apply IZR_le in Hn. rewrite !Rabs_pos_eq in H2 by lra. lra.
    - assert (IZR n <= -1) by (apply IZR_le; lia).
      rewrite (Rabs_left (IZR n + / 2)) in H4 by lra. rewrite Rabs_left1 in H4 by lra. lra. }
  intros Hn Hm. destruct (Z.lt_trichotomy n m) as [H|[H|H]]; [|exact H|].
  - exfalso. exact (W n m Hn Hm H).
  - exfalso. exact (W m n Hm Hn H).
Qed.

Lemma Rround_mono x y : x <= y -> (Rround x <= Rround y)%Z.
Proof.
  intros H. destruct (Rround_nearest x) as [H1 H2]. destruct (Rround_nearest y) as [H3 H4].
  apply Z.le_ngt. intros Hlt.
  assert (Hm : (Rround x = Rround y + 1)%Z).
  { assert (Rround x < Rround y + 2)%Z; [|lia]. apply lt_IZR. rewrite plus_IZR.
    apply Rabs_le_inv in H1, H3. destruct (Rle_lt_dec (IZR (Rround y) + 2) (IZR (Rround x))); lra. }
  assert (x = y).
  { apply Rabs_le_inv in H1, H3. rewrite Hm, plus_IZR in *. lra. }
  subst y. lia.
Qed.

Lemma Rround_IZR n : Rround (IZR n) = n.
Proof.
  apply (nearest_away_unique (IZR n)); [apply Rround_nearest|].
  unfold nearest_away. rewrite Rminus_diag_eq, Rabs_R0 by reflexivity. split; lra.
Qed.

Lemma Rround_opp x : Rround (- x) = (- Rround x)%Z.
Proof.
  apply (nearest_away_unique (- x)); [apply Rround_nearest|].
  destruct (Rround_nearest x) as [H1 H2]. unfold nearest_away. rewrite opp_IZR.
  replace (- x - - IZR (Rround x)) with (- (x - IZR (Rround x))) by ring.
  rewrite !Rabs_Ropp. auto.
Qed.

(** ** C01 *)
Lemma round_trip_R (g : grid) i j :
  g_dx g <> 0 -> is_int32 i -> is_int32 j -> to_grid g (to_real g (i, j)) = Ok (i, j).
Proof.
  intros Hd Hi Hj. apply is_int32_range in Hi, Hj.
  unfold to_grid, to_real. simpl. rnum.
  replace (g_dx g * IZR i / g_dx g) with (IZR i) by (field; exact Hd).
  replace (g_dx g * IZR j / g_dx g) with (IZR j) by (field; exact Hd).
  rewrite !Rround_IZR, !cast_i32_ok by assumption. reflexivity.
Qed.

Lemma ulp_small : bpow radix2 (-53) * IZR (2 ^ 31) = bpow radix2 (-22).
Proof. change (IZR (2 ^ 31)) with (bpow radix2 31). rewrite <- bpow_plus. reflexivity. Qed.

Lemma round_trip1_b64 (L : libm) (dx : f64) (i : Z) :
  is_finite dx = true ->
  bpow radix2 (-1022) <= Rabs (B2R dx) <= bpow radix2 990 ->
  is_int32 i ->
  @nround (B64 L) (f64_div (f64_mul dx (f64_ofZ i)) dx) = Some i.
Proof.
  intros Hf [Hlo Hhi] Hi.
  assert (Hi53 : (Z.abs i < 2 ^ 53)%Z).
  { red in Hi. change (2 ^ 31)%Z with 2147483648%Z in Hi. change (2 ^ 53)%Z with 9007199254740992%Z. lia. }
  destruct (f64_ofZ_correct i Hi53) as [Ei Fi].
  assert (Hd0 : 0 < Rabs (B2R dx)).
  { eapply Rlt_le_trans; [|exact Hlo]. apply bpow_gt_0. }
  assert (Hd : B2R dx <> 0).
  { intros E. rewrite E, Rabs_R0 in Hd0. lra. }
  assert (Hia : Rabs (IZR i) <= bpow radix2 31).
  { rewrite <- abs_IZR. change (bpow radix2 31) with (IZR (2 ^ 31)). apply IZR_le. red in Hi. lia. }
  (* product *)
  set (P := B2R dx * IZR i).
  assert (HPe : Rabs (rnd64 P - P) <= bpow radix2 (-53) * Rabs P).
  { destruct (Z.eq_dec i 0) as [->|Hne].
    - unfold P. rewrite Rmult_0_r, round_0 by typeclasses eauto. rewrite Rminus_0_r, Rabs_R0. lra.
    - apply rnd64_rel. unfold P. rewrite Rabs_mult.
      assert (1 <= Rabs (IZR i)) by (rewrite <- abs_IZR; apply IZR_le; lia).
      apply Rle_trans with (1 := Hlo).
      rewrite <- (Rmult_1_r (Rabs (B2R dx))) at 1. apply Rmult_le_compat_l; lra. }
  assert (HPa : Rabs P <= bpow radix2 1021).
  { unfold P. rewrite Rabs_mult. replace (bpow radix2 1021) with (bpow radix2 990 * bpow radix2 31)
      by (rewrite <- bpow_plus; reflexivity).
    apply Rmult_le_compat; try apply Rabs_pos; assumption. }
  assert (H53 : 0 < bpow radix2 (-53) < / 4).
  { split; [apply bpow_gt_0|]. replace (/ 4) with (bpow radix2 (-2)) by (simpl; lra).
    apply bpow_lt. lia. }
  assert (HPr : Rabs (rnd64 P) <= 2 * Rabs P).
  { replace (rnd64 P) with ((rnd64 P - P) + P) by ring.
    apply Rle_trans with (1 := Rabs_triang _ _).
    generalize (Rabs_pos P). intros. nra. }
  assert (HM : B2R (f64_mul dx (f64_ofZ i)) = rnd64 P /\ is_finite (f64_mul dx (f64_ofZ i)) = true).
  { unfold f64_mul.
    generalize (@Bmult_correct 53 1024 Hprec64 Hemax64 mode_NE dx (f64_ofZ i)).
    change (round_mode mode_NE) with ZnearestE. rewrite fexp64_FLT, Ei. fold P.
    rewrite Rlt_bool_true.
    - intros [H1 [H2 _]]. rewrite H2, Hf, Fi. auto.
    - apply Rle_lt_trans with (bpow radix2 1022); [|apply bpow_lt; lia].
      apply Rle_trans with (1 := HPr).
      replace (bpow radix2 1022) with (2 * bpow radix2 1021)
        by (change 2 with (bpow radix2 1); rewrite <- bpow_plus; reflexivity).
      lra. }
  destruct HM as [EM FM].
  (* quotient *)
  set (Q := rnd64 P / B2R dx).
  assert (HQi : Rabs (Q - IZR i) <= bpow radix2 (-22)).
  { unfold Q. replace (rnd64 P / B2R dx - IZR i) with ((rnd64 P - P) / B2R dx)
      by (unfold P; field; exact Hd).
    unfold Rdiv. rewrite Rabs_mult, Rabs_inv.
    apply Rmult_le_reg_r with (1 := Hd0). rewrite Rmult_assoc, Rinv_l, Rmult_1_r by lra.
    apply Rle_trans with (1 := HPe). unfold P. rewrite Rabs_mult.
    replace (bpow radix2 (-53) * (Rabs (B2R dx) * Rabs (IZR i)))
      with (bpow radix2 (-53) * Rabs (IZR i) * Rabs (B2R dx)) by ring.
    apply Rmult_le_compat_r; [lra|].
    replace (bpow radix2 (-22)) with (bpow radix2 (-53) * bpow radix2 31)
      by (rewrite <- bpow_plus; reflexivity).
    apply Rmult_le_compat_l; lra. }
  assert (H22 : 0 < bpow radix2 (-22) <= / 16).
  { split; [apply bpow_gt_0|]. replace (/ 16) with (bpow radix2 (-4)) by (simpl; lra).
    apply bpow_le. lia. }
  assert (HQa : Rabs Q <= bpow radix2 32).
  { replace Q with ((Q - IZR i) + IZR i) by ring. apply Rle_trans with (1 := Rabs_triang _ _).
    replace (bpow radix2 32) with (2 * bpow radix2 31)
      by (change 2 with (bpow radix2 1); rewrite <- bpow_plus; reflexivity).
    assert (1 <= bpow radix2 31) by (change 1 with (bpow radix2 0); apply bpow_le; lia). lra. }
  assert (HQe : Rabs (rnd64 Q - Q) <= bpow radix2 (-53) * Rabs Q).
  { destruct (Z.eq_dec i 0) as [->|Hne].
    - unfold Q, P. rewrite Rmult_0_r, round_0 by typeclasses eauto.
      unfold Rdiv. rewrite Rmult_0_l, round_0 by typeclasses eauto. rewrite Rminus_0_r, Rabs_R0. lra.
    - apply rnd64_rel.
      assert (1 <= Rabs (IZR i)) by (rewrite <- abs_IZR; apply IZR_le; lia).
      assert (Rabs (IZR i) <= Rabs Q + Rabs (Q - IZR i)).
      { replace (IZR i) with (Q + - (Q - IZR i)) at 1 by ring.
        apply Rle_trans with (1 := Rabs_triang _ _). rewrite Rabs_Ropp. lra. }
      apply Rle_trans with (/ 2); [|lra].
      change (/ 2) with (bpow radix2 (-1)). apply bpow_le. lia. }
  assert (HQr : Rabs (rnd64 Q - IZR i) < / 2).
  { replace (rnd64 Q - IZR i) with ((rnd64 Q - Q) + (Q - IZR i)) by ring.
    apply Rle_lt_trans with (1 := Rabs_triang _ _).
    assert (bpow radix2 (-53) * Rabs Q <= bpow radix2 (-21)).
    { replace (bpow radix2 (-21)) with (bpow radix2 (-53) * bpow radix2 32)
        by (rewrite <- bpow_plus; reflexivity).
      apply Rmult_le_compat_l; lra. }
    assert (bpow radix2 (-21) <= / 16).
    { replace (/ 16) with (bpow radix2 (-4)) by (simpl; lra). apply bpow_le. lia. }
    lra. }
  assert (HD : B2R (f64_div (f64_mul dx (f64_ofZ i)) dx) = rnd64 Q /\
               is_finite (f64_div (f64_mul dx (f64_ofZ i)) dx) = true).
  { unfold f64_div.
    generalize (@Bdiv_correct 53 1024 Hprec64 Hemax64 mode_NE (f64_mul dx (f64_ofZ i)) dx Hd).
    change (round_mode mode_NE) with ZnearestE. rewrite fexp64_FLT, EM. fold Q.
    rewrite Rlt_bool_true.
    - intros [H1 [H2 _]]. rewrite H2, FM. auto.
    - apply Rle_lt_trans with (bpow radix2 33); [|apply bpow_lt; lia].
      replace (rnd64 Q) with ((rnd64 Q - IZR i) + IZR i) by ring.
      apply Rle_trans with (1 := Rabs_triang _ _).
      replace (bpow radix2 33) with (4 * bpow radix2 31)
        by (change 4 with (bpow radix2 2); rewrite <- bpow_plus; reflexivity).
      assert (1 <= bpow radix2 31) by (change 1 with (bpow radix2 0); apply bpow_le; lia). lra. }
  destruct HD as [ED FD].
  change (@nround (B64 L)) with (f64_toZ mode_NA). unfold f64_toZ. rewrite FD.
  rewrite Btrunc_nearbyint by exact FD. rewrite ED. simpl round_mode.
  rewrite (Znearest_imp _ _ i HQr). apply cast_i32_ok. apply is_int32_range. exact Hi.
Qed.

Lemma round_trip_b64 (L : libm) (g : @grid (B64 L)) i j :
  is_finite (g_dx g : f64) = true ->
  bpow radix2 (-1022) <= Rabs (B2R (g_dx g : f64)) <= bpow radix2 990 ->
  is_int32 i -> is_int32 j ->
  @to_grid (B64 L) g (@to_real (B64 L) g (i, j)) = Ok (i, j).
Proof.
  intros Hf Hr Hi Hj. unfold to_grid, to_real. cbn [fst snd].
  change (@ndiv (B64 L)) with f64_div. change (@nmul (B64 L)) with f64_mul.
  change (@nofZ (B64 L)) with f64_ofZ.
  rewrite !round_trip1_b64 by assumption. reflexivity.
Qed.

(** ** C02 *)
Lemma to_grid_nearest (g : grid) (p : vec) i j :
  0 < g_dx g -> to_grid g p = Ok (i, j) ->
  nearest_away (fst p / g_dx g) i /\ nearest_away (snd p / g_dx g) j.
Proof.
  intros Hd H. unfold to_grid in H. inv_ok. apply ofOption_ok in Hr, Hr0.
  rnum. apply cast_i32_some in Hr, Hr0. destruct Hr as [-> _]. destruct Hr0 as [-> _].
  split; apply Rround_nearest.
Qed.

Lemma to_grid_within (g : grid) (p : vec) i j :
  0 < g_dx g -> to_grid g p = Ok (i, j) ->
  Rabs (fst p - fst (to_real g (i, j))) <= g_dx g / 2 /\
  Rabs (snd p - snd (to_real g (i, j))) <= g_dx g / 2.
Proof.
  intros Hd H. destruct (to_grid_nearest g p i j Hd H) as [[H1 _] [H2 _]].
  unfold to_real. rnum. simpl.
  assert (W : forall x n, Rabs (x / g_dx g - IZR n) <= / 2 -> Rabs (x - g_dx g * IZR n) <= g_dx g / 2).
  { intros x n Hx. replace (x - g_dx g * IZR n) with (g_dx g * (x / g_dx g - IZR n)) by (field; lra).
    rewrite Rabs_mult, Rabs_pos_eq by lra. nra. }
  auto.
Qed.

Lemma to_grid_total (g : grid) (p : vec) i j :
  nearest_away (fst p / g_dx g) i -> nearest_away (snd p / g_dx g) j ->
  is_int32 i -> is_int32 j -> to_grid g p = Ok (i, j).
Proof.
  intros H1 H2 Hi Hj. destruct p as [x y]. unfold to_grid. cbn [fst snd] in *. rnum.
  rewrite (nearest_away_unique _ _ _ (Rround_nearest (x / g_dx g)) H1).
  rewrite (nearest_away_unique _ _ _ (Rround_nearest (y / g_dx g)) H2).
  rewrite !cast_i32_ok by (now apply is_int32_range). reflexivity.
Qed.

Lemma to_grid_mono (g : grid) (p q : vec) i j k l :
  0 < g_dx g -> to_grid g p = Ok (i, j) -> to_grid g q = Ok (k, l) ->
  (fst p <= fst q -> (i <= k)%Z) /\ (snd p <= snd q -> (j <= l)%Z).
Proof.
  intros Hd H1 H2. unfold to_grid in *. inv_ok.
  apply ofOption_ok in Hr, Hr0, Hr1, Hr2. rnum.
  apply cast_i32_some in Hr, Hr0, Hr1, Hr2.
  destruct Hr as [-> _], Hr0 as [-> _], Hr1 as [-> _], Hr2 as [-> _].
  assert (Hi : 0 < / g_dx g) by (apply Rinv_0_lt_compat; exact Hd).
  split; intros H; apply Rround_mono; unfold Rdiv; apply Rmult_le_compat_r; lra.
Qed.

(** ** C03 *)
Lemma mk_grid_spec Lx Ly rs pml :
  0 < Lx -> 0 < Ly -> 0 < rs -> Lx * rs <= IZR INT_MAX -> Ly * rs <= IZR INT_MAX ->
  exists g : grid, mk_grid Lx Ly rs pml = Ok g /\
    (IZR (g_Nx g) - 1 < Lx * rs <= IZR (g_Nx g)) /\
    (IZR (g_Ny g) - 1 < Ly * rs <= IZR (g_Ny g)) /\
    g_res g = rs /\ g_dx g * rs = 1 /\ 0 < g_dx g /\
    g_Lx g = g_dx g * (IZR (g_Nx g) - 1) /\ g_Ly g = g_dx g * (IZR (g_Ny g) - 1) /\
    (Lx - g_dx g <= g_Lx g < Lx) /\ (Ly - g_dx g <= g_Ly g < Ly) /\
    0 < g_dt g < g_dx g / sqrt 2 /\ 2 * g_dt g = g_dx g /\ g_pml g = (pml + 1)%Z.
Proof.
  intros HLx HLy Hr Hx Hy.
  assert (Hb : forall L, 0 < L -> L * rs <= IZR INT_MAX -> cast_i32 (Zceil (L * rs)) = Some (Zceil (L * rs))).
  { intros L HL Hm. apply cast_i32_ok. split.
    - apply le_IZR. apply Rle_trans with 0; [apply IZR_le; unfold INT_MIN; lia|].
      apply Rle_trans with (2 := Zceil_ub _). nra.
    - apply Zceil_glb. exact Hm. }
  unfold mk_grid. rnum. rewrite (Hb Lx) by assumption. simpl. rewrite (Hb Ly) by assumption. simpl.
  eexists; split; [reflexivity|]. cbn [g_Lx g_Ly g_Nx g_Ny g_dx g_dt g_res g_pml].
  assert (Hi : 0 < / rs) by (apply Rinv_0_lt_compat; exact Hr).
  assert (Hc : forall L, IZR (Zceil (L * rs)) - 1 < L * rs <= IZR (Zceil (L * rs))).
  { intros L. generalize (Zceil_ub (L * rs)), (Zceil_lb (L * rs)). lra. }
  assert (Hl : forall L, L - 1 / rs <= 1 / rs * IZR (Zceil (L * rs) - 1) < L).
  { intros L. rewrite minus_IZR. specialize (Hc L). unfold Rdiv. rewrite Rmult_1_l.
    assert (E : L = L * rs * / rs) by (field; lra).
    set (c := IZR (Zceil (L * rs))) in *. destruct Hc as [Hc1 Hc2].
    apply Rmult_lt_compat_r with (r := / rs) in Hc1; [|exact Hi].
    apply Rmult_le_compat_r with (r := / rs) in Hc2; [|lra].
    rewrite <- E in Hc1, Hc2. lra. }
  split; [apply Hc|]. split; [apply Hc|]. split; [reflexivity|].
  split; [field; lra|]. split; [unfold Rdiv; lra|].
  split; [rewrite minus_IZR; reflexivity|]. split; [rewrite minus_IZR; reflexivity|].
  split; [apply Hl|]. split; [apply Hl|]. split; [|split; [lra|reflexivity]].
  assert (Hs : 0 < sqrt 2) by (apply sqrt_lt_R0; lra).
  assert (Hs2 : sqrt 2 < 2).
  { rewrite <- (sqrt_square 2) at 2 by lra. apply sqrt_lt_1; lra. }
  split; [unfold Rdiv; lra|].
  unfold Rdiv at 1 3. unfold Rdiv. rewrite Rmult_1_l. apply Rmult_lt_compat_l; [exact Hi|].
  apply Rinv_lt_contravar; nra.
Qed.

(** the facts about a constructed grid that the other proofs use *)
Definition grid_ok (g : grid) : Prop :=
  0 < g_dx g /\ (1 <= g_Nx g <= INT_MAX)%Z /\ (1 <= g_Ny g <= INT_MAX)%Z /\
  g_Lx g = g_dx g * (IZR (g_Nx g) - 1) /\ g_Ly g = g_dx g * (IZR (g_Ny g) - 1) /\
  2 * g_dt g = g_dx g.

Lemma mk_grid_ok Lx Ly rs pml g :
  0 < Lx -> 0 < Ly -> 0 < rs -> mk_grid Lx Ly rs pml = Ok g -> grid_ok g.
Proof.
  intros HLx HLy Hr H. unfold mk_grid in H. inv_ok. apply ofOption_ok in Hr0, Hr1. rnum.
  apply cast_i32_some in Hr0, Hr1. destruct Hr0 as [-> H0], Hr1 as [-> H1].
  assert (Hi : 0 < / rs) by (apply Rinv_0_lt_compat; exact Hr).
  assert (Hp : forall L, 0 < L -> (1 <= Zceil (L * rs))%Z).
  { intros L HL. assert (0 < Zceil (L * rs))%Z; [|lia]. apply lt_IZR.
    apply Rlt_le_trans with (2 := Zceil_ub _). nra. }
  unfold grid_ok. cbn [g_Lx g_Ly g_Nx g_Ny g_dx g_dt g_res g_pml]. rewrite !minus_IZR.
  repeat split; try (apply Hp; assumption); try lia; try lra.
Qed.

(** ** C04 *)
Lemma domain_cell (g : grid) (p : vec) :
  grid_ok g -> in_box (v_a (domain g)) (v_b (domain g)) p ->
  exists q, to_grid g p = Ok q /\ in_grid (g_Nx g) (g_Ny g) q.
Proof.
  destruct p as [px py].
  intros (Hd & Hx & Hy & HLx & HLy & _) [H1 H2]. unfold domain, mk_volume in *. simpl in H1, H2.
  assert (Hi : 0 < / g_dx g) by (apply Rinv_0_lt_compat; exact Hd).
  assert (W : forall x n L, (1 <= n)%Z -> L = g_dx g * (IZR n - 1) -> 0 <= x <= L ->
              (0 <= Rround (x / g_dx g) <= n - 1)%Z).
  { intros x n L Hn HL Hx0. split.
    - rewrite <- (Rround_IZR 0). apply Rround_mono. unfold Rdiv. nra.
    - rewrite <- (Rround_IZR (n - 1)). apply Rround_mono. rewrite minus_IZR. unfold Rdiv.
      replace (IZR n - 1) with (g_dx g * (IZR n - 1) * / g_dx g) by (field; lra).
      rewrite <- HL. apply Rmult_le_compat_r; lra. }
  rnum. generalize (W px _ _ (proj1 Hx) HLx H1), (W py _ _ (proj1 Hy) HLy H2). intros W1 W2.
  exists (Rround (px / g_dx g), Rround (py / g_dx g)). split.
  - apply to_grid_total; try apply Rround_nearest; apply is_int32_range; unfold INT_MIN, INT_MAX in *; lia.
  - split; simpl; lia.
Qed.

(** the far edge of the requested length, when it is a whole number of cells *)
Lemma requested_edge_oob (Ly rs : R) (n : Z) pml g y :
  0 < Ly -> 0 < rs -> (1 <= n)%Z -> mk_grid (IZR n / rs) Ly rs pml = Ok g ->
  forall q, to_grid g (IZR n / rs, y) = Ok q -> fst q = g_Nx g /\ ~ in_grid (g_Nx g) (g_Ny g) q.
Proof.
  intros HLy Hr Hn H q Hq. unfold mk_grid in H. inv_ok. apply ofOption_ok in Hr0. rnum.
  apply cast_i32_some in Hr0. destruct Hr0 as [-> H0].
  replace (IZR n / rs * rs) with (IZR n) in * by (field; lra). rewrite Zceil_IZR in *.
  unfold to_grid in Hq. inv_ok. apply ofOption_ok in Hr0. rnum.
  apply cast_i32_some in Hr0. destruct Hr0 as [E _].
  cbn [g_Lx g_Ly g_Nx g_Ny g_dx g_dt g_res g_pml fst] in *.
  replace (IZR n / rs / (1 / rs)) with (IZR n) in E by (field; lra). rewrite Rround_IZR in E.
  split; [exact E|]. intros [Hc _]. simpl in Hc. lia.
Qed.

(** ** C05 *)
Lemma Reqb_true x y : Reqb x y = true <-> x = y.
Proof. unfold Reqb. destruct (Req_EM_T x y); split; congruence. Qed.
Lemma Reqb_false x y : Reqb x y = false <-> x <> y.
Proof. unfold Reqb. destruct (Req_EM_T x y); split; congruence. Qed.
Lemma Rltb_true x y : Rltb x y = true <-> x < y.
Proof. unfold Rltb. destruct (Rlt_dec x y); split; congruence. Qed.
Lemma Rltb_false x y : Rltb x y = false <-> y <= x.
Proof. unfold Rltb. destruct (Rlt_dec x y); split; try congruence; try lra. Qed.

Lemma Rabs_eq0 x : Rabs x = 0 <-> x = 0.
Proof.
  split; [|intros ->; apply Rabs_R0]. intros H. destruct (Req_dec x 0) as [E|E]; [exact E|].
  apply Rabs_no_R0 in E. contradiction.
Qed.

Lemma Rabs_zero x : Rabs x = 0 -> x = 0.
Proof. apply Rabs_eq0. Qed.

Lemma mk_surface_iff (a b : vec) sg :
  (exists s, mk_surface a b sg = Ok s) <-> (fst a = fst b \/ snd a = snd b).
Proof.
  destruct a as [a0 a1], b as [b0 b1].
  unfold mk_surface. rnum. unfold vsub, vabs. cbn [fst snd]. rnum.
  destruct (Reqb (Rabs (a0 - b0)) 0) eqn:E1.
  - apply Reqb_true, Rabs_zero in E1. split; [intros _; left; lra|simpl; eauto].
  - destruct (Reqb (Rabs (a1 - b1)) 0) eqn:E2.
    + apply Reqb_true, Rabs_zero in E2. split; [intros _; right; lra|simpl; eauto].
    + apply Reqb_false in E1, E2. split; [intros [s H]; discriminate|].
      intros [H|H]; exfalso; [apply E1|apply E2]; apply Rabs_eq0; lra.
Qed.

Lemma mk_surface_throw (a b : vec) sg :
  fst a <> fst b -> snd a <> snd b -> mk_surface a b sg = Throw InvalidArgument.
Proof.
  destruct a as [a0 a1], b as [b0 b1]. cbn [fst snd].
  intros H1 H2. unfold mk_surface. rnum. unfold vsub, vabs. cbn [fst snd]. rnum.
  destruct (Reqb (Rabs (a0 - b0)) 0) eqn:E1.
  { exfalso. apply H1. apply Reqb_true, Rabs_zero in E1. lra. }
  destruct (Reqb (Rabs (a1 - b1)) 0) eqn:E2.
  { exfalso. apply H2. apply Reqb_true, Rabs_zero in E2. lra. }
  reflexivity.
Qed.

Lemma mk_surface_fields (a b : vec) sg s : mk_surface a b sg = Ok s ->
  s_a s = a /\ s_b s = b /\ s_sign s = sg.
Proof. intros H. unfold mk_surface in H. inv_ok. auto. Qed.

(** horizontal or vertical integer segment with distinct ends *)
Lemma mk_isurface_axis (a b : ivec) sg :
  (fst a = fst b \/ snd a = snd b) -> a <> b ->
  (Z.abs (fst b - fst a) + Z.abs (snd b - snd a) <= 46340)%Z ->
  exists is, mk_isurface a b sg = Ok is /\ is_a is = a /\ is_b is = b /\ is_sign is = sg /\
    let len := (Z.abs (fst b - fst a) + Z.abs (snd b - snd a))%Z in
    is_dim is = (Z.abs (fst b - fst a), Z.abs (snd b - snd a)) /\
    b = iadd a (iscale len (is_tangent is)) /\
    (is_tangent is = (Z.sgn (fst b - fst a), Z.sgn (snd b - snd a))).
Proof.
  destruct a as [a0 a1], b as [b0 b1]. simpl. intros Hax Hne Hlen.
  unfold mk_isurface. cbn [fst snd].
  rewrite !i32_ok by (unfold INT_MIN, INT_MAX; lia). cbn [bind].
  assert (Hdet : (a0 = b0 /\ a1 <> b1) \/ (a1 = b1 /\ a0 <> b0)).
  { destruct Hax as [->| ->]; [left|right]; split; try reflexivity; congruence. }
  assert (Q : forall z, z <> 0%Z -> Z.quot z (Z.abs z) = Z.sgn z).
  { intros z Hz. destruct (Z.lt_trichotomy z 0) as [H|[H|H]]; [|lia|].
    - rewrite Z.abs_neq by lia. rewrite <- (Z.opp_involutive z) at 1. rewrite Z.quot_opp_l by lia.
      rewrite Z.quot_same by lia. lia.
    - rewrite Z.abs_eq by lia. rewrite Z.quot_same by lia. lia. }
  assert (Sq : forall z, (Z.abs z <= 46340)%Z -> (0 <= z * z <= INT_MAX)%Z).
  { intros z Hz. unfold INT_MAX. nia. }
  assert (Sr : forall z, Z.sqrt (z * z) = Z.abs z).
  { intros z. rewrite <- Z.abs_square. apply Z.sqrt_square. lia. }
  destruct Hdet as [[-> Hd]|[-> Hd]].
  - replace (Z.abs (b0 - b0)) with 0%Z by lia. cbn [Z.eqb bind fst snd].
    unfold inorm. cbn [fst snd]. replace ((b0 - b0) * (b0 - b0) + (b1 - a1) * (b1 - a1))%Z
      with ((b1 - a1) * (b1 - a1))%Z by ring.
    rewrite i32_ok. 2:{ generalize (Sq (b1 - a1)%Z). unfold INT_MIN. lia. }
    cbn [bind]. rewrite Sr. destruct (Z.abs (b1 - a1) =? 0)%Z eqn:E; [lia|].
    eexists. split; [reflexivity|]. cbn [is_a is_b is_sign is_dim is_tangent].
    rewrite Q by lia. rewrite Z.sub_diag. rewrite Z.quot_0_l by lia.
    repeat split; try (f_equal; lia).
    unfold iadd, iscale. cbn [fst snd]. f_equal; [lia|].
    match goal with |- _ = (_ + ?l * _)%Z => replace l with (Z.abs (b1 - a1)) by lia end.
    rewrite Z.abs_sgn. lia.
  - replace (Z.abs (b1 - b1)) with 0%Z by lia.
    destruct (Z.abs (a0 - b0) =? 0)%Z eqn:E0; [lia|]. cbn [Z.eqb bind fst snd].
    unfold inorm. cbn [fst snd]. replace ((b0 - a0) * (b0 - a0) + (b1 - b1) * (b1 - b1))%Z
      with ((b0 - a0) * (b0 - a0))%Z by ring.
    rewrite i32_ok. 2:{ generalize (Sq (b0 - a0)%Z). unfold INT_MIN. lia. }
    cbn [bind]. rewrite Sr. destruct (Z.abs (b0 - a0) =? 0)%Z eqn:E; [lia|].
    eexists. split; [reflexivity|]. cbn [is_a is_b is_sign is_dim is_tangent].
    rewrite Q by lia. rewrite Z.sub_diag. rewrite Z.quot_0_l by lia.
    repeat split; try (f_equal; lia).
    unfold iadd, iscale. cbn [fst snd]. f_equal; [|lia].
    match goal with |- _ = (_ + ?l * _)%Z => replace l with (Z.abs (b0 - a0)) by lia end.
    rewrite Z.abs_sgn. lia.
Qed.

Lemma mk_isurface_degenerate (a : ivec) sg : mk_isurface a a sg = UB DivByZero.
Proof.
  unfold mk_isurface. rewrite !Z.sub_diag. rewrite !i32_ok by (unfold INT_MIN, INT_MAX; lia).
  reflexivity.
Qed.

Lemma to_grid_coord (g : grid) (p q : vec) u v :
  to_grid g p = Ok u -> to_grid g q = Ok v ->
  (fst p = fst q -> fst u = fst v) /\ (snd p = snd q -> snd u = snd v).
Proof.
  intros H1 H2. unfold to_grid in *. inv_ok. apply ofOption_ok in Hr, Hr0, Hr1, Hr2.
  split; intros E; simpl; rewrite E in *; congruence.
Qed.

Lemma to_grid_not_throw (g : grid) (p : vec) e : to_grid g p <> Throw e.
Proof.
  unfold to_grid. destruct (nround (fst p / g_dx g)%num); [|discriminate]. cbn [ofOption bind].
  destruct (nround (snd p / g_dx g)%num); discriminate.
Qed.

Lemma to_grid_int32 (g : grid) (p : vec) q : to_grid g p = Ok q -> is_int32 (fst q) /\ is_int32 (snd q).
Proof.
  intros H. unfold to_grid in H. inv_ok. apply ofOption_ok in Hr, Hr0. rnum.
  apply cast_i32_some in Hr, Hr0. simpl. rewrite !is_int32_range. destruct Hr as [-> ?], Hr0 as [-> ?]. auto.
Qed.

Lemma to_grid_surface_not_throw (g : grid) (a b : vec) sg s e :
  mk_surface a b sg = Ok s -> to_grid_surface g s <> Throw e.
Proof.
  intros Hs. destruct (mk_surface_fields a b sg s Hs) as [Ha [Hb Hsg]].
  assert (Hax : fst a = fst b \/ snd a = snd b) by (apply (mk_surface_iff a b sg); eauto).
  unfold to_grid_surface. rewrite Ha, Hb, Hsg.
  destruct (to_grid g a) as [ia|e'|u] eqn:E1; [|exfalso; eapply to_grid_not_throw; exact E1|discriminate].
  destruct (to_grid g b) as [ib|e'|u] eqn:E2; [|exfalso; eapply to_grid_not_throw; exact E2|discriminate].
  cbn [bind]. destruct (to_grid_coord g a b ia ib E1 E2) as [C1 C2].
  assert (Hi : fst ia = fst ib \/ snd ia = snd ib) by tauto. clear - Hi.
  unfold mk_isurface, i32. destruct (in_i32 (fst ia - fst ib)) eqn:R0; [|discriminate].
  cbn [bind]. destruct (in_i32 (snd ia - snd ib)) eqn:R1; [|discriminate]. cbn [bind fst snd].
  destruct (Z.abs (fst ia - fst ib) =? 0)%Z eqn:E0; cbn [bind].
  - unfold inorm, i32. match goal with |- context [in_i32 ?z] => destruct (in_i32 z) end; [|discriminate].
    cbn [bind]. match goal with |- context [(?z =? 0)%Z] => destruct (z =? 0)%Z end; discriminate.
  - destruct (Z.abs (snd ia - snd ib) =? 0)%Z eqn:E1; [|lia].
    cbn [bind]. unfold inorm, i32. match goal with |- context [in_i32 ?z] => destruct (in_i32 z) end; [|discriminate].
    cbn [bind]. match goal with |- context [(?z =? 0)%Z] => destruct (z =? 0)%Z end; discriminate.
Qed.

Lemma to_grid_surface_ok (g : grid) (a b : vec) sg s ia ib :
  mk_surface a b sg = Ok s -> to_grid g a = Ok ia -> to_grid g b = Ok ib -> ia <> ib ->
  (Z.abs (fst ib - fst ia) + Z.abs (snd ib - snd ia) <= 46340)%Z ->
  exists is, to_grid_surface g s = Ok is /\ is_a is = ia /\ is_b is = ib /\ is_sign is = sg /\
    let len := (Z.abs (fst ib - fst ia) + Z.abs (snd ib - snd ia))%Z in
    is_dim is = (Z.abs (fst ib - fst ia), Z.abs (snd ib - snd ia)) /\
    ib = iadd ia (iscale len (is_tangent is)) /\
    (is_tangent is = (Z.sgn (fst ib - fst ia), Z.sgn (snd ib - snd ia))).
Proof.
  intros Hs Ea Eb Hne Hlen. destruct (mk_surface_fields a b sg s Hs) as [Ha [Hb Hsg]].
  assert (Hax : fst a = fst b \/ snd a = snd b) by (apply (mk_surface_iff a b sg); eauto).
  destruct (to_grid_coord g a b ia ib Ea Eb) as [C1 C2].
  destruct (to_grid_int32 g a ia Ea). destruct (to_grid_int32 g b ib Eb).
  unfold to_grid_surface. rewrite Ha, Hb, Hsg, Ea, Eb. cbn [bind].
  apply mk_isurface_axis; try assumption. tauto.
Qed.

Lemma to_grid_surface_same_cell (g : grid) (a b : vec) sg s q :
  mk_surface a b sg = Ok s -> to_grid g a = Ok q -> to_grid g b = Ok q ->
  to_grid_surface g s = UB DivByZero.
Proof.
  intros Hs Ea Eb. destruct (mk_surface_fields a b sg s Hs) as [Ha [Hb Hsg]].
  unfold to_grid_surface. rewrite Ha, Hb, Ea, Eb. cbn [bind]. apply mk_isurface_degenerate.
Qed.

(** ** C06 *)
Lemma sqrt_sq_l d z : z = 0 -> sqrt (d * d + z * z) = Rabs d.
Proof. intros ->. rewrite Rmult_0_l, Rplus_0_r. apply sqrt_Rsqr_abs. Qed.
Lemma sqrt_sq_r d z : z = 0 -> sqrt (z * z + d * d) = Rabs d.
Proof. intros ->. rewrite Rmult_0_l, Rplus_0_l. apply sqrt_Rsqr_abs. Qed.

Lemma mk_surface_vert (x y0 y1 : R) sg :
  mk_surface (x, y0) (x, y1) sg =
  Ok (Surface (x, y0) (x, y1) sg (0, Rabs (y0 - y1))
        (IZR (sgnZ sg) * 1, IZR (sgnZ sg) * 0) (0, (y1 - y0) / Rabs (y1 - y0))).
Proof.
  unfold mk_surface, vsub, vabs, vdivs, vnorm, vsqnorm, vdot. cbn [fst snd]. rnum.
  replace (x - x) with 0 by ring. rewrite Rabs_R0.
  replace (Reqb 0 0) with true by (symmetry; apply Reqb_true; reflexivity).
  cbn [bind]. rewrite (sqrt_sq_r (y1 - y0) 0 eq_refl). unfold Rdiv. rewrite Rmult_0_l. reflexivity.
Qed.

Lemma mk_surface_horiz (y x0 x1 : R) sg : x0 <> x1 ->
  mk_surface (x0, y) (x1, y) sg =
  Ok (Surface (x0, y) (x1, y) sg (Rabs (x0 - x1), 0)
        (IZR (sgnZ sg) * 0, IZR (sgnZ sg) * 1) ((x1 - x0) / Rabs (x1 - x0), 0)).
Proof.
  intros Hne. unfold mk_surface, vsub, vabs, vdivs, vnorm, vsqnorm, vdot. cbn [fst snd]. rnum.
  replace (Reqb (Rabs (x0 - x1)) 0) with false.
  2:{ symmetry. apply Reqb_false. intros H. apply Rabs_zero in H. lra. }
  replace (y - y) with 0 by ring. rewrite Rabs_R0.
  replace (Reqb 0 0) with true by (symmetry; apply Reqb_true; reflexivity).
  cbn [bind]. rewrite (sqrt_sq_l (x1 - x0) 0 eq_refl). unfold Rdiv. rewrite Rmult_0_l. reflexivity.
Qed.

Lemma box_sides_loop (v : volume) :
  fst (v_a v) < fst (v_b v) -> snd (v_a v) < snd (v_b v) ->
  exists s1 s2 s3 s4,
    get_surface v y_bottom = Ok s1 /\ get_surface v x_top = Ok s2 /\
    get_surface v y_top = Ok s3 /\ get_surface v x_bottom = Ok s4 /\
    chained [s1; s2; s3; s4; s1] /\
    (forall s, In s [s1; s2; s3; s4] ->
       dot2 (s_normal s) (s_normal s) = 1 /\ dot2 (s_tangent s) (s_tangent s) = 1 /\
       dot2 (s_normal s) (s_tangent s) = 0 /\
       cross2 (s_normal s) (s_tangent s) = 1 /\
       (forall p, fst (v_a v) < fst p < fst (v_b v) -> snd (v_a v) < snd p < snd (v_b v) ->
          dot2 (vsub (s_a s) p) (s_normal s) > 0 /\ dot2 (vsub (s_b s) p) (s_normal s) > 0)) /\
    (let len s := fst (s_dim s) + snd (s_dim s) in
     len s1 + len s2 + len s3 + len s4 =
     2 * (fst (v_b v) - fst (v_a v)) + 2 * (snd (v_b v) - snd (v_a v))).
Proof.
  destruct v as [[a0 a1] [b0 b1] dm]. cbn [v_a v_b fst snd]. intros Hx Hy.
  unfold get_surface. cbn [v_a v_b fst snd].
  rewrite !mk_surface_vert. rewrite !mk_surface_horiz by lra.
  do 4 eexists. do 4 (split; [reflexivity|]).
  split; [cbn; auto|].
  assert (P1 : Rabs (b0 - a0) = b0 - a0) by (apply Rabs_pos_eq; lra).
  assert (P2 : Rabs (b1 - a1) = b1 - a1) by (apply Rabs_pos_eq; lra).
  assert (P3 : Rabs (a0 - b0) = b0 - a0) by (rewrite Rabs_left; lra).
  assert (P4 : Rabs (a1 - b1) = b1 - a1) by (rewrite Rabs_left; lra).
  rewrite ?P1, ?P2, ?P3, ?P4. split.
  - intros s Hs. cbn [In] in Hs.
    destruct Hs as [<-|[<-|[<-|[<-|[]]]]];
      cbn [s_a s_b s_normal s_tangent sgnZ]; unfold dot2, cross2, vsub; cbn [fst snd]; rnum;
      (split; [lra|]); (split; [field; lra|]); (split; [field; lra|]); (split; [field; lra|]);
      intros p Hp1 Hp2; split; simpl; lra.
  - cbn [s_dim fst snd]. lra.
Qed.

(** ** C07 *)
Lemma vol_c_center (c : vec) (lx ly : R) :
  vol_center (mk_volume_c c lx ly) = c /\ v_dim (mk_volume_c c lx ly) = (lx, ly) /\
  (0 <= lx -> 0 <= ly -> v_dim (mk_volume (v_a (mk_volume_c c lx ly)) (v_b (mk_volume_c c lx ly))) = (lx, ly)).
Proof.
  destruct c as [c0 c1]. unfold vol_center, mk_volume_c, mk_volume, vdivs, vadd, vsub, vabs. simpl. rnum.
  split; [f_equal; lra|]. split; [reflexivity|]. intros H1 H2. f_equal.
  - rewrite Rabs_left1; lra.
  - rewrite Rabs_left1; lra.
Qed.

Lemma vol_pad_spec (v : volume) (s : R) :
  fst (v_a v) <= fst (v_b v) -> snd (v_a v) <= snd (v_b v) -> 0 <= s ->
  vol_center (vol_pad v s) = vol_center v /\
  fst (v_dim (vol_pad v s)) = fst (v_b v) - fst (v_a v) + 2 * s /\
  snd (v_dim (vol_pad v s)) = snd (v_b v) - snd (v_a v) + 2 * s /\
  (forall p, in_box (v_a (vol_pad v s)) (v_b (vol_pad v s)) p <->
     exists q, in_box (v_a v) (v_b v) q /\ Rabs (fst p - fst q) <= s /\ Rabs (snd p - snd q) <= s).
Proof.
  destruct v as [[a0 a1] [b0 b1] dm]. cbn [v_a v_b fst snd]. intros H1 H2 Hs.
  unfold vol_center, vol_pad, mk_volume, vdivs, vadd, vsub, vabs. simpl. rnum.
  split; [f_equal; lra|]. split; [rewrite Rabs_left1; lra|]. split; [rewrite Rabs_left1; lra|].
  intros [p0 p1]. unfold in_box. cbn [fst snd]. split.
  - intros [P1 P2].
    exists (Rmax a0 (Rmin b0 p0), Rmax a1 (Rmin b1 p1)). cbn [fst snd].
    unfold Rmax, Rmin; repeat destruct Rle_dec; cbn [fst snd];
      (split; [split; lra|]); split; apply Rabs_le; lra.
  - intros [[q0 q1] [[Q1 Q2] [Q3 Q4]]]. cbn [fst snd] in *. apply Rabs_le_inv in Q3, Q4. lra.
Qed.

Lemma vol_translate_spec (v : volume) (d : vec) :
  vol_center (vol_translate v d) = vadd (vol_center v) d /\
  (v_dim v = v_dim (mk_volume (v_a v) (v_b v)) -> v_dim (vol_translate v d) = v_dim v) /\
  (forall p, in_box (v_a (vol_translate v d)) (v_b (vol_translate v d)) (vadd p d) <-> in_box (v_a v) (v_b v) p).
Proof.
  destruct v as [[a0 a1] [b0 b1] dm], d as [d0 d1]. cbn [v_a v_b v_dim].
  unfold vol_center, vol_translate, mk_volume, vdivs, vadd, vsub, vabs. simpl. rnum.
  split; [f_equal; lra|]. split.
  - intros ->. f_equal; f_equal; ring.
  - intros [p0 p1]. unfold in_box. cbn [fst snd]. lra.
Qed.

(** ** C12, C13 *)
Lemma iclip_keeps {N : Num} (g : grid) (v : ivolume) q :
  in_grid (g_Nx g) (g_Ny g) q ->
  in_ibox (iv_a v) (iv_b v) q -> in_ibox (iv_a (iclip g v)) (iv_b (iclip g v)) q.
Proof.
  destruct v as [[a0 a1] [b0 b1] dm]. destruct q as [q0 q1].
  unfold in_grid, in_ibox, iclip, mk_ivolume. cbn [iv_a iv_b fst snd].
  intros [Hq0 Hq1] [H0 H1].
  repeat match goal with |- context [(?x <? ?y)%Z] => destruct (x <? y)%Z eqn:?E end; lia.
Qed.

Lemma iclip_confines_partial {N : Num} (g : grid) (v : ivolume) q :
  (1 <= g_Nx g)%Z -> (1 <= g_Ny g)%Z ->
  (fst (iv_b v) <= g_Nx g - 1)%Z -> (0 <= snd (iv_a v))%Z ->
  in_ibox (iv_a (iclip g v)) (iv_b (iclip g v)) q -> in_grid (g_Nx g) (g_Ny g) q.
Proof.
  destruct v as [[a0 a1] [b0 b1] dm]. destruct q as [q0 q1].
  unfold in_grid, in_ibox, iclip, mk_ivolume. cbn [iv_a iv_b fst snd].
  intros HNx HNy Hb Ha.
  repeat match goal with |- context [(?x <? ?y)%Z] => destruct (x <? y)%Z eqn:?E end; lia.
Qed.

Lemma iclip_escapes {N : Num} (g : grid) :
  (1 <= g_Nx g)%Z -> (1 <= g_Ny g)%Z ->
  (exists v q, in_ibox (iv_a v) (iv_b v) (0, 0)%Z /\
     in_ibox (iv_a (iclip g v)) (iv_b (iclip g v)) q /\ (g_Nx g <= fst q)%Z) /\
  (exists v q, in_ibox (iv_a v) (iv_b v) (0, 0)%Z /\
     in_ibox (iv_a (iclip g v)) (iv_b (iclip g v)) q /\ (snd q < 0)%Z).
Proof.
  intros H1 H2. split.
  - exists (mk_ivolume (0, 0)%Z (g_Nx g, 0)%Z), (g_Nx g, 0)%Z.
    unfold in_ibox, iclip, mk_ivolume. cbn [iv_a iv_b fst snd].
    repeat match goal with |- context [(?x <? ?y)%Z] => destruct (x <? y)%Z eqn:?E end; lia.
  - exists (mk_ivolume (0, -1)%Z (0, 0)%Z), (0, -1)%Z.
    unfold in_ibox, iclip, mk_ivolume. cbn [iv_a iv_b fst snd].
    repeat match goal with |- context [(?x <? ?y)%Z] => destruct (x <? y)%Z eqn:?E end; lia.
Qed.

(** ** Concrete grids for the examples *)
Lemma grid8 : exists g : grid, mk_grid 8 8 1 1 = Ok g /\ grid_ok g /\ g_Nx g = 8%Z /\ g_Ny g = 8%Z /\
  g_dx g = 1 /\ g_Lx g = 7 /\ g_Ly g = 7 /\ g_pml g = 2%Z.
Proof.
  destruct (mk_grid_spec 8 8 1 1) as [g [E H]]; try lra.
  { unfold INT_MAX. lra. } { unfold INT_MAX. lra. }
  destruct H as (H1 & H2 & _ & Hd & Hp & HL & HLy & _ & _ & _ & _ & Hm).
  exists g. split; [exact E|].
  assert (Nx : g_Nx g = 8%Z).
  { assert (7 < g_Nx g <= 8)%Z; [|lia]. split; [apply lt_IZR|apply Z.lt_succ_r, lt_IZR; rewrite succ_IZR]; lra. }
  assert (Ny : g_Ny g = 8%Z).
  { assert (7 < g_Ny g <= 8)%Z; [|lia]. split; [apply lt_IZR|apply Z.lt_succ_r, lt_IZR; rewrite succ_IZR]; lra. }
  split; [eapply mk_grid_ok; [| | |exact E]; lra|].
  rewrite Nx in *. rewrite Ny in *. repeat split; try lra; try lia.
Qed.
