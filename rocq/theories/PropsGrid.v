(** Properties of the grid, surfaces and volumes: C01-C07, C12, C13. *)
From Coq Require Import ZArith Reals List Bool Lia Psatz.
From Flocq Require Import Core.Core IEEE754.BinarySingleNaN.
From Verif Require Import Scalar Base BaseFacts VecM GridM Float FloatFacts SpecGrid GridFacts NormalFacts.
Import ListNotations.
Local Open Scope R_scope.
#[local] Existing Instance RNum.

(** C01, exact arithmetic *)
Theorem C01_round_trip_real : forall (g : grid) i j,
  g_dx g <> 0 -> is_int32 i -> is_int32 j -> to_grid g (to_real g (i, j)) = Ok (i, j).
Proof. exact round_trip_R. Qed.
Print Assumptions C01_round_trip_real.
Example C01_real_case : exists g : grid, mk_grid 8 8 1 1 = Ok g /\ g_dx g <> 0 /\ is_int32 (-5) /\ is_int32 7.
Proof. destruct grid8 as (g & E & _ & _ & _ & D & _). exists g. rewrite D. unfold is_int32. repeat split; try lia; try lra; exact E. Qed.

(** C01, IEEE double arithmetic *)
Theorem C01_round_trip_double : forall (L : libm) (g : @grid (B64 L)) i j,
  is_finite (g_dx g : f64) = true ->
  bpow radix2 (-1022) <= Rabs (B2R (g_dx g : f64)) <= bpow radix2 990 ->
  is_int32 i -> is_int32 j ->
  @to_grid (B64 L) g (@to_real (B64 L) g (i, j)) = Ok (i, j).
Proof. exact round_trip_b64. Qed.
Print Assumptions C01_round_trip_double.
(** resolution 10: dx = 1/10 rounded *)
Example C01_double_case : let dx := f64_div (f64_ofZ 1) (f64_ofZ 10) in
  is_finite dx = true /\ bpow radix2 (-1022) <= Rabs (B2R dx) <= bpow radix2 990.
Proof.
  cbv zeta. set (dx := f64_div (f64_ofZ 1) (f64_ofZ 10)).
  assert (E : B2SF dx = SpecFloat.S754_finite false 7205759403792794 (-56)) by (vm_compute; reflexivity).
  split; [vm_compute; reflexivity|].
  rewrite <- SF2R_B2SF, E. unfold SF2R, F2R. simpl Fnum. simpl Fexp.
  rewrite Rabs_mult, (Rabs_pos_eq (IZR _)) by (apply IZR_le; lia). rewrite Rabs_pos_eq by apply bpow_ge_0.
  split.
  - apply Rle_trans with (bpow radix2 (-56)); [apply bpow_le; lia|].
    rewrite <- (Rmult_1_l (bpow radix2 (-56))) at 1. apply Rmult_le_compat_r; [apply bpow_ge_0|].
    apply IZR_le. lia.
  - apply Rle_trans with (bpow radix2 53 * bpow radix2 (-56)).
    + apply Rmult_le_compat_r; [apply bpow_ge_0|]. change (bpow radix2 53) with (IZR (2 ^ 53)).
      apply IZR_le. lia.
    + rewrite <- bpow_plus. apply bpow_le. lia.
Qed.

(** C02 *)
Theorem C02_nearest_cell : forall (g : grid) (p : vec) i j,
  0 < g_dx g -> to_grid g p = Ok (i, j) ->
  Rabs (fst p - fst (to_real g (i, j))) <= g_dx g / 2 /\
  Rabs (snd p - snd (to_real g (i, j))) <= g_dx g / 2.
Proof. exact to_grid_within. Qed.
Print Assumptions C02_nearest_cell.
Theorem C02_ties_away : forall (g : grid) (p : vec) i j,
  0 < g_dx g -> to_grid g p = Ok (i, j) ->
  nearest_away (fst p / g_dx g) i /\ nearest_away (snd p / g_dx g) j.
Proof. exact to_grid_nearest. Qed.
Print Assumptions C02_ties_away.
Theorem C02_total : forall (g : grid) (p : vec) i j,
  nearest_away (fst p / g_dx g) i -> nearest_away (snd p / g_dx g) j ->
  is_int32 i -> is_int32 j -> to_grid g p = Ok (i, j).
Proof. exact to_grid_total. Qed.
Print Assumptions C02_total.
Theorem C02_monotone : forall (g : grid) (p q : vec) i j k l,
  0 < g_dx g -> to_grid g p = Ok (i, j) -> to_grid g q = Ok (k, l) ->
  (fst p <= fst q -> (i <= k)%Z) /\ (snd p <= snd q -> (j <= l)%Z).
Proof. exact to_grid_mono. Qed.
Print Assumptions C02_monotone.
(** the tie 5/2 goes to 3 and -5/2 to -3 on the unit grid *)
Example C02_case : exists g : grid, mk_grid 8 8 1 1 = Ok g /\ 0 < g_dx g /\
  to_grid g (5 / 2, - (5 / 2)) = Ok (3, -3)%Z.
Proof.
  destruct grid8 as (g & E & _ & _ & _ & D & _). exists g. split; [exact E|]. split; [rewrite D; lra|].
  apply C02_total; try (unfold is_int32; lia); cbn [fst snd]; rewrite D; unfold nearest_away.
  - replace (5 / 2 / 1 - 3) with (- / 2) by field. rewrite Rabs_Ropp, (Rabs_pos_eq (/ 2)) by lra.
    rewrite !Rabs_pos_eq by lra. lra.
  - replace (- (5 / 2) / 1 - -3) with (/ 2) by field. rewrite (Rabs_pos_eq (/ 2)) by lra.
    rewrite !Rabs_left1 by lra. lra.
Qed.

(** C03 *)
Theorem C03_grid_construction : forall Lx Ly rs pml,
  0 < Lx -> 0 < Ly -> 0 < rs -> Lx * rs <= IZR INT_MAX -> Ly * rs <= IZR INT_MAX ->
  exists g : grid, mk_grid Lx Ly rs pml = Ok g /\
    (IZR (g_Nx g) - 1 < Lx * rs <= IZR (g_Nx g)) /\
    (IZR (g_Ny g) - 1 < Ly * rs <= IZR (g_Ny g)) /\
    g_res g = rs /\ g_dx g * rs = 1 /\ 0 < g_dx g /\
    g_Lx g = g_dx g * (IZR (g_Nx g) - 1) /\ g_Ly g = g_dx g * (IZR (g_Ny g) - 1) /\
    (Lx - g_dx g <= g_Lx g < Lx) /\ (Ly - g_dx g <= g_Ly g < Ly) /\
    0 < g_dt g < g_dx g / sqrt 2 /\ 2 * g_dt g = g_dx g /\ g_pml g = (pml + 1)%Z.
Proof. exact mk_grid_spec. Qed.
Print Assumptions C03_grid_construction.
Example C03_case : 0 < 3 / 2 /\ 0 < 7 /\ 0 < 2 /\ 3 / 2 * 2 <= IZR INT_MAX /\ 7 * 2 <= IZR INT_MAX.
Proof. unfold INT_MAX. lra. Qed.

(** C04 *)
Theorem C04_domain_points_are_cells : forall Lx Ly rs pml (g : grid) (p : vec),
  0 < Lx -> 0 < Ly -> 0 < rs -> mk_grid Lx Ly rs pml = Ok g ->
  in_box (v_a (domain g)) (v_b (domain g)) p ->
  exists q, to_grid g p = Ok q /\ in_grid (g_Nx g) (g_Ny g) q.
Proof. intros Lx Ly rs pml g p H1 H2 H3 H. exact (domain_cell g p (mk_grid_ok Lx Ly rs pml g H1 H2 H3 H)). Qed.
Print Assumptions C04_domain_points_are_cells.
(** the far edge of the requested length is not a cell *)
Theorem C04_requested_edge_is_outside : forall (Ly rs : R) (n : Z) pml (g : grid) y,
  0 < Ly -> 0 < rs -> (1 <= n)%Z -> mk_grid (IZR n / rs) Ly rs pml = Ok g ->
  forall q, to_grid g (IZR n / rs, y) = Ok q -> fst q = g_Nx g /\ ~ in_grid (g_Nx g) (g_Ny g) q.
Proof. exact requested_edge_oob. Qed.
Print Assumptions C04_requested_edge_is_outside.
Example C04_case : exists g : grid, mk_grid 8 8 1 1 = Ok g /\
  in_box (v_a (domain g)) (v_b (domain g)) (7, 13 / 4) /\ to_grid g (8, 3) = Ok (8, 3)%Z.
Proof.
  destruct grid8 as (g & E & _ & _ & _ & D & L1 & L2 & _). exists g. split; [exact E|]. split.
  - unfold in_box, domain, mk_volume. cbn [v_a v_b fst snd]. rewrite L1, L2. rnum. lra.
  - apply C02_total; try (unfold is_int32; lia); cbn [fst snd]; rewrite D; unfold nearest_away.
    + replace (8 / 1 - 8) with 0 by field. rewrite Rabs_R0. lra.
    + replace (3 / 1 - 3) with 0 by field. rewrite Rabs_R0. lra.
Qed.

(** C05 *)
Theorem C05_surface_exists_iff : forall (a b : vec) sg,
  (exists s, mk_surface a b sg = Ok s) <-> (fst a = fst b \/ snd a = snd b).
Proof. exact mk_surface_iff. Qed.
Print Assumptions C05_surface_exists_iff.
Theorem C05_surface_throws : forall (a b : vec) sg,
  fst a <> fst b -> snd a <> snd b -> mk_surface a b sg = Throw InvalidArgument.
Proof. exact mk_surface_throw. Qed.
Print Assumptions C05_surface_throws.
Theorem C05_conversion_never_throws : forall (g : grid) (a b : vec) sg s e,
  mk_surface a b sg = Ok s -> to_grid_surface g s <> Throw e.
Proof. exact to_grid_surface_not_throw. Qed.
Print Assumptions C05_conversion_never_throws.
Theorem C05_conversion : forall (g : grid) (a b : vec) sg s ia ib,
  mk_surface a b sg = Ok s -> to_grid g a = Ok ia -> to_grid g b = Ok ib -> ia <> ib ->
  (Z.abs (fst ib - fst ia) + Z.abs (snd ib - snd ia) <= 46340)%Z ->
  exists is, to_grid_surface g s = Ok is /\ is_a is = ia /\ is_b is = ib /\ is_sign is = sg /\
    let len := (Z.abs (fst ib - fst ia) + Z.abs (snd ib - snd ia))%Z in
    is_dim is = (Z.abs (fst ib - fst ia), Z.abs (snd ib - snd ia)) /\
    ib = iadd ia (iscale len (is_tangent is)) /\
    (is_tangent is = (Z.sgn (fst ib - fst ia), Z.sgn (snd ib - snd ia))).
Proof. exact to_grid_surface_ok. Qed.
Print Assumptions C05_conversion.
(** normal and tangent: unit vectors along the axes, the normal with the sign given, and the same before and after the conversion *)
Theorem C05_directions : forall (g : grid) (a b : vec) sg s is, 0 < g_dx g ->
  mk_surface a b sg = Ok s -> to_grid_surface g s = Ok is ->
  s_normal s = (IZR (fst (is_normal is)), IZR (snd (is_normal is))) /\
  s_tangent s = (IZR (fst (is_tangent is)), IZR (snd (is_tangent is))) /\
  (fst a = fst b -> s_normal s = (IZR (sgnZ sg), 0) /\ s_tangent s = (0, if Rlt_dec (snd a) (snd b) then 1 else -1)) /\
  (snd a = snd b -> s_normal s = (0, IZR (sgnZ sg)) /\ s_tangent s = (if Rlt_dec (fst a) (fst b) then 1 else -1, 0)).
Proof. exact conversion_frame. Qed.
Print Assumptions C05_directions.
Theorem C05_same_cell_divides_by_zero : forall (g : grid) (a b : vec) sg s q,
  mk_surface a b sg = Ok s -> to_grid g a = Ok q -> to_grid g b = Ok q ->
  to_grid_surface g s = UB DivByZero.
Proof. exact to_grid_surface_same_cell. Qed.
Print Assumptions C05_same_cell_divides_by_zero.
Example C05_case : exists g : grid, mk_grid 8 8 1 1 = Ok g /\
  (exists s, mk_surface (1, 2) (1, 5) Negative = Ok s) /\
  to_grid g (1, 2) = Ok (1, 2)%Z /\ to_grid g (1, 5) = Ok (1, 5)%Z /\ to_grid g (1, 9 / 4) = Ok (1, 2)%Z.
Proof.
  destruct grid8 as (g & E & _ & _ & _ & D & _). exists g. split; [exact E|]. split.
  - apply C05_surface_exists_iff. left. reflexivity.
  - assert (W : forall x y : R, forall i j : Z, is_int32 i -> is_int32 j ->
      Rabs (x - IZR i) < / 2 -> Rabs (y - IZR j) < / 2 -> to_grid g (x, y) = Ok (i, j)).
    { intros x y i j Hi Hj H1 H2. apply C02_total; try assumption; cbn [fst snd]; rewrite D;
        unfold nearest_away, Rdiv; rewrite Rinv_1, Rmult_1_r; split; lra. }
    repeat split; apply W; try (unfold is_int32; lia); rewrite Rabs_pos_eq; lra.
Qed.

(** C06: the sides in the order used by box_monitor; cross2 normal tangent = 1 is the
    anticlockwise orientation *)
Theorem C06_box_sides_closed_loop : forall (v : volume),
  fst (v_a v) < fst (v_b v) -> snd (v_a v) < snd (v_b v) ->
  exists s1 s2 s3 s4,
    get_surface v y_bottom = Ok s1 /\ get_surface v x_top = Ok s2 /\
    get_surface v y_top = Ok s3 /\ get_surface v x_bottom = Ok s4 /\
    chained [s1; s2; s3; s4; s1] /\
    (forall s, In s [s1; s2; s3; s4] ->
       dot2 (s_normal s) (s_normal s) = 1 /\ dot2 (s_tangent s) (s_tangent s) = 1 /\
       dot2 (s_normal s) (s_tangent s) = 0 /\
       cross2 (s_normal s) (s_tangent s) = 1 /\
       (forall p, fst (v_a v) < fst p < fst (v_b v) -> snd (v_a v) < snd p < snd (v_b v) ->
          dot2 (vsub (s_a s) p) (s_normal s) > 0 /\ dot2 (vsub (s_b s) p) (s_normal s) > 0)) /\
    (let len s := fst (s_dim s) + snd (s_dim s) in
     len s1 + len s2 + len s3 + len s4 =
     2 * (fst (v_b v) - fst (v_a v)) + 2 * (snd (v_b v) - snd (v_a v))).
Proof. exact box_sides_loop. Qed.
Print Assumptions C06_box_sides_closed_loop.
Example C06_case : let v := mk_volume (1, 2) (4, 9) in
  fst (v_a v) < fst (v_b v) /\ snd (v_a v) < snd (v_b v).
Proof. simpl. lra. Qed.

(** C07 *)
Theorem C07_centre_and_dims : forall (c : vec) (lx ly : R),
  vol_center (mk_volume_c c lx ly) = c /\ v_dim (mk_volume_c c lx ly) = (lx, ly) /\
  (0 <= lx -> 0 <= ly -> v_dim (mk_volume (v_a (mk_volume_c c lx ly)) (v_b (mk_volume_c c lx ly))) = (lx, ly)).
Proof. exact vol_c_center. Qed.
Print Assumptions C07_centre_and_dims.
Theorem C07_pad : forall (v : volume) (s : R),
  fst (v_a v) <= fst (v_b v) -> snd (v_a v) <= snd (v_b v) -> 0 <= s ->
  vol_center (vol_pad v s) = vol_center v /\
  fst (v_dim (vol_pad v s)) = fst (v_b v) - fst (v_a v) + 2 * s /\
  snd (v_dim (vol_pad v s)) = snd (v_b v) - snd (v_a v) + 2 * s /\
  (forall p, in_box (v_a (vol_pad v s)) (v_b (vol_pad v s)) p <->
     exists q, in_box (v_a v) (v_b v) q /\ Rabs (fst p - fst q) <= s /\ Rabs (snd p - snd q) <= s).
Proof. exact vol_pad_spec. Qed.
Print Assumptions C07_pad.
Theorem C07_translate : forall (v : volume) (d : vec),
  vol_center (vol_translate v d) = vadd (vol_center v) d /\
  (v_dim v = v_dim (mk_volume (v_a v) (v_b v)) -> v_dim (vol_translate v d) = v_dim v) /\
  (forall p, in_box (v_a (vol_translate v d)) (v_b (vol_translate v d)) (vadd p d) <-> in_box (v_a v) (v_b v) p).
Proof. exact vol_translate_spec. Qed.
Print Assumptions C07_translate.
Example C07_case : let v := mk_volume (1, 2) (4, 9) in
  fst (v_a v) <= fst (v_b v) /\ snd (v_a v) <= snd (v_b v) /\ 0 <= 5 / 2.
Proof. simpl. lra. Qed.

(** C12 *)
Theorem C12_clip_keeps_cells : forall (N : Num) (g : @grid N) (v : ivolume) q,
  in_grid (g_Nx g) (g_Ny g) q ->
  in_ibox (iv_a v) (iv_b v) q -> in_ibox (iv_a (iclip g v)) (iv_b (iclip g v)) q.
Proof. exact @iclip_keeps. Qed.
Print Assumptions C12_clip_keeps_cells.
Example C12_case : in_grid 8 8 (0, 7)%Z /\ in_ibox (-3, 5)%Z (2, 30)%Z (0, 7)%Z.
Proof. unfold in_grid, in_ibox. simpl. lia. Qed.

(** C13: the right and bottom edges are not clipped, on any grid *)
Theorem C13_clip_confines_refuted : forall (N : Num) (g : @grid N),
  (1 <= g_Nx g)%Z -> (1 <= g_Ny g)%Z ->
  (exists v q, in_ibox (iv_a v) (iv_b v) (0, 0)%Z /\
     in_ibox (iv_a (iclip g v)) (iv_b (iclip g v)) q /\ (g_Nx g <= fst q)%Z) /\
  (exists v q, in_ibox (iv_a v) (iv_b v) (0, 0)%Z /\
     in_ibox (iv_a (iclip g v)) (iv_b (iclip g v)) q /\ (snd q < 0)%Z).
Proof. exact @iclip_escapes. Qed.
Print Assumptions C13_clip_confines_refuted.
(** what holds: boxes that do not stick out on the right or at the bottom *)
Theorem C13_clip_confines_partial : forall (N : Num) (g : @grid N) (v : ivolume) q,
  (1 <= g_Nx g)%Z -> (1 <= g_Ny g)%Z ->
  (fst (iv_b v) <= g_Nx g - 1)%Z -> (0 <= snd (iv_a v))%Z ->
  in_ibox (iv_a (iclip g v)) (iv_b (iclip g v)) q -> in_grid (g_Nx g) (g_Ny g) q.
Proof. exact @iclip_confines_partial. Qed.
Print Assumptions C13_clip_confines_partial.
Example C13_case : exists g : grid, mk_grid 8 8 1 1 = Ok g /\ (1 <= g_Nx g)%Z /\ (1 <= g_Ny g)%Z /\
  let v := mk_ivolume (-3, 5)%Z (2, 30)%Z in
  (fst (iv_b v) <= g_Nx g - 1)%Z /\ (0 <= snd (iv_a v))%Z /\
  in_ibox (iv_a (iclip g v)) (iv_b (iclip g v)) (0, 7)%Z.
Proof.
  destruct grid8 as (g & E & _ & Nx & Ny & _). exists g. unfold iclip, in_ibox. rewrite Nx, Ny. simpl.
  repeat split; try lia; exact E.
Qed.
