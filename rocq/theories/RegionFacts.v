(** Regions converted back and forth, and clipped (C01, C12, C13). *)
From Coq Require Import ZArith Reals List Bool Lia Lra Psatz.
From Flocq Require Import Core.Core IEEE754.BinarySingleNaN.
From Verif Require Import Scalar Base BaseFacts VecM GridM Float FloatFacts SpecGrid GridFacts SourceFacts.
Import ListNotations.
Local Open Scope R_scope.

Definition cell32 (p : ivec) : Prop := is_int32 (fst p) /\ is_int32 (snd p).

(** any arithmetic in which points survive the round trip *)
Lemma volume_trip (N : Num) (g : @grid N) (a b : ivec) : @to_grid N g (to_real g a) = Ok a -> @to_grid N g (to_real g b) = Ok b ->
  @to_grid_volume N g (to_real_volume g (mk_ivolume a b)) = Ok (mk_ivolume a b).
Proof. intros A B. unfold to_grid_volume, to_real_volume, mk_volume. cbn [v_a v_b mk_ivolume iv_a iv_b]. rewrite A, B. reflexivity. Qed.
Lemma isurface_axis (a b : ivec) sg s : mk_isurface a b sg = Ok s ->
  (fst a = fst b \/ snd a = snd b) /\ is_a s = a /\ is_b s = b /\ is_sign s = sg.
Proof.
  unfold mk_isurface. intros H. inv_ok.
  assert (E : (fst a = fst b \/ snd a = snd b)).
  { repeat match goal with K : i32 ?z = Ok _ |- _ => unfold i32 in K; destruct (in_i32 z); [|discriminate]; injection K as <- end.
    cbn [fst snd] in *. destruct (Z.eqb_spec (Z.abs (fst a - fst b)) 0) as [E|_]; [left; lia|].
    destruct (Z.eqb_spec (Z.abs (snd a - snd b)) 0) as [E|_]; [right; lia|discriminate]. }
  split; [exact E|]. match goal with K : (if ?c then _ else _) = Ok s |- _ => destruct c; [discriminate|]; injection K as <- end. auto.
Qed.
Lemma surface_trip (N : Num) (g : @grid N) (a b : ivec) sg s r : mk_isurface a b sg = Ok s ->
  @to_grid N g (to_real g a) = Ok a -> @to_grid N g (to_real g b) = Ok b -> @to_real_surface N g s = Ok r ->
  s_a r = to_real g a /\ s_b r = to_real g b /\ s_sign r = sg /\ @to_grid_surface N g r = Ok s.
Proof.
  intros H A B R0. destruct (isurface_axis a b sg s H) as (_ & Ea & Eb & Es). unfold to_real_surface in R0. rewrite Ea, Eb, Es in R0.
  assert (F : s_a r = to_real g a /\ s_b r = to_real g b /\ s_sign r = sg) by (unfold mk_surface in R0; inv_ok; auto).
  destruct F as (F1 & F2 & F3). unfold to_grid_surface. rewrite F1, F2, F3, A, B. repeat split. exact H.
Qed.

(** doubles *)
Lemma div_finite (x d : f64) : is_finite (f64_div x d) = true -> is_finite d = true -> is_finite x = true.
Proof. destruct x as [[]|[]| |], d as [[]|[]| |[]]; try reflexivity; try discriminate. Qed.
Lemma self_difference (L : libm) (x : f64) : is_finite x = true ->
  @neqb (B64 L) (@nabs (B64 L) (@nsub (B64 L) x x)) (@nofZ (B64 L) 0) = true.
Proof.
  intros F. change (@neqb (B64 L)) with (@Beqb 53 1024). change (@nabs (B64 L)) with (@Babs 53 1024). change (@nsub (B64 L)) with f64_sub.
  change (@nofZ (B64 L)) with f64_ofZ. destruct (f64_ofZ_correct 0 ltac:(reflexivity)) as (E0 & F0).
  unfold f64_sub. generalize (@Bminus_correct 53 1024 Hprec64 Hemax64 mode_NE x x F F).
  rewrite Rminus_diag_eq, round_0, Rabs_R0, Rlt_bool_true by (auto; try apply bpow_gt_0; typeclasses eauto).
  intros (H1 & H2 & _). rewrite Beqb_correct by (rewrite ?is_finite_Babs; assumption). rewrite B2R_Babs, H1, E0, Rabs_R0.
  apply Req_bool_true. reflexivity.
Qed.
Lemma cell_finite (L : libm) (dx : f64) i : is_finite dx = true -> bpow radix2 (-1022) <= Rabs (B2R dx) <= bpow radix2 990 ->
  is_int32 i -> is_finite (f64_mul dx (f64_ofZ i)) = true.
Proof.
  intros F B I0. assert (H := round_trip1_b64 L dx i F B I0). change (@nround (B64 L)) with (f64_toZ mode_NA) in H.
  unfold f64_toZ in H. destruct (is_finite (f64_div (f64_mul dx (f64_ofZ i)) dx)) eqn:E; [|discriminate].
  exact (div_finite _ dx E F).
Qed.
Lemma surface_back_b64 (L : libm) (g : @grid (B64 L)) (a b : ivec) sg s : is_finite (g_dx g : f64) = true ->
  bpow radix2 (-1022) <= Rabs (B2R (g_dx g : f64)) <= bpow radix2 990 -> cell32 a -> cell32 b ->
  mk_isurface a b sg = Ok s -> exists r, @to_real_surface (B64 L) g s = Ok r.
Proof.
  intros F B (A1 & A2) (B1 & B2) H. destruct (isurface_axis a b sg s H) as (E & Ea & Eb & Es).
  unfold to_real_surface. rewrite Ea, Eb, Es. unfold mk_surface, vabs, vsub, to_real. cbn [fst snd].
  assert (Z0 := fun i Hi => self_difference L (f64_mul (g_dx g) (f64_ofZ i)) (cell_finite L (g_dx g) i F B Hi)).
  change (@nmul (B64 L)) with f64_mul. change (@nofZ (B64 L) (fst a)) with (f64_ofZ (fst a)). change (@nofZ (B64 L) (fst b)) with (f64_ofZ (fst b)).
  change (@nofZ (B64 L) (snd a)) with (f64_ofZ (snd a)). change (@nofZ (B64 L) (snd b)) with (f64_ofZ (snd b)). destruct E as [E|E]; rewrite <- E.
  - rewrite (Z0 (fst a) A1). eexists. reflexivity.
  - match goal with |- context [if ?c then _ else _] => destruct c end; [eexists; reflexivity|]. rewrite (Z0 (snd a) A2). eexists. reflexivity.
Qed.

Section Real.
#[local] Existing Instance RNum.
Lemma surface_back_R (g : grid) (a b : ivec) sg s : mk_isurface a b sg = Ok s -> exists r, to_real_surface g s = Ok r.
Proof.
  intros H. destruct (isurface_axis a b sg s H) as (E & Ea & Eb & Es). unfold to_real_surface. rewrite Ea, Eb, Es.
  apply mk_surface_iff. unfold to_real. cbn [fst snd]. destruct E as [-> | ->]; auto.
Qed.

Lemma clip_keeps (g : grid) (v : volume) p : in_box (0, 0) (g_Lx g, g_Ly g) p -> in_box (v_a v) (v_b v) p ->
  in_box (v_a (clip g v)) (v_b (clip g v)) p.
Proof.
  unfold in_box, clip, mk_volume. cbn [v_a v_b fst snd]. rnum. intros (A & B) (C & D).
  unfold Rltb in *; repeat destruct Rlt_dec; cbn [fst snd]; change (@T RNum) with R in *; lra.
Qed.
Lemma clip_confines (g : grid) (v : volume) p : 0 <= g_Lx g -> 0 <= g_Ly g ->
  fst (v_b v) <= g_Lx g -> 0 <= snd (v_a v) ->
  in_box (v_a (clip g v)) (v_b (clip g v)) p -> in_box (0, 0) (g_Lx g, g_Ly g) p.
Proof.
  unfold in_box, clip, mk_volume. cbn [v_a v_b fst snd]. rnum. intros A B C D.
  unfold Rltb in *; repeat destruct Rlt_dec; cbn [fst snd]; change (@T RNum) with R in *; lra.
Qed.
Lemma clip_escapes (g : grid) : 0 < g_Lx g -> 0 < g_Ly g ->
  (exists v p, in_box (v_a v) (v_b v) (0, 0) /\ in_box (v_a (clip g v)) (v_b (clip g v)) p /\ g_Lx g < fst p) /\
  (exists v p, in_box (v_a v) (v_b v) (0, 0) /\ in_box (v_a (clip g v)) (v_b (clip g v)) p /\ snd p < 0).
Proof.
  intros A B. split.
  - exists (mk_volume (0, 0) (g_Lx g + 1, g_Ly g)), (g_Lx g + 1, 0). unfold in_box, clip, mk_volume. cbn [v_a v_b fst snd]. rnum.
    unfold Rltb in *; repeat destruct Rlt_dec; cbn [fst snd]; change (@T RNum) with R in *; lra.
  - exists (mk_volume (0, -1) (g_Lx g, g_Ly g)), (0, -1). unfold in_box, clip, mk_volume. cbn [v_a v_b fst snd]. rnum.
    unfold Rltb in *; repeat destruct Rlt_dec; cbn [fst snd]; change (@T RNum) with R in *; lra.
Qed.
End Real.

Section Packs.
#[local] Existing Instance RNum.
Lemma volume_R (g : grid) a b : g_dx g <> 0 -> cell32 a -> cell32 b ->
  exists v, to_real_volume g (mk_ivolume a b) = v /\ v_a v = to_real g a /\ v_b v = to_real g b /\ to_grid_volume g v = Ok (mk_ivolume a b).
Proof.
  destruct a as [a1 a2], b as [b1 b2]. intros D (A1 & A2) (B1 & B2). eexists. split; [reflexivity|].
  split; [reflexivity|]. split; [reflexivity|]. apply volume_trip; now apply round_trip_R.
Qed.
Lemma surface_R (g : grid) a b sg s : g_dx g <> 0 -> cell32 a -> cell32 b -> mk_isurface a b sg = Ok s ->
  exists r, to_real_surface g s = Ok r /\ s_a r = to_real g a /\ s_b r = to_real g b /\ s_sign r = sg /\ to_grid_surface g r = Ok s.
Proof.
  destruct a as [a1 a2], b as [b1 b2]. intros D (A1 & A2) (B1 & B2) H. destruct (surface_back_R g _ _ sg s H) as (r & E).
  exists r. split; [exact E|]. apply (surface_trip RNum g (a1, a2) (b1, b2) sg s r H); auto; now apply round_trip_R.
Qed.
End Packs.
Lemma volume_b64 (L : libm) (g : @grid (B64 L)) a b : is_finite (g_dx g : f64) = true ->
  bpow radix2 (-1022) <= Rabs (B2R (g_dx g : f64)) <= bpow radix2 990 -> cell32 a -> cell32 b ->
  exists v, @to_real_volume (B64 L) g (mk_ivolume a b) = v /\ v_a v = @to_real (B64 L) g a /\ v_b v = @to_real (B64 L) g b /\
    @to_grid_volume (B64 L) g v = Ok (mk_ivolume a b).
Proof.
  destruct a as [a1 a2], b as [b1 b2]. intros F D (A1 & A2) (B1 & B2). eexists. split; [reflexivity|].
  split; [reflexivity|]. split; [reflexivity|]. apply volume_trip; now apply round_trip_b64.
Qed.
Lemma surface_b64 (L : libm) (g : @grid (B64 L)) a b sg s : is_finite (g_dx g : f64) = true ->
  bpow radix2 (-1022) <= Rabs (B2R (g_dx g : f64)) <= bpow radix2 990 -> cell32 a -> cell32 b -> mk_isurface a b sg = Ok s ->
  exists r, @to_real_surface (B64 L) g s = Ok r /\ s_a r = @to_real (B64 L) g a /\ s_b r = @to_real (B64 L) g b /\ s_sign r = sg /\
    @to_grid_surface (B64 L) g r = Ok s.
Proof.
  intros F D A B H. destruct (surface_back_b64 L g a b sg s F D A B H) as (r & E). exists r. split; [exact E|].
  destruct a as [a1 a2], b as [b1 b2], A as [A1 A2], B as [B1 B2].
  apply (surface_trip (B64 L) g (a1, a2) (b1, b2) sg s r H); auto; now apply round_trip_b64.
Qed.
