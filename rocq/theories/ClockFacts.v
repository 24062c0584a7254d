(** The step counter and the clock. *)
From Coq Require Import ZArith Reals String List Bool Lia Lra.
From Flocq Require Import Core.Core IEEE754.BinarySingleNaN Relative.
From Verif Require Import Scalar Base BaseFacts VecM GridM GeometryM MaterialM PmlM DftM TfsfM PolarM
  InterpM H5M ClockM MonitorM FieldM Float FloatFacts OutFacts PhysFacts WfFacts ReachFacts InvFacts YeeFacts
  SpecSafety SafeFacts SpecClock ExampleFacts.
Import ListNotations.
Local Open Scope Z_scope.

Section Gen.
Context {N : Num}.

Definition clk (p : phys) : Z * T := (ph_step p, ph_t p).

Lemma phys_step_clk p p' : phys_step p = Fine p' ->
  in_i32 (ph_step p + 1) = true /\ clk p' = (ph_step p + 1, (ph_t p + g_dt (ph_grid p))%num).
Proof.
  unfold phys_step. intros H. inv_fine. unfold step_clock, i32 in *. inv_ok.
  destruct (in_i32 (ph_step p + 1)) eqn:Ei; [|discriminate]. split; [reflexivity|]. inv_ok.
  destruct (step_prev_frame (set_ph_t (ph_t p + g_dt (ph_grid p))%num (set_ph_step (ph_step p + 1) p)))
    as (_ & _ & _ & _ & A1 & A2 & _). cbn in A1, A2.
  unfold step_E, step_pmlE, step_H, step_pmlH in *. inv_ok.
  repeat match goal with
  | H : context [let '(_, _) := ?r in _] |- _ => destruct r; inv_ok
  end.
  repeat match goal with
  | H : step_polar _ = Ok _ |- _ => apply step_polar_frame in H; cbn in H; destruct H as (_ & _ & _ & _ & _ & ? & ? & _)
  | H : step_tfsfD _ = Ok _ |- _ => apply step_tfsfD_frame in H; cbn in H; destruct H as (_ & _ & _ & _ & _ & ? & ? & _)
  | H : step_sources _ = Fine _ |- _ => apply step_sources_frame in H; cbn in H; destruct H as (_ & _ & ? & ? & _)
  | H : step_tfsf_pulse _ = Ok _ |- _ => apply step_tfsf_pulse_frame in H; cbn in H; destruct H as (_ & _ & _ & ? & ? & _)
  | H : step_tfsfH _ = Ok _ |- _ => apply step_tfsfH_frame in H; cbn in H; destruct H as (_ & _ & _ & _ & ? & ? & _)
  end.
  unfold clk. f_equal; congruence.
Qed.

Definition clk_next (g : grid) (c : cmd) (k : Z * T) : Z * T :=
  match c with
  | Update => (fst k + 1, (snd k + g_dt g)%num)
  | ClearFields => (0, 0%num)
  | _ => k
  end.

Lemma insert_material_clk o p p' : insert_material o p = Ok p' -> clk p' = clk p.
Proof. unfold insert_material. destruct (m_kind (o_mat o)); intros H; inv_ok; reflexivity. Qed.
Lemma repaint_clk l : forall p p', foldM repaint_one p l = Ok p' -> clk p' = clk p.
Proof.
  intros p p' H. refine (foldM_post (fun q => clk q = clk p) _ _ _ _ eq_refl _ H).
  intros a o b _ Ha Hb. unfold repaint_one, paint_phys in Hb. inv_ok. unfold reinsert_material in Hb.
  destruct (m_kind (o_mat o)); inv_ok; exact Ha.
Qed.

Lemma phys_exec_clk c p p' : phys_exec c p = Fine p' -> clk p' = clk_next (ph_grid p) c (clk p).
Proof.
  destruct c; cbn [phys_exec clk_next]; intros H;
    try (apply ok_out_fine in H); try (injection H as <-); try reflexivity.
  - apply phys_step_clk in H. apply H.
  - unfold update_material_grid in H. inv_ok. apply repaint_clk in H. exact H.
  - unfold phys_add_object in H. inv_ok. cbn. apply insert_material_clk in Hr0.
    unfold paint_phys in Hr. inv_ok. exact Hr0.
  - unfold phys_clear_materials in H. inv_ok. reflexivity.
  - unfold phys_set_tfsf in H. inv_ok. reflexivity.
  - unfold phys_on_obj. destruct (nth_error (ph_objs p) i); [destruct (o_dyn o)|]; reflexivity.
  - unfold phys_on_obj. destruct (nth_error (ph_objs p) i); [destruct (o_dyn o)|]; reflexivity.
  - unfold phys_on_obj. destruct (nth_error (ph_objs p) i); [destruct (o_dyn o)|]; reflexivity.
  - unfold phys_on_obj. destruct (nth_error (ph_objs p) i); [destruct (o_dyn o)|]; reflexivity.
Qed.

Lemma phys_run_clk l : forall p p', phys_run l p = Fine p' ->
  clk p' = fold_left (fun k c => clk_next (ph_grid p) c k) l (clk p).
Proof.
  induction l as [|c l IH]; cbn [phys_run fold_left]; intros p p' H; [congruence|].
  apply obind_fine in H. destruct H as (p1 & H1 & H). assert (G := phys_exec_grid _ _ _ H1).
  destruct G as [G _]. apply phys_exec_clk in H1. rewrite <- H1, <- G. now apply IH.
Qed.

Lemma mk_field_clk g name s : mk_field g name = Ok s -> clk (f_ph s) = (0, 0%num) /\ ph_grid (f_ph s) = g.
Proof.
  unfold mk_field. intros H. inv_ok. destruct (String.eqb name ""); [discriminate|]. inv_ok. cbn.
  unfold mk_phys in *. inv_ok. auto.
Qed.

Lemma step_count g name s0 l s : mk_field g name = Ok s0 -> run l s0 = Fine s ->
  ph_step (f_ph s) = since_clear l.
Proof.
  intros E H. apply mk_field_clk in E. destruct E as [E _]. apply run_phys, phys_run_clk in H.
  rewrite E in H. set (gg := ph_grid (f_ph s0)) in H. clearbody gg.
  unfold since_clear. change (ph_step (f_ph s)) with (fst (clk (f_ph s))). rewrite H. clear.
  enough (A : forall k, fst (fold_left (fun k c => clk_next gg c k) l k) =
    fold_left (fun n c => match c with Update => n + 1 | ClearFields => 0 | _ => n end) l (fst k)) by apply (A (0, 0%num)).
  induction l as [|c l IH]; intros k; [reflexivity|]. cbn [fold_left]. rewrite IH. f_equal. destruct c; reflexivity.
Qed.

Lemma mk_field_empty g name s : mk_field g name = Ok s ->
  f_mons s = [] /\ f_tmons s = [] /\ f_clk s = mk_clocks /\ ph_srcs (f_ph s) = [] /\ ph_tfsf (f_ph s) = None.
Proof.
  unfold mk_field. intros H. inv_ok. destruct (String.eqb name ""); [discriminate|]. inv_ok. cbn.
  unfold mk_phys in *. inv_ok. repeat split.
Qed.

(** the 2^31-th update overflows *)
Lemma update_overflow s : ph_step (f_ph s) = INT_MAX -> update s = Undef IntOverflow.
Proof.
  intros H. unfold update, on_ph, step_clock. rewrite H. reflexivity.
Qed.

Lemma count_overflow g name s0 n : big_enough g -> mk_field g name = Ok s0 -> Z.of_nat n = 2147483648 ->
  run (repeat Update n) s0 = Undef IntOverflow.
Proof.
  intros Hg E Hn. destruct n as [|n]; [discriminate|].
  replace (S n) with (n + 1)%nat by lia. rewrite repeat_app, run_app.
  assert (Hr : reachable g s0) by (exists name, s0, []; split; [exact E|reflexivity]).
  destruct (mk_field_clk _ _ _ E) as [E0 Eg]. unfold clk in E0. injection E0 as E0 _.
  assert (Es := mk_field_empty _ _ _ E).
  destruct Es as (S1 & S2 & S3 & S4 & S5).
  destruct (update_safe g s0 n Hg Hr) as (s & R & Es); auto.
  - split; [rewrite S4; intros r []|rewrite S5; discriminate].
  - split; rewrite S3; reflexivity.
  - rewrite E0. unfold INT_MIN. lia.
  - rewrite E0. unfold INT_MAX. lia.
  - rewrite R. cbn [obind repeat run exec]. rewrite update_overflow; [reflexivity|]. rewrite Es, E0. unfold INT_MAX. lia.
Qed.

(** t follows the step counter when repeated addition of dt is exact *)
Lemma t_follows (V : Z -> T -> Prop) g : V 0 0%num ->
  (forall n x, 0 <= n < INT_MAX -> V n x -> V (n + 1) (x + g_dt g)%num) ->
  forall name s0 l s, mk_field g name = Ok s0 -> run l s0 = Fine s ->
  0 <= ph_step (f_ph s) <= INT_MAX /\ V (ph_step (f_ph s)) (ph_t (f_ph s)).
Proof.
  intros V0 VS name s0 l s E H. apply mk_field_clk in E. destruct E as [E G]. apply run_phys in H.
  apply (phys_run_inv (fun q => ph_grid q = g /\ 0 <= ph_step q <= INT_MAX /\ V (ph_step q) (ph_t q)) l) in H; [apply H| |].
  - intros c p p' _ (A & B & D) Hc. assert (K := phys_exec_clk _ _ _ Hc). destruct (phys_exec_grid _ _ _ Hc) as [G' _].
    split; [congruence|]. unfold clk in K.
    destruct c; cbn [clk_next fst snd] in K; injection K as K1 K2; rewrite K1, K2; try (split; [exact B|exact D]).
    + cbn [phys_exec] in Hc. apply phys_step_clk in Hc. destruct Hc as [Hi _]. apply in_i32_spec in Hi.
      split; [unfold INT_MAX in *; lia|]. rewrite A. apply VS; [unfold INT_MAX in *; lia|exact D].
    + split; [unfold INT_MAX; lia|exact V0].
  - unfold clk in E. injection E as E1 E2. rewrite E1, E2. split; [exact G|]. split; [unfold INT_MAX; lia|exact V0].
Qed.
End Gen.

Section RTime.
#[local] Existing Instance RNum.
Local Open Scope R_scope.
Lemma time_real (g : grid) name s0 l s : mk_field g name = Ok s0 -> run l s0 = Fine s ->
  ph_t (f_ph s) = IZR (since_clear l) * g_dt g.
Proof.
  intros E H. rewrite <- (step_count g name s0 l s E H).
  apply (t_follows (fun n x => x = IZR n * g_dt g) g) with (3 := E) (4 := H).
  - rnum. ring.
  - intros n x _ ->. rnum. rewrite plus_IZR. ring.
Qed.
End RTime.

Section FTime.
Local Open Scope R_scope.
Variable L : libm.

(** adding a power of two exactly *)
Lemma f64_add_exact (x y : f64) : is_finite x = true -> is_finite y = true ->
  generic_format radix2 (FLT_exp (-1074) 53) (B2R x + B2R y) -> Rabs (B2R x + B2R y) < bpow radix2 1024 ->
  B2R (f64_add x y) = B2R x + B2R y /\ is_finite (f64_add x y) = true.
Proof.
  intros Fx Fy Hg Hb. unfold f64_add.
  generalize (@Bplus_correct 53 1024 Hprec64 Hemax64 mode_NE x y Fx Fy).
  change (round_mode mode_NE) with ZnearestE. rewrite fexp64_FLT.
  rewrite (round_generic radix2 (FLT_exp (-1074) 53) ZnearestE _ Hg).
  rewrite Rlt_bool_true by exact Hb. intros (A & B & _). auto.
Qed.

Lemma gen_scaled z e : (Z.abs z < 2 ^ 53)%Z -> (-1074 <= e)%Z ->
  generic_format radix2 (FLT_exp (-1074) 53) (IZR z * bpow radix2 e).
Proof.
  intros Hz He. apply generic_format_FLT. exists (Float radix2 z e); [reflexivity|exact Hz|exact He].
Qed.

Lemma time_f64 (g : @grid (B64 L)) name s0 l s e : (-1074 <= e <= 970)%Z ->
  B2R (g_dt g) = bpow radix2 e -> is_finite (g_dt g) = true ->
  mk_field g name = Ok s0 -> run l s0 = Fine s ->
  B2R (ph_t (f_ph s)) = IZR (since_clear l) * bpow radix2 e /\ is_finite (ph_t (f_ph s)) = true.
Proof.
  intros He Hd Hf E H. rewrite <- (step_count g name s0 l s E H).
  apply (t_follows (N := B64 L) (fun n x => B2R x = IZR n * bpow radix2 e /\ is_finite x = true) g) with (3 := E) (4 := H).
  - change (@nofZ (B64 L)) with f64_ofZ. destruct (f64_ofZ_correct 0) as [A B]; [lia|]. rewrite A. split; [ring|exact B].
  - intros n x Hn [A B]. change (@nadd (B64 L)) with f64_add. unfold INT_MAX in Hn.
    assert (Hs : B2R x + B2R (g_dt g) = IZR (n + 1) * bpow radix2 e) by (rewrite A, Hd, plus_IZR; ring).
    destruct (f64_add_exact x (g_dt g) B Hf) as [C D].
    + rewrite Hs. apply gen_scaled; lia.
    + rewrite Hs, Rabs_mult, (Rabs_pos_eq (bpow radix2 e)) by apply bpow_ge_0.
      rewrite <- abs_IZR. replace 1024%Z with (53 + 971)%Z by reflexivity. rewrite bpow_plus.
      apply Rmult_le_0_lt_compat; [apply IZR_le; lia|apply bpow_ge_0| |apply bpow_lt; lia].
      change (bpow radix2 53) with (IZR (2 ^ 53)). apply IZR_lt. lia.
    + split; [rewrite C; exact Hs|exact D].
Qed.

Lemma gen_bpow e : (-1074 <= e)%Z -> generic_format radix2 (FLT_exp (-1074) 53) (bpow radix2 e).
Proof. intros He. rewrite <- (Rmult_1_l (bpow _ _)). apply gen_scaled; [reflexivity|exact He]. Qed.

Lemma f64_div_pow (x y : f64) a b : B2R x = bpow radix2 a -> B2R y = bpow radix2 b -> (-1074 <= a - b < 1024)%Z ->
  B2R (f64_div x y) = bpow radix2 (a - b) /\ is_finite (f64_div x y) = true.
Proof.
  intros Ex Ey Hr.
  assert (Fx : is_finite x = true) by (destruct x; cbn in Ex |- *; auto; exfalso; assert (P := bpow_gt_0 radix2 a); lra).
  assert (Ny : B2R y <> 0) by (rewrite Ey; apply Rgt_not_eq, bpow_gt_0).
  unfold f64_div. generalize (@Bdiv_correct 53 1024 Hprec64 Hemax64 mode_NE x y Ny).
  change (round_mode mode_NE) with ZnearestE. rewrite fexp64_FLT.
  assert (Eq : B2R x / B2R y = bpow radix2 (a - b)).
  { rewrite Ex, Ey. unfold Rdiv. rewrite <- bpow_opp, <- bpow_plus. f_equal. }
  rewrite Eq, (round_generic radix2 (FLT_exp (-1074) 53) ZnearestE _ (gen_bpow _ (proj1 Hr))).
  rewrite Rlt_bool_true; [intros (A & B & _); rewrite Fx in B; auto|].
  rewrite Rabs_pos_eq by apply bpow_ge_0. now apply bpow_lt.
Qed.

Lemma grid_dt_pow (Lx Ly rs : f64) pml (g : @grid (B64 L)) j : (-900 <= j <= 900)%Z -> B2R rs = bpow radix2 j ->
  mk_grid (N := B64 L) Lx Ly rs pml = Ok g ->
  B2R (g_dt g) = bpow radix2 (- j - 1) /\ is_finite (g_dt g) = true.
Proof.
  intros Hj Er E. unfold mk_grid in E. inv_ok. cbn [g_dt].
  change (@ndiv (B64 L)) with f64_div. change (@nofZ (B64 L)) with f64_ofZ.
  destruct (f64_ofZ_correct 1) as [A1 _]; [reflexivity|]. destruct (f64_ofZ_correct 2) as [A2 _]; [reflexivity|].
  destruct (f64_div_pow (f64_ofZ 1) rs 0 j) as [B _]; [exact A1|exact Er|lia|].
  apply (f64_div_pow _ _ (- j) 1); [exact B|exact A2|lia].
Qed.

Lemma time_f64_grid (Lx Ly rs : f64) pml (g : @grid (B64 L)) j name s0 l s : (-900 <= j <= 900)%Z -> B2R rs = bpow radix2 j ->
  mk_grid (N := B64 L) Lx Ly rs pml = Ok g -> mk_field g name = Ok s0 -> run l s0 = Fine s ->
  B2R (ph_t (f_ph s)) = IZR (since_clear l) * B2R (g_dt g) /\ is_finite (ph_t (f_ph s)) = true.
Proof.
  intros Hj Er Eg E H. destruct (grid_dt_pow _ _ _ _ _ _ Hj Er Eg) as [A B]. rewrite A.
  apply (time_f64 g name s0 l s (- j - 1)); auto. lia.
Qed.
End FTime.
