(** An example for the energy of absorbing media: a flash inside a round piece of any absorbing medium. *)
From Coq Require Import ZArith Reals String List Bool Lia Lra Psatz.
From Verif Require Import Scalar Base BaseFacts VecM GridM GeometryM MaterialM PmlM DftM TfsfM PolarM
  InterpM H5M ClockM MonitorM FieldM SpecGrid GridFacts OutFacts PhysFacts SpecGeometry GeometryFacts SpecPaint PaintFacts WfFacts ReachFacts InvFacts
  SpecStep StepFacts EngineFacts YeeFacts SpecWave DarkFacts SafeFacts ExampleFacts FlipRun SpecCone ConeFacts SpecRestart RestartMap RestartFacts RestartRun SpecTfsf TfsfFacts TfsfRun
  SpecMedia SpecTrace SpecEnergy EnergyFacts EnergyRun SpecLoss LossFacts LossRun.
Import ListNotations.
Local Open Scope Z_scope.
#[local] Existing Instance RNum.

Definition drop (k : mat_kind) (c : Z) : obj := Obj "drop" false (Cylinder 2%R) (Material "stuff" k) (IZR c, IZR c) 0%R.
Lemma drop_box k c : v_a (obj_box (drop k c)) = (IZR c - 2, IZR c - 2)%R /\ v_b (obj_box (drop k c)) = (IZR c + 2, IZR c + 2)%R.
Proof.
  unfold obj_box, place_box, drop. cbn [o_geom o_pos o_theta geom_box stored_box vol_translate mk_volume v_a v_b].
  unfold vadd. cbn [fst snd]. split; apply injective_projections; cbn [fst snd]; rnumg; change (@T RNum) with R; lra.
Qed.
Lemma drop_center k c : in_obj (drop k c) (IZR c, IZR c).
Proof.
  unfold in_obj, in_placed, drop. cbn [o_geom o_pos o_theta]. exists (0, 0)%R. unfold in_shape, rot, vadd. cbn [fst snd]. rnumg.
  split; [lra|]. apply injective_projections; cbn [fst snd]; change (@T RNum) with R; rewrite ?cos_0, ?sin_0; ring.
Qed.
Lemma drop_near k c i j : in_obj (drop k c) (1 * IZR i, 1 * IZR j)%R -> Z.abs (i - c) <= 2 /\ Z.abs (j - c) <= 2.
Proof.
  unfold in_obj, in_placed, drop. cbn [o_geom o_pos o_theta]. intros ([x y] & H & E). unfold in_shape in H. unfold rot, vadd in E. cbn [fst snd] in *.
  injection E as E1 E2. rnum. rewrite cos_0, sin_0 in *.
  assert (X : IZR (i - c) = x) by (rewrite minus_IZR; lra). assert (Y : IZR (j - c) = y) by (rewrite minus_IZR; lra). rewrite <- X, <- Y in H.
  assert (K : forall a b, (IZR a * IZR a + IZR b * IZR b <= 4)%R -> Z.abs a <= 2).
  { intros a b Hab. rewrite <- !mult_IZR, <- plus_IZR in Hab. apply le_IZR in Hab. nia. }
  split; [apply (K _ (j - c))|apply (K _ (i - c))]; lra.
Qed.
Definition drop_map (g : grid) (k : mat_kind) (c : Z) : Z -> Z -> material := fun i j =>
  if obj_inside (drop k c) (g_dx g * IZR i, g_dx g * IZR j)%R then Material "stuff" k else Material "vacuum" vacuum.
Lemma drop_made g k c : absorber k -> g_dx g = 1%R -> 4 <= c < g_Nx g - 4 -> 4 <= c < g_Ny g - 4 -> made_from g [drop k c] (drop_map g k c).
Proof.
  intros Hk Hd Hx Hy i j [Hi Hj] pos. cbn in Hi, Hj. unfold drop_map. fold pos. destruct (obj_inside _ _) eqn:E; cbn [m_kind m_name].
  - apply obj_inside_iff in E. split; [exact Hk|].
    assert (Ed : ~ at_edge g i j). { unfold pos in E. rewrite Hd in E. apply drop_near in E. unfold at_edge. lia. }
    assert (On : only_in [drop k c] "stuff" k pos).
    { exists (drop k c). split; [now left|]. split; [reflexivity|]. split; [exact E|]. intros o' [<-|[]] _. reflexivity. }
    destruct k as [m|x|x|x]; [|split; assumption|split; assumption|destruct Hk]. split.
    + left. exists [], (drop (KSimple m) c), []. repeat split; auto.
    + intros o [<-|[]] _ K. exact K.
  - apply obj_inside_false in E. unfold vacuum at 1 2. cbn [m_kind]. split; [cbn; rnumg; change (@T RNum) with R; split; lra|]. split.
    + right. split; [|reflexivity]. intros o [<-|[]]. exact E.
    + intros o [<-|[]] Hin. contradiction.
Qed.

Lemma drop_scene k N c : absorber k -> 16 <= N <= 1000000 -> 4 <= c <= N - 4 -> exists (g : grid) s0 s, mk_grid (IZR N) (IZR N) 1%R 1 = Ok g /\ grid_ok g /\ apart g /\
  g_Nx g = N /\ g_Ny g = N /\ g_dx g = 1%R /\ g_pml g = 2 /\ mk_field g "out" = Ok s0 /\ run [AddObject (drop k c)] s0 = Fine s /\ reachable g s /\
  f_mons s = [] /\ f_tmons s = [] /\ f_clk s = mk_clocks /\ ph_srcs (f_ph s) = [] /\ ph_step (f_ph s) = 0%Z /\ ph_tfsf (f_ph s) = None.
Proof.
  intros Hk HN Hc. destruct (grid_side N) as (g & Eg & Hok & Nx & Ny & Hdx & HLx & HLy & Hp); [lia|].
  assert (Ha : apart g) by (unfold apart; lia). assert (Hr := apart_roomy g Ha).
  destruct (mk_field_fresh g "out" Hr) as (p & Ep & E0); [discriminate|].
  destruct (mk_phys_ok g Hr) as (p' & Ep' & Hw & Gp & Sp & Tp & Op & Np). rewrite Ep in Ep'. injection Ep' as <-.
  assert (Hc' : (4 <= IZR c <= IZR N - 4)%R) by (rewrite <- minus_IZR; split; apply IZR_le; lia).
  destruct (paint_in_domain g (drop k c) (ph_C p) Hok) as [c1 Ec1].
  { rewrite <- Gp. apply (wf_C p Hw). }
  { rewrite (proj1 (drop_box k c)). unfold in_box, domain. cbn [mk_volume v_a v_b fst snd]. rewrite HLx, HLy. rnumg. change (@T RNum) with R. lra. }
  { rewrite (proj2 (drop_box k c)). unfold in_box, domain. cbn [mk_volume v_a v_b fst snd]. rewrite HLx, HLy. rnumg. change (@T RNum) with R. lra. }
  assert (H1 : exists f1, write_mat (fresh_h5 g) (o_mat (drop k c)) = Ok f1 /\ exists f2, write_obj f1 (drop k c) = Ok f2).
  { destruct k as [m|[e l]|[e l]|x]; cbn [absorber] in Hk.
    - eexists. split; [reflexivity|]. eexists. reflexivity.
    - destruct Hk as (_ & d & Hl & _). cbn in Hl. subst l. eexists. split; [reflexivity|]. eexists. reflexivity.
    - destruct Hk as (_ & d & Hl & _). cbn in Hl. subst l. eexists. split; [reflexivity|]. eexists. reflexivity.
    - destruct Hk. }
  destruct H1 as (f1 & H1 & f2 & H2).
  destruct (add_object_fine (drop k c) (Field p [] [] [] (fresh_h5 g) mk_clocks) f1 f2 c1) as (s1 & E1 & F1 & M1 & Mo1 & T1 & K1 & G1 & O1 & S1 & N1 & Q1); auto.
  { cbn [f_ph]. now rewrite Gp. } { cbn [f_ph]. rewrite Gp. lia. } { cbn [f_ph]. rewrite Gp. lia. }
  set (s0 := Field p [] [] [] (fresh_h5 g) mk_clocks) in *.
  assert (R1 : run [AddObject (drop k c)] s0 = Fine s1) by (cbn [run exec]; rewrite E1; reflexivity).
  exists g, s0, s1. do 9 (split; [assumption|]).
  assert (R0 : reachable g s0) by (exists "out"%string, s0, []; split; [exact E0|reflexivity]).
  split; [exact (SafeFacts.run_reachable g s0 _ s1 R0 R1)|].
  cbn [s0 f_ph f_mons f_tmons f_clk] in *. rewrite Mo1, T1, K1, S1, N1, Q1, Sp, Tp, Np. auto 10.
Qed.

Lemma loss_case n k : (n < 1000)%nat -> absorber k -> let c := Z.of_nat n + 7 in let N := 2 * Z.of_nat n + 16 in
  exists (g : grid) s0 s b x d,
  let l0 := [AddObject (drop k c)] in let mat := drop_map g k c in let a := poke (EnergyRun.flash c) nought nought s in
  mk_grid (IZR N) (IZR N) 1%R 1 = Ok g /\ apart g /\ mk_field g "out" = Ok s0 /\ run l0 s0 = Fine s /\
  forallb (fun c => negb (repositions c)) l0 = true /\ ~ In ClearFields l0 /\
  Forall (fun o => SpecGeometry.shape_ok (o_geom o)) (added l0) /\ (forall o y, In o (added l0) -> m_kind (o_mat o) <> KLorentz y) /\
  ph_srcs (f_ph s) = [] /\ ph_tfsf (f_ph s) = None /\ made_from g (added l0) mat /\
  exec Update a = Fine b /\ forallb watching (repeat Update n) = true /\ run (repeat Update n) b = Fine x /\ exec Update x = Fine d /\
  (forall k y, run (firstn k (Update :: repeat Update n ++ [Update])) a = Fine y -> off_layers g (f_ph y)) /\
  mat c c = Material "stuff" k /\ Ez_of (f_ph a) c c = 1%R.
Proof.
  intros Hn Hk c N. destruct (drop_scene k N c) as (g & s0 & s & Eg & Hok & Ha & Nx & Ny & Dx & Hp & E0 & Rs & Hr & Mo & Tm & Ck & Sr & Np & Tf); [exact Hk|lia|lia|].
  set (mat := drop_map g k c). set (a := poke (EnergyRun.flash c) nought nought s).
  destruct (reachable_good g s (apart_roomy g Ha) Hr) as [W G].
  assert (Wa : wf_phys (f_ph a)) by (destruct W; constructor; assumption).
  assert (Up : forall k z, z = a \/ z = s -> (k <= S (S n))%nat -> exists y, run (repeat Update k) z = Fine y).
  { clear k Hk mat Rs. intros k z Hz Hk. destruct (updates_ok k z) as (y & Ey & _); [| | | | | | | |exists y; exact Ey].
    all: destruct Hz as [-> | ->]; cbn [a poke f_ph set_f_ph set_ph_F ph_grid ph_step f_mons f_tmons]; try assumption; rewrite ?G, ?Np; try (unfold INT_MIN, INT_MAX; lia); try (now apply apart_roomy).
    1,2: unfold placed; cbn; rewrite Sr, Tf; split; [constructor|discriminate].
    all: unfold idle; cbn; rewrite Ck; cbn; auto. }
  destruct (Up (S (S n)) a (or_introl eq_refl) ltac:(lia)) as (d & Ed).
  assert (Er : repeat (@Update RNum) (S (S n)) = [Update] ++ repeat Update n ++ [Update]).
  { change (repeat Update (S (S n))) with (@Update RNum :: repeat Update (S n)). cbn [app]. f_equal. change [Update] with (repeat (@Update RNum) 1). rewrite <- repeat_app. f_equal. lia. }
  assert (Ed' := Ed). rewrite Er, run_app in Ed'. apply obind_fine in Ed'. destruct Ed' as (b & Eb & Ed'). rewrite run_app in Ed'. apply obind_fine in Ed'. destruct Ed' as (x & Ex & Ed').
  assert (Ud : forall z w, run [Update] z = Fine w -> exec Update z = Fine w) by (intros z w H; cbn [run] in H; destruct (exec Update z); try discriminate; cbn in H; exact H).
  apply Ud in Eb, Ed'. exists g, s0, s, b, x, d. cbv zeta. fold mat a.
  assert (Of : forall k y, run (firstn k (Update :: repeat Update n ++ [Update])) a = Fine y -> off_layers g (f_ph y)).
  { clear k Hk mat Rs. intros k y Hy. change (Update :: repeat Update n ++ [Update]) with ([@Update RNum] ++ repeat Update n ++ [Update]) in Hy. rewrite <- Er, firstn_repeat in Hy.
    assert (Hk : (Nat.min k (S (S n)) <= S (S n))%nat) by lia. set (k' := Nat.min k (S (S n))) in *. clearbody k'.
    assert (Sp := poke_spread g s c k' y Ha Hr Sr Tf Hy (Up k' s (or_intror eq_refl) Hk)).
    intros i j Hi Hj. repeat split; intros H; apply Sp; try assumption; lia. }
  do 4 (split; [assumption|]). split; [reflexivity|]. split; [intros [K|[]]; discriminate|].
  split; [constructor; [cbn; rnumg; lra|constructor]|]. split.
  { intros o y [<-|[]] E. cbn in E. subst k. exact Hk. }
  do 2 (split; [assumption|]). split; [apply drop_made; auto; lia|]. split; [exact Eb|]. split; [clear; induction n; cbn; auto|].
  do 2 (split; [assumption|]). split; [exact Of|]. split.
  - unfold mat, drop_map. rewrite Dx. replace (1 * IZR c)%R with (IZR c) by ring. rewrite (proj2 (obj_inside_iff _ _) (drop_center k c)). reflexivity.
  - unfold Ez_of, a. cbn. unfold EnergyRun.flash. now rewrite Z.eqb_refl.
Qed.
Lemma some_absorbers : absorber (KSimple (Simple 2%R 1%R 1%R)) /\ absorber (KDebye (Debye 2%R [DPole 1%R 1%R])) /\ absorber (KDrude (Drude 1%R [UPole 1%R 1%R])).
Proof. cbn. split; [lra|]. split; (split; [lra|]); [exists (DPole 1%R 1%R)|exists (UPole 1%R 1%R)]; cbn; (split; [reflexivity|lra]). Qed.
