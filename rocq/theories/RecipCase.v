(** An example for reciprocity: two flashes on two sides of a round piece of any absorbing medium. *)
From Coq Require Import ZArith Reals String List Bool Lia Lra Psatz.
From Verif Require Import Scalar Base BaseFacts VecM GridM GeometryM MaterialM PmlM DftM TfsfM PolarM
  InterpM H5M ClockM MonitorM FieldM SpecGrid GridFacts OutFacts PhysFacts SpecGeometry GeometryFacts SpecPaint PaintFacts WfFacts ReachFacts InvFacts
  SpecStep StepFacts EngineFacts YeeFacts SpecWave DarkFacts SafeFacts ExampleFacts FlipRun SpecCone ConeFacts SpecRestart RestartMap RestartFacts RestartRun SpecTfsf TfsfFacts TfsfRun
  SpecMedia SpecTrace SpecEnergy EnergyFacts EnergyRun SpecLoss LossFacts LossRun LossCase SpecRecip RecipFacts RecipRun.
Import ListNotations.
Local Open Scope Z_scope.
#[local] Existing Instance RNum.

Lemma flash_spread g s c k x : apart g -> reachable g s -> ph_srcs (f_ph s) = [] -> ph_tfsf (f_ph s) = None ->
  run (repeat Update k) (poke (flash_at c) unlit unlit s) = Fine x -> (exists y, run (repeat Update k) s = Fine y) ->
  forall i j, 0 <= i < g_Nx g -> 0 <= j < g_Ny g -> Z.of_nat k < Z.abs (i - fst c) \/ Z.of_nat k < Z.abs (j - snd c) ->
  Ez_of (f_ph x) i j = 0%R /\ Hx_of (f_ph x) i j = 0%R /\ Hy_of (f_ph x) i j = 0%R.
Proof.
  intros Ha Hr Sr Tf Ex (y & Ey) i j Hi Hj Far.
  destruct (reachable_good g s (apart_roomy g Ha) Hr) as [W G]. assert (D := stays_dark g s Hr Sr Tf).
  assert (Ry : reachable g y) by (exact (SafeFacts.run_reachable g s _ y Hr Ey)).
  assert (Ua : apart (ph_grid (f_ph s))) by (now rewrite G).
  assert (Dy : dark (f_ph y)).
  { destruct (updates_keep g k Ha (f_ph s) (f_ph y)) as (A & B); auto; [exact (run_phys _ _ _ Ey)|]. now apply (stays_dark g y Ry). }
  assert (Wa : wf_phys (f_ph (poke (flash_at c) unlit unlit s))) by (destruct W; constructor; assumption).
  assert (K : agree_cell (f_ph x) (f_ph y) i j).
  { apply (cone k (poke (flash_at c) unlit unlit s) s x y i j); auto; change (ph_grid (f_ph (poke (flash_at c) unlit unlit s))) with (ph_grid (f_ph s)); rewrite ?G; auto.
    - unfold same_frame. cbn. auto.
    - intros a b Ga Gb Da Db. destruct D. constructor; try (cbn; apply alike_all_eq).
      + unfold agree_field. cbn. rewrite d_E, d_X, d_Y. unfold flash_at. replace ((a =? fst c) && (b =? snd c)) with false by lia. auto.
      + unfold agree_coefs. auto.
      + unfold agree_memory. auto 10.
      + cbn. destruct (ph_prevE (f_ph s)); cbn; auto.
      + cbn. destruct (ph_prev2E (f_ph s)); cbn; auto.
      + cbn. apply same_drive_refl. }
  destruct (ag_field _ _ _ _ K) as (K1 & K2 & K3). unfold Ez_of, Hx_of, Hy_of. destruct Dy. rewrite K1, K2, K3. auto.
Qed.

Lemma drop_around g k c i j : g_dx g = 1%R -> 3 <= Z.abs (i - c) \/ 3 <= Z.abs (j - c) -> drop_map g k c i j = Material "vacuum" vacuum.
Proof.
  intros Hd H. unfold drop_map. rewrite Hd. destruct (obj_inside _ _) eqn:E; [|reflexivity]. apply obj_inside_iff, drop_near in E. lia.
Qed.
Lemma drop_middle g k c : g_dx g = 1%R -> drop_map g k c c c = Material "stuff" k.
Proof. intros Hd. unfold drop_map. rewrite Hd. replace (1 * IZR c)%R with (IZR c) by ring. now rewrite (proj2 (obj_inside_iff _ _) (drop_center k c)). Qed.

Lemma plain_flash g mat c : plain (mat (fst c) (snd c)) -> in_plain g mat (flash_at c).
Proof.
  intros Pc i j _ Hn. unfold flash_at in Hn. destruct ((i =? fst c)%Z && (j =? snd c)%Z) eqn:E; [|contradiction].
  apply andb_true_iff in E. destruct E as [E1 E2]. apply Z.eqb_eq in E1, E2. now subst.
Qed.

Lemma recip_case n k : (n < 1000)%nat -> absorber k -> let c := Z.of_nat n + 10 in let N := 2 * Z.of_nat n + 24 in
  exists (g : grid) s0 s x y,
  let l0 := [AddObject (drop k c)] in let mat := drop_map g k c in
  let A := (c - 3, c) in let B := (c + 1, c + 3) in
  let a := poke (flash_at A) unlit unlit s in let b := poke (flash_at B) unlit unlit s in
  mk_grid (IZR N) (IZR N) 1%R 1 = Ok g /\ apart g /\ mk_field g "out" = Ok s0 /\ run l0 s0 = Fine s /\
  forallb (fun c => negb (repositions c)) l0 = true /\ ~ In ClearFields l0 /\
  Forall (fun o => SpecGeometry.shape_ok (o_geom o)) (added l0) /\ (forall o y, In o (added l0) -> m_kind (o_mat o) <> KLorentz y) /\
  ph_srcs (f_ph s) = [] /\ ph_tfsf (f_ph s) = None /\ made_from g (added l0) mat /\
  in_grid (g_Nx g) (g_Ny g) A /\ in_grid (g_Nx g) (g_Ny g) B /\ plain (mat (fst A) (snd A)) /\ plain (mat (fst B) (snd B)) /\
  in_plain g mat (flash_at A) /\ in_plain g mat (flash_at B) /\
  run (repeat Update n) a = Fine x /\ run (repeat Update n) b = Fine y /\
  (forall k w, (k <= n)%nat -> run (repeat Update k) a = Fine w -> off_layers g (f_ph w)) /\
  (forall k w, (k <= n)%nat -> run (repeat Update k) b = Fine w -> off_layers g (f_ph w)) /\
  mat c c = Material "stuff" k /\ strength (g_dt g) (mat (fst A) (snd A)) = 1%R /\ strength (g_dt g) (mat (fst B) (snd B)) = 1%R.
Proof.
  intros Hn Hk c N. destruct (drop_scene k N c) as (g & s0 & s & Eg & Hok & Ha & Nx & Ny & Dx & Hp & E0 & Rs & Hr & Mo & Tm & Ck & Sr & Np & Tf); [exact Hk|lia|lia|].
  set (mat := drop_map g k c). destruct (reachable_good g s (apart_roomy g Ha) Hr) as [W G].
  assert (Up : forall q z, z = s \/ (exists C, z = poke (flash_at C) unlit unlit s) -> (q <= n)%nat -> exists y, run (repeat Update q) z = Fine y).
  { clear k Hk mat Rs. intros q z Hz Hk. assert (Wz : wf_phys (f_ph z)) by (destruct Hz as [->|[C ->]]; [exact W|destruct W; constructor; assumption]).
    destruct (updates_ok q z) as (y & Ey & _); [| | | | | | | |exists y; exact Ey].
    all: destruct Hz as [->|[C ->]]; cbn [poke f_ph set_f_ph set_ph_F ph_grid ph_step f_mons f_tmons]; try assumption; rewrite ?G, ?Np; try (unfold INT_MIN, INT_MAX; lia); try (now apply apart_roomy).
    1,2: unfold placed; cbn; rewrite Sr, Tf; split; [constructor|discriminate].
    all: unfold idle; cbn; rewrite Ck; cbn; auto. }
  assert (Of : forall C, Z.abs (fst C - c) <= 3 -> Z.abs (snd C - c) <= 3 -> forall q w, (q <= n)%nat -> run (repeat Update q) (poke (flash_at C) unlit unlit s) = Fine w -> off_layers g (f_ph w)).
  { intros C C1 C2 q w Hq Hw. destruct (Up q s (or_introl eq_refl) Hq) as (w' & Ew').
    assert (Sp := flash_spread g s C q w Ha Hr Sr Tf Hw (ex_intro _ w' Ew')).
    intros i j Hi Hj. repeat split; intros H; apply Sp; try assumption; lia. }
  destruct (Up n _ (or_intror (ex_intro _ (c - 3, c) eq_refl)) ltac:(lia)) as (x & Ex).
  destruct (Up n _ (or_intror (ex_intro _ (c + 1, c + 3) eq_refl)) ltac:(lia)) as (y & Ey).
  exists g, s0, s, x, y. cbv zeta. fold mat. cbn [fst snd].
  assert (MA : mat (c - 3)%Z c = Material "vacuum" vacuum) by (apply drop_around; [exact Dx|lia]).
  assert (MB : mat (c + 1)%Z (c + 3)%Z = Material "vacuum" vacuum) by (apply drop_around; [exact Dx|lia]).
  do 4 (split; [assumption|]). split; [reflexivity|]. split; [intros [K|[]]; discriminate|].
  split; [constructor; [cbn; rnumg; lra|constructor]|]. split.
  { intros o z [<-|[]] E. cbn in E. subst k. exact Hk. }
  do 2 (split; [assumption|]). split; [apply drop_made; auto; lia|].
  split; [split; cbn; lia|]. split; [split; cbn; lia|]. rewrite MA, MB. split; [exact Logic.I|]. split; [exact Logic.I|].
  split; [apply plain_flash; cbn [fst snd]; now rewrite MA|]. split; [apply plain_flash; cbn [fst snd]; now rewrite MB|].
  do 2 (split; [assumption|]). split; [apply Of; cbn; lia|]. split; [apply Of; cbn; lia|]. split; [now apply drop_middle|].
  unfold strength, vacuum. cbn [m_kind sm_eps sm_conduc]. rnum. change (@T RNum) with R. split; field.
Qed.
