(** Energy along a program, and an example. *)
From Coq Require Import ZArith Reals String List Bool Lia Lra Psatz.
From Verif Require Import Scalar Base BaseFacts VecM GridM GeometryM MaterialM PmlM DftM TfsfM PolarM
  InterpM H5M ClockM MonitorM FieldM SpecGrid GridFacts OutFacts PhysFacts SpecGeometry GeometryFacts SpecPaint PaintFacts WfFacts ReachFacts InvFacts
  SpecStep StepFacts EngineFacts YeeFacts SpecSource SourceFacts PolarFacts FullStep TextbookFacts SpecWave DarkFacts
  SafeFacts ExampleFacts FlipRun SpecCone ConeFacts SpecRestart RestartMap RestartFacts RestartRun SpecTfsf TfsfFacts TfsfRun SpecEnergy EnergyFacts.
Import ListNotations.
Local Open Scope Z_scope.
#[local] Existing Instance RNum.

Lemma energy_run g eps : (0 < g_dx g)%R -> g_dt g = (g_dx g / 2)%R -> apart g -> 1 <= g_pml g ->
  forall l p q r t W, coasting g eps p -> off_layers g p -> phys_step p = Fine q -> energy g eps p q = W ->
  forallb watching l = true -> phys_run l q = Fine r -> phys_step r = Fine t ->
  (forall k x, phys_run (firstn k (l ++ [Update])) q = Fine x -> off_layers g x) ->
  energy g eps r t = W /\ coasting g eps r /\ off_layers g r /\ off_layers g t.
Proof.
  intros Hd Ht Ha H1. induction l as [|c l IH]; intros p q r t W Co Op Sp HW Wl R St Of.
  - cbn in R. injection R as <-. assert (Oq := Of 0%nat q eq_refl). assert (Or : off_layers g t) by (apply (Of 1%nat); cbn; rewrite St; reflexivity).
    destruct (coast_step g eps p q) as (Cq & _); auto. split; [|auto]. rewrite <- HW. now apply (energy_step g eps p q t).
  - cbn [forallb] in Wl. apply andb_true_iff in Wl. destruct Wl as [Wc Wl]. cbn [phys_run] in R. apply obind_fine in R. destruct R as (q1 & Eq & R).
    assert (Of1 : forall k x, phys_run (firstn k (l ++ [Update])) q1 = Fine x -> off_layers g x).
    { intros k x Hx. apply (Of (S k) x). cbn [app firstn phys_run]. rewrite Eq. exact Hx. }
    assert (Oq := Of 0%nat q eq_refl). assert (Oq1 := Of1 0%nat q1 eq_refl).
    destruct (watching_phys c q q1 Wc Eq) as [[_ Sq]|[_ ->]].
    + destruct (coast_step g eps p q) as (Cq & _); auto.
      apply (IH q q1 r t W); auto. rewrite <- HW. now apply (energy_step g eps p q q1).
    + now apply (IH p q r t W).
Qed.

Lemma glassy_shown g os eps p : ph_grid p = g -> Forall (fun o => clear_material (m_kind (o_mat o))) os -> grid_shows g os vacuum (ph_C p) ->
  permittivity g os eps -> glassy g eps (med p).
Proof.
  intros G Hc Hs He i j Hi Hj. destruct (He i j (conj Hi Hj)) as (m & Hm & <-).
  assert (C := Hs i j (KSimple m) (conj Hi Hj) Hm).
  assert (K : sm_conduc m = 0%R /\ (1 <= sm_eps m)%R).
  { destruct Hm as [(b & o & a & -> & _ & _ & E)|[_ E]].
    - apply Forall_app in Hc. destruct Hc as [_ Hc]. inversion Hc as [|? ? Ho]; subst. unfold clear_material in Ho. rewrite <- E in Ho. exact Ho.
    - unfold vacuum in E. injection E as ->. cbn. rnum. change (@T RNum) with R. split; lra. }
  destruct K as [K1 K2]. unfold cell, mat_cell in C. injection C as C1 C2 C3 C4. unfold med, med_of. cbn [mCa mCb mDa mDb]. rewrite C1, C2, C3, C4.
  cbn [mat_Ca mat_Cb mat_Da mat_Db]. unfold simple_Ca, simple_Cb. rewrite K1. rnum. change (@T RNum) with R in *.
  repeat split; try exact K2; field; lra.
Qed.

Lemma poked_coasting g s ez hx hy os eps : apart g -> reachable g s -> ph_srcs (f_ph s) = [] -> ph_tfsf (f_ph s) = None ->
  ph_debye (f_ph s) = [] /\ ph_drude (f_ph s) = [] /\ ph_lorentz (f_ph s) = [] ->
  Forall (fun o => clear_material (m_kind (o_mat o))) os -> grid_shows g os vacuum (ph_C (f_ph s)) -> permittivity g os eps ->
  coasting g eps (f_ph (poke ez hx hy s)).
Proof.
  intros Ha Hr Sr Tf Ba Hc Hs He. destruct (reachable_good g s (apart_roomy g Ha) Hr) as [W G]. assert (D := stays_dark g s Hr Sr Tf). destruct D.
  assert (Cf := reachable_coefs g s Ha Hr). constructor; try assumption.
  - destruct W. constructor; try assumption.
  - now apply (glassy_shown g os eps).
  - now apply coefs_flat.
  - intros i j. cbn. auto.
  - intros i j. cbn. auto.
Qed.

Lemma energy_kept Lx Ly rs pml g s os eps ez hx hy l b c d :
  (0 < Lx)%R -> (0 < Ly)%R -> (0 < rs)%R -> 0 <= pml -> mk_grid Lx Ly rs pml = Ok g -> apart g ->
  reachable g s -> ph_srcs (f_ph s) = [] -> ph_tfsf (f_ph s) = None ->
  ph_debye (f_ph s) = [] /\ ph_drude (f_ph s) = [] /\ ph_lorentz (f_ph s) = [] ->
  Forall (fun o => clear_material (m_kind (o_mat o))) os -> grid_shows g os vacuum (ph_C (f_ph s)) -> permittivity g os eps ->
  let a := poke ez hx hy s in
  exec Update a = Fine b -> forallb watching l = true -> run l b = Fine c -> exec Update c = Fine d ->
  (forall k x, run (firstn k (Update :: l ++ [Update])) a = Fine x -> off_layers g (f_ph x)) ->
  energy g eps (f_ph c) (f_ph d) = energy g eps (f_ph a) (f_ph b) /\
  (electric g eps (f_ph d) <= 2 * energy g eps (f_ph a) (f_ph b))%R /\
  (magnetic g (f_ph d) <= 2 * energy g eps (f_ph a) (f_ph b))%R.
Proof.
  intros HLx HLy Hrs Hpml Eg Ha Hr Sr Tf Ba Hc Hs He a Ea Wl R Ec Of.
  assert (Gok := mk_grid_ok Lx Ly rs pml g HLx HLy Hrs Eg). destruct Gok as (Hd & _ & _ & _ & _ & Ht2).
  assert (Ht : g_dt g = (g_dx g / 2)%R) by lra.
  assert (Th : 1 <= g_pml g) by (unfold mk_grid in Eg; inv_ok; cbn; lia).
  assert (Co := poked_coasting g s ez hx hy os eps Ha Hr Sr Tf Ba Hc Hs He). fold a in Co.
  assert (Oa := Of 0%nat a eq_refl).
  assert (K : energy g eps (f_ph c) (f_ph d) = energy g eps (f_ph a) (f_ph b) /\ coasting g eps (f_ph c) /\ off_layers g (f_ph c) /\ off_layers g (f_ph d)).
  { assert (Pa := exec_phys _ _ _ Ea). assert (Pc := exec_phys _ _ _ Ec). assert (Pl := run_phys _ _ _ R). cbn [phys_exec] in Pa, Pc.
    apply (energy_run g eps Hd Ht Ha Th l (f_ph a) (f_ph b)); auto.
    assert (Of1 : forall k x, run (firstn k (l ++ [Update])) b = Fine x -> off_layers g (f_ph x)).
    { intros k x Hx. apply (Of (S k)). cbn [firstn run]. rewrite Ea. exact Hx. }
    assert (Rl : run (l ++ [Update]) b = Fine d) by (rewrite run_app, R; cbn [obind run]; rewrite Ec; reflexivity).
    clear - Of1 Rl. revert b Of1 Rl. generalize (l ++ [Update]). intros L. induction L as [|x L IH]; intros b Of1 Rl k q Hq.
    - rewrite firstn_nil in Hq. cbn in Hq. injection Hq as <-. exact (Of1 0%nat b eq_refl).
    - destruct k as [|k]; [cbn in Hq; injection Hq as <-; exact (Of1 0%nat b eq_refl)|].
      cbn [run] in Rl. apply obind_fine in Rl. destruct Rl as (b1 & E1 & Rl). assert (P1 := exec_phys _ _ _ E1).
      cbn [firstn phys_run] in Hq. rewrite P1 in Hq. cbn [obind] in Hq. apply (IH b1 (fun k' y Hy => Of1 (S k') y ltac:(cbn [firstn run]; rewrite E1; exact Hy)) Rl k q Hq). }
  destruct K as (K & Cc & Oc & Od). split; [exact K|]. rewrite <- K. apply energy_bounds; auto. exact (exec_phys _ _ _ Ec).
Qed.

(** ** An example: a flash inside a glass lens *)
Lemma grid_side N : 8 <= N <= 1000000 -> exists g : grid, mk_grid (IZR N) (IZR N) 1%R 1 = Ok g /\ grid_ok g /\ g_Nx g = N /\ g_Ny g = N /\
  g_dx g = 1%R /\ g_Lx g = (IZR N - 1)%R /\ g_Ly g = (IZR N - 1)%R /\ g_pml g = 2.
Proof.
  intros HN. assert (H8 : (8 <= IZR N <= 1000000)%R) by (split; apply IZR_le; lia).
  destruct (mk_grid_spec (IZR N) (IZR N) 1 1) as [g [E H]]; try lra.
  { unfold INT_MAX. lra. } { unfold INT_MAX. lra. }
  destruct H as (H1 & H2 & _ & Hd & Hp & HL & HLy & _ & _ & _ & _ & Hm).
  exists g. split; [exact E|].
  assert (Nx : g_Nx g = N).
  { assert (N <= g_Nx g < N + 1); [|lia]. split; [apply le_IZR|apply lt_IZR; rewrite plus_IZR]; lra. }
  assert (Ny : g_Ny g = N).
  { assert (N <= g_Ny g < N + 1); [|lia]. split; [apply le_IZR|apply lt_IZR; rewrite plus_IZR]; lra. }
  split; [eapply mk_grid_ok; [| | |exact E]; lra|].
  assert (D1 : g_dx g = 1%R) by lra. rewrite Nx in HL. rewrite Ny in HLy. split; [exact Nx|]. split; [exact Ny|]. split; [assumption|].
  change (@T RNum) with R in *. split; [rewrite HL, D1; ring|]. split; [rewrite HLy, D1; ring|lia].
Qed.

Definition lens (c : Z) : obj := Obj "lens" false (Cylinder 2%R) (Material "glass" (KSimple (Simple 2%R 1%R 0%R))) (IZR c, IZR c) 0%R.
Lemma lens_box c : v_a (obj_box (lens c)) = (IZR c - 2, IZR c - 2)%R /\ v_b (obj_box (lens c)) = (IZR c + 2, IZR c + 2)%R.
Proof.
  unfold obj_box, place_box, lens. cbn [o_geom o_pos o_theta geom_box stored_box vol_translate mk_volume v_a v_b].
  unfold vadd. cbn [fst snd]. split; apply injective_projections; cbn [fst snd]; rnumg; change (@T RNum) with R; lra.
Qed.
Lemma lens_center c : in_obj (lens c) (IZR c, IZR c).
Proof.
  unfold in_obj, in_placed, lens. cbn [o_geom o_pos o_theta]. exists (0, 0)%R. unfold in_shape, rot, vadd. cbn [fst snd]. rnumg.
  split; [lra|]. apply injective_projections; cbn [fst snd]; change (@T RNum) with R; rewrite ?cos_0, ?sin_0; ring.
Qed.
Definition lens_eps (g : grid) (c : Z) : Z -> Z -> R := fun i j => if obj_inside (lens c) (g_dx g * IZR i, g_dx g * IZR j)%R then 2%R else 1%R.
Lemma lens_permits g c : permittivity g [lens c] (lens_eps g c).
Proof.
  intros i j _. unfold lens_eps. destruct (obj_inside _ _) eqn:E.
  - apply obj_inside_iff in E. exists (Simple 2%R 1%R 0%R). split; [|reflexivity]. left. exists [], (lens c), []. repeat split; auto.
  - apply obj_inside_false in E. exists (Simple 1%R 1%R 0%R). split; [|reflexivity]. right. split; [|reflexivity]. intros o [<-|[]]. exact E.
Qed.

Lemma lens_scene N c : 16 <= N <= 1000000 -> 4 <= c <= N - 4 -> exists (g : grid) s0 s, mk_grid (IZR N) (IZR N) 1%R 1 = Ok g /\ grid_ok g /\ apart g /\
  g_Nx g = N /\ g_Ny g = N /\ g_dx g = 1%R /\ g_pml g = 2 /\ mk_field g "out" = Ok s0 /\ run [AddObject (lens c)] s0 = Fine s /\ reachable g s /\
  f_mons s = [] /\ f_tmons s = [] /\ f_clk s = mk_clocks /\ ph_srcs (f_ph s) = [] /\ ph_step (f_ph s) = 0%Z /\ ph_tfsf (f_ph s) = None /\
  (ph_debye (f_ph s) = [] /\ ph_drude (f_ph s) = [] /\ ph_lorentz (f_ph s) = []) /\ grid_shows g [lens c] vacuum (ph_C (f_ph s)).
Proof.
  intros HN Hc. destruct (grid_side N) as (g & Eg & Hok & Nx & Ny & Hdx & HLx & HLy & Hp); [lia|].
  assert (Ha : apart g) by (unfold apart; lia). assert (Hr := apart_roomy g Ha).
  destruct (mk_field_fresh g "out" Hr) as (p & Ep & E0); [discriminate|].
  destruct (mk_phys_ok g Hr) as (p' & Ep' & Hw & Gp & Sp & Tp & Op & Np). rewrite Ep in Ep'. injection Ep' as <-.
  assert (Hc' : (4 <= IZR c <= IZR N - 4)%R) by (rewrite <- minus_IZR; split; apply IZR_le; lia).
  destruct (paint_in_domain g (lens c) (ph_C p) Hok) as [c1 Ec1].
  { rewrite <- Gp. apply (wf_C p Hw). }
  { rewrite (proj1 (lens_box c)). unfold in_box, domain. cbn [mk_volume v_a v_b fst snd]. rewrite HLx, HLy. rnumg. change (@T RNum) with R. lra. }
  { rewrite (proj2 (lens_box c)). unfold in_box, domain. cbn [mk_volume v_a v_b fst snd]. rewrite HLx, HLy. rnumg. change (@T RNum) with R. lra. }
  assert (H1 : exists f1, write_mat (fresh_h5 g) (o_mat (lens c)) = Ok f1 /\ exists f2, write_obj f1 (lens c) = Ok f2).
  { eexists. split; [reflexivity|]. eexists. reflexivity. }
  destruct H1 as (f1 & H1 & f2 & H2).
  destruct (add_object_fine (lens c) (Field p [] [] [] (fresh_h5 g) mk_clocks) f1 f2 c1) as (s1 & E1 & F1 & M1 & Mo1 & T1 & K1 & G1 & O1 & S1 & N1 & Q1); auto.
  { cbn [f_ph]. now rewrite Gp. } { cbn [f_ph]. rewrite Gp. lia. } { cbn [f_ph]. rewrite Gp. lia. }
  set (s0 := Field p [] [] [] (fresh_h5 g) mk_clocks) in *.
  assert (R1 : run [AddObject (lens c)] s0 = Fine s1) by (cbn [run exec]; rewrite E1; reflexivity).
  exists g, s0, s1. do 9 (split; [assumption|]).
  assert (R0 : reachable g s0) by (exists "out"%string, s0, []; split; [exact E0|reflexivity]).
  split; [exact (SafeFacts.run_reachable g s0 _ s1 R0 R1)|].
  cbn [s0 f_ph f_mons f_tmons f_clk] in *. rewrite Mo1, T1, K1, S1, N1, Q1, Sp, Tp, Np. do 6 (split; [reflexivity|]). split.
  - assert (B := run_built g _ s0 s1 Ha R0 (fresh_built g _ s0 E0) R1). destruct B as [Q1' Q2' Q3' _ _]. cbn [s0 f_ph] in O1. rewrite O1, Op in Q1', Q2', Q3'. cbn in Q1', Q2', Q3'.
    assert (Nil : forall M (P : list (string * (M * polar))), toc P = [] -> P = []) by (intros M [|? ?] HP; [reflexivity|discriminate]). auto.
  - destruct (painting_last_wins g "out" s0 [AddObject (lens c)] s1 Hok E0 R1 eq_refl) as [_ K]; [|exact K]. constructor; [|constructor]. cbn. rnumg. lra.
Qed.

Definition flash (c : Z) : Z -> Z -> R := fun i j => if (i =? c) && (j =? c) then 1%R else 0%R.
Definition nought : Z -> Z -> R := fun _ _ => 0%R.

Lemma sumup_one n c f : 0 <= c < Z.of_nat n -> (forall k, k <> c -> f k = 0%R) -> sumup n f = f c.
Proof.
  intros Hc H. induction n; cbn [sumup]; [lia|]. destruct (Z.eq_dec c (Z.of_nat n)) as [->|Hn].
  - rewrite (sumup_ext n f (fun _ => 0%R)); [rewrite sumup_zero; lra|]. intros k Hk. apply H. lia.
  - rewrite IHn by lia. rewrite (H (Z.of_nat n)) by lia. lra.
Qed.

Lemma updates_keep g k : apart g -> forall p q, ph_grid p = g -> wf_phys p -> phys_run (repeat Update k) p = Fine q ->
  ph_srcs p = [] -> ph_tfsf p = None -> ph_srcs q = [] /\ ph_tfsf q = None.
Proof.
  intros Ha. induction k as [|k IH]; intros p q G W H Sr Tf; cbn [repeat phys_run] in H; [injection H as <-; auto|].
  apply obind_fine in H. destruct H as (p1 & E & H). cbn in E.
  destruct (full_step p p1) as (F0 & F1 & F2 & E3 & Ls & u & h & CW); [now rewrite G|exact W|exact E|]. destruct CW.
  apply static_eq in cw_static. destruct cw_static as (S1 & _). rewrite Tf in cw_line. injection cw_line as Tl.
  apply (IH p1 q); [congruence|exact cw_wf|exact H| |auto]. rewrite Sr in cw_srcs. now destruct (ph_srcs p1).
Qed.

Lemma poke_spread g s c k x : apart g -> reachable g s -> ph_srcs (f_ph s) = [] -> ph_tfsf (f_ph s) = None ->
  run (repeat Update k) (poke (flash c) nought nought s) = Fine x -> (exists y, run (repeat Update k) s = Fine y) ->
  forall i j, 0 <= i < g_Nx g -> 0 <= j < g_Ny g -> Z.of_nat k < Z.abs (i - c) \/ Z.of_nat k < Z.abs (j - c) ->
  Ez_of (f_ph x) i j = 0%R /\ Hx_of (f_ph x) i j = 0%R /\ Hy_of (f_ph x) i j = 0%R.
Proof.
  intros Ha Hr Sr Tf Ex (y & Ey) i j Hi Hj Far.
  destruct (reachable_good g s (apart_roomy g Ha) Hr) as [W G]. assert (D := stays_dark g s Hr Sr Tf).
  assert (Ry : reachable g y) by (exact (SafeFacts.run_reachable g s _ y Hr Ey)).
  assert (Ua : apart (ph_grid (f_ph s))) by (now rewrite G).
  assert (Dy : dark (f_ph y)).
  { destruct (updates_keep g k Ha (f_ph s) (f_ph y)) as (A & B); auto; [exact (run_phys _ _ _ Ey)|]. now apply (stays_dark g y Ry). }
  assert (Wa : wf_phys (f_ph (poke (flash c) nought nought s))) by (destruct W; constructor; assumption).
  assert (K : agree_cell (f_ph x) (f_ph y) i j).
  { apply (cone k (poke (flash c) nought nought s) s x y i j); auto; change (ph_grid (f_ph (poke (flash c) nought nought s))) with (ph_grid (f_ph s)); rewrite ?G; auto.
    - unfold same_frame. cbn. auto.
    - intros a b Ga Gb Da Db. destruct D. constructor; try (cbn; apply alike_all_eq).
      + unfold agree_field. cbn. rewrite d_E, d_X, d_Y. unfold flash. replace ((a =? c) && (b =? c)) with false by lia. auto.
      + unfold agree_coefs. auto.
      + unfold agree_memory. auto 10.
      + cbn. destruct (ph_prevE (f_ph s)); cbn; auto.
      + cbn. destruct (ph_prev2E (f_ph s)); cbn; auto.
      + cbn. apply same_drive_refl. }
  destruct (ag_field _ _ _ _ K) as (K1 & K2 & K3). unfold Ez_of, Hx_of, Hy_of. destruct Dy. rewrite K1, K2, K3. auto.
Qed.

Lemma firstn_repeat {A} (a : A) k n : firstn k (repeat a n) = repeat a (Nat.min k n).
Proof. revert k. induction n; intros [|k]; cbn; auto. now rewrite IHn. Qed.

Lemma energy_case n : (n < 1000)%nat -> let c := Z.of_nat n + 7 in let N := 2 * Z.of_nat n + 16 in
  exists (g : grid) s b x d,
  let eps := lens_eps g c in let a := poke (flash c) nought nought s in
  mk_grid (IZR N) (IZR N) 1%R 1 = Ok g /\ apart g /\ reachable g s /\ ph_srcs (f_ph s) = [] /\ ph_tfsf (f_ph s) = None /\
  (ph_debye (f_ph s) = [] /\ ph_drude (f_ph s) = [] /\ ph_lorentz (f_ph s) = []) /\
  Forall (fun o => clear_material (m_kind (o_mat o))) [lens c] /\ grid_shows g [lens c] vacuum (ph_C (f_ph s)) /\ permittivity g [lens c] eps /\
  exec Update a = Fine b /\ forallb watching (repeat Update n) = true /\ run (repeat Update n) b = Fine x /\ exec Update x = Fine d /\
  (forall k y, run (firstn k (Update :: repeat Update n ++ [Update])) a = Fine y -> off_layers g (f_ph y)) /\
  eps c c = 2%R /\ energy g eps (f_ph a) (f_ph b) = 2%R.
Proof.
  intros Hn c N. destruct (lens_scene N c) as (g & s0 & s & Eg & Hok & Ha & Nx & Ny & Dx & Hp & E0 & Rs & Hr & Mo & Tm & Ck & Sr & Np & Tf & Ba & Sh); [lia|lia|].
  set (eps := lens_eps g c). set (a := poke (flash c) nought nought s).
  destruct (reachable_good g s (apart_roomy g Ha) Hr) as [W G].
  assert (Wa : wf_phys (f_ph a)) by (destruct W; constructor; assumption).
  assert (Up : forall k z, z = a \/ z = s -> (k <= S (S n))%nat -> exists y, run (repeat Update k) z = Fine y).
  { intros k z Hz Hk. destruct (updates_ok k z) as (y & Ey & _); [| | | | | | | |exists y; exact Ey].
    all: destruct Hz as [-> | ->]; cbn [a poke f_ph set_f_ph set_ph_F ph_grid ph_step f_mons f_tmons]; try assumption; rewrite ?G, ?Np; try (unfold INT_MIN, INT_MAX; lia); try (now apply apart_roomy).
    1,2: unfold placed; cbn; rewrite Sr, Tf; split; [constructor|discriminate].
    all: unfold idle; cbn; rewrite Ck; cbn; auto. }
  destruct (Up (S (S n)) a (or_introl eq_refl) ltac:(lia)) as (d & Ed).
  assert (Er : repeat (@Update RNum) (S (S n)) = [Update] ++ repeat Update n ++ [Update]).
  { change (repeat Update (S (S n))) with (@Update RNum :: repeat Update (S n)). cbn [app]. f_equal. change [Update] with (repeat (@Update RNum) 1). rewrite <- repeat_app. f_equal. lia. }
  assert (Ed' := Ed). rewrite Er, run_app in Ed'. apply obind_fine in Ed'. destruct Ed' as (b & Eb & Ed'). rewrite run_app in Ed'. apply obind_fine in Ed'. destruct Ed' as (x & Ex & Ed').
  assert (Ud : forall z w, run [Update] z = Fine w -> exec Update z = Fine w) by (intros z w H; cbn [run] in H; destruct (exec Update z); try discriminate; cbn in H; exact H).
  apply Ud in Eb, Ed'. exists g, s, b, x, d. cbv zeta. fold eps a.
  assert (Cl : Forall (fun o => clear_material (m_kind (o_mat o))) [lens c]) by (constructor; [|constructor]; cbn; split; lra).
  assert (Of : forall k y, run (firstn k (Update :: repeat Update n ++ [Update])) a = Fine y -> off_layers g (f_ph y)).
  { intros k y Hy. change (Update :: repeat Update n ++ [Update]) with ([@Update RNum] ++ repeat Update n ++ [Update]) in Hy. rewrite <- Er, firstn_repeat in Hy.
    assert (Hk : (Nat.min k (S (S n)) <= S (S n))%nat) by lia. set (k' := Nat.min k (S (S n))) in *. clearbody k'.
    assert (Sp := poke_spread g s c k' y Ha Hr Sr Tf Hy (Up k' s (or_intror eq_refl) Hk)).
    intros i j Hi Hj. repeat split; intros H; apply Sp; try assumption; lia. }
  do 13 (split; [first [assumption | apply lens_permits | (clear; induction n; cbn; auto)]|]). split; [exact Of|].
  assert (Hee : eps c c = 2%R).
  { unfold eps, lens_eps. rewrite Dx. replace (1 * IZR c)%R with (IZR c) by ring. rewrite (proj2 (obj_inside_iff _ _) (lens_center c)). reflexivity. }
  split; [exact Hee|].
  assert (Co := poked_coasting g s (flash c) nought nought [lens c] eps Ha Hr Sr Tf Ba Cl Sh (lens_permits g c)). fold a in Co.
  assert (Gok := Hok). destruct Gok as (Hd & _ & _ & _ & _ & Ht2).
  destruct (coast_step g eps (f_ph a) (f_ph b)) as (_ & Eb' & _); auto; try lra; try lia.
  { exact (Of 0%nat a eq_refl). } { apply (Of 1%nat b). cbn [firstn run]. rewrite Eb. reflexivity. } { exact (exec_phys _ _ _ Eb). }
  assert (Eq : forall i j, Ez_of (f_ph b) i j = flash c i j).
  { intros i j. rewrite Eb'. unfold curlH, Hx_of, Hy_of, Ez_of. cbn. unfold nought. destruct (core _ _ _ _); lra. }
  unfold energy, total. rewrite (sumup_one _ c); [|lia|].
  - rewrite (sumup_one _ c); [|lia|].
    + rewrite Eq, Hee. unfold flash, Hx_of, Hy_of. rewrite Z.eqb_refl. cbn. unfold nought. lra.
    + intros j Hj. rewrite Eq. unfold flash. replace ((c =? c) && (j =? c)) with false by lia. unfold Hx_of at 2, Hy_of at 2. cbn. unfold nought. lra.
  - intros i Hi. rewrite (sumup_ext _ _ (fun _ => 0%R)); [apply sumup_zero|]. intros j Hj. rewrite Eq. unfold flash. replace ((i =? c) && (j =? c)) with false by lia.
    unfold Hx_of at 2, Hy_of at 2. cbn. unfold nought. lra.
Qed.
