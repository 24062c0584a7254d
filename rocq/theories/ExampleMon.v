(** Concrete runs with monitors. *)
From Coq Require Import ZArith Reals List Bool String Lia Lra.
From Flocq Require Import Core.Raux.
From Verif Require Import Scalar Base BaseFacts VecM GridM GeometryM MaterialM PmlM DftM TfsfM PolarM
  InterpM H5M ClockM MonitorM FieldM SpecGrid GridFacts OutFacts PhysFacts PaintFacts WfFacts ReachFacts InvFacts SpecSafety SafeFacts
  YeeFacts HalfFacts SpecDft DftFacts SpecSample SampleFacts MonFacts MonRun SpecLive LiveFacts LiveRun SpecStress ExampleFacts ExampleSrc RejectFacts.
From Verif Require Import OpsFacts.
Import ListNotations.
Local Open Scope R_scope.
#[local] Existing Instance RNum.

Lemma adds_freq n : forall l d d', foldM (fun d k => dft_add d k n) d l = Ok d' -> d_freq d' = d_freq d.
Proof.
  induction l as [|k l IH]; cbn [foldM]; intros d d' H; [now injection H as <-|].
  destruct (dft_add d k n) as [d1| |] eqn:E; cbn [bind] in H; try discriminate. rewrite (IH _ _ H). unfold dft_add in E. destruct (n <? 0)%Z; [discriminate|]. now injection E as <-.
Qed.
Lemma surf_attach_same g m m' : surf_attach g m = Ok m' -> sm_name m' = sm_name m /\ sm_surf m' = sm_surf m /\ d_freq (sm_dft m') = d_freq (sm_dft m).
Proof.
  unfold surf_attach. intros H. destruct (to_grid_surface g (sm_surf m)) as [ic| |]; cbn [bind] in H; try discriminate.
  destruct (inorm (is_dim ic)) as [len| |]; cbn [bind] in H; try discriminate.
  match type of H with bind ?x _ = _ => destruct x as [d| |] eqn:E3; cbn [bind] in H; try discriminate end. injection H as <-.
  cbn [sm_name sm_surf sm_dft]. apply adds_freq in E3. auto.
Qed.
Lemma surf_attach_writes g f m m' : surf_attach g m = Ok m' -> write_surf_mon f m' = write_surf_mon f m.
Proof. intros H. destruct (surf_attach_same _ _ _ H) as (A & B & C). unfold write_surf_mon. now rewrite A, B, C. Qed.
Lemma mon_attach_writes g f m m' : mon_attach g m = Ok m' -> write_mon f m' = write_mon f m.
Proof.
  destruct m as [m|m|m|m|m]; cbn [mon_attach]; intros H.
  - destruct (surf_attach g m) as [x| |] eqn:E; cbn [bind] in H; try discriminate. injection H as <-. now apply (surf_attach_writes g).
  - destruct (box_attach g m) as [x| |] eqn:E; cbn [bind] in H; try discriminate. injection H as <-. unfold box_attach in E.
    destruct (mapM (surf_attach g) (bm_sides m)) as [l| |] eqn:El; cbn [bind] in E; try discriminate. injection E as <-. rewrite !write_mon_eq. cbn [bm_sides bm_name bm_vol bm_freq].
    f_equal. revert f l El. induction (bm_sides m) as [|x xs IH]; intros f l El; cbn [mapM] in El; [now injection El as <-|].
    destruct (surf_attach g x) as [y| |] eqn:Ex; cbn [bind] in El; try discriminate. destruct (mapM (surf_attach g) xs) as [ys| |]; cbn [bind] in El; try discriminate.
    injection El as <-. cbn [foldM]. rewrite (surf_attach_writes g f x y Ex). destruct (write_surf_mon f x); cbn [bind]; try reflexivity. now apply IH.
  - destruct (cyl_attach g m) as [x| |] eqn:E; cbn [bind] in H; try discriminate. injection H as <-. unfold cyl_attach in E.
    destruct (ofOption _ _) as [len| |]; cbn [bind] in E; try discriminate. destruct (len <? 0)%Z; [discriminate|].
    match type of E with bind ?x _ = _ => destruct x as [d| |] eqn:E3; cbn [bind] in E; try discriminate end. injection E as <-. apply adds_freq in E3.
    rewrite !write_mon_eq. cbn [cm_name cm_surf cm_dft]. now rewrite E3.
  - destruct (vol_attach g m) as [x| |] eqn:E; cbn [bind] in H; try discriminate. injection H as <-. unfold vol_attach in E.
    destruct (to_grid_volume _ _) as [iv| |]; cbn [bind] in E; try discriminate.
    match type of E with bind ?x _ = _ => destruct x as [d| |] eqn:E3; cbn [bind] in E; try discriminate end. injection E as <-. apply adds_freq in E3.
    rewrite !write_mon_eq. cbn [vm_name vm_vol vm_dft]. now rewrite E3.
  - destruct (pt_attach m) as [x| |] eqn:E; cbn [bind] in H; try discriminate. injection H as <-. unfold pt_attach in E.
    match type of E with bind ?x _ = _ => destruct x as [d| |] eqn:E3; cbn [bind] in E; try discriminate end. injection E as <-. apply adds_freq in E3.
    rewrite !write_mon_eq. cbn [pm_name pm_pos pm_dft]. now rewrite E3.
Qed.

(** a vertical segment, a square, a circle and a block inside an 8 by 8 grid *)
Definition post_ (a b : R * R) : surface := match mk_surface a b Positive with Ok s => s | _ => Surface a b Positive (0, 0) (0, 0) (0, 0) end.
Definition wall : surface := post_ (3, 3) (3, 5).
Definition square : volume := mk_volume (3, 3) (5, 5).
Definition ring : cylsurf := CylSurf (7 / 2, 7 / 2) 1.
Definition watchers (m : box_mon) : list monitor :=
  [MSurf (mk_surf_mon "wall" wall DAll [1; 2]); MBox m; MCyl (mk_cyl_mon "ring" ring true [1]); MVol (mk_vol_mon "block" square DAll [1])].
Lemma wall_made : mk_surface (3, 3) (3, 5) Positive = Ok wall.
Proof. unfold wall, post_. rewrite mk_surface_vert. reflexivity. Qed.
Lemma square_made : exists m, mk_box_mon "square" square DAll [1] = Ok m /\ bm_name m = "square"%string /\
  exists s1 s2 s3 s4, bm_sides m = [mk_surf_mon "square_1" s1 DAll [1]; mk_surf_mon "square_2" s2 DAll [1]; mk_surf_mon "square_3" s3 DAll [1]; mk_surf_mon "square_4" s4 DAll [1]].
Proof.
  destruct (box_sides_loop square) as (s1 & s2 & s3 & s4 & E1 & E2 & E3 & E4 & _); [cbn; lra|cbn; lra|].
  unfold mk_box_mon. rewrite E1, E2, E3, E4. cbn [bind]. eexists. split; [reflexivity|]. split; [reflexivity|]. exists s1, s2, s3, s4. reflexivity.
Qed.
Lemma watchers_within g m : handy g -> g_Nx g = 8%Z -> g_Ny g = 8%Z -> g_dx g = 1 -> g_pml g = 2%Z -> mk_box_mon "square" square DAll [1] = Ok m -> Forall (within g) (watchers m).
Proof.
  intros Hh Nx Ny Hdx Hp Em. assert (Hok : grid_ok g) by apply Hh. destruct Hok as (_ & _ & _ & Lx & Ly & _). rewrite Nx, Hdx in Lx. rewrite Ny, Hdx in Ly.
  assert (In : forall x y : R, 2 <= x <= 5 -> 2 <= y <= 5 -> inside g (x, y)).
  { intros x y Hx Hy. unfold inside, in_box, interior, mk_volume. cbn [v_a v_b fst snd]. rewrite Lx, Ly, Hdx, Hp. rnumg. lra. }
  assert (Ap : forall i j k l, is_int32 i -> is_int32 j -> is_int32 k -> is_int32 l -> (i, j) <> (k, l) -> apart g (IZR i, IZR j) (IZR k, IZR l)).
  { intros i j k l Hi Hj Hk Hl Hne. unfold apart. rewrite !to_grid_int by assumption. congruence. }
  unfold watchers. apply Forall_cons; [|apply Forall_cons; [|apply Forall_cons; [|apply Forall_cons; [|apply Forall_nil]]]].
  - eapply within_surface; [exact wall_made|apply In; lra|apply In; lra|]. apply (Ap 3 3 3 5)%Z; unfold is_int32; try lia. congruence.
  - eapply within_box; [exact Em|apply In; lra|apply In; lra| |].
    + apply (Ap 3 3 5 3)%Z; unfold is_int32; try lia. congruence.
    + apply (Ap 3 3 3 5)%Z; unfold is_int32; try lia. congruence.
  - apply within_circle; cbn [ring cs_center cs_radius fst snd]; [lra| |]; apply In; lra.
  - apply within_block; cbn [square mk_volume v_a v_b fst snd]; [apply In; lra|apply In; lra|lra|lra].
Qed.

(** one point source and the four monitors *)
Lemma watch_run : exists (g : grid) s0 s m s1, mk_grid 8 8 1 1 = Ok g /\ handy g /\ big_enough g /\
  mk_field g "out" = Ok s0 /\ run [AddSource lamp] s0 = Fine s /\ reachable g s /\ sources_inside (f_ph s) /\ stopped s /\
  f_mons s = [] /\ f_tmons s = [] /\ ph_step (f_ph s) = 0%Z /\ ph_srcs (f_ph s) = [lamp] /\
  mk_box_mon "square" square DAll [1] = Ok m /\ Forall (within g) (watchers m) /\ run (map AddMonitor (watchers m)) s = Fine s1.
Proof.
  destruct grid8 as (g & Eg & Hok & Nx & Ny & Hdx & HLx & HLy & Hp).
  assert (Hh : handy g) by (unfold handy; rewrite Nx, Ny, Hdx, Hp; split; [exact Hok|]; split; [lia|]; split; [lia|]; split; [lia|lra]).
  assert (Hr : roomy g) by (unfold roomy; lia).
  destruct (mk_field_fresh g "out" Hr) as (p & Ep & E0); [discriminate|].
  destruct (mk_phys_ok g Hr) as (p' & Ep' & Hw & Gp & Sp & Tp & Op & Np). rewrite Ep in Ep'. injection Ep' as <-.
  destruct square_made as (m & Em & Bn & s1' & s2' & s3' & s4' & Bs).
  assert (Ew : exists f, (f <- write_src (fresh_h5 g) lamp ;; foldM write_mon f (watchers m)) = Ok f).
  { unfold watchers, write_mon. cbn [foldM mon_ops]. rewrite Bn, Bs. eexists. reflexivity. }
  destruct Ew as [f2 Ew]. apply bind_ok in Ew. destruct Ew as [f1 [Ew1 Ew2]].
  set (s := map_ph (fun p => set_ph_srcs (ph_srcs p ++ [lamp]) p) (set_f_h5 f1 (Field p [] [] [] (fresh_h5 g) mk_clocks))).
  assert (Hws : Forall (within g) (watchers m)) by now apply watchers_within.
  assert (Er : exists s1, run (map AddMonitor (watchers m)) s = Fine s1).
  { assert (Hl : Forall (watches g) (watchers m)) by (eapply Forall_impl; [|exact Hws]; intros a; now apply within_watches).
    assert (Gs : ph_grid (f_ph s) = g) by exact Gp. assert (Hf : f_h5 s = f1) by reflexivity. revert Hl Ew2 Gs Hf. generalize s, f1. clear - Hok.
    induction (watchers m) as [|x xs IH]; intros s f1 Hl Ew Gs Hf; [eexists; reflexivity|]. apply Forall_cons_iff in Hl. destruct Hl as [Hx Hl].
    cbn [foldM] in Ew. destruct (write_mon f1 x) as [f'| |] eqn:E; cbn [bind] in Ew; try discriminate.
    destruct (mon_live_attach g x) as (x' & Ex & _); [apply Hok|exact Hx|].
    cbn [map run exec]. unfold add_monitor. rewrite Gs, Ex. cbn [prim]. rewrite (mon_attach_writes g _ _ _ Ex), Hf, E. cbn [prim obind].
    eapply IH; [exact Hl|exact Ew|exact Gs|reflexivity]. }
  destruct Er as [s1 Er]. exists g, (Field p [] [] [] (fresh_h5 g) mk_clocks), s, m, s1.
  assert (Rs : run [AddSource lamp] (Field p [] [] [] (fresh_h5 g) mk_clocks) = Fine s).
  { cbn [run exec]. unfold add_source. cbn [f_h5]. rewrite Ew1. reflexivity. }
  split; [exact Eg|]. split; [exact Hh|]. split; [exact Hr|]. split; [exact E0|]. split; [exact Rs|].
  split. { exists "out"%string, (Field p [] [] [] (fresh_h5 g) mk_clocks), [AddSource lamp]. split; [exact E0|]. now apply run_run_catch. }
  split. { split.
    - unfold s. cbn [f_ph map_ph set_f_ph set_f_h5 set_ph_srcs ph_srcs ph_grid]. rewrite Sp, Gp. cbn [app].
      intros r [<-|[]]. split; [now left|]. exists (3, 3)%Z. split; [now apply (to_grid_int g 3 3)|]. unfold in_grid. rewrite Nx, Ny. cbn. lia.
    - cbn. rewrite Tp. discriminate. }
  split; [split; reflexivity|]. split; [reflexivity|]. split; [reflexivity|]. split; [exact Np|]. split; [cbn; now rewrite Sp|].
  split; [exact Em|]. split; [exact Hws|exact Er].
Qed.

Lemma adds_attached g : forall ms s s', ph_grid (f_ph s) = g -> run (map AddMonitor ms) s = Fine s' ->
  f_ph s' = f_ph s /\ f_clk s' = f_clk s /\ f_tmons s' = f_tmons s /\ exists l, f_mons s' = (f_mons s ++ l)%list /\ Forall2 (fun m m' => mon_attach g m = Ok m') ms l.
Proof.
  induction ms as [|m ms IH]; intros s s' Hg H; cbn [map run] in H.
  - injection H as <-. repeat (split; [reflexivity|]). exists []. rewrite app_nil_r. auto.
  - apply obind_fine in H. destruct H as (s1 & E & H). cbn [exec] in E. unfold add_monitor in E. rewrite Hg in E.
    destruct (mon_attach g m) as [m'| |] eqn:Em; cbn [prim] in E; try discriminate. destruct (write_mon (f_h5 s) m') as [f| |]; cbn [prim] in E; try discriminate. injection E as <-.
    destruct (fun h => IH _ _ h H) as (A & B & C & l & D & F); [exact Hg|]. rewrite A, B, C, D. repeat (split; [reflexivity|]). exists (m' :: l). cbn [f_mons set_f_h5 set_f_mons]. rewrite <- app_assoc. auto.
Qed.
Lemma mons_length n : forall s s', run (repeat Update n) s = Fine s' -> List.length (f_mons s') = List.length (f_mons s).
Proof.
  induction n as [|n IH]; intros s s' H; cbn [repeat run] in H; [now injection H as <-|].
  apply obind_fine in H. destruct H as (s1 & E & H). rewrite (IH _ _ H). cbn [exec] in E. apply update_monitors in E. destruct E as (pm & _ & _ & M). now apply mapM_length in M.
Qed.
(** the four monitors after n updates *)
Lemma watch_fed n : (Z.of_nat n <= INT_MAX)%Z -> exists (g : grid) s s1 s2 m l, handy g /\ g_dx g = 1 /\ mk_box_mon "square" square DAll [1] = Ok m /\ ph_srcs (f_ph s) = [lamp] /\ ph_t (f_ph s) = 0 /\
  run (map AddMonitor (watchers m)) s = Fine s1 /\ run (repeat Update n) s1 = Fine s2 /\ seen (f_ph s1) n l /\ later 0 (map fst l) /\
  Forall2 (fun a b => exists c, mon_attach g a = Ok c /\ mon_feed g l c = Ok b) (watchers m) (f_mons s2).
Proof.
  intros Hn. destruct watch_run as (g & s0 & s & m & s1 & Eg & Hh & Hg & E0 & Es & Hr & Hs & Hk & Hm & Ht & Hst & Hsr & Em & Hw & E1).
  destruct (within_safe g s (watchers m) s1 n Hg Hh Hr Hs Hk Hm Ht Hw E1) as [s2 E2]; [rewrite Hst; unfold INT_MIN; lia|rewrite Hst; lia|].
  destruct (reachable_good g s Hg Hr) as [_ Gs]. destruct (adds_attached g _ _ _ Gs E1) as (P1 & _ & _ & l1 & M1 & F1). rewrite Hm in M1. cbn [app] in M1.
  destruct (run_monitors n s1 s2 E2) as (l & S & Tl & F2). rewrite P1, Gs in Tl.
  assert (T0 : ph_t (f_ph s) = 0).
  { destruct (mk_field_fresh g "out" Hg) as (p & Ep & E0'); [discriminate|]. rewrite E0 in E0'. injection E0' as ->.
    assert (Tz : ph_t p = 0) by (clear - Ep; unfold mk_phys in Ep; inv_ok; reflexivity).
    cbn [run exec] in Es. apply obind_fine in Es. destruct Es as (s' & Es & Es'). injection Es' as <-. unfold add_source in Es. destruct (write_src _ lamp) as [f| |]; cbn [prim] in Es; try discriminate. injection Es as <-. exact Tz. }
  exists g, s, s1, s2, m, l. split; [exact Hh|]. split; [unfold mk_grid in Eg; cbn [bind] in Eg; inv_ok; cbn [g_dx]; rnumg; lra|]. split; [exact Em|]. split; [exact Hsr|]. split; [exact T0|]. split; [exact E1|]. split; [exact E2|]. split; [exact S|].
  split. { rewrite Tl, T0. apply times_later. destruct Hh as ((Hd & _ & _ & _ & _ & Hdt) & _). rnum. rnumg. lra. }
  rewrite P1, Gs, M1 in F2. assert (Hl : List.length (f_mons s2) = List.length l1) by (rewrite <- M1; eapply mons_length; exact E2).
  clear - F1 F2 Hl. revert Hl F2. generalize (f_mons s2). induction F1 as [|a c ms l1 H F IH]; intros l2 Hl F2; cbn [List.length] in Hl.
  - destruct l2; [constructor|discriminate].
  - destruct l2 as [|b l2]; [discriminate|]. destruct (F2 0%nat c eq_refl) as (m' & Q & Q2). cbn in Q. injection Q as ->.
    constructor; [eauto|]. apply IH; [cbn in Hl; lia|]. intros j x Hx. exact (F2 (S j) x Hx).
Qed.
Lemma Forall2_inv_len {A B} (P : A -> B -> Prop) a l r : Forall2 P (a :: l) r -> exists b r', r = b :: r' /\ Forall2 P l r'.
Proof. intros H. inversion H; subst. eauto. Qed.
(** one step, cleared, one step again *)
Lemma watch_twice : exists (s1 sa sb : field), ph_t (f_ph s1) = 0 /\ List.length (f_mons s1) = 4%nat /\ run [Update] s1 = Fine sa /\ run [ClearFields; Update] sa = Fine sb.
Proof.
  destruct watch_run as (g & s0 & s & m & s1 & Eg & Hh & Hg & E0 & Es & Hr & Hs & Hk & Hm & Ht & Hst & Hsr & Em & Hw & E1).
  destruct (reachable_good g s Hg Hr) as [Hwf Gs].
  assert (Hl : Forall (watches g) (watchers m)) by (eapply Forall_impl; [|exact Hw]; intros a; now apply within_watches).
  destruct (adds_live g ltac:(apply Hh) _ _ _ Gs Hl E1) as (P & Q & K & L); [rewrite Hm; constructor|].
  assert (Sm : small g) by (destruct Hh as (_ & _ & N1 & N2 & _); split; unfold INT_MAX; lia).
  destruct (adds_attached g _ _ _ Gs E1) as (_ & _ & _ & l1 & M1 & F1). rewrite Hm in M1. cbn [app] in M1.
  destruct (update_live s1) as (sa & Ea & Pa & Wa & La & Ma & Ta & Ia & Na);
    rewrite ?P, ?Q, ?Gs; auto; [now apply sources_inside_placed|unfold idle; rewrite K; exact Hk|rewrite Hst; unfold INT_MIN, INT_MAX; lia|].
  assert (Ga : ph_grid (f_ph sa) = g) by (apply phys_step_static, static_eq in Pa; destruct Pa as (G1 & _); rewrite G1, P; exact Gs).
  rewrite P, Gs in Ma.
  destruct (update_live (map_ph clear_fields_phys sa)) as (sb & Eb & _); cbn [map_ph set_f_ph f_ph f_mons f_tmons f_clk clear_fields_phys ph_grid ph_step set_ph_tfsf set_ph_lorentz set_ph_drude set_ph_debye set_ph_F set_ph_step set_ph_t];
    rewrite ?Ga; auto; [now apply clear_fields_wf| |unfold INT_MIN, INT_MAX; lia|].
  { destruct La as [L1 L2]. split; [exact L1|]. intros q Hq. change (option_map tfsf_reset (ph_tfsf (f_ph sa)) = Some q) in Hq.
    destruct (ph_tfsf (f_ph sa)) as [q'|] eqn:Eq; cbn [option_map] in Hq; [|discriminate]. assert (Eq' : tfsf_reset q' = q) by congruence. subst q. exact (L2 q' eq_refl). }
  exists s1, sa, sb. split; [|split; [rewrite M1; clear - F1; unfold watchers in F1; repeat (apply Forall2_inv_len in F1; destruct F1 as (? & ? & -> & F1)); inversion F1; reflexivity|split; cbn [run exec]; [now rewrite Ea|unfold clear_fields; cbn [obind]; now rewrite Eb]]].
  rewrite P. destruct (mk_field_fresh g "out" Hg) as (p & Ep & E0'); [discriminate|]. rewrite E0 in E0'. injection E0' as ->.
  assert (Tz : ph_t p = 0) by (clear - Ep; unfold mk_phys in Ep; inv_ok; reflexivity).
  cbn [run exec] in Es. apply obind_fine in Es. destruct Es as (s' & Es & Es'). injection Es' as <-. unfold add_source in Es. destruct (write_src _ lamp) as [f| |]; cbn [prim] in Es; try discriminate. injection Es as <-. exact Tz.
Qed.
Lemma Forall2_cons_iff' {A B} (P : A -> B -> Prop) a l r : Forall2 P (a :: l) r -> exists b r', r = b :: r' /\ P a b /\ Forall2 P l r'.
Proof. intros H. inversion H; subst. eauto 6. Qed.
(** ... taken apart *)
Lemma watched : exists (g : grid) l s0 s b c0 c v0 v, g_dx g = 1 /\ 0 < g_dx g /\ List.length l = 3%nat /\ later 0 (map fst l) /\
  surf_attach g (mk_surf_mon "wall" wall DAll [1; 2]) = Ok s0 /\ surf_feed g l s0 = Ok s /\
  box_ran g "square" square DAll [1] l b /\
  cyl_attach g (mk_cyl_mon "ring" ring true [1]) = Ok c0 /\ cyl_feed g l c0 = Ok c /\
  vol_attach g (mk_vol_mon "block" square DAll [1]) = Ok v0 /\ vol_feed g l v0 = Ok v.
Proof.
  destruct (watch_fed 3) as (g & s & s1 & s2 & m & l & Hh & Hd & Em & _ & _ & _ & _ & [Hl _] & Hlt & F); [unfold INT_MAX; cbn; lia|].
  unfold watchers in F.
  apply Forall2_cons_iff' in F. destruct F as (m1 & r1 & _ & (c1 & A1 & B1) & F). apply Forall2_cons_iff' in F. destruct F as (m2 & r2 & -> & (c2 & A2 & B2) & F).
  apply Forall2_cons_iff' in F. destruct F as (m3 & r3 & -> & (c3 & A3 & B3) & F). apply Forall2_cons_iff' in F. destruct F as (m4 & r4 & -> & (c4 & A4 & B4) & F). clear F.
  cbn [mon_attach] in A1, A2, A3, A4.
  destruct (surf_attach g _) as [x1| |] eqn:X1 in A1; cbn [bind] in A1; try discriminate. injection A1 as <-. apply mon_feed_surf in B1. destruct B1 as (y1 & -> & B1).
  destruct (box_attach g _) as [x2| |] eqn:X2 in A2; cbn [bind] in A2; try discriminate. injection A2 as <-. apply mon_feed_box in B2. destruct B2 as (y2 & -> & B2).
  destruct (cyl_attach g _) as [x3| |] eqn:X3 in A3; cbn [bind] in A3; try discriminate. injection A3 as <-. apply mon_feed_cyl in B3. destruct B3 as (y3 & -> & B3).
  destruct (vol_attach g _) as [x4| |] eqn:X4 in A4; cbn [bind] in A4; try discriminate. injection A4 as <-. apply mon_feed_vol in B4. destruct B4 as (y4 & -> & B4).
  exists g, l, x1, y1, y2, x3, y3, x4, y4. split; [exact Hd|]. split; [apply Hh|]. split; [exact Hl|]. split; [exact Hlt|]. split; [exact X1|]. split; [exact B1|].
  split; [exists m, x2; auto|]. auto.
Qed.
