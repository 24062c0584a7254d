(** Cells longer than the layer is thick: monitors on the edge of grid.interior() leave the arrays. *)
From Coq Require Import ZArith Reals List Bool String Lia Lra.
From Flocq Require Import Core.Raux.
From Verif Require Import Scalar Base BaseFacts VecM GridM GeometryM MaterialM PmlM DftM TfsfM PolarM
  InterpM H5M ClockM MonitorM FieldM SpecGrid GridFacts OutFacts PhysFacts PaintFacts WfFacts ReachFacts InvFacts SpecSafety SafeFacts
  YeeFacts ClockFacts HalfFacts SpecInterp InterpFacts SpecDft DftFacts SpecSample SampleFacts MonFacts SpecLive LiveFacts LiveRun ExampleFacts ExampleSrc RejectFacts.
From Verif Require Import OpsFacts.
Import ListNotations.
Local Open Scope R_scope.
#[local] Existing Instance RNum.

Lemma bilinear_below f (u v : R) : v < 0 -> exists w, bilinear f (u, v) = UB w.
Proof.
  intros Hv. unfold bilinear. cbn [fst snd]. rnumg. unfold ofOption.
  destruct (cast_i32 (Zfloor u)) as [fx|]; cbn [bind]; [|eauto].
  destruct (cast_i32 (Zfloor v)) as [fy|] eqn:E; cbn [bind]; [|eauto]. apply cast_i32_some in E. destruct E as [-> _].
  destruct (cast_i32 (Zceil u)) as [cx|]; cbn [bind]; [|eauto]. destruct (cast_i32 (Zceil v)) as [cy|]; cbn [bind]; [|eauto].
  assert (Hf : (Zfloor v < 0)%Z) by (apply lt_IZR; eapply Rle_lt_trans; [apply Zfloor_lb|exact Hv]).
  unfold tat, tget, inr. cbn [fst snd]. replace (0 <=? Zfloor v)%Z with false by (symmetry; apply Z.leb_gt; exact Hf).
  rewrite !andb_false_r. cbn [andb bind]. eauto.
Qed.
Definition row_edge (g : grid) (a b : vec) : Prop := snd a = g_dx g * IZR (g_pml g) /\ snd b = g_dx g * IZR (g_pml g) /\ inside g a /\ inside g b /\ apart g a b.
Lemma hx_edge_ub (g : grid) F t a b sg s name freq m : grid_ok g -> (0 <= g_pml g)%Z -> IZR (g_pml g) < g_dx g -> row_edge g a b -> mk_surface a b sg = Ok s ->
  surf_attach g (mk_surf_mon name s DHx freq) = Ok m -> t <> 0 -> exists u, surf_update g F t m = UB u.
Proof.
  intros Hok Hp Hs (Ea & Eb & Ia & Ib & Hne) Hsf Hat Ht. assert (Hd : 0 < g_dx g) by apply Hok.
  destruct (surf_attach_fresh g (mk_surf_mon name s DHx freq) m eq_refl Hat) as (ic & E1 & E2 & E3 & E4 & E5 & E6 & E7 & Nd & Fr). cbn [mk_surf_mon sm_surf sm_kind sm_dft mk_dft d_t d_freq] in *.
  destruct (surface_cells g a b sg s ic Hsf E1) as (A & B & NE & Ax & Ed & Dm & _).
  rewrite (edges_norm g a b sg s ic Hsf E1) in E2. injection E2 as E2.
  assert (Ya : snd (is_a ic) = g_pml g /\ snd (is_b ic) = g_pml g).
  { assert (Q : forall p q, snd p = g_dx g * IZR (g_pml g) -> inside g p -> to_grid g p = Ok q -> snd q = g_pml g).
    { intros p q Hp1 Hin Hq. rewrite (inside_round g p Hok Hp Hin) in Hq. injection Hq as <-. cbn [snd].
      apply (nearest_away_unique (snd p / g_dx g)); [apply Rround_nearest|]. rewrite Hp1. replace (g_dx g * IZR (g_pml g) / g_dx g) with (IZR (g_pml g)) by (field; apply Rgt_not_eq; exact Hd).
      rewrite <- (Rround_IZR (g_pml g)) at 2. apply Rround_nearest. }
    split; [apply (Q a _ Ea Ia A)|apply (Q b _ Eb Ib B)]. }
  unfold surf_update. rewrite E3, E1. cbn [bind]. unfold dft_update. rewrite neqb_R_false by (rewrite E6; cbn; auto).
  assert (Hin : In ("Hx"%string, zeros (sm_dft m) (sm_len m)) (d_map (sm_dft m))).
  { apply slookup_some_in. rewrite Fr. cbn [surf_keys]. destruct (in_dec string_dec "Hx"%string ["Hx"%string]) as [|n]; [reflexivity|]. elim n. now left. }
  assert (Only : forall x, In x (d_map (sm_dft m)) -> x = ("Hx"%string, zeros (sm_dft m) (sm_len m))).
  { intros [k e] Hx. assert (L := lookup_In _ _ _ Nd Hx). rewrite Fr in L. cbn [surf_keys] in L. destruct (in_dec string_dec k ["Hx"%string]) as [[<- | []]|]; [|discriminate]. congruence. }
  destruct (d_map (sm_dft m)) as [|x l] eqn:El; [destruct Hin|]. assert (x = ("Hx"%string, zeros (sm_dft m) (sm_len m))) by (apply Only; now left). subst x.
  cbn [dft_entries]. unfold surf_sample at 1. change (comp_name "Hx"%string) with (Some Hx). cbv iota.
  unfold zeros at 1. rewrite repeat_length. destruct (Z.to_nat (sm_len m)) as [|n] eqn:En; [lia|].
  unfold for_samples. cbn [zseq mapM].
  rewrite (surf_pos_middle g a b sg s ic 0 Hd Hsf E1), interpolate_coords. cbn [get_field bind].
  unfold cell_coords, edge_middle. cbn [fst snd]. destruct Ya as [Y1 Y2]. rewrite Y1, Y2, Z.sub_diag. cbn [Z.sgn].
  match goal with |- context [bilinear ?f (?u, ?v)] => destruct (bilinear_below f u v) as [w Hw] end.
  - rnumg. replace ((IZR (g_pml g) + (0 + / 2) * 0) * g_dx g / g_dx g) with (IZR (g_pml g)) by (field; apply Rgt_not_eq; exact Hd). lra.
  - rewrite Hw. cbn [bind]. eauto.
Qed.
Lemma edge_update_ub g s a b sg sf name freq s1 : big_enough g -> grid_ok g -> IZR (g_pml g) < g_dx g -> reachable g s -> sources_inside (f_ph s) -> stopped s ->
  f_mons s = [] -> 0 <= ph_t (f_ph s) -> (INT_MIN <= ph_step (f_ph s) < INT_MAX)%Z -> row_edge g a b -> mk_surface a b sg = Ok sf ->
  run [AddMonitor (MSurf (mk_surf_mon name sf DHx freq))] s = Fine s1 -> exists u, run [Update] s1 = Undef u.
Proof.
  intros Hg Hok Hs Hr Hsrc Hk Hm Ht Hn He Hsf E. destruct (reachable_good g s Hg Hr) as [Hwf Eg]. subst g. set (g := ph_grid (f_ph s)) in *. assert (Hp : (0 <= g_pml g)%Z) by apply Hg.
  cbn [run exec] in E. apply obind_fine in E. destruct E as (s2 & E & E2). injection E2 as <-. unfold add_monitor in E. fold g in E. inv_fine. cbn [mon_attach] in *. inv_ok. cbn [run exec].
  match goal with H : surf_attach _ _ = Ok ?m |- _ => rename H into Hat; set (mm := m) in * end.
  destruct (phys_step_ok (f_ph s)) as (p' & E & _); [exact Hg|exact Hwf|now apply sources_inside_placed|exact Hn|].
  rewrite phys_step_halves in E. apply obind_fine in E. destruct E as (pm & E1 & _). destruct (phys_first_clk _ _ E1) as (G1 & T1 & _). fold g in G1, T1.
  destruct (hx_edge_ub g (ph_F pm) (ph_t pm) a b sg sf name freq mm Hok Hp Hs He Hsf Hat) as [u Hu].
  { rewrite T1. destruct Hok as (Hd & _ & _ & _ & _ & Hdt). rnumg. rnum. lra. }
  exists u. erewrite update_mon_ub; [reflexivity|exact E1|exact Hk|]. cbn [f_mons set_f_h5 set_f_mons]. rewrite Hm. cbn [app mapM mon_update]. rewrite G1, Hu. reflexivity.
Qed.

(** ten cells of length 4 and a layer of two cells *)
Lemma coarse_run : exists (g : grid) s0 (sf : surface) s1, mk_grid 40 40 (1 / 4) 1 = Ok g /\ big_enough g /\ grid_ok g /\ IZR (g_pml g) < g_dx g /\ (g_Nx g <= 46341)%Z /\ (g_Ny g <= 46341)%Z /\
  mk_field g "out" = Ok s0 /\ reachable g s0 /\ sources_inside (f_ph s0) /\ stopped s0 /\ f_mons s0 = [] /\ ph_t (f_ph s0) = 0 /\ ph_step (f_ph s0) = 0%Z /\
  row_edge g (8, 8) (16, 8) /\ mk_surface (8, 8) (16, 8) Positive = Ok sf /\ run [AddMonitor (MSurf (mk_surf_mon "edge" sf DHx [1]))] s0 = Fine s1.
Proof.
  destruct (mk_grid_spec 40 40 (1 / 4) 1) as [g [E H]]; try lra. { unfold INT_MAX. lra. } { unfold INT_MAX. lra. }
  destruct H as (H1 & H2 & _ & Hd & Hp & HL & HLy & _ & _ & _ & _ & Hm).
  assert (Hok : grid_ok g) by (eapply mk_grid_ok; [| | |exact E]; lra).
  assert (Nx : g_Nx g = 10%Z). { assert (9 < g_Nx g <= 10)%Z; [|lia]. split; [apply lt_IZR|apply Z.lt_succ_r, lt_IZR; rewrite succ_IZR]; lra. }
  assert (Ny : g_Ny g = 10%Z). { assert (9 < g_Ny g <= 10)%Z; [|lia]. split; [apply lt_IZR|apply Z.lt_succ_r, lt_IZR; rewrite succ_IZR]; lra. }
  assert (Hdx : g_dx g = 4) by (rnum; lra). change (1 + 1)%Z with 2%Z in Hm. rewrite Nx in HL. rewrite Ny in HLy. rewrite Hdx in HL, HLy.
  assert (Hr : roomy g) by (unfold roomy; lia).
  destruct (mk_field_fresh g "out" Hr) as (p & Ep & E0); [discriminate|].
  destruct (mk_phys_ok g Hr) as (p' & Ep' & Hw & Gp & Sp & Tp & Op & Np). rewrite Ep in Ep'. injection Ep' as <-.
  assert (Tz : ph_t p = 0). { clear - Ep. unfold mk_phys in Ep. inv_ok. reflexivity. }
  assert (In : forall x y : R, 8 <= x <= 28 -> 8 <= y <= 28 -> inside g (x, y)).
  { intros x y Hx Hy. unfold inside, in_box, interior, mk_volume. cbn [v_a v_b fst snd]. rewrite HL, HLy, Hdx, Hm. rnumg. lra. }
  assert (Tg : forall i j, is_int32 i -> is_int32 j -> to_grid g (4 * IZR i, 4 * IZR j) = Ok (i, j)).
  { intros i j Hi Hj. rewrite <- (round_trip_R g i j) by (first [assumption | rewrite Hdx; lra]). unfold to_real. cbn [fst snd]. rewrite Hdx. reflexivity. }
  assert (Re : row_edge g (8, 8) (16, 8)).
  { split; [cbn; rewrite Hdx, Hm; lra|]. split; [cbn; rewrite Hdx, Hm; lra|]. split; [apply In; lra|]. split; [apply In; lra|].
    unfold apart. replace 16 with (4 * IZR 4) by lra. replace 8 with (4 * IZR 2) by lra. rewrite !Tg by (unfold is_int32; lia). congruence. }
  destruct (mk_surface (8, 8) (16, 8) Positive) as [sf| |] eqn:Esf; [|exfalso|exfalso].
  2,3: destruct (proj2 (mk_surface_iff (8, 8) (16, 8) Positive)) as [sf E']; [now right|rewrite E' in Esf; discriminate].
  assert (Hat : exists m, surf_attach g (mk_surf_mon "edge" sf DHx [1]) = Ok m /\ sm_name m = "edge"%string /\ sm_surf m = sf).
  { assert (A : to_grid g (8, 8) = Ok (2, 2)%Z) by (replace 8 with (4 * IZR 2) by lra; apply Tg; unfold is_int32; lia).
    assert (B : to_grid g (16, 8) = Ok (4, 2)%Z) by (replace 8 with (4 * IZR 2) by lra; replace 16 with (4 * IZR 4) by lra; apply Tg; unfold is_int32; lia).
    destruct (mk_surface_fields _ _ _ _ Esf) as (Sa & Sb & Sg).
    unfold surf_attach, to_grid_surface. cbn [mk_surf_mon sm_surf sm_name sm_kind sm_dft]. rewrite Sa, Sb, A, B. cbn [bind].
    eexists. split; [reflexivity|]. split; reflexivity. }
  destruct Hat as (m & Hat & Hn & Hsf).
  assert (Ew : exists f, write_mon (fresh_h5 g) (MSurf m) = Ok f).
  { unfold write_mon, mon_ops, surf_mon_ops. rewrite Hn. eexists. reflexivity. }
  destruct Ew as [f Ew].
  exists g, (Field p [] [] [] (fresh_h5 g) mk_clocks), sf, (Field p [MSurf m] [] [] f mk_clocks).
  repeat (split; [first [assumption | rewrite ?Hm, ?Hdx, ?Nx, ?Ny; first [lra | lia]]|]).
  split. { exists "out"%string, (Field p [] [] [] (fresh_h5 g) mk_clocks), []. split; [exact E0|reflexivity]. }
  split. { split; [cbn [f_ph]; rewrite Sp; intros r []|cbn [f_ph]; rewrite Tp; discriminate]. }
  split; [split; reflexivity|]. split; [reflexivity|]. split; [exact Tz|]. split; [exact Np|]. split; [exact Re|]. split; [reflexivity|].
  cbn [run exec]. unfold add_monitor. cbn [f_ph f_h5 mon_attach]. rewrite Gp, Hat. cbn [bind prim]. rewrite Ew. reflexivity.
Qed.
