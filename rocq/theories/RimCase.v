(** A rod of Debye material inside a TFSF region, as in tests/mie.cpp. *)
From Coq Require Import ZArith Reals Lra Lia String List Bool.
From Verif Require Import Scalar Base BaseFacts VecM GridM GeometryM MaterialM PmlM DftM TfsfM PolarM InterpM H5M ClockM MonitorM NamesM FieldM ReportM ShippedM
  SpecGrid SpecClock SpecSafety SpecLive SpecProgram GridFacts OutFacts PhysFacts ClockFacts WfFacts ReachFacts SafeFacts SpecGeometry GeometryFacts SpecPaint PaintFacts
  ProgFacts ShippedFacts PulseCase SpecStep StepFacts EngineFacts YeeFacts SpecSource SpecMedium SpecMedia MediaRun SpecMaterial FullStep SpecRim MediaFacts MagnetFacts CellFacts WaveRun ExampleFacts.
Import ListNotations.
Local Open Scope R_scope.
#[local] Existing Instance RNum.

Definition glass : mat_kind := KDebye (Debye 2 [DPole 1 1]).
Definition lit_rod (tp : tprofile) (n : nat) : list cmd :=
  [SetTfsf (around 60 60 65) tp; AddObject (rod "rod" "glass" glass)] ++ repeat Update n.

Definition box_of (o : option tfsf) : option (Z * Z * Z * Z) := option_map (fun q => (q_ia q, q_ib q, q_ja q, q_jb q)) o.
Lemma run_box n : forall p p', StepFacts.apart (ph_grid p) -> wf_phys p -> phys_run (repeat Update n) p = Fine p' -> box_of (ph_tfsf p') = box_of (ph_tfsf p).
Proof.
  induction n as [|n IH]; intros p p' Ha Hw H; cbn [repeat phys_run] in H; [now injection H as <-|].
  apply obind_fine in H. destruct H as (p1 & H1 & H). cbn [phys_exec] in H1.
  destruct (full_step p p1 Ha Hw H1) as (E0 & E1 & E2 & E3 & Ls & u & h & []).
  assert (G := cw_static). apply grid_static in G. rewrite (IH p1 p'); [|now rewrite G|exact cw_wf|exact H].
  unfold line in cw_line. destruct (ph_tfsf p) as [q|]; [|now injection cw_line as <-].
  apply bind_ok in cw_line. destruct cw_line as (q' & Hq & E). injection E as <-. destruct (pulse_box _ _ Hq) as (A & B & C & D). cbn. now rewrite A, B, C, D.
Qed.
Lemma added_rod tp n : added (lit_rod tp n) = [rod "rod" "glass" glass].
Proof. unfold lit_rod, added. rewrite flat_map_app. cbn. f_equal. induction n; cbn; auto. Qed.
Lemma rod_only (g : grid) : g_dx g = / 2 -> only_in [rod "rod" "glass" glass] "glass" glass (g_dx g * IZR 120, g_dx g * IZR 120).
Proof.
  intros Hd. exists (rod "rod" "glass" glass). split; [now left|]. split; [reflexivity|]. split.
  - unfold in_obj, rod. cbn [o_geom o_pos o_theta]. rewrite Hd. exists (0, 0). split.
    + cbn. rnumg. lra.
    + unfold rot, vadd, point. cbn [fst snd]. rnumg. apply injective_projections; cbn [fst snd]; lra.
  - intros o' [<-|[]] _. reflexivity.
Qed.
Lemma rim_box g tp n s0 s : grid120 8 g -> mk_field g "mie.h5" = Ok s0 -> run (lit_rod tp n) s0 = Fine s ->
  box_of (ph_tfsf (f_ph s)) = Some (55, 185, 55, 185)%Z /\ ph_srcs (f_ph s) = [].
Proof.
  intros G E0 E1.
  assert (Ap : StepFacts.apart g) by (unfold StepFacts.apart; rewrite (g_n1 _ _ G), (g_n2 _ _ G), (g_layer _ _ G); lia).
  assert (R0 : reachable g s0) by (exists "mie.h5"%string, s0, []; auto).
  unfold lit_rod in E1. rewrite run_app in E1. apply obind_fine in E1. destruct E1 as (s1 & A1 & A2).
  assert (R1 : reachable g s1) by exact (SafeFacts.run_reachable g s0 _ s1 R0 A1). destruct (reachable_good g s1 (apart_roomy g Ap) R1) as [Hw Gg].
  assert (K := updates_keep g n s1 s Ap R1 A2). destruct K as (_ & Ks & _).
  apply run_phys in A2. rewrite (run_box n (f_ph s1) (f_ph s)); [|now rewrite Gg|exact Hw|exact A2].
  cbn [run] in A1. apply obind_fine in A1. destruct A1 as (sa & B1 & A1). apply obind_fine in A1. destruct A1 as (sb & B2 & A1). injection A1 as ->.
  destruct (reachable_good g s0 (apart_roomy g Ap) R0) as [_ G0].
  apply exec_phys in B1. cbn [phys_exec] in B1. apply ok_out_fine in B1. unfold phys_set_tfsf in B1. apply bind_ok in B1. destruct B1 as (w & Hq & B1). injection B1 as B1.
  apply add_object_ph in B2. unfold phys_add_object in B2. apply bind_ok in B2. destruct B2 as (pa & A & B2). apply bind_ok in B2. destruct B2 as (pb & B & B2). injection B2 as B2.
  unfold paint_phys in A. apply bind_ok in A. destruct A as (c & _ & A). injection A as <-. unfold insert_material in B. cbn [rod o_mat m_kind m_name glass] in B.
  apply bind_ok in B. destruct B as (P & _ & B). injection B as <-. split.
  - rewrite <- B2. cbn [ph_tfsf set_ph_debye set_ph_C set_ph_objs]. rewrite <- B1. cbn [ph_tfsf set_ph_tfsf box_of option_map].
    unfold mk_tfsf in Hq. apply bind_ok in Hq. destruct Hq as (iv & Hv & Hq). unfold to_grid_volume in Hv.
    destruct (around_corners 60 65 55 185 eq_refl eq_refl) as [Va Vb]. rewrite G0, Va, Vb in Hv.
    rewrite (half_cell 8 g G 55 55), (half_cell 8 g G 185 185) in Hv by (reflexivity || lia). cbn [bind] in Hv. injection Hv as <-.
    repeat (apply bind_ok in Hq; destruct Hq as (? & _ & Hq)). injection Hq as <-. reflexivity.
  - apply Ks. rewrite <- B2. cbn [ph_srcs set_ph_debye set_ph_C set_ph_objs]. rewrite <- B1. cbn [ph_srcs set_ph_tfsf]. apply (mk_field_empty _ _ _ E0).
Qed.
Lemma rim_at g tp n : grid120 8 g -> (Z.of_nat n < 2147483647)%Z -> forall s0, mk_field g "mie.h5" = Ok s0 -> grid_ok g /\ exists s s' k q,
  run (lit_rod tp n) s0 = Fine s /\ run (lit_rod tp (S n)) s0 = Fine s' /\ ph_tfsf (f_ph s) <> None /\ step_at g s s' 120 120 /\
  only_in (added (lit_rod tp n)) "glass" glass (g_dx g * IZR 120, g_dx g * IZR 120) /\
  debye_only (f_ph s) k "glass" (Debye 2 [DPole 1 1]) q 120 120.
Proof.
  intros G Hn s0 E0.
  assert (W : well_formed g blank (Do (SetTfsf (around 60 60 65) tp) :: Do (AddObject (rod "rod" "glass" glass)) :: repeat (Do Update) (n + 1))).
  { eapply wfp_call; [|apply en_tfsf|]. { split; [reflexivity|]. apply (region_ok 8 g G); lia. }
    eapply wfp_call; [|apply en_object|]. { eapply rod_allowed; [exact G|names|names|reflexivity]. }
    rewrite <- (app_nil_r (repeat _ _)). apply updates_wf; [cbn; lia|constructor]. }
  destruct (ship 8 g "mie.h5" _ G ltac:(discriminate) W) as (s00 & s' & E00 & E).
  rewrite E0 in E00. injection E00 as <-.
  replace (Do (SetTfsf (around 60 60 65) tp) :: Do (AddObject (rod "rod" "glass" glass)) :: repeat (Do Update) (n + 1)) with (map Do (lit_rod tp n ++ [Update])) in E.
  2:{ unfold lit_rod. cbn [app map]. do 2 f_equal. clear. induction n; cbn; [reflexivity|]. now rewrite IHn. }
  rewrite main_run, run_app in E. apply obind_fine in E. destruct E as (s & E1 & E2). cbn [run] in E2. apply obind_fine in E2. destruct E2 as (s2 & E2 & E3). injection E3 as ->.
  assert (E1' : run (lit_rod tp (S n)) s0 = Fine s').
  { unfold lit_rod in *. replace (repeat Update (S n)) with (repeat Update n ++ [Update]).
    2:{ clear. induction n; cbn; [reflexivity|]. now rewrite IHn. }
    rewrite app_assoc, run_app, E1. cbn [obind run]. rewrite E2. reflexivity. }
  assert (Ok1 : grid_ok g) by (apply (mk_grid_ok 120 120 2 8); try lra; apply G).
  assert (Ap : StepFacts.apart g) by (unfold StepFacts.apart; rewrite (g_n1 _ _ G), (g_n2 _ _ G), (g_layer _ _ G); lia).
  assert (R0 : reachable g s0) by (exists "mie.h5"%string, s0, []; auto).
  assert (Re : reachable g s) by exact (SafeFacts.run_reachable g s0 _ s R0 E1).
  assert (Hi : (0 <= 120 < g_Nx g)%Z) by (rewrite (g_n1 _ _ G); lia). assert (Hj : (0 <= 120 < g_Ny g)%Z) by (rewrite (g_n2 _ _ G); lia).
  assert (On : only_in (added (lit_rod tp n)) "glass" glass (g_dx g * IZR 120, g_dx g * IZR 120)) by (rewrite added_rod; apply rod_only, G).
  destruct (run_debye g "mie.h5" s0 s (lit_rod tp n) 120 120 Ok1 E0 E1) with (nm := "glass"%string) (x := Debye 2 [DPole 1 1]) as (k & q & Ho); try assumption.
  { unfold lit_rod. rewrite forallb_app. cbn. clear. induction n; cbn; auto. }
  { unfold lit_rod. intros K. apply in_app_or in K. destruct K as [[K|[K|[]]]|K]; try discriminate. apply repeat_spec in K. discriminate. }
  { rewrite added_rod. constructor; [cbn; rnum; lra|constructor]. }
  { rewrite added_rod. intros o y [<-|[]]. discriminate. }
  assert (Bx := rim_box g tp n s0 s G E0 E1).
  destruct Bx as [Bx Sx].
  assert (Dt : 0 < g_dt g) by (destruct Ok1 as (? & _ & _ & _ & _ & ?); change (@T RNum) with R in *; lra).
  destruct (ph_tfsf (f_ph s)) as [w|] eqn:Eq; [|discriminate]. cbn in Bx. injection Bx as B1 B2 B3 B4.
  split; [exact Ok1|]. exists s, s', k, q. split; [exact E1|]. split; [exact E1'|]. split; [congruence|]. split; [|split; [exact On|exact Ho]].
  constructor; try assumption; try (rewrite ?(g_n1 _ _ G), ?(g_n2 _ _ G); lia).
  - rewrite Eq. cbn. rewrite B3, B4. lia.
  - rewrite Sx. intros r L [].
Qed.
Lemma rim_case n : (Z.of_nat n < 2147483647)%Z -> exists g tp s0 s s' k q, grid_ok g /\ mk_field g "mie.h5" = Ok s0 /\
  run (lit_rod tp n) s0 = Fine s /\ ph_tfsf (f_ph s) <> None /\ step_at g s s' 120 120 /\
  only_in (added (lit_rod tp n)) "glass" glass (g_dx g * IZR 120, g_dx g * IZR 120) /\
  debye_only (f_ph s) k "glass" (Debye 2 [DPole 1 1]) q 120 120.
Proof.
  intros Hn. destruct (shipped_grid_ok 8) as [g G]; [lia|]. destruct (tp_made (pulse 100 80) [1; 2]) as (tp & _ & _).
  destruct (mk_field_fresh g "mie.h5"%string (g_roomy _ _ G)) as (ph & _ & E0); [discriminate|].
  destruct (rim_at g tp n G Hn _ E0) as (Ok1 & s & s' & k & q & A & _ & B). exists g, tp, (Field ph [] [] [] (fresh_h5 g) mk_clocks), s, s', k, q. auto.
Qed.
