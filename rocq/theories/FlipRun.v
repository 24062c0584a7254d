(** x/y exchange over any number of updates, and a pair of transposed simulations. *)
From Coq Require Import ZArith Reals List Bool String Lia Lra.
From Verif Require Import Scalar Base BaseFacts VecM GridM GeometryM MaterialM PmlM DftM TfsfM PolarM
  InterpM H5M ClockM MonitorM FieldM SpecGrid GridFacts OutFacts PhysFacts PaintFacts
  WfFacts ReachFacts SafetyFacts SpecSafety SafeFacts SpecStep StepFacts TextbookFacts SpecSource SourceFacts ExampleFacts ExampleSrc MemoryFacts
  FullStep SpecWave DarkFacts SpecCone ConeRun SumStep SumRun SpecFlip FlipFacts.
Import ListNotations.
Local Open Scope Z_scope.
#[local] Existing Instance RNum.

Lemma med_static p p' : static p' = static p -> med p' = med p.
Proof. intros H. apply static_eq in H. destruct H as (_ & S2 & _ & _ & _ & S6 & S7). unfold med, med_of. now rewrite S2, S6, S7. Qed.

Lemma flip_run n : forall p q p' q', apart (ph_grid p) -> wf_phys p -> wf_phys q ->
  cpml_coefs (ph_grid p) (med p) -> cpml_coefs (ph_grid q) (med q) -> flip_state p q ->
  phys_run (repeat Update n) p = Fine p' -> phys_run (repeat Update n) q = Fine q' -> flip_state p' q'.
Proof.
  induction n as [|n IH]; intros p q p' q' Ha Wp Wq Cp Cq HS Hp Hq; cbn [repeat phys_run] in *.
  - injection Hp as <-. injection Hq as <-. exact HS.
  - apply obind_fine in Hp. destruct Hp as (p1 & Hp1 & Hp). apply obind_fine in Hq. destruct Hq as (q1 & Hq1 & Hq).
    cbn [phys_exec] in *. assert (HS' := flip_step _ _ _ _ Ha Wp Wq Cp Cq HS Hp1 Hq1).
    assert (Ha' : apart (ph_grid q)) by (destruct HS as [(G1 & G2 & G3 & _) _ _ _]; unfold apart in *; lia).
    destruct (full_step p p1 Ha Wp Hp1) as (E0 & E1 & E2 & E3 & Ls & u & h & [A1 A2 A3 A4 A5 A6 A7 A8 A9 A10 A11 A12 A13 A14 A15 A16]).
    destruct (full_step q q1 Ha' Wq Hq1) as (E0' & E1' & E2' & E3' & Ls' & v & k & [B1 B2 B3 B4 B5 B6 B7 B8 B9 B10 B11 B12 B13 B14 B15 B16]).
    assert (G1 := proj1 (proj1 (static_eq _ _) A13)). assert (G2 := proj1 (proj1 (static_eq _ _) B13)). apply med_static in A13, B13.
    apply (IH p1 q1); try assumption; rewrite ?G1, ?G2, ?A13, ?B13; assumption.
Qed.

Lemma flip g g' s1 s2 n s1' s2' : apart g -> reachable g s1 -> apart g' -> reachable g' s2 ->
  flip_state (f_ph s1) (f_ph s2) ->
  run (repeat Update n) s1 = Fine s1' -> run (repeat Update n) s2 = Fine s2' -> flip_state (f_ph s1') (f_ph s2').
Proof.
  intros Ha R1 Ha' R2 HS H1 H2. apply run_phys in H1, H2.
  destruct (reachable_good g s1 (apart_roomy _ Ha) R1) as [W1 G1]. destruct (reachable_good g' s2 (apart_roomy _ Ha') R2) as [W2 G2].
  apply (flip_run n (f_ph s1) (f_ph s2)); try assumption; rewrite ?G1, ?G2; auto using reachable_coefs.
Qed.

(** ** An 8 by 10 and a 10 by 8 simulation with a lamp each *)
Lemma grid_8_10 : exists g : grid, mk_grid 8%R 10%R 1%R 1 = Ok g /\ grid_ok g /\ g_Nx g = 8 /\ g_Ny g = 10 /\ g_dx g = 1%R /\ g_dt g = (/ 2)%R /\ g_pml g = 2.
Proof.
  destruct (mk_grid_spec 8 10 1 1) as [g [E H]]; try lra; try (unfold INT_MAX; lra).
  destruct H as (H1 & H2 & _ & Hd & Hp & HL & HLy & _ & _ & _ & Ht & Hm). exists g. split; [exact E|].
  assert (Nx : g_Nx g = 8) by (assert (7 < g_Nx g <= 8); [|lia]; split; [apply lt_IZR|apply Z.lt_succ_r, lt_IZR; rewrite succ_IZR]; lra).
  assert (Ny : g_Ny g = 10) by (assert (9 < g_Ny g <= 10); [|lia]; split; [apply lt_IZR|apply Z.lt_succ_r, lt_IZR; rewrite succ_IZR]; lra).
  split; [eapply mk_grid_ok; [| | |exact E]; lra|]. repeat split; try lra; try lia.
Qed.
Lemma grid_10_8 : exists g : grid, mk_grid 10%R 8%R 1%R 1 = Ok g /\ grid_ok g /\ g_Nx g = 10 /\ g_Ny g = 8 /\ g_dx g = 1%R /\ g_dt g = (/ 2)%R /\ g_pml g = 2.
Proof.
  destruct (mk_grid_spec 10 8 1 1) as [g [E H]]; try lra; try (unfold INT_MAX; lra).
  destruct H as (H1 & H2 & _ & Hd & Hp & HL & HLy & _ & _ & _ & Ht & Hm). exists g. split; [exact E|].
  assert (Nx : g_Nx g = 10) by (assert (9 < g_Nx g <= 10); [|lia]; split; [apply lt_IZR|apply Z.lt_succ_r, lt_IZR; rewrite succ_IZR]; lra).
  assert (Ny : g_Ny g = 8) by (assert (7 < g_Ny g <= 8); [|lia]; split; [apply lt_IZR|apply Z.lt_succ_r, lt_IZR; rewrite succ_IZR]; lra).
  split; [eapply mk_grid_ok; [| | |exact E]; lra|]. repeat split; try lra; try lia.
Qed.

Definition lamp34 : source := Source "lamp" Ez (SPoint (3, 4)%R) (TProfile (Continuous 1%R) None).
Definition lamp43 : source := Source "lamp" Ez (SPoint (4, 3)%R) (TProfile (Continuous 1%R) None).

Lemma fresh_state g p : roomy g -> mk_phys g = Ok p -> dark p /\ bare p /\ ph_prevE p = None /\ ph_prev2E p = None /\ ph_t p = 0%R /\
  (forall i j, 0 <= i < g_Nx g -> 0 <= j < g_Ny g -> gcell (ph_C p) i j = gmat_cell vacuum (g_dt g)).
Proof.
  intros Hg Hp. destruct (mk_field_fresh g "out" Hg) as (p1 & Ep & E0); [discriminate|]. rewrite Hp in Ep. injection Ep as <-.
  destruct (mk_phys_ok g Hg) as (p1 & Ep & _ & _ & Sp & Tp & _). rewrite Hp in Ep. injection Ep as <-.
  split; [refine (stays_dark g (Field p [] [] [] (fresh_h5 g) mk_clocks) _ Sp Tp); exists "out"%string; eexists; exists []; split; [exact E0|reflexivity]|].
  unfold mk_phys in Hp. inv_ok. repeat split. cbn [ph_C]. intros i j Hi Hj.
  match goal with H : clear_coefs _ _ _ = Ok _ |- _ => apply clear_coefs_post in H; destruct H as [H _]; exact (H i j Hi Hj) end.
Qed.

Lemma lamps_flip (g g' : grid) a b : g_dx g = 1%R -> g_dx g' = 1%R -> flip_drive g g' [lamp34] [lamp43] a b.
Proof.
  intros D D' Ls Ls' F F' t x. inversion F as [|? L ? ? K F1]; subst. inversion F1; subst. inversion F' as [|? L' ? ? K' F1']; subst. inversion F1'; subst.
  destruct K as (c & E & ->), K' as (c' & E' & ->).
  assert (X : to_grid g (3, 4)%R = Ok (3, 4)) by (apply (to_grid_int g 3 4); [exact D|unfold is_int32; lia..]). cbn [sr_kind lamp34] in E. rewrite X in E. injection E as <-.
  assert (X' : to_grid g' (4, 3)%R = Ok (4, 3)) by (apply (to_grid_int g' 4 3); [exact D'|unfold is_int32; lia..]). cbn [sr_kind lamp43] in E'. rewrite X' in E'. injection E' as <-.
  unfold lit. cbn [combine fold_left lamp34 lamp43 sr_c comp_eqb]. split; [|split; reflexivity].
  unfold add_at. cbn [fold_left fst snd]. replace ((4 =? b) && (3 =? a))%bool with ((3 =? a) && (4 =? b))%bool by (destruct (3 =? a), (4 =? b); reflexivity).
  reflexivity.
Qed.

Lemma flip_case n : (n < 1000)%nat -> exists (g g' : grid) s1 s2 s1' s2', mk_grid 8%R 10%R 1%R 1 = Ok g /\ mk_grid 10%R 8%R 1%R 1 = Ok g' /\
  apart g /\ apart g' /\ reachable g s1 /\ reachable g' s2 /\ ph_srcs (f_ph s1) = [lamp34] /\ ph_srcs (f_ph s2) = [lamp43] /\
  flip_state (f_ph s1) (f_ph s2) /\ run (repeat Update n) s1 = Fine s1' /\ run (repeat Update n) s2 = Fine s2'.
Proof.
  intros Hn. destruct grid_8_10 as (g & Eg & Hok & Nx & Ny & Dx & Dt & Hp). destruct grid_10_8 as (g' & Eg' & Hok' & Nx' & Ny' & Dx' & Dt' & Hp').
  assert (Ha : apart g) by (unfold apart; lia). assert (Ha' : apart g') by (unfold apart; lia).
  assert (K : forall h r i j, apart h -> g_dx h = 1%R -> 0 <= i < g_Nx h -> 0 <= j < g_Ny h -> sr_name r = "lamp"%string -> sr_c r = Ez -> sr_kind r = SPoint (IZR i, IZR j) -> is_int32 i -> is_int32 j ->
     (exists f, write_src (fresh_h5 h) r = Ok f) ->
     exists p s s', mk_phys h = Ok p /\ f_ph s = set_ph_srcs [r] p /\ reachable h s /\ run (repeat Update n) s = Fine s').
  { intros h r i j Hh Hd Hi Hj Hnm Hc Hk Ii Ij [f Hf]. assert (Hr := apart_roomy _ Hh).
    destruct (mk_field_fresh h "out" Hr) as (p & Ep & E0); [discriminate|].
    destruct (mk_phys_ok h Hr) as (p' & Ep' & Hw & Gp & Sp & Tp & Op & Np). rewrite Ep in Ep'. injection Ep' as <-.
    set (s0 := Field p [] [] [] (fresh_h5 h) mk_clocks) in *.
    assert (R0 : reachable h s0) by (exists "out"%string, s0, []; auto).
    assert (A := add_run [r] s0 f ltac:(cbn [foldM]; cbn [f_h5 s0]; rewrite Hf; reflexivity)). set (s' := map_ph _ _) in A.
    assert (R' : reachable h s') by now apply (run_reachable h s0 (map AddSource [r])).
    assert (Ep2 : f_ph s' = set_ph_srcs [r] p) by (cbn; now rewrite Sp).
    destruct (update_safe h s' n Hr R') as (s2 & E2 & _).
    - rewrite Ep2. split; [|cbn; rewrite Tp; discriminate]. cbn. intros r' [<-|[]]. split; [rewrite Hc; now left|].
      rewrite Hk. exists (i, j). split; [rewrite Gp; now apply to_grid_int|]. rewrite Gp. split; assumption.
    - split; reflexivity. - reflexivity. - reflexivity.
    - rewrite Ep2. cbn. rewrite Np. unfold INT_MIN. lia.
    - rewrite Ep2. cbn. rewrite Np. unfold INT_MAX. lia.
    - exists p, s', s2. auto. }
  destruct (K g lamp34 3 4) as (p & s1 & s1' & P1 & P2 & P3 & P4); try reflexivity; try assumption; try lia; try (unfold is_int32; lia); [eexists; reflexivity|].
  destruct (K g' lamp43 4 3) as (q & s2 & s2' & Q1 & Q2 & Q3 & Q4); try reflexivity; try assumption; try lia; try (unfold is_int32; lia); [eexists; reflexivity|].
  exists g, g', s1, s2, s1', s2'. repeat (split; [assumption|]). rewrite P2, Q2. split; [reflexivity|]. split; [reflexivity|]. split; [|auto].
  destruct (mk_phys_ok g (apart_roomy _ Ha)) as (p' & Ep' & _ & Gp & Sp & Tp & _). rewrite P1 in Ep'. injection Ep' as <-.
  destruct (mk_phys_ok g' (apart_roomy _ Ha')) as (q' & Eq' & _ & Gq & Sq & Tq & _). rewrite Q1 in Eq'. injection Eq' as <-.
  destruct (fresh_state g p (apart_roomy _ Ha) P1) as (D & (B1 & B2 & B3 & B4) & F1 & F2 & F3 & F4).
  destruct (fresh_state g' q (apart_roomy _ Ha') Q1) as (D' & (B1' & B2' & B3' & B4') & F1' & F2' & F3' & F4').
  constructor; cbn [set_ph_srcs ph_grid ph_t ph_tfsf].
  - rewrite Gp, Gq. repeat split; congruence.
  - congruence.
  - auto.
  - rewrite Gp. intros a b Hab Hbb. destruct D, D'. constructor; cbn [set_ph_srcs ph_grid ph_F ph_C ph_pml ph_debye ph_drude ph_lorentz ph_prevE ph_prev2E ph_srcs].
    + unfold flip_field, z2 in *. rewrite d_E, d_E0, d_X, d_X0, d_Y, d_Y0. repeat split; lra.
    + assert (Y1 := F4 a b Hab Hbb). assert (Y2 := F4' b a ltac:(lia) ltac:(lia)). rewrite Dt in Y1. rewrite Dt' in Y2. rewrite <- Y1 in Y2. unfold gcell in Y2.
      injection Y2 as Z1 Z2 Z3 Z4. repeat split; assumption.
    + unfold flip_memory, z2 in *. split; repeat split; intros _; rewrite ?d_x1, ?d_x2, ?d_y1, ?d_y2, ?d_x0, ?d_x3, ?d_y0, ?d_y3, ?d_hx1, ?d_hx2, ?d_hy1, ?d_hy2,
        ?d_hx0, ?d_hx3, ?d_hy0, ?d_hy3; lra.
    + rewrite B1, B1'. constructor.
    + rewrite B2, B2'. constructor.
    + rewrite B3, B3'. constructor.
    + rewrite F1, F1'. exact I.
    + rewrite F2, F2'. exact I.
    + rewrite Gp, Gq. now apply lamps_flip.
Qed.
