(** Mirror images over any number of updates, and a pair of simulations that part at the sides. *)
From Coq Require Import ZArith Reals List Bool String Lia Lra.
From Verif Require Import Scalar Base BaseFacts VecM GridM GeometryM MaterialM PmlM DftM TfsfM PolarM
  InterpM H5M ClockM MonitorM FieldM SpecGrid GridFacts OutFacts PhysFacts PaintFacts
  WfFacts ReachFacts SafetyFacts SpecSafety SafeFacts SpecStep StepFacts TextbookFacts SpecSource SourceFacts ExampleFacts ExampleSrc MemoryFacts
  FullStep SpecWave DarkFacts SpecCone ConeRun SumStep SumRun FlipRun MagnetFacts SpecMirror MirrorFacts.
Import ListNotations.
Local Open Scope Z_scope.
#[local] Existing Instance RNum.

Lemma mirror_step p q p' q' : apart (ph_grid p) -> wf_phys p -> wf_phys q -> 3 <= g_Nx (ph_grid p) ->
  cpml_coefs (ph_grid p) (med p) -> cpml_coefs (ph_grid q) (med q) -> nonmag (ph_grid p) p -> nonmag (ph_grid q) q -> mirror_state p q ->
  phys_step p = Fine p' -> phys_step q = Fine q' -> sides_dark (ph_grid p) p' -> mirror_state p' q'.
Proof.
  intros Ha Wp Wq Hn Cp Cq Np Nq MS Hp Hq Sd.
  destruct (mirror_half p q p' q') as (G1 & G2 & Et & Tf & VE & HC); try assumption.
  destruct MS as [Fg Ft (Tp & Tq) SC]. set (g := ph_grid p) in *.
  constructor; rewrite ?G1; try congruence; auto. intros a b Hab Hbb. apply HC; auto. unfold rim_hy. rewrite G1.
  assert (Sp := plain_side p p' b Ha Wp Hn Cp Np Tp Hp). assert (Sq : side_hy q q' b) by (apply plain_side; rewrite ?Fg in *; assumption).
  destruct Sp as (Ls & F1 & P0 & P1). destruct Sq as (Ls' & F2 & Q0 & Q1). cbv zeta in P0, P1, Q0, Q1. rewrite ?Ft, ?Fg in F2, Q0, Q1. fold g in F1, P0, P1.
  assert (Hz : forall i, i = 0 \/ i = 1 \/ i = g_Nx g - 2 \/ i = g_Nx g - 1 -> tval (fEz (ph_F p')) i b = 0%R) by (intros i Hi; now apply Sd).
  intros [->| ->].
  - replace (g_Nx g - 2 - 0) with (g_Nx g - 2) by lia. change (@T RNum) with R in *. rewrite Q1, P0.
    assert (V0 := VE 0 b ltac:(lia) Hbb). assert (V1 := VE 1 b ltac:(lia) Hbb).
    replace (g_Nx g - 1 - 0) with (g_Nx g - 1) in V0 by lia. replace (g_Nx g - 1 - 1) with (g_Nx g - 2) in V1 by lia.
    change (@T RNum) with R in *. rewrite V0, V1, (Hz 0), (Hz 1) by auto.
    destruct (SC 0 b ltac:(lia) Hbb) as [Cf _ _ _ _ _ _ _ Dr]. destruct Cf as (_ & _ & Cy). fold g in Cy, Dr.
    specialize (Cy ltac:(lia)). replace (g_Nx g - 2 - 0) with (g_Nx g - 2) in Cy by lia. change (@T RNum) with R in *. rewrite Cy.
    destruct (Dr Ls Ls' F1 F2 (ph_t p + g_dt g)%num (tval (fHy (ph_F p)) 0 b)) as (_ & _ & Dy). specialize (Dy ltac:(lia)).
    replace (g_Nx g - 2 - 0) with (g_Nx g - 2) in Dy by lia. rewrite ?Ft; change (@T RNum) with R in *; rewrite Dy.
    destruct ((1 <=? b) && (b <? g_Ny g - 1)); unfold Rdiv; ring.
  - replace (g_Nx g - 2 - (g_Nx g - 2)) with 0 by lia. change (@T RNum) with R in *. rewrite P1, Q0, (Hz (g_Nx g - 1)), (Hz (g_Nx g - 2)) by auto.
    destruct (SC (g_Nx g - 2) b ltac:(lia) Hbb) as [Cf _ _ _ _ _ _ _ Dr]. destruct Cf as (_ & _ & Cy). fold g in Cy, Dr.
    specialize (Cy ltac:(lia)). replace (g_Nx g - 2 - (g_Nx g - 2)) with 0 in Cy by lia. change (@T RNum) with R in *. rewrite Cy.
    destruct (Dr Ls Ls' F1 F2 (ph_t p + g_dt g)%num (tval (fHy (ph_F p)) (g_Nx g - 2) b)) as (_ & _ & Dy). specialize (Dy ltac:(lia)).
    replace (g_Nx g - 2 - (g_Nx g - 2)) with 0 in Dy by lia. rewrite ?Ft; change (@T RNum) with R in *; rewrite Dy.
    destruct ((1 <=? b) && (b <? g_Ny g - 1)); unfold Rdiv; ring.
Qed.

Lemma mirror_run n : forall p q p' q', apart (ph_grid p) -> wf_phys p -> wf_phys q -> 3 <= g_Nx (ph_grid p) ->
  cpml_coefs (ph_grid p) (med p) -> cpml_coefs (ph_grid q) (med q) -> nonmag (ph_grid p) p -> nonmag (ph_grid q) q -> mirror_state p q ->
  (forall k x, (k <= n)%nat -> phys_run (repeat Update k) p = Fine x -> sides_dark (ph_grid p) x) ->
  phys_run (repeat Update n) p = Fine p' -> phys_run (repeat Update n) q = Fine q' -> mirror_state p' q'.
Proof.
  induction n as [|n IH]; intros p q p' q' Ha Wp Wq Hn Cp Cq Np Nq HS Sd Hp Hq; cbn [repeat phys_run] in *.
  - injection Hp as <-. injection Hq as <-. exact HS.
  - apply obind_fine in Hp. destruct Hp as (p1 & Hp1 & Hp). apply obind_fine in Hq. destruct Hq as (q1 & Hq1 & Hq).
    cbn [phys_exec] in *.
    assert (Sd1 : sides_dark (ph_grid p) p1) by (apply (Sd 1%nat p1); [lia|cbn; now rewrite Hp1]).
    assert (HS' := mirror_step _ _ _ _ Ha Wp Wq Hn Cp Cq Np Nq HS Hp1 Hq1 Sd1).
    assert (Ha' : apart (ph_grid q)) by (rewrite (ms_grid _ _ HS); exact Ha).
    destruct (full_step p p1 Ha Wp Hp1) as (E0 & E1 & E2 & E3 & Ls & u & h & [A1 A2 A3 A4 A5 A6 A7 A8 A9 A10 A11 A12 A13 A14 A15 A16]).
    destruct (full_step q q1 Ha' Wq Hq1) as (E0' & E1' & E2' & E3' & Ls' & v & k & [B1 B2 B3 B4 B5 B6 B7 B8 B9 B10 B11 B12 B13 B14 B15 B16]).
    assert (G1 := proj1 (proj1 (static_eq _ _) A13)). assert (G2 := proj1 (proj1 (static_eq _ _) B13)).
    assert (Np1 := nonmag_static _ _ _ A13 Np). assert (Nq1 := nonmag_static _ _ _ B13 Nq). apply med_static in A13, B13.
    apply (IH p1 q1); try assumption; rewrite ?G1, ?G2, ?A13, ?B13; try assumption.
    intros j x Hj Hx. apply (Sd (S j) x); [lia|]. cbn [repeat phys_run phys_exec]. now rewrite Hp1.
Qed.

Lemma mirror g s1 s2 n s1' s2' : apart g -> 3 <= g_Nx g -> reachable g s1 -> reachable g s2 -> mirror_state (f_ph s1) (f_ph s2) ->
  (forall k x, (k <= n)%nat -> run (repeat Update k) s1 = Fine x -> sides_dark g (f_ph x)) ->
  run (repeat Update n) s1 = Fine s1' -> run (repeat Update n) s2 = Fine s2' -> mirror_state (f_ph s1') (f_ph s2').
Proof.
  intros Ha Hn R1 R2 HS Sd H1 H2. assert (H1' := H1). apply run_phys in H1, H2.
  destruct (reachable_good g s1 (apart_roomy _ Ha) R1) as [W1 G1]. destruct (reachable_good g s2 (apart_roomy _ Ha) R2) as [W2 G2].
  apply (mirror_run n (f_ph s1) (f_ph s2)); try assumption; rewrite ?G1, ?G2; auto using reachable_coefs, reachable_nonmag.
  intros k x Hk Hx.
  assert (K : exists y, run (repeat Update k) s1 = Fine y).
  { replace n with (k + (n - k))%nat in H1' by lia. rewrite repeat_app, run_app in H1'. apply obind_fine in H1'. destruct H1' as (y & Y & _). eauto. }
  destruct K as [y Y]. assert (Sy := Sd k y Hk Y). apply run_phys in Y. rewrite Hx in Y. injection Y as ->. exact Sy.
Qed.
