(** update() against the textbook step, and the coefficients it uses. *)
From Coq Require Import ZArith Reals String List Bool Lia Lra.
From Verif Require Import Scalar Base BaseFacts VecM GridM GeometryM MaterialM PmlM DftM TfsfM PolarM
  InterpM H5M ClockM MonitorM FieldM OutFacts PhysFacts WfFacts ReachFacts InvFacts SpecStep StepFacts
  EngineFacts YeeFacts SpecGrid GridFacts SafetyFacts SpecSafety SafeFacts ExampleFacts ExampleSrc.
Import ListNotations.
Local Open Scope Z_scope.

Section Textbook.
Context {N : Num}.

Lemma update_textbook s s' : apart (ph_grid (f_ph s)) -> wf_phys (f_ph s) -> plain (f_ph s) ->
  update s = Fine s' ->
  same_e (e_of (f_ph s')) (fst (textbook (f_ph s) (e_of (f_ph s), h_of (f_ph s)))) /\
  same_h (h_of (f_ph s')) (snd (textbook (f_ph s) (e_of (f_ph s), h_of (f_ph s)))).
Proof.
  intros Hg Hw Hp H. apply update_phys_step in H. destruct (plain_step _ _ Hg Hw Hp H) as (A & B & _). auto.
Qed.

Lemma update_edges s s' : apart (ph_grid (f_ph s)) -> wf_phys (f_ph s) -> plain (f_ph s) ->
  update s = Fine s' -> forall i j,
  i < 1 \/ g_Nx (ph_grid (f_ph s)) - 2 < i \/ j < 1 \/ g_Ny (ph_grid (f_ph s)) - 2 < j ->
  tval (fEz (ph_F (f_ph s'))) i j = tval (fEz (ph_F (f_ph s))) i j /\
  tval (fHx (ph_F (f_ph s'))) i j = tval (fHx (ph_F (f_ph s))) i j /\
  tval (fHy (ph_F (f_ph s'))) i j = tval (fHy (ph_F (f_ph s))) i j.
Proof.
  intros Hg Hw Hp H i j Hij. destruct (update_textbook s s' Hg Hw Hp H) as [A B].
  assert (C : core (g_Nx (ph_grid (f_ph s))) (g_Ny (ph_grid (f_ph s))) i j = false) by (unfold core; lia).
  destruct A as (A & _), B as (B1 & _ & _ & B2 & _).
  specialize (A i j). specialize (B1 i j). specialize (B2 i j). cbn in A, B1, B2.
  rewrite C in A, B1, B2. auto.
Qed.

(** with sources: the electric half, the sources, the magnetic half *)
Lemma update_with_sources s s' : apart (ph_grid (f_ph s)) -> wf_phys (f_ph s) ->
  ph_debye (f_ph s) = [] -> ph_drude (f_ph s) = [] -> ph_lorentz (f_ph s) = [] -> ph_tfsf (f_ph s) = None ->
  update s = Fine s' ->
  exists a b, same_e (e_of a) (fst (textbook (f_ph s) (e_of (f_ph s), h_of (f_ph s)))) /\ h_of a = h_of (f_ph s) /\
    ph_srcs a = ph_srcs (f_ph s) /\ ph_t a = (ph_t (f_ph s) + g_dt (ph_grid (f_ph s)))%num /\
    ph_grid a = ph_grid (f_ph s) /\ wf_phys a /\
    step_sources a = Fine b /\ ph_srcs (f_ph s') = ph_srcs b /\
    same_e (e_of (f_ph s')) (e_of b) /\
    same_h (h_of (f_ph s')) (grid_next_h (f_ph s) (h_of b) (eE (e_of b))).
Proof.
  intros Hg Hw P1 P2 P3 P5 H. apply update_phys_step in H. set (p := f_ph s) in *. set (p' := f_ph s') in *.
  destruct (phys_step_phases p p' Hg Hw H) as (p0 & p1 & p2 & p3 & p4 & p5 & p6 & F).
  destruct F as [Hi E0 [E [b E1]] Ve Vh R2 R3 R4 R5 [X [Y [b' E6]]] V6 W6 R7 (_ & _ & W2 & _) (_ & _ & S2 & _) (K2 & K3 & K4 & K5 & K6)].
  destruct (step_prev_frame (set_ph_t (ph_t p + g_dt (ph_grid p))%num (set_ph_step (ph_step p + 1) p)))
    as (A1 & A2 & A3 & A4 & A5 & A6 & A7 & A8 & A9). rewrite <- E0 in *. cbn in A3, A4, A5, A7, A8, A9.
  destruct (step_polar_none p1) as (q & Rq & Q1 & Q2 & Q3 & Q4);
    [rewrite E1; cbn; congruence..|]. rewrite R2 in Rq. injection Rq as <-.
  destruct (step_polar_frame _ _ R2) as (_ & _ & _ & _ & _ & Q5 & _).
  assert (T2 : ph_tfsf p2 = None) by (rewrite Q3, E1; cbn; congruence).
  unfold step_tfsfD in R3. rewrite T2 in R3. injection R3 as <-.
  exists p2, p4.
  destruct (step_sources_frame _ _ R4) as (_ & T4 & _). rewrite T2 in T4.
  unfold step_tfsf_pulse in R5. rewrite T4 in R5. injection R5 as <-.
  assert (T6 : ph_tfsf p6 = None) by (rewrite E6; exact T4).
  unfold step_tfsfH in R7. rewrite T6 in R7. injection R7 as <-.
  assert (Ve2 : e_of p2 = e_of p1) by (unfold e_of; now rewrite Q1, Q2).
  assert (Vh2 : h_of p2 = h_of p) by (rewrite <- Vh; unfold h_of; now rewrite Q1, Q2).
  split; [rewrite Ve2; exact Ve|]. split; [exact Vh2|].
  split; [rewrite Q4, E1; exact A4|]. split; [rewrite Q5, E1; exact A5|].
  split; [apply (grid_static _ _ S2)|]. split; [exact W2|]. split; [exact R4|].
  split; [rewrite E6; reflexivity|]. split; [rewrite V6; apply same_e_refl|exact W6].
Qed.

Lemma reachable_with_sources g s s' : apart g -> reachable g s ->
  ph_debye (f_ph s) = [] -> ph_drude (f_ph s) = [] -> ph_lorentz (f_ph s) = [] -> ph_tfsf (f_ph s) = None ->
  update s = Fine s' ->
  exists a b,
    same_e (e_of a) (next_e (g_Nx g) (g_Ny g) (g_pml g) (g_dx g) (med (f_ph s))
                            (hX (h_of (f_ph s))) (hY (h_of (f_ph s))) (e_of (f_ph s))) /\
    h_of a = h_of (f_ph s) /\
    ph_srcs a = ph_srcs (f_ph s) /\ ph_t a = (ph_t (f_ph s) + g_dt g)%num /\ ph_grid a = g /\ wf_phys a /\
    step_sources a = Fine b /\ ph_srcs (f_ph s') = ph_srcs b /\
    same_e (e_of (f_ph s')) (e_of b) /\
    same_h (h_of (f_ph s')) (next_h (g_Nx g) (g_Ny g) (g_pml g) (g_dx g) (med (f_ph s)) (eE (e_of b)) (h_of b)).
Proof.
  intros Hg Hr P1 P2 P3 P5 H. destruct (reachable_good g s (apart_roomy g Hg) Hr) as [Hw Gg].
  subst g. exact (update_with_sources s s' Hg Hw P1 P2 P3 P5 H).
Qed.

Lemma reachable_coefs g s : apart g -> reachable g s -> cpml_coefs g (med (f_ph s)).
Proof.
  intros (G0 & G1 & G2) Hr. destruct (reachable_engine g s Hr) as (c & sc & Ec & Es & En).
  unfold engine in En. injection En as _ _ _ E1 E2. unfold cpml_coefs, med, med_of. rewrite E1, E2.
  cbn [bEx cEx bEy cEy bHx cHx bHy cHy sEx sEy sHx sHy].
  assert (A := mk_pml_coef_val (mk_pml_par g) c ltac:(cbn [p_th p_Nx p_Ny mk_pml_par]; lia) Ec). cbn [p_th mk_pml_par] in A.
  assert (B := set_scaling_val (mk_pml_par g) sc ltac:(cbn [p_th p_Nx p_Ny mk_pml_par]; lia) ltac:(cbn [p_th p_Nx p_Ny mk_pml_par]; lia) ltac:(cbn [p_th p_Nx p_Ny mk_pml_par]; lia) Es).
  destruct B as (B1 & B2 & B3). cbn [p_th p_Nx p_Ny mk_pml_par] in B1, B2, B3.
  split; [|split; [|split]].
  - intros d Hd. destruct (A d Hd) as ((A1 & A2 & A3 & A4) & (A5 & A6 & A7 & A8)).
    rewrite A1, A2, A3, A4, A5, A6, A7, A8. repeat split.
  - intros d Hd. destruct (B1 d Hd) as (((X1 & X2) & (X3 & X4)) & ((Y1 & Y2) & (Y3 & Y4))).
    cbn [p_Nx p_Ny mk_pml_par] in X3, X4, Y3, Y4. rewrite X1, X2, X3, X4, Y1, Y2, Y3, Y4. repeat split.
  - exact B2.
  - exact B3.
Qed.

End Textbook.

(** ** Example state: fields filled with products of the indices *)
Section Ex.
#[local] Existing Instance RNum.
Local Open Scope R_scope.

Definition fill (a : tensor) (f : cells) : tensor := Tensor (rows a) (cols a) f.
Definition prod_state (p : phys) : phys :=
  set_ph_F (Fields (fill (fEz (ph_F p)) (fun i j => IZR (i * j))) (fill (fHx (ph_F p)) (fun i j => IZR (i + j)))
                   (fill (fHy (ph_F p)) (fun i j => IZR (i - j)))) p.

Lemma prod_run : exists (g : grid) s s', mk_grid 8 8 1 1 = Ok g /\ apart g /\ ph_grid (f_ph s) = g /\ wf_phys (f_ph s) /\ plain (f_ph s) /\
  update s = Fine s' /\ tval (fEz (ph_F (f_ph s))) 3 3 = 9 /\ tval (fHx (ph_F (f_ph s))) 2 3 = 5 /\
  tval (fHy (ph_F (f_ph s))) 4 3 = 1.
Proof.
  destruct grid8 as (g & Eg & Hok & Nx & Ny & Hdx & HLx & HLy & Hp).
  assert (Hr : roomy g) by (unfold roomy; lia).
  destruct (mk_phys_ok g Hr) as (p & Ep & Hw & Gp & Sp & Tp & Op & Np).
  assert (Hw' : wf_phys (prod_state p)).
  { destruct (wf_F p Hw) as (F1 & F2 & F3). unfold prod_state. wfcon Hw. }
  set (s := Field (prod_state p) [] [] [] [] mk_clocks).
  destruct (update_ok s) as (s' & E & _); try reflexivity; try exact Hw'.
  - cbn. rewrite Gp. exact Hr.
  - split; cbn; [rewrite Sp; constructor|rewrite Tp; discriminate].
  - cbn. unfold idle. cbn. auto.
  - cbn. rewrite Np. unfold INT_MIN, INT_MAX. lia.
  - exists g, s, s'. split; [exact Eg|]. split; [unfold apart; lia|]. split; [exact Gp|]. split; [exact Hw'|].
    split; [|split; [exact E|]].
    + unfold mk_phys in Ep. inv_ok. cbn. unfold plain. cbn. auto.
    + cbn. rnumg. repeat split; f_equal; lra.
Qed.

Lemma source_update : exists (g : grid) s s', apart g /\ reachable g s /\
  ph_debye (f_ph s) = [] /\ ph_drude (f_ph s) = [] /\ ph_lorentz (f_ph s) = [] /\ ph_tfsf (f_ph s) = None /\
  ph_srcs (f_ph s) = [lamp; wire] /\ update s = Fine s'.
Proof.
  destruct source_run as (g & s0 & s & Eg & Hok & Hg & E0 & Er & Hr & H1 & H2 & H3 & H4 & H5 & H6).
  destruct grid8 as (g' & Eg' & _ & Nx & Ny & _ & _ & _ & Hp). rewrite Eg in Eg'. injection Eg' as <-.
  destruct (update_safe g s 1 Hg Hr H1 H2 H3 H4) as (s' & E & _); [rewrite H5; unfold INT_MIN, INT_MAX; lia..|].
  cbn [repeat run exec] in E. apply obind_fine in E. destruct E as (s1 & E & E'). injection E' as <-.
  exists g, s, s1. split; [unfold apart; lia|]. split; [exact Hr|].
  cbn [run exec] in Er. unfold add_source in Er. inv_fine. cbn.
  unfold mk_field in E0. inv_ok. unfold mk_phys in *. inv_ok. cbn [String.eqb Ascii.eqb Bool.eqb] in E0. inv_ok. cbn. auto 10.
Qed.
End Ex.
