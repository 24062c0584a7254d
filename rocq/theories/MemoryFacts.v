(** The PML memories never exceed the largest difference quotient they were fed. *)
From Coq Require Import ZArith Reals String List Bool Lia Lra.
From Verif Require Import Scalar Base BaseFacts VecM GridM GeometryM MaterialM PmlM DftM TfsfM PolarM
  InterpM H5M ClockM MonitorM FieldM SpecGrid GridFacts OutFacts PhysFacts PaintFacts WfFacts ReachFacts InvFacts
  SpecStep StepFacts EngineFacts YeeFacts SpecSource SourceFacts PolarFacts FullStep PmlFacts SpecWave InnerFacts SafeFacts.
Import ListNotations.
Local Open Scope Z_scope.
#[local] Existing Instance RNum.

Lemma recur_bound dx b c q d M : absorbing b c -> (Rabs q <= M)%R -> (Rabs (d / dx) <= M)%R -> (Rabs (recur dx b c q d) <= M)%R.
Proof.
  intros ((B1 & B2) & _ & C) Hq Hd. unfold recur. rnum. replace (c * d / dx)%R with (c * (d / dx))%R by (unfold Rdiv; ring).
  eapply Rle_trans; [apply Rabs_triang|]. rewrite !Rabs_mult, (Rabs_pos_eq b) by lra.
  assert (0 <= Rabs c)%R by apply Rabs_pos. assert (0 <= M)%R by (eapply Rle_trans; [apply Rabs_pos|exact Hq]).
  assert (b * Rabs q <= b * M)%R by (apply Rmult_le_compat_l; lra).
  assert (Rabs c * Rabs (d / dx) <= (1 - b) * M)%R by (apply Rmult_le_compat; try apply Rabs_pos; lra). lra.
Qed.

Lemma memory_step p p' M : apart (ph_grid p) -> wf_phys p -> all_absorbing (g_pml (ph_grid p)) (med p) ->
  slopes_of p M -> phys_step p = Fine p' -> slopes_of p' M ->
  memory_within M (e_of p) (h_of p) -> memory_within M (e_of p') (h_of p').
Proof.
  intros Ha Hw [Be Bh] S H S' Hm.
  destruct (full_step p p' Ha Hw H) as (E0 & E1 & E2 & E3 & Ls & u & h & CW). destruct CW.
  unfold slopes_of in S, S'. rewrite (grid_static _ _ cw_static) in S'. destruct Ha as (A0 & A1 & A2).
  destruct S as [Sx Sy], S' as [Sx' Sy']. change (tval (fEz (ph_F p'))) with (eE (e_of p')) in Sx', Sy'.
  destruct cw_e as (_ & B1 & B2 & B3 & B4), cw_h as (_ & D1 & D2 & _ & D3 & D4).
  cbn [eXl eXh eYl eYh] in *. unfold with_xy in D1, D2, D3, D4. cbn [hXl hXh hYl hYh] in D1, D2, D3, D4.
  intros i j. destruct (Hm i j) as (K1 & K2 & K3 & K4 & K5 & K6 & K7 & K8).
  rewrite B1, B2, B3, B4, D1, D2, D3, D4, cw_u, cw_hm. unfold grid_next_e, grid_next_h, next_e, next_h, with_xy.
  cbn [eXl eXh eYl eYh hXl hXh hYl hYh]. unfold memXl, memXh, memYl, memYh, memHxl, memHxh, memHyl, memHyh.
  assert (W : forall (c : bool) x y, (c = true -> (Rabs x <= M)%R) -> (Rabs y <= M)%R -> (Rabs (if c then x else y) <= M)%R)
    by (intros [|]; auto).
  repeat split; apply W; try assumption; intros Hc.
  - apply recur_bound; [apply Be; lia|assumption|]. apply Sx; lia.
  - apply recur_bound; [apply Be; lia|assumption|]. apply Sx; lia.
  - apply recur_bound; [apply Be; lia|assumption|]. apply Sy; lia.
  - apply recur_bound; [apply Be; lia|assumption|]. apply Sy; lia.
  - apply recur_bound; [apply Bh; lia|assumption|]. replace j with (j + 1 - 1) at 2 by lia. apply Sy'; lia.
  - apply recur_bound; [apply Bh; lia|assumption|]. apply Sy'; lia.
  - apply recur_bound; [apply Bh; lia|assumption|]. replace i with (i + 1 - 1) at 2 by lia. apply Sx'; lia.
  - apply recur_bound; [apply Bh; lia|assumption|]. apply Sx'; lia.
Qed.

Lemma exec_psi c p p' : c <> Update -> phys_exec c p = Fine p' -> p_psi (ph_pml p') = p_psi (ph_pml p).
Proof.
  intros Hc. destruct c; cbn [phys_exec]; intros H; try congruence; try (injection H as <-; reflexivity).
  - apply ok_out_fine in H. unfold update_material_grid in H. inv_ok. apply repaint_frame in H. cbn in H. destruct H as (_ & _ & _ & _ & -> & _). reflexivity.
  - apply ok_out_fine in H. unfold phys_add_object, paint_phys in H. inv_ok. apply insert_material_frame in Hr0. cbn in *.
    destruct Hr0 as (_ & _ & _ & _ & -> & _). reflexivity.
  - apply ok_out_fine in H. unfold phys_clear_materials in H. inv_ok. reflexivity.
  - apply ok_out_fine in H. unfold phys_set_tfsf in H. inv_ok. reflexivity.
  - injection H as <-. unfold phys_on_obj. destruct (nth_error _ _) as [o|]; [|reflexivity]. now destruct (o_dyn o).
  - injection H as <-. unfold phys_on_obj. destruct (nth_error _ _) as [o|]; [|reflexivity]. now destruct (o_dyn o).
  - injection H as <-. unfold phys_on_obj. destruct (nth_error _ _) as [o|]; [|reflexivity]. now destruct (o_dyn o).
  - injection H as <-. unfold phys_on_obj. destruct (nth_error _ _) as [o|]; [|reflexivity]. now destruct (o_dyn o).
Qed.
Lemma memory_psi p p' M : p_psi (ph_pml p') = p_psi (ph_pml p) -> memory_within M (e_of p) (h_of p) -> memory_within M (e_of p') (h_of p').
Proof. intros E H i j. specialize (H i j). cbn [e_of h_of eXl eXh eYl eYh hXl hXh hYl hYh] in *. now rewrite E. Qed.

Section Built.
Variables (Lx Ly rs : R) (pml : Z) (g : grid (N := RNum)).
Hypothesis HLx : (0 < Lx)%R.
Hypothesis HLy : (0 < Ly)%R.
Hypothesis Hrs : (0 < rs)%R.
Hypothesis Hpml : 1 <= pml.
Hypothesis Hg : mk_grid Lx Ly rs pml = Ok g.
Hypothesis Ha : apart g.

Lemma run_reachable s0 l s : reachable g s0 -> run l s0 = Fine s -> reachable g s.
Proof.
  intros (name & s00 & l0 & E & R) H. exists name, s00, (l0 ++ l). split; [exact E|].
  revert s00 E R. clear - H. intros s00 _. revert s00. induction l0 as [|c l0 IH]; intros s00 R; cbn [app run_catch] in *.
  - injection R as ->. now apply run_run_catch.
  - destruct (exec c s00); [auto|auto|discriminate].
Qed.

Lemma memory_run M l : forall s0 s, reachable g s0 -> run l s0 = Fine s ->
  (forall k sk, run (firstn k l) s0 = Fine sk -> slopes_of (f_ph sk) M) ->
  memory_within M (e_of (f_ph s0)) (h_of (f_ph s0)) -> memory_within M (e_of (f_ph s)) (h_of (f_ph s)).
Proof.
  induction l as [|c l IH]; intros s0 s R0 H Hk Hm; cbn [run] in H.
  - injection H as <-. exact Hm.
  - apply obind_fine in H. destruct H as (s1 & H1 & H).
    assert (R1 : reachable g s1). { apply (run_reachable s0 [c]); [exact R0|]. cbn [run]. rewrite H1. reflexivity. }
    apply (IH s1 s R1 H).
    + intros k sk Hsk. apply (Hk (S k)). cbn [firstn run]. rewrite H1. exact Hsk.
    + assert (Hc : c = Update \/ c <> Update) by (destruct c; auto; right; discriminate). destruct Hc as [->|Hc].
      * cbn [exec] in H1. assert (H1' := update_phys_step _ _ H1).
        destruct (reachable_good g s0 (apart_roomy _ Ha) R0) as [Hw Eg].
        apply (memory_step (f_ph s0) (f_ph s1)); rewrite ?Eg; try assumption.
        { exact (coefs_absorbing Lx Ly rs pml g HLx HLy Hrs Hpml Hg s0 R0). }
        { apply (Hk O). reflexivity. }
        { apply (Hk 1%nat). cbn [firstn run exec]. rewrite H1. reflexivity. }
      * apply exec_phys in H1. apply (memory_psi (f_ph s0)); [|exact Hm]. now apply exec_psi in H1.
Qed.

Lemma memory_bounded M name s0 l s : (0 <= M)%R -> mk_field g name = Ok s0 -> run l s0 = Fine s ->
  (forall k sk, run (firstn k l) s0 = Fine sk -> slopes_of (f_ph sk) M) ->
  memory_within M (e_of (f_ph s)) (h_of (f_ph s)).
Proof.
  intros HM E H Hk. apply (memory_run M l s0 s); try assumption.
  - exists name, s0, []. auto.
  - unfold mk_field in E. apply bind_ok in E. destruct E as (p & Hp & E). destruct (String.eqb name ""); [discriminate|]. inv_ok. cbn [f_ph].
    unfold mk_phys, mk_pml, mk_pml_psi in Hp. inv_ok.
    unfold tconst in *. repeat match goal with H : (if ?b then _ else _) = Ok _ |- _ => destruct b; inversion H; clear H; subst end.
    intros i j. cbn. rnum. rewrite Rabs_R0. auto 10.
Qed.

(** every finite run has such a bound *)
Lemma bounded_cells (f : Z -> Z -> R) n m : exists M, (0 <= M)%R /\ forall i j, 0 <= i < n -> 0 <= j < m -> (Rabs (f i j) <= M)%R.
Proof.
  assert (B1 : forall (h : Z -> R) k, exists M, (0 <= M)%R /\ forall i, 0 <= i < Z.of_nat k -> (Rabs (h i) <= M)%R).
  { intros h k. induction k as [|k (M & H0 & H)]; [exists 0%R; split; [lra|intros; lia]|].
    exists (Rmax M (Rabs (h (Z.of_nat k)))). split; [eapply Rle_trans; [exact H0|apply Rmax_l]|].
    intros i Hi. destruct (Z.eq_dec i (Z.of_nat k)) as [->|Hn]; [apply Rmax_r|].
    eapply Rle_trans; [apply H; lia|apply Rmax_l]. }
  assert (B2 : forall k, exists M, (0 <= M)%R /\ forall i j, 0 <= i < Z.of_nat k -> 0 <= j < m -> (Rabs (f i j) <= M)%R).
  { intros k. induction k as [|k (M & H0 & H)]; [exists 0%R; split; [lra|intros; lia]|].
    destruct (B1 (f (Z.of_nat k)) (Z.to_nat m)) as (M' & H0' & H').
    exists (Rmax M M'). split; [eapply Rle_trans; [exact H0|apply Rmax_l]|].
    intros i j Hi Hj. destruct (Z.eq_dec i (Z.of_nat k)) as [->|Hn]; [eapply Rle_trans; [apply H'; lia|apply Rmax_r]|].
    eapply Rle_trans; [apply H; lia|apply Rmax_l]. }
  destruct (B2 (Z.to_nat n)) as (M & H0 & H). exists M. split; [exact H0|]. intros. apply H; lia.
Qed.
Lemma slopes_exist p : exists M, (0 <= M)%R /\ slopes_of p M.
Proof.
  unfold slopes_of, slopes. set (g0 := ph_grid p). set (ez := tval (fEz (ph_F p))). set (hx := tval (fHx (ph_F p))). set (hy := tval (fHy (ph_F p))).
  destruct (bounded_cells (fun i j => (hy i j - hy (i - 1)%Z j) / g_dx g0)%R (g_Nx g0) (g_Ny g0)) as (M1 & P1 & H1).
  destruct (bounded_cells (fun i j => (ez i j - ez (i - 1)%Z j) / g_dx g0)%R (g_Nx g0) (g_Ny g0)) as (M2 & P2 & H2).
  destruct (bounded_cells (fun i j => (hx i j - hx i (j - 1)%Z) / g_dx g0)%R (g_Nx g0) (g_Ny g0)) as (M3 & P3 & H3).
  destruct (bounded_cells (fun i j => (ez i j - ez i (j - 1)%Z) / g_dx g0)%R (g_Nx g0) (g_Ny g0)) as (M4 & P4 & H4).
  exists (M1 + M2 + M3 + M4)%R. split; [lra|]. split; intros i j Hi Hj.
  - specialize (H1 i j ltac:(lia) ltac:(lia)). specialize (H2 i j ltac:(lia) ltac:(lia)). cbn beta in *. split; lra.
  - specialize (H3 i j ltac:(lia) ltac:(lia)). specialize (H4 i j ltac:(lia) ltac:(lia)). cbn beta in *. split; lra.
Qed.
Lemma slopes_mono p M M' : (M <= M')%R -> slopes_of p M -> slopes_of p M'.
Proof.
  intros H [A B]. split; intros i j Hi Hj; [destruct (A i j Hi Hj)|destruct (B i j Hi Hj)]; split; lra.
Qed.
Lemma run_bounded l : forall s0, exists M, (0 <= M)%R /\ forall k sk, run (firstn k l) s0 = Fine sk -> slopes_of (f_ph sk) M.
Proof.
  induction l as [|c l IH]; intros s0; destruct (slopes_exist (f_ph s0)) as (M0 & P0 & H0).
  - exists M0. split; [exact P0|]. intros k sk Hk. rewrite firstn_nil in Hk. injection Hk as <-. exact H0.
  - destruct (exec c s0) as [s1|e s1|u] eqn:E.
    + destruct (IH s1) as (M1 & P1 & H1). exists (M0 + M1)%R. split; [lra|]. intros [|k] sk Hk; cbn [firstn run] in Hk.
      * injection Hk as <-. eapply slopes_mono; [|exact H0]. lra.
      * rewrite E in Hk. cbn [obind] in Hk. eapply slopes_mono; [|apply (H1 k sk Hk)]. lra.
    + exists M0. split; [exact P0|]. intros [|k] sk Hk; cbn [firstn run] in Hk; [injection Hk as <-; exact H0|]. rewrite E in Hk. discriminate.
    + exists M0. split; [exact P0|]. intros [|k] sk Hk; cbn [firstn run] in Hk; [injection Hk as <-; exact H0|]. rewrite E in Hk. discriminate.
Qed.
End Built.
