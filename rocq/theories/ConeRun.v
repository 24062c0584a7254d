(** Two runs that differ by a distant source, for the example of C16. *)
From Coq Require Import ZArith Reals List Bool String Lia Lra.
From Verif Require Import Scalar Base BaseFacts VecM GridM GeometryM MaterialM PmlM DftM TfsfM PolarM
  InterpM H5M ClockM MonitorM FieldM SpecGrid GridFacts OutFacts PhysFacts
  WfFacts ReachFacts SafetyFacts SpecSafety SafeFacts SpecStep StepFacts SpecSource SourceFacts ExampleFacts ExampleSrc
  SpecCone ConeFacts MemoryFacts.
Import ListNotations.
Local Open Scope Z_scope.

Section Refl.
Context {N : Num}.
Lemma alike_refl i j q : alike i j i j q q.
Proof. repeat split. Qed.
Lemma alike_all_refl {M} i j (P : list (string * (M * polar))) : alike_all i j i j P P.
Proof. induction P; constructor; [|assumption]. split; [reflexivity|]. split; [reflexivity|apply alike_refl]. Qed.
Lemma alike_prev_refl i j o : alike_prev i j i j o o.
Proof. destruct o; cbn; auto. Qed.
Lemma agree_srcs p r i j : same_drive (ph_grid p) r (ph_srcs p) i j -> agree_cell (set_ph_srcs r p) p i j.
Proof.
  intros H. constructor; cbn; try (repeat split; reflexivity); try apply alike_all_refl; try apply alike_prev_refl; try exact H.
Qed.
End Refl.

#[local] Existing Instance RNum.
Lemma src_cells_fun g k L L' : src_cells g k L -> src_cells g k L' -> L = L'.
Proof.
  destruct k as [q|s]; cbn.
  - intros (c & E & ->) (c' & E' & ->). rewrite E in E'. now injection E' as <-.
  - intros (a & b & Ea & Eb & ->) (a' & b' & Ea' & Eb' & ->). rewrite Ea in Ea'. rewrite Eb in Eb'. injection Ea' as <-. injection Eb' as <-. reflexivity.
Qed.
Lemma wire_far (g : grid) L i j : g_dx g = 1%R -> src_cells g (SLine wire_surf) L -> 3 <= j -> ~ In (i, j) L.
Proof.
  intros Hd (a & b & Ea & Eb & ->) Hj. cbn [wire_surf s_a s_b] in Ea, Eb.
  assert (Q : forall (u v : R) a b, u = IZR a -> v = IZR b -> is_int32 a -> is_int32 b -> to_grid g (u, v) = Ok (a, b)) by
    (intros u v a0 b0 -> -> Ka Kb; now apply to_grid_int).
  rewrite (Q 2%R 2%R 2 2) in Ea; try reflexivity; try (unfold is_int32; lia).
  rewrite (Q 5%R 2%R 5 2) in Eb; try reflexivity; try (unfold is_int32; lia).
  injection Ea as <-. injection Eb as <-. cbn. intros [Hc|[Hc|[Hc|[]]]]; injection Hc; lia.
Qed.

Lemma cone_case : exists (g : grid) s1 s2 s1' s2', mk_grid 8%R 8%R 1%R 1 = Ok g /\ apart g /\
  reachable g s1 /\ reachable g s2 /\ ph_srcs (f_ph s1) = [lamp; wire] /\ ph_srcs (f_ph s2) = [lamp] /\
  wf_phys (f_ph s1) /\ wf_phys (f_ph s2) /\ same_frame (f_ph s1) (f_ph s2) /\
  run (repeat Update 3) s1 = Fine s1' /\ run (repeat Update 3) s2 = Fine s2' /\
  agree_near (f_ph s1) (f_ph s2) 3 6 6.
Proof.
  destruct source_run as (g & s0 & s & Eg & Hok & Hg & E0 & Er & Hr & H1 & H2 & H3 & H4 & H5 & H6).
  destruct grid8 as (g' & Eg' & _ & Nx & Ny & Dx & _ & _ & Hp). rewrite Eg in Eg'. injection Eg' as <-.
  assert (Ha : apart g) by (unfold apart; lia).
  assert (Er' := Er). cbn [run exec] in Er'. apply obind_fine in Er'. destruct Er' as (s2 & E2 & Er').
  apply obind_fine in Er'. destruct Er' as (s3 & E3 & Er'). injection Er' as <-.
  assert (R0 : reachable g s0) by (exists "out"%string, s0, []; auto).
  assert (R2 : reachable g s2) by (apply (run_reachable g s0 [AddSource lamp]); [exact R0|cbn [run exec]; rewrite E2; reflexivity]).
  assert (Ep : f_ph s3 = set_ph_srcs (ph_srcs (f_ph s2) ++ [wire]) (f_ph s2)) by (unfold add_source in E3; inv_fine; reflexivity).
  assert (Em : f_mons s3 = f_mons s2 /\ f_tmons s3 = f_tmons s2 /\ f_clk s3 = f_clk s2) by (unfold add_source in E3; inv_fine; repeat split).
  destruct Em as (M1 & M2 & M3).
  assert (S2 : ph_srcs (f_ph s2) = [lamp]).
  { rewrite Ep in H6. cbn in H6. destruct (ph_srcs (f_ph s2)) as [|a [|b l]]; cbn in H6; try discriminate; [now injection H6 as ->|]. injection H6 as _ _ H6. destruct l; discriminate. }
  assert (I2 : sources_inside (f_ph s2)).
  { destruct H1 as [A B]. rewrite Ep in A, B. cbn in A, B. split; [|exact B]. intros r Hin. apply A. apply in_or_app. now left. }
  destruct (update_safe g s3 3 Hg Hr H1 H2 H3 H4) as (s1' & U1 & _); [rewrite H5; unfold INT_MIN, INT_MAX; lia..|].
  assert (N2 : ph_step (f_ph s2) = 0) by (rewrite Ep in H5; exact H5).
  destruct (update_safe g s2 3 Hg R2 I2) as (s2' & U2 & _); [unfold stopped in *; now rewrite <- M3|congruence|congruence|rewrite N2; unfold INT_MIN, INT_MAX; lia..|].
  destruct (reachable_good g s3 Hg Hr) as [W1 G1]. destruct (reachable_good g s2 Hg R2) as [W2 G2].
  exists g, s3, s2, s1', s2'. repeat (split; [assumption|]).
  split; [rewrite Ep; repeat split|]. split; [exact U1|]. split; [exact U2|].
  intros a b Ga Gb Da Db. rewrite Ep. apply agree_srcs. rewrite S2, G2. clear G1 G2. intros Ls Ls' F F' t c x.
  inversion F as [|? L1 ? ? K1 F1]; subst. inversion F1 as [|? L2 ? ? K2 F2]; subst. inversion F2; subst.
  inversion F' as [|? L1' ? ? K1' F1']; subst. inversion F1'; subst.
  rewrite <- (src_cells_fun _ _ _ _ K1 K1'). unfold lit. cbn [app combine fold_left].
  destruct (comp_eqb (sr_c wire) c); [|reflexivity]. apply add_at_miss. apply (wire_far g); [exact Dx|exact K2|lia].
Qed.
