(** Whole programs with a total-field region, and an example. *)
From Coq Require Import ZArith Reals String List Bool Lia Lra.
From Verif Require Import Scalar Base BaseFacts VecM GridM GeometryM MaterialM PmlM DftM TfsfM PolarM
  InterpM H5M ClockM MonitorM FieldM SpecGrid GridFacts OutFacts PhysFacts PaintFacts WfFacts ReachFacts InvFacts
  SpecStep StepFacts EngineFacts YeeFacts SpecSource SourceFacts PolarFacts FullStep TextbookFacts SpecWave DarkFacts
  PaintSafe SafeFacts ExampleFacts FlipRun SpecCone SpecRestart RestartLine RestartMap RestartFacts RestartRun SpecTfsf TfsfFacts.
From Verif Require Import OpsFacts.
Import ListNotations.
Local Open Scope Z_scope.
#[local] Existing Instance RNum.

Lemma watching_phys c p p' : watching c = true -> phys_exec c p = Fine p' -> (is_update c = true /\ phys_step p = Fine p') \/ (is_update c = false /\ p' = p).
Proof. destruct c; intros W H; try discriminate W; cbn in *; try (right; split; [reflexivity|congruence]); left; auto. Qed.

Lemma lit_run g f ia ib ja jb : (0 < g_dx g)%R -> g_dt g = (g_dx g / 2)%R -> apart g -> 1 <= g_pml g -> clear_of_pml g ia ib ja jb ->
  forall l n p p', forallb watching l = true -> lit_up g f ia ib ja jb n p -> phys_run l p = Fine p' ->
  lit_up g f ia ib ja jb (n + updates l) p'.
Proof.
  intros Hd Ht Ha H1 Hc. induction l as [|c l IH]; intros n p p' W L H; cbn [phys_run] in H.
  - injection H as <-. cbn. now rewrite Nat.add_0_r.
  - cbn [forallb] in W. apply andb_true_iff in W. destruct W as [Wc Wl]. apply obind_fine in H. destruct H as (p1 & E & H).
    unfold updates. cbn [filter]. destruct (watching_phys c p p1 Wc E) as [[U St]|[U ->]]; rewrite U.
    + cbn [length]. rewrite Nat.add_succ_r. change (S (n + updates l))%nat with (S n + updates l)%nat.
      apply (IH (S n) p1 p'); auto. now apply (lit_step g f ia ib ja jb n p p1).
    + now apply (IH n p p').
Qed.

(** nothing drives the field, nothing but vacuum in it *)
Definition idle_vacuum (g : grid) (p : phys) : Prop :=
  ph_grid p = g /\ wf_phys p /\ (forall i j, 0 <= i < g_Nx g -> 0 <= j < g_Ny g -> gcell (ph_C p) i j = gmat_cell vacuum (g_dt g)) /\
  (ph_debye p = [] /\ ph_drude p = [] /\ ph_lorentz p = []) /\ ph_srcs p = [] /\ ph_tfsf p = None.

Lemma idle_run g : apart g -> forall l p p', forallb watching l = true -> idle_vacuum g p -> phys_run l p = Fine p' -> idle_vacuum g p'.
Proof.
  intros Ha. induction l as [|c l IH]; intros p p' W L H; cbn [phys_run] in H; [injection H as <-; exact L|].
  cbn [forallb] in W. apply andb_true_iff in W. destruct W as [Wc Wl]. apply obind_fine in H. destruct H as (p1 & E & H).
  apply (IH p1 p'); auto. destruct (watching_phys c p p1 Wc E) as [[_ St]|[_ ->]]; [|exact L].
  destruct L as (G & Wf & C & (D1 & D2 & D3) & Sr & Tf).
  destruct (full_step p p1) as (F0 & F1 & F2 & E3 & Ls & u & h & CW); [now rewrite G|exact Wf|exact St|]. destruct CW.
  rewrite D1 in cw_debye. rewrite D2 in cw_drude. rewrite D3 in cw_lorentz. cbn [polar_all] in *.
  injection cw_debye as P1 _. injection cw_drude as P2 _. injection cw_lorentz as P3 _.
  apply static_eq in cw_static. destruct cw_static as (S1 & S2 & _). rewrite Tf in cw_line. injection cw_line as Tl.
  unfold idle_vacuum. rewrite S1, S2. rewrite Sr in cw_srcs. split; [exact G|]. split; [exact cw_wf|]. split; [rewrite <- G; rewrite G; exact C|]. split; [auto|]. split; [now destruct (ph_srcs p1)|auto].
Qed.

Lemma vacuum_empty g p : ph_grid p = g -> (forall i j, 0 <= i < g_Nx g -> 0 <= j < g_Ny g -> gcell (ph_C p) i j = gmat_cell vacuum (g_dt g)) ->
  empty_space g (med p).
Proof.
  intros G C i j Hi Hj. specialize (C i j Hi Hj). unfold gcell, gmat_cell in C. injection C as C1 C2 C3 C4. unfold med, med_of. cbn [mCa mCb mDa mDb].
  rewrite C1, C2, C3, C4. unfold vacuum, mat_Ca, mat_Cb, mat_Da, mat_Db, simple_Ca, simple_Cb. cbn [sm_eps sm_conduc]. rnum. change (@T RNum) with R.
  repeat split; try reflexivity; field.
Qed.

Lemma tfsf_lit_up Lx Ly rs pml g name s0 l1 s1 v tp s2 l2 s ia ja ib jb :
  (0 < Lx)%R -> (0 < Ly)%R -> (0 < rs)%R -> 0 <= pml -> mk_grid Lx Ly rs pml = Ok g ->
  mk_field g name = Ok s0 -> forallb watching l1 = true -> run l1 s0 = Fine s1 ->
  exec (SetTfsf v tp) s1 = Fine s2 -> forallb watching l2 = true -> run l2 s2 = Fine s ->
  to_grid g (v_a v) = Ok (ia, ja) -> to_grid g (v_b v) = Ok (ib, jb) -> clear_of_pml g ia ib ja jb ->
  lit_up g (shape_val (tp_shape tp)) ia ib ja jb (updates l2) (f_ph s).
Proof.
  intros HLx HLy Hrs Hpml Eg E0 W1 R1 Et W2 R2 Va Vb Hc.
  assert (Gok := mk_grid_ok Lx Ly rs pml g HLx HLy Hrs Eg). destruct Gok as (Hd & _ & _ & _ & _ & Ht2).
  assert (Ht : g_dt g = (g_dx g / 2)%R) by lra.
  assert (Th : 1 <= g_pml g) by (unfold mk_grid in Eg; inv_ok; cbn; lia).
  assert (Ha : apart g) by (unfold apart, clear_of_pml in *; lia).
  assert (Hr := apart_roomy g Ha).
  assert (I0 : idle_vacuum g (f_ph s0)).
  { unfold mk_field in E0. apply bind_ok in E0. destruct E0 as (p & Ep & E0). destruct (String.eqb name ""); [discriminate|]. inv_ok. cbn [f_ph].
    destruct (fresh_state g p Hr Ep) as (_ & (B1 & B2 & B3 & B4) & _ & _ & _ & C).
    destruct (mk_phys_ok g Hr) as (p' & Ep' & Hw & Gp & Sp & Tp & Op & Np). rewrite Ep in Ep'. injection Ep' as <-.
    unfold idle_vacuum. auto 10. }
  apply run_phys in R1 as P1. apply (idle_run g Ha l1) in P1; [|exact W1|exact I0]. destruct P1 as (G1 & Wf1 & C1 & B1 & S1 & T1).
  assert (Re1 : reachable g s1) by (apply (run_reachable g s0 l1 s1); [exists name, s0, []; split; [exact E0|reflexivity]|exact R1]).
  assert (D1 := stays_dark g s1 Re1 S1 T1).
  assert (Re2 : reachable g s2) by (apply (run_reachable g s1 [SetTfsf v tp] s2 Re1); cbn [run]; rewrite Et; reflexivity).
  destruct (reachable_good g s2 Hr Re2) as [Wf2 G2].
  apply exec_phys in Et. cbn [phys_exec] in Et. apply ok_out_fine in Et. unfold phys_set_tfsf in Et. apply bind_ok in Et.
  destruct Et as (q & Hq & Et). injection Et as Et. rewrite G1 in Hq.
  unfold mk_tfsf, to_grid_volume in Hq. rewrite Va in Hq. cbn [bind] in Hq. rewrite Vb in Hq. cbn [bind mk_ivolume iv_dim iv_a iv_b fst snd] in Hq.
  apply bind_ok in Hq. destruct Hq as (N & HN & Hq). apply bind_ok in Hq. destruct Hq as (z & Hz & Hq). apply bind_ok in Hq. destruct Hq as (d & _ & Hq).
  unfold i32 in HN. destruct (in_i32 _); [|discriminate]. injection HN as HN.
  unfold aconst in Hz. destruct (0 <=? N); [|discriminate]. injection Hz as <-.
  assert (EN : N = jb - ja + 5) by (unfold clear_of_pml in Hc; lia). clear HN. subst N.
  apply (f_equal (fun r => match r with Ok q => Some q | _ => None end)) in Hq. injection Hq as Hq.
  assert (L : lit_up g (shape_val (tp_shape tp)) ia ib ja jb 0 (f_ph s2)).
  { apply reachable_coefs in Re2 as Co; [|exact Ha]. rewrite <- Et in *. constructor.
    - exact G2.
    - exact Wf2.
    - apply vacuum_empty; [exact G2|exact C1].
    - apply coefs_flat; [exact Ha|exact Co].
    - exact B1.
    - exact S1.
    - exists q. rewrite <- Hq. cbn [q_ia q_ib q_ja q_jb q_N history fst snd]. do 6 (split; [reflexivity|]).
      constructor; cbn; intros; try reflexivity; try (rnum; change (@T RNum) with R; unfold Rdiv; lra).
      { unfold clear_of_pml in Hc. lia. }
      { auto. }
      change (@T RNum) with R. field.
    - intros i j. destruct D1. cbn. auto.
    - intros i j. destruct D1. cbn. auto.
    - intros i j. destruct D1. cbn. change (@T RNum) with R.
      repeat match goal with |- context [if ?b then _ else _] => destruct b end; auto. }
  apply run_phys in R2 as P2. now apply (lit_run g _ ia ib ja jb Hd Ht Ha Th Hc l2 0 (f_ph s2) (f_ph s) W2 L) in P2.
Qed.
Lemma tfsf_one_wave Lx Ly rs pml g name s0 l1 s1 v tp s2 l2 s ia ja ib jb :
  (0 < Lx)%R -> (0 < Ly)%R -> (0 < rs)%R -> 0 <= pml -> mk_grid Lx Ly rs pml = Ok g ->
  mk_field g name = Ok s0 -> forallb watching l1 = true -> run l1 s0 = Fine s1 ->
  exec (SetTfsf v tp) s1 = Fine s2 -> forallb watching l2 = true -> run l2 s2 = Fine s ->
  to_grid g (v_a v) = Ok (ia, ja) -> to_grid g (v_b v) = Ok (ib, jb) -> clear_of_pml g ia ib ja jb ->
  lit_box ia ib ja jb (incident (shape_val (tp_shape tp)) (jb - ja + 5) (g_dt g) (updates l2))
    (tval (fEz (ph_F (f_ph s)))) (tval (fHx (ph_F (f_ph s)))) (tval (fHy (ph_F (f_ph s)))).
Proof.
  intros H1 H2 H3 H4 H5 H6 H7 H8 H9 H10 H11 H12 H13 H14.
  exact (lu_box _ _ _ _ _ _ _ _ (tfsf_lit_up Lx Ly rs pml g name s0 l1 s1 v tp s2 l2 s ia ja ib jb H1 H2 H3 H4 H5 H6 H7 H8 H9 H10 H11 H12 H13 H14)).
Qed.

(** ** An example *)
Definition sun : tprofile := TProfile (Continuous (/ 2)%R) None.
Definition pane : volume := mk_volume (3%R, 3%R) (4%R, 4%R).

Lemma sun_half : shape_val (tp_shape sun) (/ 2)%R = 1%R.
Proof. cbn. rnum. change (@T RNum) with R. rewrite <- sin_PI2. f_equal. field. Qed.

Lemma sun_third : wE (incident (shape_val (tp_shape sun)) 6 (/ 2) 3) 3 = (/ 16)%R.
Proof.
  unfold incident. cbn [history fst snd still]. set (f := shape_val _). unfold advance. cbn [wE wH].
  repeat match goal with |- context [?a =? ?b] => let v := eval compute in (a =? b) in change (a =? b) with v end. cbn iota.
  change (INR 1) with 1%R. assert (F : f (1 * / 2)%R = 1%R) by (rewrite Rmult_1_l; exact sun_half). 
  cbn [wE wH]. rewrite F. change (@T RNum) with R. unfold still. cbn [wE wH]. lra.
Qed.

Lemma tfsf_case n : (n < 1000)%nat -> exists (g : grid) s0 s2 s,
  mk_grid 8%R 8%R 1%R 1 = Ok g /\ mk_field g "out" = Ok s0 /\ run [] s0 = Fine s0 /\
  exec (SetTfsf pane sun) s0 = Fine s2 /\ run (repeat Update n) s2 = Fine s /\
  to_grid g (v_a pane) = Ok (3, 3) /\ to_grid g (v_b pane) = Ok (4, 4) /\ clear_of_pml g 3 4 3 4 /\
  forallb watching (repeat Update n) = true /\ updates (repeat Update n) = n /\
  (n = 3%nat -> tval (fEz (ph_F (f_ph s))) 3 3 = (/ 16)%R /\ tval (fEz (ph_F (f_ph s))) 4 3 = (/ 16)%R /\ tval (fEz (ph_F (f_ph s))) 3 2 = 0%R).
Proof.
  intros Hn. destruct grid8 as (g & Eg & Hok & Nx & Ny & Dx & HLx & HLy & Hp).
  assert (Ha : apart g) by (unfold apart; lia). assert (Hr := apart_roomy _ Ha). assert (Dt := grid8_dt g Eg).
  destruct (mk_field_fresh g "out" Hr) as (p & Ep & E0); [discriminate|].
  destruct (mk_phys_ok g Hr) as (p' & Ep' & Hw & Gp & Sp & Tp & Op & Np). rewrite Ep in Ep'. injection Ep' as <-.
  set (s0 := Field p [] [] [] (fresh_h5 g) mk_clocks) in *.
  assert (R0 : reachable g s0) by (exists "out"%string, s0, []; split; [exact E0|reflexivity]).
  assert (Va : to_grid g (v_a pane) = Ok (3, 3)).
  { assert (H := round_trip_R g 3 3 ltac:(rewrite Dx; lra) ltac:(unfold is_int32; lia) ltac:(unfold is_int32; lia)). unfold to_real in H. rewrite Dx in H. revert H. rnum. cbn [fst snd]. rewrite !Rmult_1_l. auto. }
  assert (Vb : to_grid g (v_b pane) = Ok (4, 4)).
  { assert (H := round_trip_R g 4 4 ltac:(rewrite Dx; lra) ltac:(unfold is_int32; lia) ltac:(unfold is_int32; lia)). unfold to_real in H. rewrite Dx in H. revert H. rnum. cbn [fst snd]. rewrite !Rmult_1_l. auto. }
  assert (Hc : clear_of_pml g 3 4 3 4) by (unfold clear_of_pml; lia).
  assert (Q : exists q, mk_tfsf g sun pane (g_dt g) = Ok q /\ q_ia q = 3 /\ q_ja q = 3 /\ q_ib q = 4 /\ q_jb q = 4 /\ q_tp q = sun /\ q_vol q = pane).
  { unfold mk_tfsf, to_grid_volume. rewrite Va, Vb. cbn. eexists. split; [reflexivity|]. cbn. auto 10. }
  destruct Q as (q & Eq & Q1 & Q2 & Q3 & Q4 & Q5 & Q6).
  assert (Hf : exists f, write_tfsf (f_h5 s0) q = Ok f) by (unfold write_tfsf, tfsf_ops; rewrite Q5, Q6; eexists; reflexivity). destruct Hf as [f Hf].
  set (s2 := set_f_h5 f (map_ph (set_ph_tfsf (Some q)) s0)).
  assert (E2 : exec (SetTfsf pane sun) s0 = Fine s2).
  { cbn [exec]. unfold set_tfsf. change (ph_grid (f_ph s0)) with (ph_grid p). rewrite Gp, Eq. cbn [prim]. cbv zeta.
    change (f_h5 (map_ph (set_ph_tfsf (Some q)) s0)) with (f_h5 s0). rewrite Hf. reflexivity. }
  assert (R2 : reachable g s2) by (apply (SafeFacts.run_reachable g s0 [SetTfsf pane sun] s2 R0); cbn [run]; rewrite E2; reflexivity).
  destruct (reachable_good g s2 Hr R2) as [W2 G2].
  destruct (updates_ok n s2) as (s & E & _); try assumption; try reflexivity.
  - rewrite G2. exact Hr.
  - split; [cbn; rewrite Sp; constructor|]. rewrite G2. intros q' Hq'. cbn in Hq'. injection Hq' as <-. unfold tfsf_placed. lia.
  - unfold idle. cbn. auto 10.
  - cbn. rewrite Np. unfold INT_MIN. lia.
  - cbn [s2 set_f_h5 map_ph set_f_ph f_ph set_ph_tfsf ph_step s0]. rewrite Np. unfold INT_MAX. lia.
  - assert (Wn : forallb watching (repeat Update n) = true) by (clear; induction n; cbn; auto).
    assert (Un : updates (repeat Update n) = n) by (clear; unfold updates; induction n; cbn; auto).
    exists g, s0, s2, s. repeat (split; [assumption || reflexivity|]).
    intros ->. assert (L := tfsf_one_wave 8 8 1 1 g "out" s0 [] s0 pane sun s2 (repeat Update 3) s 3 3 4 4 ltac:(lra) ltac:(lra) ltac:(lra) ltac:(lia)
      Eg E0 eq_refl eq_refl E2 Wn E Va Vb Hc). rewrite Un, Dt in L. change (4 - 3 + 5) with 6 in L.
    destruct (L 3 3) as (L1 & _). destruct (L 4 3) as (L2 & _). destruct (L 3 2) as (L3 & _). rewrite L1, L2, L3. cbn [in_box_E]. unfold in_box_E. cbn.
    repeat split; apply sun_third.
Qed.

(** ** Starting again *)
Lemma updates_line g n : apart g -> forall p p' q, ph_grid p = g -> wf_phys p -> ph_tfsf p = Some q -> phys_run (repeat Update n) p = Fine p' ->
  ph_objs p' = ph_objs p /\ exists q', ph_tfsf p' = Some q' /\ q_vol q' = q_vol q /\ tp_shape (q_tp q') = tp_shape (q_tp q).
Proof.
  intros Ha. induction n as [|n IH]; intros p p' q G W E H; cbn [repeat phys_run] in H; [injection H as <-; eauto|].
  apply obind_fine in H. destruct H as (p1 & H1 & H). cbn [phys_exec] in H1.
  destruct (full_step p p1) as (F0 & F1 & F2 & E3 & Ls & u & h & CW); [now rewrite G|exact W|exact H1|]. destruct CW.
  apply static_eq in cw_static. destruct cw_static as (S1 & _ & S3 & _). rewrite E in cw_line. unfold line in cw_line. apply bind_ok in cw_line. destruct cw_line as (q1 & Hq & Eq). injection Eq as Eq.
  destruct (pulse_reset q q1 (wf_tfsf p W q E) Hq) as (_ & V & T). destruct (IH p1 p' q1) as (O & q' & E' & V' & T'); [congruence|exact cw_wf|now symmetry|exact H|].
  split; [congruence|]. exists q'. rewrite V', T', V, T. auto.
Qed.
Lemma restart_tfsf_case n : (n < 1000)%nat -> exists (g : grid) s0 s s1 sf s1' sf',
  mk_grid 8%R 8%R 1%R 1 = Ok g /\ apart g /\ mk_field g "out" = Ok s0 /\ run [SetTfsf pane sun; Update; Update; Update] s0 = Fine s /\ nothing_left (f_ph s) /\
  ph_srcs (f_ph s) = [] /\ ph_objs (f_ph s) = [] /\ same_tfsf (ph_tfsf (f_ph s)) [SetTfsf pane sun] /\
  run [ClearFields; UpdateMaterialGrid] s = Fine s1 /\ run [SetTfsf pane sun] s0 = Fine sf /\
  run (repeat Update n) s1 = Fine s1' /\ run (repeat Update n) sf = Fine sf' /\ tval (fEz (ph_F (f_ph s))) 3 3 = (/ 16)%R.
Proof.
  intros Hn. destruct (tfsf_case n Hn) as (g & s0 & s2 & fn & Eg & E0 & _ & E2 & En & Va & Vb & Hc & _).
  destruct (tfsf_case 3 ltac:(lia)) as (g' & s0' & s2' & s & Eg' & E0' & _ & E2' & E3 & _ & _ & _ & Wn & Un & Hv). rewrite Eg in Eg'. injection Eg' as <-. rewrite E0 in E0'. injection E0' as <-.
  rewrite E2 in E2'. injection E2' as <-. destruct (Hv eq_refl) as (V & _).
  destruct grid8 as (g' & Eg' & Hok & Nx & Ny & Dx & HLx & HLy & Hp). rewrite Eg in Eg'. injection Eg' as <-.
  assert (Ha : apart g) by (unfold apart; lia). assert (Hr := apart_roomy _ Ha).
  assert (R0 : reachable g s0) by (exists "out"%string, s0, []; split; [exact E0|reflexivity]).
  assert (R2 : run [SetTfsf pane sun] s0 = Fine s2) by (cbn [run]; rewrite E2; reflexivity).
  assert (El : run [SetTfsf pane sun; Update; Update; Update] s0 = Fine s) by (change [SetTfsf pane sun; Update; Update; Update] with ([SetTfsf pane sun] ++ repeat Update 3); rewrite run_app, R2; exact E3).
  assert (Re2 : reachable g s2) by (exact (SafeFacts.run_reachable g s0 _ s2 R0 R2)).
  assert (Re : reachable g s) by (exact (SafeFacts.run_reachable g s0 _ s R0 El)).
  assert (L := tfsf_lit_up 8 8 1 1 g "out" s0 [] s0 pane sun s2 (repeat Update 3) s 3 3 4 4 ltac:(lra) ltac:(lra) ltac:(lra) ltac:(lia) Eg E0 eq_refl eq_refl E2 Wn E3 Va Vb Hc).
  destruct L as [lu_grid0 lu_wf0 lu_em0 lu_fl0 lu_bare0 lu_srcs0 lu_q0 lu_e0 lu_h0 lu_box0]. assert (Bt := run_built g _ s0 s Ha R0 (fresh_built g _ s0 E0) El).
  assert (P2 := run_phys _ _ _ R2). apply run_cons in P2. destruct P2 as (pb & P2 & Q). apply run_nil in Q. subst pb. cbn [phys_exec] in P2. apply ok_out_fine in P2. unfold phys_set_tfsf in P2.
  apply bind_ok in P2. destruct P2 as (q & Hq & P2). injection P2 as P2. destruct (mk_tfsf_reset _ _ _ _ _ Hq) as (_ & Qv & Qt).
  destruct (fresh_facts g _ s0 E0) as ((_ & _ & _ & Ob & _) & _).
  destruct (reachable_good g s2 Hr Re2) as [W2 G2]. destruct (reachable_good g s Hr Re) as [W G].
  destruct (updates_line g 3 Ha (f_ph s2) (f_ph s) q G2 W2 ltac:(rewrite <- P2; reflexivity) (run_phys _ _ _ E3)) as (O & q' & Eq & Vq & Tq).
  assert (Os : ph_objs (f_ph s) = []) by (rewrite O, <- P2; exact Ob).
  assert (Pv2 : ph_prev2E (f_ph s) = None) by (destruct Bt as [_ _ _ _ Q]; rewrite Os in Q; cbn in Q; destruct (ph_prev2E (f_ph s)); [discriminate|reflexivity]).
  destruct (mk_field_fresh g "out" Hr) as (p & Ep & E0'); [discriminate|]. rewrite E0 in E0'. injection E0' as E0'.
  destruct (mk_phys_ok g Hr) as (p' & Ep' & _ & _ & Sp & _ & _ & Np). rewrite Ep in Ep'. injection Ep' as <-.
  assert (Fs : f_mons s2 = [] /\ f_tmons s2 = [] /\ f_clk s2 = mk_clocks).
  { cbn [exec] in E2. unfold set_tfsf in E2. apply prim_fine in E2. destruct E2 as (? & _ & E2). apply prim_fine in E2. destruct E2 as (? & _ & E2). injection E2 as <-. rewrite E0'. auto. }
  destruct Fs as (Fm & Ft & Fc). destruct lu_q0 as (q'' & Eq' & I1 & I2 & I3 & I4 & _). rewrite Eq in Eq'. injection Eq' as <-.
  assert (St2 : ph_step (f_ph s2) = 0) by (rewrite <- P2; cbn [set_ph_tfsf ph_step]; rewrite E0'; exact Np).
  assert (Pl2 : placed (f_ph s2)).
  { split; [rewrite <- P2; cbn; rewrite E0'; cbn; rewrite Sp; constructor|]. rewrite G2. intros x Hx. rewrite <- P2 in Hx. cbn in Hx. injection Hx as <-.
    rewrite E0' in Hq. cbn [f_ph] in Hq. unfold mk_tfsf, to_grid_volume in Hq. 
    assert (Gp : ph_grid p = g) by (destruct (reachable_good g s0 Hr R0) as [_ K]; rewrite E0' in K; exact K). rewrite Gp, Va, Vb in Hq. cbn in Hq. injection Hq as <-. unfold tfsf_placed. cbn. lia. }
  assert (Id2 : idle s2) by (unfold idle; rewrite Fc; split; reflexivity).
  destruct (updates_ok 3 s2) as (s' & E3' & _ & Pl & Fm' & Ft' & Id & St); try assumption; try (rewrite G2; exact Hr); try (rewrite St2; unfold INT_MIN, INT_MAX; lia).
  rewrite E3 in E3'. injection E3' as <-.
  destruct (update_material_grid_domain g (clear_fields_phys (f_ph s)) Hok G (clear_fields_wf _ W)) as [p1 E1'].
  { change (ph_objs (clear_fields_phys (f_ph s))) with (ph_objs (f_ph s)). rewrite Os. intros o []. }
  assert (W1 := update_material_grid_wf _ _ E1' (clear_fields_wf _ W)). assert (C1 := clear_facts _ _ E1').
  destruct C1 as ((C1 & C2 & C3 & C4 & C5 & C6 & C7) & _).
  set (s1 := set_f_ph p1 (map_ph clear_fields_phys s)).
  assert (R1 : run [ClearFields; UpdateMaterialGrid] s = Fine s1).
  { cbn [run exec]. unfold clear_fields. cbn [obind]. unfold on_ph. change (f_ph (map_ph clear_fields_phys s)) with (clear_fields_phys (f_ph s)). rewrite E1'. reflexivity. }
  destruct (updates_ok n s1) as (sn & Esn & _); try assumption.
  { change (f_ph s1) with p1. rewrite C1, G. exact Hr. }
  { change (f_ph s1) with p1. destruct Pl as [Pl1 Pl3]. split; [rewrite C1, C5; exact Pl1|]. rewrite C3, C1. intros x Hx. rewrite Eq in Hx. injection Hx as <-. exact (Pl3 q' Eq). }
  { change (f_ph s1) with p1. rewrite C7. unfold INT_MIN. lia. }
  { change (f_ph s1) with p1. rewrite C7. unfold INT_MAX. lia. }
  exists g, s0, s, s1, s2, sn, fn. repeat (split; [assumption|]).
  split. { split; [|left; exact Pv2]. split; repeat split; intros i j; first [apply (lu_e0 i j)|apply (lu_h0 i j)]. }
  repeat (split; [assumption|]). split; [|repeat (split; [assumption|]); exact V].
  rewrite Eq. exists sun. rewrite Vq, Qv. split; [reflexivity|]. rewrite Tq, Qt. reflexivity.
Qed.
