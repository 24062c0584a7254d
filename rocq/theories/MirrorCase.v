(** Two lamps that are mirror images: alike in the middle of a large grid, not next to the sides. *)
From Coq Require Import ZArith Reals List Bool String Lia Lra.
From Verif Require Import Scalar Base BaseFacts VecM GridM GeometryM MaterialM PmlM DftM TfsfM PolarM
  InterpM H5M ClockM MonitorM FieldM SpecGrid GridFacts OutFacts PhysFacts PaintFacts
  WfFacts ReachFacts SafetyFacts SpecSafety SafeFacts SpecStep StepFacts EngineFacts YeeFacts TextbookFacts SpecSource SourceFacts ExampleFacts ExampleSrc MemoryFacts
  FullStep SpecWave DarkFacts SpecTfsf TfsfFacts SpecCone ConeFacts ConeRun SumStep SumRun FlipRun RestartRun MagnetFacts SpecMirror MirrorFacts MirrorRun EnergyRun.
Import ListNotations.
Local Open Scope Z_scope.
#[local] Existing Instance RNum.

Definition lamp_at (i j : Z) (f : R) : source := Source "lamp" Ez (SPoint (IZR i, IZR j)) (TProfile (Continuous f) None).

Lemma lamp_cells (g : grid) i j f L : g_dx g = 1%R -> is_int32 i -> is_int32 j -> src_cells g (sr_kind (lamp_at i j f)) L -> L = [(i, j)].
Proof. intros D Hi Hj (c & E & ->). cbn [lamp_at sr_kind] in E. rewrite (to_grid_int g i j D Hi Hj) in E. now injection E as <-. Qed.
Lemma lamp_list (g : grid) i j f Ls : g_dx g = 1%R -> is_int32 i -> is_int32 j ->
  Forall2 (fun r L => src_cells g (sr_kind r) L) [lamp_at i j f] Ls -> Ls = [[(i, j)]].
Proof.
  intros D Hi Hj F. inversion F as [|? L ? ? K F1]; subst. inversion F1; subst. now rewrite (lamp_cells g i j f L D Hi Hj K).
Qed.
Lemma lamp_lit t i j f c a b (x : R) : lit t (combine [lamp_at i j f] [[(i, j)]]) c a b x =
  (if (i =? a) && (j =? b) then if comp_eqb Ez c then x + sin (2 * PI * f * t) else x else x)%R.
Proof.
  unfold lit. cbn [combine fold_left lamp_at sr_c sr_tp tp_shape]. unfold add_at. cbn [fold_left fst snd].
  destruct c; cbn [comp_eqb]; destruct ((i =? a) && (j =? b)) eqn:E; rewrite ?E; cbn [andb]; rnum; change (@T RNum) with R; try reflexivity;
    unfold shape_val; rnum; reflexivity.
Qed.

Section Lamp.
Variables (g : grid) (i j : Z) (f : R).
Hypothesis Ha : apart g.
Hypothesis Dx : g_dx g = 1%R.
Hypothesis Hi : 0 <= i < g_Nx g.
Hypothesis Hj : 0 <= j < g_Ny g.
Hypothesis Ii : is_int32 i.
Hypothesis Ij : is_int32 j.
Lemma lamp_run n : (n < 1000)%nat -> exists p s s', mk_phys g = Ok p /\ f_ph s = set_ph_srcs [lamp_at i j f] p /\ reachable g s /\ run (repeat Update n) s = Fine s'.
Proof.
  intros Hn. assert (Hr := apart_roomy _ Ha).
  destruct (mk_field_fresh g "out" Hr) as (p & Ep & E0); [discriminate|].
  destruct (mk_phys_ok g Hr) as (p' & Ep' & Hw & Gp & Sp & Tp & Op & Np). rewrite Ep in Ep'. injection Ep' as <-.
  set (s0 := Field p [] [] [] (fresh_h5 g) mk_clocks) in *.
  assert (R0 : reachable g s0) by (exists "out"%string, s0, []; auto).
  assert (Hf : exists h, write_src (fresh_h5 g) (lamp_at i j f) = Ok h) by (eexists; reflexivity). destruct Hf as [h Hf].
  assert (A := add_run [lamp_at i j f] s0 h ltac:(cbn [foldM]; cbn [f_h5 s0]; rewrite Hf; reflexivity)). set (s' := map_ph _ _) in A.
  assert (R' : reachable g s') by now apply (run_reachable g s0 (map AddSource [lamp_at i j f])).
  assert (Ep2 : f_ph s' = set_ph_srcs [lamp_at i j f] p) by (cbn; now rewrite Sp).
  destruct (update_safe g s' n Hr R') as (s2 & E2 & _).
  - rewrite Ep2. split; [|cbn; rewrite Tp; discriminate]. cbn. intros r' [<-|[]]. split; [now left|].
    exists (i, j). split; [rewrite Gp; now apply to_grid_int|]. rewrite Gp. split; assumption.
  - split; reflexivity. - reflexivity. - reflexivity.
  - rewrite Ep2. cbn. rewrite Np. unfold INT_MIN. lia.
  - rewrite Ep2. cbn. rewrite Np. unfold INT_MAX. lia.
  - exists p, s', s2. auto.
Qed.
Lemma lamp_mirror p : mk_phys g = Ok p -> is_int32 (g_Nx g - 1 - i) ->
  mirror_state (set_ph_srcs [lamp_at i j f] p) (set_ph_srcs [lamp_at (g_Nx g - 1 - i) j f] p).
Proof.
  intros P1 In. assert (Hr := apart_roomy _ Ha).
  destruct (mk_phys_ok g Hr) as (p' & Ep' & _ & Gp & Sp & Tp & _). rewrite P1 in Ep'. injection Ep' as <-.
  destruct (fresh_state g p Hr P1) as (D & (B1 & B2 & B3 & B4) & F1 & F2 & F3 & F4).
  constructor; cbn [set_ph_srcs ph_grid ph_t ph_tfsf]; auto.
  rewrite Gp. intros a b Hab Hbb. destruct D. constructor; cbn [set_ph_srcs ph_grid ph_F ph_C ph_pml ph_debye ph_drude ph_lorentz ph_prevE ph_prev2E ph_srcs]; rewrite ?Gp.
  - unfold mirror_field, z2 in *. rewrite ?d_E, ?d_X, ?d_Y. repeat split; intros; rewrite ?d_E, ?d_X, ?d_Y; lra.
  - assert (Y1 := F4 a b Hab Hbb). assert (Y2 := F4 (g_Nx g - 1 - a) b ltac:(lia) Hbb). rewrite <- Y1 in Y2. unfold gcell in Y2.
    injection Y2 as Z1 Z2 Z3 Z4. split; assumption.
  - unfold mirror_memory, z2 in *. split; repeat split; intros _; rewrite ?d_x1, ?d_x2, ?d_y1, ?d_y2, ?d_hx1, ?d_hx2, ?d_hy1, ?d_hy2; lra.
  - rewrite B1. constructor.
  - rewrite B2. constructor.
  - rewrite B3. constructor.
  - rewrite F1. exact I.
  - rewrite F2. exact I.
  - unfold mirror_drive. intros Ls Ls' K K' t x. apply lamp_list in K, K'; try assumption. rewrite K, K', !lamp_lit. cbn [comp_eqb].
    replace (g_Nx g - 1 - i =? g_Nx g - 1 - a) with (i =? a) by lia. split; [reflexivity|]. split; [reflexivity|]. intros _.
    repeat match goal with |- context [if ?c then _ else _] => destruct c end; reflexivity.
Qed.
End Lamp.

(** ** A lamp left of the middle of 64 columns and its mirror image *)
Lemma grid_64 : exists g : grid, mk_grid 64%R 64%R 1%R 1 = Ok g /\ grid_ok g /\ g_Nx g = 64 /\ g_Ny g = 64 /\ g_dx g = 1%R /\ g_dt g = (/ 2)%R /\ g_pml g = 2.
Proof.
  destruct (mk_grid_spec 64 64 1 1) as [g [E H]]; try lra; try (unfold INT_MAX; lra).
  destruct H as (H1 & H2 & _ & Hd & Hp & HL & HLy & _ & _ & _ & Ht & Hm). exists g. split; [exact E|].
  assert (Nx : g_Nx g = 64) by (assert (63 < g_Nx g <= 64); [|lia]; split; [apply lt_IZR|apply Z.lt_succ_r, lt_IZR; rewrite succ_IZR]; lra).
  assert (Ny : g_Ny g = 64) by (assert (63 < g_Ny g <= 64); [|lia]; split; [apply lt_IZR|apply Z.lt_succ_r, lt_IZR; rewrite succ_IZR]; lra).
  split; [eapply mk_grid_ok; [| | |exact E]; lra|]. repeat split; try lra; try lia.
Qed.

Lemma far_dark (g : grid) s k x i j f : apart g -> g_dx g = 1%R -> is_int32 i -> is_int32 j -> reachable g s ->
  (exists p, mk_phys g = Ok p /\ f_ph s = set_ph_srcs [lamp_at i j f] p) -> (k < 1000)%nat -> run (repeat Update k) s = Fine x ->
  forall a b, 0 <= a < g_Nx g -> 0 <= b < g_Ny g -> Z.of_nat k < Z.abs (a - i) -> tval (fEz (ph_F (f_ph x))) a b = 0%R.
Proof.
  intros Ha Dx Ii Ij Rs (p & Pp & Ps) Hk Hx a b Hab Hbb Far. assert (Hr := apart_roomy _ Ha).
  destruct (mk_field_fresh g "out" Hr) as (p1 & Ep & E0); [discriminate|]. rewrite Pp in Ep. injection Ep as <-.
  destruct (mk_phys_ok g Hr) as (p1 & Ep & Hw & Gp & Sp & Tp & Op & Np). rewrite Pp in Ep. injection Ep as <-.
  set (s0 := Field p [] [] [] (fresh_h5 g) mk_clocks) in *.
  assert (R0 : reachable g s0) by (exists "out"%string, s0, []; auto).
  destruct (fresh_state g p Hr Pp) as (D0 & Ba & _).
  destruct (update_safe g s0 k Hr R0) as (y & Hy & _); cbn [s0 f_ph f_mons f_tmons]; try reflexivity.
  { split; [rewrite Sp; intros r []|rewrite Tp; discriminate]. }
  { split; reflexivity. }
  { rewrite Np. unfold INT_MIN. lia. } { rewrite Np. unfold INT_MAX. lia. }
  assert (Ry : reachable g y) by exact (run_reachable g s0 _ y R0 Hy).
  assert (Gs : ph_grid (f_ph s) = g) by (rewrite Ps; exact Gp).
  assert (C := cone k s s0 x y a b). cbv zeta in C. rewrite Gs in C.
  destruct (reachable_good g s Hr Rs) as [W1 _]. destruct (reachable_good g s0 Hr R0) as [W2 _].
  specialize (C Ha W1 W2 ltac:(rewrite Ps; repeat split) Hx Hy Hab Hbb).
  assert (C' : agree_cell (f_ph x) (f_ph y) a b).
  { apply C. rewrite Ps. intros u v Hu Hv Du Dv. cbn [set_ph_srcs ph_grid] in Hu, Hv. change (f_ph s0) with p. apply agree_srcs. rewrite Gp, Sp. intros Ls Ls' K K' t c z.
    apply lamp_list in K; try assumption. rewrite K, lamp_lit. replace (i =? u) with false by lia. inversion K'; subst. reflexivity. }
  destruct C' as [(A & _) _ _ _ _ _ _ _ _]. change (@T RNum) with R in *. rewrite A.
  assert (Dy : dark (f_ph y)).
  { destruct (EnergyRun.updates_keep g k Ha (f_ph s0) (f_ph y)) as (A1 & A2); auto; [exact (run_phys _ _ _ Hy)|]. now apply (stays_dark g y Ry). }
  destruct Dy. apply d_E.
Qed.

Lemma mirror_case (n : nat) : (n <= 25)%nat -> exists (g : grid) s1 s2 s1' s2', mk_grid 64%R 64%R 1%R 1 = Ok g /\ apart g /\ 3 <= g_Nx g /\ reachable g s1 /\ reachable g s2 /\
  ph_srcs (f_ph s1) = [lamp_at 31 20 (/ 10)%R] /\ ph_srcs (f_ph s2) = [lamp_at 32 20 (/ 10)%R] /\ mirror_state (f_ph s1) (f_ph s2) /\
  (forall k x, (k <= n)%nat -> run (repeat Update k) s1 = Fine x -> sides_dark g (f_ph x)) /\
  run (repeat Update n) s1 = Fine s1' /\ run (repeat Update n) s2 = Fine s2'.
Proof.
  intros Hn. destruct grid_64 as (g & Eg & Hok & Nx & Ny & Dx & Dt & Hp). assert (Ha : apart g) by (unfold apart; lia).
  destruct (lamp_run g 31 20 (/ 10)%R Ha Dx ltac:(lia) ltac:(lia) ltac:(unfold is_int32; lia) ltac:(unfold is_int32; lia) n ltac:(lia)) as (p & s1 & s1' & P1 & E1 & R1 & U1).
  destruct (lamp_run g 32 20 (/ 10)%R Ha Dx ltac:(lia) ltac:(lia) ltac:(unfold is_int32; lia) ltac:(unfold is_int32; lia) n ltac:(lia)) as (p2 & s2 & s2' & P2 & E2 & R2 & U2).
  rewrite P1 in P2. injection P2 as <-. exists g, s1, s2, s1', s2'.
  split; [exact Eg|]. split; [exact Ha|]. split; [lia|]. split; [exact R1|]. split; [exact R2|].
  split; [now rewrite E1|]. split; [now rewrite E2|]. split; [|split; [|split; assumption]].
  - rewrite E1, E2. assert (M := lamp_mirror g 31 20 (/ 10)%R Ha Dx ltac:(unfold is_int32; lia) ltac:(unfold is_int32; lia) p P1). rewrite Nx in M.
    apply M. unfold is_int32. lia.
  - intros k x Hk Hx j Hj i Hi. apply (far_dark g s1 k x 31 20 (/ 10)%R); try assumption; try (unfold is_int32; lia). exists p; auto.
Qed.

(** ** Next to the sides *)
Lemma bare_ez p p' i j : apart (ph_grid p) -> wf_phys p -> bare p -> phys_step p = Fine p' ->
  exists Ls, Forall2 (fun r L => src_cells (ph_grid p) (sr_kind r) L) (ph_srcs p) Ls /\ map src_core (ph_srcs p') = map src_core (ph_srcs p) /\ bare p' /\ wf_phys p' /\ med p' = med p /\ ph_grid p' = ph_grid p /\
  ph_t p' = (ph_t p + g_dt (ph_grid p))%R /\
  tval (fEz (ph_F p')) i j = lit (ph_t p + g_dt (ph_grid p))%num (combine (ph_srcs p) Ls) Ez i j (eE (grid_next_e p (e_of p) (hX (h_of p)) (hY (h_of p))) i j).
Proof.
  intros Ha Hw (B1 & B2 & B3 & B4) Hp.
  destruct (full_step p p' Ha Hw Hp) as (E0 & E1 & E2 & E3 & Ls & u & h & [A1 A2 A3 A4 A5 A6 A7 A8 A9 A10 A11 A12 A13 A14 A15 A16]).
  rewrite B1, B2, B3, B4 in *. cbn [polar_all] in A3, A4, A5. injection A3 as A3 F1. injection A4 as A4 F2. injection A5 as A5 F3. injection A10 as A10.
  apply cells_weaken in A7. exists Ls. split; [exact A7|]. split; [exact A8|]. split; [repeat split; congruence|]. split; [exact A14|].
  assert (Hm := med_static _ _ A13). split; [exact Hm|]. apply static_eq in A13. split; [exact (proj1 A13)|]. split; [exact A15|].
  destruct A9 as (AE & _). change (tval (fEz (ph_F p')) i j) with (eE (e_of p') i j). rewrite AE. cbn [eE]. unfold lits, tf. rewrite <- A1, <- A2, F1, F2, F3. reflexivity.
Qed.
Lemma c_edge (g : grid) md : cpml_coefs g md -> g_pml g = 2 -> g_dx g = 1%R -> g_dt g = (/ 2)%R -> (0 < 1 + cEx md 1)%R.
Proof.
  intros (C & _) Hp Hd Ht. destruct (C 1 ltac:(lia)) as ((_ & K & _) & _). rewrite K, Hp, Hd, Ht.
  assert (X : (cpml_c 2 1 (/ 2) (IZR 1) = cpml_b 2 1 (/ 2) (IZR 1) - 1)%R).
  { unfold cpml_c. set (b := cpml_b _ _ _ _). unfold sigma, kappa, alpha, depth. rnum. change (@T RNum) with R in *. cbn [npow]. rnum. change (@T RNum) with R in *. cbn. change (Pos.to_nat 3) with 3%nat. change (Pos.to_nat 2) with 2%nat. change (Pos.to_nat 1) with 1%nat. match goal with |- context [exp ?z] => generalize (exp z) end. intros z. field. }
  change (nofZ 1) with (IZR 1). change (@T RNum) with R in *. rewrite X. unfold cpml_b. rnum. assert (Y := exp_pos). change (@T RNum) with R in *.
  match goal with |- context [exp ?z] => specialize (Y z) end. lra.
Qed.

Lemma left_e md (hx hy : cells) (u : emag) : eE (next_e 8 8 2 1%R md hx hy u) 1 4 =
  (mCa md 1%Z 4%Z * eE u 1%Z 4%Z + mCb md 1%Z 4%Z * ((hy 1%Z 4%Z - hy 0%Z 4%Z) / sEx md 1 + (hx 1%Z 3%Z - hx 1%Z 4%Z) / sEy md 4)
   + mCb md 1%Z 4%Z * (bEx md 1 * eXl u 1%Z 4%Z + cEx md 1 * (hy 1%Z 4%Z - hy 0%Z 4%Z) / 1))%R.
Proof. reflexivity. Qed.
Lemma right_e md (hx hy : cells) (u : emag) : eE (next_e 8 8 2 1%R md hx hy u) 6 4 =
  (mCa md 6%Z 4%Z * eE u 6%Z 4%Z + mCb md 6%Z 4%Z * ((hy 6%Z 4%Z - hy 5%Z 4%Z) / sEx md 6 + (hx 6%Z 3%Z - hx 6%Z 4%Z) / sEy md 4)
   + mCb md 6%Z 4%Z * (bEx md 1 * eXh u 1%Z 4%Z + cEx md 1 * (hy 6%Z 4%Z - hy 5%Z 4%Z) / 1))%R.
Proof. reflexivity. Qed.
Lemma lit_again (g : grid) r i j f Ls t a b (x : R) : g_dx g = 1%R -> is_int32 i -> is_int32 j -> map src_core r = map src_core [lamp_at i j f] ->
  Forall2 (fun r L => src_cells g (sr_kind r) L) r Ls -> lit t (combine r Ls) Ez a b x = (if (i =? a) && (j =? b) then x + sin (2 * PI * f * t) else x)%R.
Proof.
  intros Dx Hi Hj M F. rewrite (lit_core t Ez a b r _ _ x M). apply (cells_core g r _ Ls M) in F. apply lamp_list in F; try assumption. rewrite F, lamp_lit. reflexivity.
Qed.

Lemma mirror_fails : ~ (forall (g : grid) s1 s2 n s1' s2', apart g -> 3 <= g_Nx g -> reachable g s1 -> reachable g s2 -> mirror_state (f_ph s1) (f_ph s2) ->
  run (repeat Update n) s1 = Fine s1' -> run (repeat Update n) s2 = Fine s2' ->
  forall i j, 0 <= i < g_Nx g -> 0 <= j < g_Ny g -> tval (fEz (ph_F (f_ph s2'))) (g_Nx g - 1 - i) j = tval (fEz (ph_F (f_ph s1'))) i j).
Proof.
  intros H. destruct grid8 as (g & Eg & Hok & Nx & Ny & Dx & HLx & HLy & Hp). assert (Ha : apart g) by (unfold apart; lia). assert (Dt := grid8_dt g Eg).
  destruct (lamp_run g 1 4 (/ 2)%R Ha Dx ltac:(lia) ltac:(lia) ltac:(unfold is_int32; lia) ltac:(unfold is_int32; lia) 2 ltac:(lia)) as (p & s1 & s1' & P1 & E1 & R1 & U1).
  destruct (lamp_run g 6 4 (/ 2)%R Ha Dx ltac:(lia) ltac:(lia) ltac:(unfold is_int32; lia) ltac:(unfold is_int32; lia) 2 ltac:(lia)) as (p2 & s2 & s2' & P2 & E2 & R2 & U2).
  rewrite P1 in P2. injection P2 as <-.
  assert (MS : mirror_state (f_ph s1) (f_ph s2)).
  { rewrite E1, E2. assert (M := lamp_mirror g 1 4 (/ 2)%R Ha Dx ltac:(unfold is_int32; lia) ltac:(unfold is_int32; lia) p P1). rewrite Nx in M. apply M. unfold is_int32. lia. }
  assert (K := H g s1 s2 2%nat s1' s2' Ha ltac:(lia) R1 R2 MS U1 U2 1 4 ltac:(lia) ltac:(lia)). clear H.
  assert (Hr := apart_roomy _ Ha).
  destruct (reachable_good g s1 Hr R1) as [W1 G1]. destruct (reachable_good g s2 Hr R2) as [W2 G2].
  assert (C1 := reachable_coefs g s1 Ha R1). assert (C2 := reachable_coefs g s2 Ha R2).
  assert (N1 := reachable_nonmag g s1 R1). assert (N2 := reachable_nonmag g s2 R2).
  destruct (fresh_state g p Hr P1) as (D & Ba & _ & _ & T0 & Fc).
  apply run_phys in U1, U2. cbn [repeat phys_run phys_exec] in U1, U2.
  apply obind_fine in U1. destruct U1 as (q1 & S1 & U1). apply obind_fine in U1. destruct U1 as (q1' & S1' & U1). injection U1 as U1.
  apply obind_fine in U2. destruct U2 as (q2 & S2 & U2). apply obind_fine in U2. destruct U2 as (q2' & S2' & U2). injection U2 as U2.
  assert (B1 : bare (f_ph s1)) by (rewrite E1; exact Ba). assert (B2 : bare (f_ph s2)) by (rewrite E2; exact Ba).
  assert (D1 : dark (f_ph s1)) by (rewrite E1; destruct D; constructor; assumption).
  assert (D2 : dark (f_ph s2)) by (rewrite E2; destruct D; constructor; assumption).
  assert (L1 : ph_srcs (f_ph s1) = [lamp_at 1 4 (/ 2)%R]) by now rewrite E1.
  assert (L2 : ph_srcs (f_ph s2) = [lamp_at 6 4 (/ 2)%R]) by now rewrite E2.
  assert (T1 : ph_t (f_ph s1) = 0%R) by now rewrite E1. assert (T2 : ph_t (f_ph s2) = 0%R) by now rewrite E2.
  assert (V1 : mCb (med (f_ph s1)) 1 4 = (/ 2)%R).
  { rewrite E1. assert (Y := Fc 1 4 ltac:(lia) ltac:(lia)). unfold gcell, gmat_cell in Y. injection Y as _ Y _ _. change (tval (cCb (ph_C p)) 1 4 = (/ 2)%R). rewrite Y, Dt. unfold mat_Cb, vacuum. cbn. lra. }
  clear E1 E2 Fc Ba D T0.
  rewrite <- G1 in Ha. assert (Ha2 : apart (ph_grid (f_ph s2))) by (rewrite G2, <- G1; exact Ha).
  rewrite <- G1 in C1, N1. rewrite <- G2 in C2, N2.
  destruct (mirror_half (f_ph s1) (f_ph s2) q1 q2) as (X1 & X2 & X3 & X4 & X5 & X6); try assumption; [rewrite G1; lia|].
  destruct (bare_ez (f_ph s1) q1 1 4 Ha W1 B1 S1) as (Ls & F1 & M1 & B1' & W1' & Md1 & Gq1 & Tq1 & Z1).
  destruct (bare_ez (f_ph s1) q1 0 4 Ha W1 B1 S1) as (Ls0 & F0 & _ & _ & _ & _ & _ & _ & Z0).
  destruct (bare_ez (f_ph s2) q2 6 4 Ha2 W2 B2 S2) as (Ls2 & F2 & M2 & B2' & W2' & Md2 & Gq2 & Tq2 & Z2).
  destruct (plain_side (f_ph s1) q1 4) as (Ls3 & F3 & P0 & _); try assumption; [rewrite G1; lia|exact (proj2 (proj2 (proj2 B1)))|].
  destruct (plain_side (f_ph s2) q2 4) as (Ls4 & F4 & _ & Q1); try assumption; [rewrite G2; lia|exact (proj2 (proj2 (proj2 B2)))|].
  rewrite L1 in *. rewrite L2 in *. rewrite G1 in *. rewrite G2 in *.
  apply lamp_list in F1, F0, F2, F3, F4; try assumption; try (unfold is_int32; lia). rewrite F1 in *. rewrite F0 in *. rewrite F2 in *. rewrite F3 in *. rewrite F4 in *. clear F0 F1 F2 F3 F4.
  rewrite lamp_lit in Z1, Z0, P0, Q1. cbn [comp_eqb andb Z.eqb Pos.eqb] in Z1, Z0, P0, Q1.
  change (hX (h_of (f_ph s1))) with (tval (fHx (ph_F (f_ph s1)))) in *. change (hY (h_of (f_ph s1))) with (tval (fHy (ph_F (f_ph s1)))) in *.
  destruct D1, D2. unfold z2 in *.
  assert (e0 : tval (fEz (ph_F q1)) 0 4 = 0%R) by (rewrite Z0; unfold grid_next_e; rewrite G1, Nx, Ny; cbn [next_e eE core]; apply d_E).
  assert (e1 : tval (fEz (ph_F q1)) 1 4 = 1%R).
  { rewrite Z1. unfold grid_next_e. rewrite G1, Nx, Ny, Hp, Dx, left_e. cbn [e_of eE eXl]. rewrite d_E, !d_Y, !d_X, d_x1, T1, Dt. rnum. change (@T RNum) with R.
    replace (2 * PI * / 2 * (0 + / 2))%R with (PI / 2)%R by (field). rewrite sin_PI2. unfold Rdiv. ring. }
  assert (y0 : tval (fHy (ph_F q1)) 0 4 = 0%R) by (rewrite P0; apply d_Y).
  assert (e6 := X5 1 4 ltac:(lia) ltac:(lia)). assert (e7 := X5 0 4 ltac:(lia) ltac:(lia)). rewrite Nx in e6, e7. cbn [Z.sub Z.add Z.opp Z.pos_sub Pos.pred_double] in e6, e7.
  assert (y6 : tval (fHy (ph_F q2)) 6 4 = (- / 2)%R).
  { rewrite Nx, Ny, Dt, Dx in Q1. change (8 - 2) with 6 in Q1. change (8 - 1) with 7 in Q1. cbn [andb Z.leb Z.ltb Z.compare Pos.compare Pos.compare_cont Pos.eqb] in Q1.
    rewrite d_Y0 in Q1. change (@T RNum) with R in *. rewrite Q1. replace (tval (fEz (ph_F q2)) 7 4) with 0%R by (symmetry; now rewrite e7, e0).
    replace (tval (fEz (ph_F q2)) 6 4) with 1%R by (symmetry; now rewrite e6, e1). field. }
  destruct (X6 1 4 ltac:(lia) ltac:(lia) ltac:(lia)) as [(_ & M3 & M4) (M5 & M6) ((M7 & _) & _) _ _ _ _ _ _].
  destruct (X6 1 3 ltac:(lia) ltac:(lia) ltac:(lia)) as [(_ & M8 & _) _ _ _ _ _ _ _ _].
  rewrite X1, ?Nx, ?Hp in M3, M4, M5, M6, M8. rewrite X1, Hp in M7. specialize (M4 ltac:(lia)). specialize (M7 ltac:(lia)).
  change (8 - 1 - 1) with 6 in *. change (8 - 2 - 1) with 5 in *.
  assert (Fl1 := coefs_flat g _ Ha C1). assert (Fl2 := coefs_flat g _ Ha C2).
  destruct (bare_ez q1 q1' 1 4 ltac:(now rewrite X1) W1' B1' S1') as (Ks & F1 & _ & _ & _ & _ & _ & _ & Y1).
  destruct (bare_ez q2 q2' 6 4 ltac:(now rewrite X2) W2' B2' S2') as (Ks' & F2 & _ & _ & _ & _ & _ & _ & Y2).
  rewrite X1 in F1, Y1. rewrite X2 in F2, Y2.
  rewrite (lit_again g (ph_srcs q1) 1 4 (/ 2) Ks) in Y1; try assumption; try (unfold is_int32; lia).
  rewrite (lit_again g (ph_srcs q2) 6 4 (/ 2) Ks') in Y2; try assumption; try (unfold is_int32; lia).
  rewrite <- U1, <- U2, Nx in K. change (8 - 1 - 1) with 6 in K. cbn [andb Z.eqb Pos.eqb] in Y1, Y2.
  assert (Cc : forall d, 0 <= d <= 2 -> bEx (med q2) d = bEx (med q1) d /\ cEx (med q2) d = cEx (med q1) d).
  { intros d Hd. rewrite Md1, Md2. destruct C1 as [K1 _], C2 as [K2 _]. rewrite Hp in K1, K2. destruct (K1 d Hd) as ((K3 & K4 & _) & _), (K2 d Hd) as ((K5 & K6 & _) & _). split; congruence. }
  destruct (Cc 1 ltac:(lia)) as [Cc1 Cc2]. assert (Ce := c_edge g _ C1 Hp Dx Dt). rewrite <- Md1 in Ce.
  destruct Fl1 as [Fx1 Fy1], Fl2 as [Fx2 Fy2]. rewrite <- Md1 in Fx1, Fy1. rewrite <- Md2 in Fx2, Fy2.
  assert (fx1 := proj1 (Fx1 1 ltac:(lia))). assert (fy1 := proj1 (Fy1 4 ltac:(lia))). assert (fx2 := proj1 (Fx2 6 ltac:(lia))). assert (fy2 := proj1 (Fy2 4 ltac:(lia))).
  unfold grid_next_e in Y1, Y2. rewrite X1, Nx, Ny, Hp, Dx, left_e, fx1, fy1, Dx in Y1. rewrite X2, Nx, Ny, Hp, Dx, right_e, fx2, fy2, Dx, Cc1, Cc2 in Y2.
  rewrite <- Md1 in V1. unfold med, med_of in V1, Y1, Y2, Ce. cbn [mCa mCb bEx cEx] in V1, Y1, Y2, Ce.
  cbn [e_of h_of eE eXl eXh hX hY] in Y1, Y2. rewrite V1, y0 in Y1. rewrite M3, M4, M5, M6, M7, M8, V1, y6, e6, X3 in Y2.
  change (@T RNum) with R in *. rewrite Y1, Y2 in K. clear - K Ce.
  revert K Ce. generalize (aval (ce_x (p_coef (ph_pml q1))) 1). generalize (sin (2 * PI * / 2 * (ph_t q1 + g_dt g)%num)).
  change (@T RNum) with R. intros z c K Ce. unfold Rdiv in K. rewrite Rinv_1 in K. lra.
Qed.
