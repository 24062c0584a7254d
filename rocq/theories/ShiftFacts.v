(** update() does not know where a cell is, as long as it lies outside the layers. *)
From Coq Require Import ZArith String List Bool Lia.
From Verif Require Import Scalar Base BaseFacts VecM GridM GeometryM MaterialM PmlM DftM TfsfM PolarM InterpM H5M ClockM
  MonitorM FieldM SpecGrid GridFacts OutFacts PhysFacts PaintFacts WfFacts ReachFacts SpecStep StepFacts EngineFacts YeeFacts TextbookFacts PolarFacts SpecSource SourceFacts
  FullStep SpecCone PolarPair ConeFacts SpecShift.
Import ListNotations.
Local Open Scope Z_scope.

Section Shift.
Context {N : Num}.

Lemma open_e (g : grid) md hx hy (u : emag) i j : apart g -> cpml_coefs g md -> open g i j ->
  eE (next_e (g_Nx g) (g_Ny g) (g_pml g) (g_dx g) md hx hy u) i j =
  (mCa md i j * eE u i j + mCb md i j * ((hy i j - hy (i - 1)%Z j) / (g_dx g * 1) + (hx i (j - 1)%Z - hx i j) / (g_dx g * 1)))%num.
Proof.
  intros (A0 & A1 & A2) (_ & _ & Cx & Cy) (Hi & Hj). cbn [next_e eE].
  replace (core (g_Nx g) (g_Ny g) i j) with true by (unfold core; lia). unfold addX, addY.
  replace (i <=? g_pml g) with false by lia. replace (g_Nx g - 1 - g_pml g <=? i) with false by lia.
  replace (j <=? g_pml g) with false by lia. replace (g_Ny g - 1 - g_pml g <=? j) with false by lia.
  unfold yeeE. destruct (Cx i ltac:(lia)) as [-> _]. destruct (Cy j ltac:(lia)) as [-> _]. reflexivity.
Qed.
Lemma open_h (g : grid) md e (u : hmag) i j : apart g -> cpml_coefs g md -> open g i j ->
  hX (next_h (g_Nx g) (g_Ny g) (g_pml g) (g_dx g) md e u) i j = (mDa md i j * hX u i j - mDb md i j * (e i (j + 1)%Z - e i j) / (g_dx g * 1))%num /\
  hY (next_h (g_Nx g) (g_Ny g) (g_pml g) (g_dx g) md e u) i j = (mDa md i j * hY u i j + mDb md i j * (e (i + 1)%Z j - e i j) / (g_dx g * 1))%num.
Proof.
  intros (A0 & A1 & A2) (_ & _ & Cx & Cy) (Hi & Hj). cbn [next_h hX hY].
  replace (core (g_Nx g) (g_Ny g) i j) with true by (unfold core; lia). unfold addHx, addHy.
  replace (i <? g_pml g) with false by lia. replace (g_Nx g - 1 - g_pml g <=? i) with false by lia.
  replace (j <? g_pml g) with false by lia. replace (g_Ny g - 1 - g_pml g <=? j) with false by lia. cbn [andb].
  unfold yeeHx, yeeHy. destruct (Cx i ltac:(lia)) as [_ ->]. destruct (Cy j ltac:(lia)) as [_ ->]. auto.
Qed.

Lemma moved_saved i j i' j' o o' x y : alike_prev i j i' j' o o' -> tval x i j = tval y i' j' -> alike_prev i j i' j' (saved o x) (saved o' y).
Proof. destruct o, o'; cbn; auto. Qed.
Lemma moved_shifted i j i' j' o o' x y : alike_prev i j i' j' o o' -> alike_prev i j i' j' x y -> alike_prev i j i' j' (shifted o x) (shifted o' y).
Proof. destruct o, o'; cbn; auto; contradiction. Qed.
Lemma moved_core g g' s s1 r r1 i j i' j' : map src_core s1 = map src_core s -> map src_core r1 = map src_core r ->
  moved_drive g g' s r i j i' j' -> moved_drive g g' s1 r1 i j i' j'.
Proof.
  intros Hs Hr H Ls Ls' K K' t c x. rewrite (lit_core t _ _ _ s1 s _ _ Hs), (lit_core t _ _ _ r1 r _ _ Hr).
  apply H; eapply cells_core; eauto.
Qed.

(** two simulations with the same cell size and time step, without total-field boxes *)
Definition companions (p q : phys) : Prop :=
  g_dx (ph_grid p) = g_dx (ph_grid q) /\ g_dt (ph_grid p) = g_dt (ph_grid q) /\ ph_t p = ph_t q /\ ph_tfsf p = None /\ ph_tfsf q = None.
Definition sound (p : phys) : Prop := apart (ph_grid p) /\ wf_phys p /\ cpml_coefs (ph_grid p) (med p).

Lemma sound_step p p' : sound p -> phys_step p = Fine p' -> sound p' /\ ph_grid p' = ph_grid p.
Proof.
  intros (Ha & Hw & Hc) H.
  destruct (full_step p p' Ha Hw H) as (E0 & E1 & E2 & E3 & Ls & u & h & []).
  assert (M := med_static _ _ cw_static). apply static_eq in cw_static. destruct cw_static as (G & _). unfold sound. rewrite G, M. auto.
Qed.

Lemma shift_step p q p' q' a b i j : sound p -> sound q -> companions p q -> phys_step p = Fine p' -> phys_step q = Fine q' ->
  moved_near a b p q 1 i j -> companions p' q' /\ moved_cell p' q' i j (i + a) (j + b).
Proof.
  intros (Ha & Hw & Cp) (Hb & Hv & Cq) (Fx & Fd & Ft & Tp & Tq) Hp Hq Hn.
  destruct (full_step p p' Ha Hw Hp) as (E0 & E1 & E2 & E3 & Ls & u & h & [A1 A2 A3 A4 A5 A6 A7 A8 A9 A10 A11 A12 A13 A14 A15 A16]).
  destruct (full_step q q' Hb Hv Hq) as (E0' & E1' & E2' & E3' & Ls' & v & k & [B1 B2 B3 B4 B5 B6 B7 B8 B9 B10 B11 B12 B13 B14 B15 B16]).
  apply static_eq in A13, B13. apply cells_weaken in A7, B7.
  unfold grid_next_e in A1, B1. unfold grid_next_h in A11, B11. rewrite <- Ft, <- Fd in B9, B11. rewrite Tp in A9, A10. rewrite Tq in B9, B10.
  cbn [line] in A10, B10. injection A10 as A10. injection B10 as B10. rewrite <- A10 in A12. rewrite <- B10 in B12. unfold tf in A9, B9, A12, B12.
  set (g := ph_grid p) in *. set (g' := ph_grid q) in *. set (md := med p) in *. set (md' := med q) in *.
  assert (KE : forall x y, i <= x <= i + 1 -> j <= y <= j + 1 -> x = i \/ y = j -> let x' := x + a in let y' := y + b in
    eE (e_of p') x y = eE (e_of q') x' y' /\
    alike_all x y x' y' (ph_debye p') (ph_debye q') /\ alike_all x y x' y' (ph_drude p') (ph_drude q') /\ alike_all x y x' y' (ph_lorentz p') (ph_lorentz q')).
  { intros x y Hx Hy Hxy x' y'. destruct (Hn x y ltac:(lia) ltac:(lia)) as (O & O' & [Cf Cc C1 C2 C3 C4 C5 C6]). fold g g' in O, O', C6. fold x' y' in O', Cf, Cc, C1, C2, C3, C4, C5, C6.
    destruct (Hn (x - 1) y ltac:(lia) ltac:(lia)) as (_ & _ & [(_ & _ & D) _ _ _ _ _ _ _]). destruct (Hn x (y - 1) ltac:(lia) ltac:(lia)) as (_ & _ & [(_ & D' & _) _ _ _ _ _ _ _]).
    replace (x - 1 + a) with (x' - 1) in D by lia. replace (y - 1 + b) with (y' - 1) in D' by lia. fold y' in D. fold x' in D'.
    assert (R : eE u x y = eE v x' y').
    { rewrite A1, B1, open_e, open_e by assumption. destruct Cf as (F1 & F2 & F3), Cc as (c1 & c2 & _).
      unfold md, md', med, med_of. cbn [mCa mCb e_of h_of eE hX hY]. rewrite F1, F2, F3, D, D', c1, c2, Fx. reflexivity. }
    destruct Hw, Hv. fold g in wf_debye, wf_drude, wf_lorentz. fold g' in wf_debye0, wf_drude0, wf_lorentz0.
    assert (Gc : cell_of_grids x y x' y' (g_Nx g) (g_Ny g) (g_Nx g') (g_Ny g')) by (unfold cell_of_grids, open, apart in *; lia).
    assert (S1 : alike_prev x y x' y' (saved (ph_prevE p) (fEz (ph_F p))) (saved (ph_prevE q) (fEz (ph_F q)))) by (apply moved_saved; [exact C4|apply Cf]).
    assert (S2 : alike_prev x y x' y' (shifted (ph_prev2E p) (ph_prevE p)) (shifted (ph_prev2E q) (ph_prevE q))) by (apply moved_shifted; assumption).
    destruct (polar_all_pairs x y x' y' debye_update np_debye _ _ _ _ _ _ (debye_pairs x y x' y') Gc _ _ C1 _ _ _ _ _ _ wf_debye wf_debye0 S1 A3 B3) as [P1 V1].
    { rewrite A2, B2. exact R. }
    destruct (polar_all_pairs x y x' y' drude_update np_drude _ _ _ _ _ _ (drude_pairs x y x' y') Gc _ _ C2 _ _ _ _ _ _ wf_drude wf_drude0 S1 A4 B4 V1) as [P2 V2].
    destruct (polar_all_pairs x y x' y' lorentz_update np_lorentz _ _ _ _ _ _ (lorentz_pairs x y x' y') Gc _ _ C3 _ _ _ _ _ _ wf_lorentz wf_lorentz0 S2 A5 B5 V2) as [P3 V3].
    split; [|auto]. destruct A9 as (A9 & _). destruct B9 as (B9 & _). rewrite (A9 x y), (B9 x' y'). cbn [eE]. unfold lits. rewrite V3. exact (C6 Ls Ls' A7 B7 _ _ _). }
  destruct A13 as (S1 & S2 & _), B13 as (T1 & T2 & _).
  split. { unfold companions. rewrite S1, T1, A15, B15, <- A10, <- B10. fold g g'. rewrite Fx, Fd, Ft. auto. }
  destruct (Hn i j ltac:(lia) ltac:(lia)) as (O & O' & [Cf Cc C1 C2 C3 C4 C5 C6]). fold g g' in O, O', C6.
  destruct (KE i j ltac:(lia) ltac:(lia) ltac:(lia)) as (VE & P1 & P2 & P3).
  assert (VR := proj1 (KE (i + 1) j ltac:(lia) ltac:(lia) ltac:(lia))). assert (VU := proj1 (KE i (j + 1) ltac:(lia) ltac:(lia) ltac:(lia))).
  cbv zeta in VR, VU. replace (i + 1 + a) with (i + a + 1) in VR by lia. replace (j + 1 + b) with (j + b + 1) in VU by lia.
  destruct A12 as (AX & _ & _ & AY & _), B12 as (BX & _ & _ & BY & _). destruct A6 as [A6 A6'], B6 as [B6 B6'].
  constructor; try assumption.
  - split; [exact VE|]. change (tval (fHx (ph_F q'))) with (hX (h_of q')). change (tval (fHx (ph_F p'))) with (hX (h_of p')).
    change (tval (fHy (ph_F q'))) with (hY (h_of q')). change (tval (fHy (ph_F p'))) with (hY (h_of p')).
    rewrite (AX i j), (BX (i + a) (j + b)), (AY i j), (BY (i + a) (j + b)). cbn [hX hY with_xy]. rewrite A11, B11.
    destruct (open_h g md (eE (e_of p')) (with_xy (lits (ph_t p + g_dt g)%num (combine (ph_srcs p) Ls) Hx (hX (h_of p))) (lits (ph_t p + g_dt g)%num (combine (ph_srcs p) Ls) Hy (hY (h_of p))) (h_of p)) i j Ha Cp O) as [-> ->].
    destruct (open_h g' md' (eE (e_of q')) (with_xy (lits (ph_t p + g_dt g)%num (combine (ph_srcs q) Ls') Hx (hX (h_of q))) (lits (ph_t p + g_dt g)%num (combine (ph_srcs q) Ls') Hy (hY (h_of q))) (h_of q)) (i + a) (j + b) Hb Cq O') as [-> ->].
    cbn [hX hY with_xy]. unfold lits. destruct Cf as (_ & F2 & F3), Cc as (_ & _ & c3 & c4).
    unfold md, md', med, med_of. cbn [mDa mDb h_of hX hY]. rewrite F2, F3, c3, c4, VE, VR, VU, Fx.
    rewrite !(C6 Ls Ls' A7 B7). auto.
  - rewrite S2, T2. exact Cc.
  - rewrite A6, B6. apply moved_saved; [exact C4|apply Cf].
  - rewrite A6', B6'. now apply moved_shifted.
  - rewrite S1, T1. fold g g'. eapply moved_core; [exact A8|exact B8|exact C6].
Qed.

Lemma shift_run n : forall p q p' q' a b d i j, sound p -> sound q -> companions p q ->
  phys_run (repeat Update n) p = Fine p' -> phys_run (repeat Update n) q = Fine q' -> 0 <= d ->
  moved_near a b p q (d + Z.of_nat n) i j -> companions p' q' /\ moved_near a b p' q' d i j.
Proof.
  induction n as [|n IH]; intros p q p' q' a b d i j Sp Sq Hc Hp Hq Hd Hn; cbn [repeat phys_run] in Hp, Hq.
  - injection Hp as <-. injection Hq as <-. replace (d + Z.of_nat 0) with d in Hn by lia. auto.
  - apply obind_fine in Hp. destruct Hp as (p1 & Hp1 & Hp). apply obind_fine in Hq. destruct Hq as (q1 & Hq1 & Hq). cbn [phys_exec] in Hp1, Hq1.
    destruct (sound_step _ _ Sp Hp1) as [Sp1 G1]. destruct (sound_step _ _ Sq Hq1) as [Sq1 G2]. rewrite Nat2Z.inj_succ in Hn.
    assert (M : forall x y, Z.abs (x - i) <= d + Z.of_nat n -> Z.abs (y - j) <= d + Z.of_nat n -> moved_near a b p q 1 x y) by (intros x y Hx Hy x' y' Hx' Hy'; apply Hn; lia).
    apply (IH p1 q1); try assumption.
    + apply (shift_step p q p1 q1 a b i j); auto. apply M; lia.
    + intros x y Hx Hy. rewrite G1, G2. destruct (Hn x y ltac:(lia) ltac:(lia)) as (O & O' & _). split; [exact O|]. split; [exact O'|].
      apply (shift_step p q p1 q1 a b x y); auto.
Qed.

Lemma shift g g' s1 s2 n s1' s2' a b d i j : apart g -> apart g' -> reachable g s1 -> reachable g' s2 ->
  g_dx g = g_dx g' -> g_dt g = g_dt g' -> ph_t (f_ph s1) = ph_t (f_ph s2) -> ph_tfsf (f_ph s1) = None -> ph_tfsf (f_ph s2) = None ->
  run (repeat Update n) s1 = Fine s1' -> run (repeat Update n) s2 = Fine s2' -> 0 <= d ->
  moved_near a b (f_ph s1) (f_ph s2) (d + Z.of_nat n) i j -> moved_near a b (f_ph s1') (f_ph s2') d i j.
Proof.
  intros Ha Hb R1 R2 Fx Fd Ft Tp Tq H1 H2 Hd Hn. apply run_phys in H1, H2.
  destruct (reachable_good g s1 (apart_roomy _ Ha) R1) as [W1 G1]. destruct (reachable_good g' s2 (apart_roomy _ Hb) R2) as [W2 G2].
  refine (proj2 (shift_run n (f_ph s1) (f_ph s2) _ _ a b d i j _ _ _ H1 H2 Hd Hn)).
  - unfold sound. rewrite G1. auto using reachable_coefs.
  - unfold sound. rewrite G2. auto using reachable_coefs.
  - unfold companions. rewrite G1, G2. auto.
Qed.
End Shift.
