(** The PML and the interior of the grid. *)
From Coq Require Import ZArith Reals String List Bool Lia Lra.
From Verif Require Import Scalar Base BaseFacts VecM GridM GeometryM MaterialM PmlM DftM TfsfM PolarM
  InterpM H5M ClockM MonitorM FieldM SpecGrid GridFacts OutFacts PhysFacts PaintFacts WfFacts ReachFacts InvFacts
  SpecStep StepFacts EngineFacts YeeFacts SpecSource SourceFacts SpecMedium SpecRim MediaFacts MagnetFacts PolarFacts FullStep PmlFacts TextbookFacts SpecWave.
Import ListNotations.
Local Open Scope Z_scope.
#[local] Existing Instance RNum.

Lemma inner_cell g (u v : R) : grid_ok g -> inner g (g_dx g * u, g_dx g * v)%R ->
  (IZR (g_pml g) <= u <= IZR (g_Nx g) - 1 - IZR (g_pml g))%R /\ (IZR (g_pml g) <= v <= IZR (g_Ny g) - 1 - IZR (g_pml g))%R.
Proof.
  intros (Hd & _ & _ & Lx & Ly & _) [H1 H2]. unfold interior, mk_volume in *. cbn [v_a v_b fst snd] in *. rnum. rewrite Lx in H1. rewrite Ly in H2.
  assert (Q : forall a b c : R, (g_dx g * a <= g_dx g * b <= g_dx g * c -> a <= b <= c)%R).
  { intros a b c [A B]. split; apply (Rmult_le_reg_l (g_dx g)); assumption. }
  split; apply Q; lra.
Qed.
Lemma inner_Ez_cell g i j : grid_ok g -> inner_Ez g i j -> g_pml g <= i <= g_Nx g - 1 - g_pml g /\ g_pml g <= j <= g_Ny g - 1 - g_pml g.
Proof.
  intros Hg H. apply inner_cell in H; [|exact Hg]. destruct H as [[A B] [C D]].
  repeat split; apply le_IZR; rewrite ?minus_IZR; lra.
Qed.
Lemma half_up (a j : Z) : (IZR a <= IZR j + / 2)%R -> a <= j.
Proof. intros H. apply Z.lt_succ_r. apply lt_IZR. rewrite succ_IZR. lra. Qed.
Lemma half_down (a j : Z) : (IZR j + / 2 <= IZR a)%R -> j < a.
Proof. intros H. apply lt_IZR. lra. Qed.
Lemma inner_Hx_cell g i j : grid_ok g -> inner_Hx g i j -> g_pml g <= i <= g_Nx g - 1 - g_pml g /\ g_pml g <= j <= g_Ny g - 2 - g_pml g.
Proof.
  intros Hg H. apply inner_cell in H; [|exact Hg]. destruct H as [[A B] [C D]]. apply half_up in C.
  assert (j < g_Ny g - 1 - g_pml g) by (apply half_down; rewrite !minus_IZR; lra).
  split; [split; apply le_IZR; rewrite ?minus_IZR; lra|lia].
Qed.
Lemma inner_Hy_cell g i j : grid_ok g -> inner_Hy g i j -> g_pml g <= i <= g_Nx g - 2 - g_pml g /\ g_pml g <= j <= g_Ny g - 1 - g_pml g.
Proof.
  intros Hg H. apply inner_cell in H; [|exact Hg]. destruct H as [[A B] [C D]]. apply half_up in A.
  assert (i < g_Nx g - 1 - g_pml g) by (apply half_down; rewrite !minus_IZR; lra).
  split; [lia|split; apply le_IZR; rewrite ?minus_IZR; lra].
Qed.

Section Built.
Variables (Lx Ly rs : R) (pml : Z) (g : grid (N := RNum)).
Hypothesis HLx : (0 < Lx)%R.
Hypothesis HLy : (0 < Ly)%R.
Hypothesis Hrs : (0 < rs)%R.
Hypothesis Hpml : 1 <= pml.
Hypothesis Hg : mk_grid Lx Ly rs pml = Ok g.

Lemma built_ok : grid_ok g. Proof. exact (mk_grid_ok Lx Ly rs pml g HLx HLy Hrs Hg). Qed.
Lemma built_pml : 2 <= g_pml g.
Proof.
  assert (H := Hg). unfold mk_grid in H. apply bind_ok in H. destruct H as (a & _ & H). apply bind_ok in H. destruct H as (b & _ & H).
  injection H as H. rewrite <- H. cbn. lia.
Qed.

Lemma coefs_absorbing s : reachable g s -> all_absorbing (g_pml g) (med (f_ph s)).
Proof.
  intros Hr. destruct built_ok as (Hd & _ & _ & _ & _ & Ht). assert (Hp := built_pml).
  destruct (par_ok g Hp Hd Ht) as (A1 & A2 & A3 & A4 & A5 & A6 & A7 & A8).
  assert (B : forall t : R, (1 <= t <= IZR (g_pml g))%R -> absorbing (b_func (mk_pml_par g) t) (c_func (mk_pml_par g) t)).
  { intros t Hb. exact (coef_bounds (mk_pml_par g) A1 A3 A4 A5 A6 A7 A8 t Hb). }
  split; intros d Hdd; destruct (state_coef g s ltac:(lia) Hr d ltac:(lia)) as ((E1 & E2 & E3 & E4) & (F1 & F2 & F3 & F4));
    cbn [med med_of bEx cEx bEy cEy bHx cHx bHy cHy].
  - rewrite E1, E2, E3, E4. assert ((1 <= IZR d <= IZR (g_pml g))%R) by (split; apply IZR_le; lia). split; now apply B.
  - rewrite F1, F2, F3, F4. assert (C : (1 <= IZR d + / 2 <= IZR (g_pml g))%R).
    { assert (1 <= IZR d)%R by (apply IZR_le; lia). assert (K : (IZR (d + 1) <= IZR (g_pml g))%R) by (apply IZR_le; lia).
      rewrite plus_IZR in K. lra. }
    split; apply B; rnum; replace (1 / 2)%R with (/ 2)%R by lra; exact C.
Qed.

Lemma pmlE_inner s Cb X Y E b' E' : reachable g s -> pml_update_E (ph_pml (f_ph s)) Cb X Y E = Ok (b', E') ->
  forall i j, inner_Ez g i j -> tval E' i j = tval E i j.
Proof.
  intros Hr H i j Hi. destruct built_ok as (Hd & _ & _ & _ & _ & Ht).
  destruct (reachable_edge g s built_pml Hd Ht Hr) as (A & B & C).
  destruct (pml_E_edge g _ _ _ _ _ _ _ A B C H) as [_ K].
  destruct (inner_Ez_cell g i j built_ok Hi). now apply K.
Qed.
Lemma pmlH_inner s Db E X Y b' X' Y' : reachable g s -> pml_update_H (ph_pml (f_ph s)) Db E X Y = Ok (b', X', Y') ->
  (forall i j, inner_Hx g i j -> tval X' i j = tval X i j) /\ (forall i j, inner_Hy g i j -> tval Y' i j = tval Y i j).
Proof.
  intros Hr H. destruct built_ok as (Hd & _ & _ & _ & _ & Ht).
  destruct (reachable_edge g s built_pml Hd Ht Hr) as (_ & B & _).
  destruct (pml_H_edge g _ _ _ _ _ _ _ _ B H) as (K1 & K2 & _).
  split; intros i j Hi.
  - destruct (inner_Hx_cell g i j built_ok Hi). now apply K1.
  - destruct (inner_Hy_cell g i j built_ok Hi). now apply K2.
Qed.

Lemma yee_inner s s' : apart g -> reachable g s ->
  update s = Fine s' ->
  let ez := tval (fEz (ph_F (f_ph s))) in let hx := tval (fHx (ph_F (f_ph s))) in let hy := tval (fHy (ph_F (f_ph s))) in
  let ez' := tval (fEz (ph_F (f_ph s'))) in let hx' := tval (fHx (ph_F (f_ph s'))) in let hy' := tval (fHy (ph_F (f_ph s'))) in
  let md := med (f_ph s) in let t' := (ph_t (f_ph s) + g_dt g)%R in
  forall i j,
  (ph_debye (f_ph s) = [] -> ph_drude (f_ph s) = [] -> ph_lorentz (f_ph s) = [] ->
   inner_Ez g i j -> off_E (ph_tfsf (f_ph s)) i j -> undriven t' g (ph_srcs (f_ph s)) Ez i j ->
     ez' i j = (mCa md i j * ez i j + mCb md i j * ((hy i j - hy (i - 1)%Z j) + (hx i (j - 1)%Z - hx i j)) / g_dx g)%R) /\
  (inner_Hx g i j -> off_Hx (ph_tfsf (f_ph s)) i j -> undriven t' g (ph_srcs (f_ph s)) Hx i j ->
     hx' i j = (mDa md i j * hx i j - mDb md i j * (ez' i (j + 1)%Z - ez' i j) / g_dx g)%R) /\
  (inner_Hy g i j -> off_Hy (ph_tfsf (f_ph s)) i j -> undriven t' g (ph_srcs (f_ph s)) Hy i j ->
     hy' i j = (mDa md i j * hy i j + mDb md i j * (ez' (i + 1)%Z j - ez' i j) / g_dx g)%R).
Proof.
  intros Ha Hr Hu ez hx hy ez' hx' hy' md t' i j.
  assert (Ok1 := built_ok). destruct Ok1 as (Hd & _ & _ & _ & _ & Ht). assert (Hp := built_pml).
  destruct (reachable_good g s (apart_roomy _ Ha) Hr) as [Hw Eg].
  apply update_phys_step in Hu.
  destruct (full_step (f_ph s) (f_ph s')) as (E0 & E1 & E2 & E3 & Ls & u & h & CW); [rewrite Eg; exact Ha|exact Hw|exact Hu|].
  destruct CW. rewrite Eg in *.
  destruct (reachable_edge g s Hp Hd Ht Hr) as ((C1 & C2) & _ & (M1 & M2)).
  destruct (reachable_coefs g s Ha Hr) as (_ & _ & Sx & Sy).
  fold md in Sx, Sy.
  assert (F2 : Forall2 (fun r L => src_cells g (sr_kind r) L) (ph_srcs (f_ph s)) Ls).
  { clear - cw_cells. induction cw_cells; constructor; auto. tauto. }
  destruct cw_e as (cwE & _). destruct cw_h as (cwX & _ & _ & cwY & _).
  assert (R0 : forall b d : R, recur (g_dx g) b 0%R 0%R d = 0%R).
  { intros. unfold recur. rnum. unfold Rdiv. ring. }
  split; [intros D1 D2 D3|split]; intros Hi Ho Hd0.
  - rewrite D1 in cw_debye. rewrite D2 in cw_drude. rewrite D3 in cw_lorentz. cbn [polar_all] in *.
    injection cw_debye as _ K1. injection cw_drude as _ K2. injection cw_lorentz as _ K3.
    assert (EE : forall i j, tval E3 i j = eE u i j) by (intros; rewrite <- K3, <- K2, <- K1; apply cw_E0).
    destruct (inner_Ez_cell g i j built_ok Hi) as [I1 I2]. destruct Ha as (A0 & A1 & A2).
    transitivity (eE u i j).
    + unfold ez'. change (tval (fEz (ph_F (f_ph s'))) i j) with (eE (e_of (f_ph s')) i j). rewrite cwE. cbn [eE]. unfold lits.
      rewrite (undriven_lit _ g (ph_srcs (f_ph s)) Ls); [|exact Hd0|exact F2]. rewrite (tf_off_E _ _ _ _ Ho). apply EE.
    + rewrite cw_u. unfold grid_next_e. rewrite Eg. rewrite next_e_curl by (unfold core; lia).
      destruct (Sx i I1) as [Sx1 _], (Sy j I2) as [Sy1 _]. unfold curl_h. fold md. rewrite Sx1, Sy1.
      set (w := next_e _ _ _ _ _ _ _ _).
      assert (Y0 : (if (j <=? g_pml g)%Z then eYl w i j else if (g_Ny g - 1 - g_pml g <=? j)%Z then eYh w i (g_Ny g - 1 - j)%Z else 0)%R = 0%R).
      { destruct (Z.leb_spec j (g_pml g)).
        - replace j with (g_pml g) by lia. unfold w, md, next_e. cbn [eYl]. unfold memYl. cbn [e_of eYl cEy med med_of].
          rewrite C2, (proj1 (M2 i)). rewrite R0. now destruct (_ && _).
        - destruct (Z.leb_spec (g_Ny g - 1 - g_pml g) j); [|reflexivity].
          replace (g_Ny g - 1 - j)%Z with (g_pml g) by lia. unfold w, md, next_e. cbn [eYh]. unfold memYh. cbn [e_of eYh cEy med med_of].
          rewrite C2, (proj2 (M2 i)). rewrite R0. now destruct (_ && _). }
      assert (X0 : (if (i <=? g_pml g)%Z then eXl w i j else if (g_Nx g - 1 - g_pml g <=? i)%Z then eXh w (g_Nx g - 1 - i)%Z j else 0)%R = 0%R).
      { destruct (Z.leb_spec i (g_pml g)).
        - replace i with (g_pml g) by lia. unfold w, md, next_e. cbn [eXl]. unfold memXl. cbn [e_of eXl cEx med med_of].
          rewrite C1, (proj1 (M1 j)). rewrite R0. now destruct (_ && _).
        - destruct (Z.leb_spec (g_Nx g - 1 - g_pml g) i); [|reflexivity].
          replace (g_Nx g - 1 - i)%Z with (g_pml g) by lia. unfold w, md, next_e. cbn [eXh]. unfold memXh. cbn [e_of eXh cEx med med_of].
          rewrite C1, (proj2 (M1 j)). rewrite R0. now destruct (_ && _). }
      rnum. change (@T RNum) with R in *. rewrite X0, Y0. cbn [e_of h_of eE hX hY]. fold ez hx hy. rewrite Rmult_1_r. field.
      apply Rgt_not_eq. exact Hd.
  - destruct (inner_Hx_cell g i j built_ok Hi) as [I1 I2]. destruct Ha as (A0 & A1 & A2). destruct (Sy j ltac:(lia)) as [_ Sy1].
    unfold hx'. change (tval (fHx (ph_F (f_ph s'))) i j) with (hX (h_of (f_ph s')) i j). rewrite cwX. unfold with_xy. cbn [hX]. rewrite (proj1 (tf_off_H _ _ _ _ _ cw_line) Ho).
    rewrite cw_hm. unfold grid_next_h. rewrite Eg. unfold next_h, with_xy. cbn [hX hXl hXh]. unfold core, addHx.
    replace ((1 <=? i) && (i <? g_Nx g - 1) && (1 <=? j) && (j <? g_Ny g - 1)) with true by lia.
    replace (j <? g_pml g) with false by lia. replace (g_Ny g - 1 - g_pml g <=? j) with false by lia. cbn [andb].
    unfold yeeHx. fold md. rewrite Sy1. unfold lits. rewrite (undriven_lit _ g (ph_srcs (f_ph s)) Ls); [|exact Hd0|exact F2].
    rnum. rewrite Rmult_1_r. reflexivity.
  - destruct (inner_Hy_cell g i j built_ok Hi) as [I1 I2]. destruct Ha as (A0 & A1 & A2). destruct (Sx i ltac:(lia)) as [_ Sx1].
    unfold hy'. change (tval (fHy (ph_F (f_ph s'))) i j) with (hY (h_of (f_ph s')) i j). rewrite cwY. unfold with_xy. cbn [hY]. rewrite (proj2 (tf_off_H _ _ _ _ _ cw_line) Ho).
    rewrite cw_hm. unfold grid_next_h. rewrite Eg. unfold next_h, with_xy. cbn [hY hYl hYh]. unfold core, addHy.
    replace ((1 <=? i) && (i <? g_Nx g - 1) && (1 <=? j) && (j <? g_Ny g - 1)) with true by lia.
    replace (i <? g_pml g) with false by lia. replace (g_Nx g - 1 - g_pml g <=? i) with false by lia. cbn [andb].
    unfold yeeHy. fold md. rewrite Sx1. unfold lits. rewrite (undriven_lit _ g (ph_srcs (f_ph s)) Ls); [|exact Hd0|exact F2].
    rnum. rewrite Rmult_1_r. reflexivity.
Qed.
End Built.
