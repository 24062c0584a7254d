(** A double-precision state with one lit cell for C88. *)
From Coq Require Import ZArith Reals String List Bool Lia Psatz.
From Flocq Require Import Core.Core IEEE754.BinarySingleNaN.
From Verif Require Import Scalar Base BaseFacts VecM GridM GeometryM MaterialM PmlM DftM TfsfM PolarM
  InterpM H5M ClockM MonitorM FieldM OutFacts PhysFacts WfFacts ReachFacts SpecStep StepFacts YeeFacts FullStep Float FloatFacts
  SpecDark DarkRun DarkCase SpecRound RoundFacts RoundStep RoundRun.
Import ListNotations.
Local Open Scope Z_scope.

#[local] Instance toyNum : Num := B64 toy.

(** one cell of Ez at 1 *)
Definition lit (p : phys) : phys :=
  set_ph_F (Fields (Tensor (rows (fEz (ph_F p))) (cols (fEz (ph_F p))) (fun i j => if (i =? 4) && (j =? 4) then nofZ 1 else nofZ 0))
                   (fHx (ph_F p)) (fHy (ph_F p))) p.

Definition four : f64 := f64_ofZ 4.
Definition quarter : f64 := f64_div (f64_ofZ 1) (f64_ofZ 4).
Definition modb (c : f64) : bool := fin64b c && Bleb (Babs c) four.
Definition divb (s : f64) : bool := fin64b s && Bleb quarter (Babs s).

Lemma four_value : B2R four = 4%R.
Proof. replace (B2R four) with (SF2R radix2 (B2SF four)) by apply SF2R_B2SF. vm_compute (B2SF four). unfold SF2R, F2R. cbn. lra. Qed.
Lemma quarter_value : B2R quarter = (/ 4)%R.
Proof. replace (B2R quarter) with (SF2R radix2 (B2SF quarter)) by apply SF2R_B2SF. vm_compute (B2SF quarter). unfold SF2R, F2R. cbn. lra. Qed.

Lemma modP c : modb c = true -> moderate 2 c.
Proof.
  unfold modb. intros H. apply andb_prop in H. destruct H as [Hf H]. apply fin64P in Hf. unfold finite64 in Hf. split; [exact Hf|].
  rewrite Bleb_correct in H; [|rewrite is_finite_Babs; exact Hf|reflexivity].
  rewrite B2R_Babs, four_value in H. apply Rle_bool_true_iff in H || (destruct (Rle_bool_spec (Rabs (B2R c)) 4); [|discriminate]).
  change (bpow radix2 2) with 4%R. assumption.
Qed.
Lemma divP s : divb s = true -> divisor 2 s.
Proof.
  unfold divb. intros H. apply andb_prop in H. destruct H as [Hf H]. apply fin64P in Hf. unfold finite64 in Hf.
  rewrite Bleb_correct in H; [|reflexivity|rewrite is_finite_Babs; exact Hf].
  rewrite B2R_Babs, quarter_value in H. destruct (Rle_bool_spec (/ 4) (Rabs (B2R s))); [|discriminate].
  unfold divisor. change (bpow radix2 (- (2))) with (/ 4)%R. assumption.
Qed.

Definition medb (n m th : Z) (dx : f64) (x : medium) : bool :=
  divb dx && upto (fun i => upto (fun j => modb (mCa x i j) && modb (mCb x i j) && modb (mDa x i j) && modb (mDb x i j)) (Z.to_nat m)) (Z.to_nat n) &&
  upto (fun i => divb (sEx x i) && divb (sHx x i)) (Z.to_nat n) && upto (fun j => divb (sEy x j) && divb (sHy x j)) (Z.to_nat m) &&
  upto (fun d => (modb (bEx x (d + 1)) && modb (cEx x (d + 1)) && modb (bEy x (d + 1)) && modb (cEy x (d + 1))) &&
                 (modb (bHx x (d + 1)) && modb (cHx x (d + 1)) && modb (bHy x (d + 1)) && modb (cHy x (d + 1)))) (Z.to_nat th).
Lemma medP n m th dx x : medb n m th dx x = true -> @moderate_med toy 2 n m th dx x.
Proof.
  unfold medb, moderate_med. intros H.
  apply andb_prop in H. destruct H as [H H5]. apply andb_prop in H. destruct H as [H H4]. apply andb_prop in H. destruct H as [H H3].
  apply andb_prop in H. destruct H as [H H2].
  split; [now apply divP|]. split; [|split; [|split; [|split]]].
  - intros i j Hi Hj. apply (uptoP _ _ i) in H2; [|lia]. apply (uptoP _ _ j) in H2; [|lia]. cbv beta in H2.
    repeat match goal with K : _ && _ = true |- _ => apply andb_prop in K; destruct K end.
    refine (conj _ (conj _ (conj _ _))); now apply modP.
  - intros i Hi. apply (uptoP _ _ i) in H3; [|lia]. apply andb_prop in H3. destruct H3. split; now apply divP.
  - intros i Hi. apply (uptoP _ _ i) in H4; [|lia]. apply andb_prop in H4. destruct H4. split; now apply divP.
  - intros d Hd. apply (uptoP _ _ (d - 1)) in H5; [|lia]. cbv beta in H5. replace (d - 1 + 1) with d in H5 by lia.
    repeat match goal with K : _ && _ = true |- _ => apply andb_prop in K; destruct K end.
    refine (conj _ (conj _ (conj _ _))); now apply modP.
  - intros d Hd. apply (uptoP _ _ (d - 1)) in H5; [|lia]. cbv beta in H5. replace (d - 1 + 1) with d in H5 by lia.
    repeat match goal with K : _ && _ = true |- _ => apply andb_prop in K; destruct K end.
    refine (conj _ (conj _ (conj _ _))); now apply modP.
Qed.

Definition lit_ok : bool :=
  match mk_grid (nofZ 8) (nofZ 8) (nofZ 1) 2 with
  | Ok g => match mk_field g "out" with
            | Ok s0 => startb g s0 && ((0 <=? g_pml g) && (2 * g_pml g <? g_Nx g - 1) && (2 * g_pml g <? g_Ny g - 1)) &&
                       medb (g_Nx g) (g_Ny g) (g_pml g) (g_dx g) (med (lit (f_ph s0)))
            | _ => false end
  | _ => false end.

(** any number of updates up to 30 *)
Lemma lit_case : exists (g : grid) (s : field), mk_grid (nofZ 8) (nofZ 8) (nofZ 1) 2 = Ok g /\ ph_grid (f_ph s) = g /\
  tval (fEz (ph_F (f_ph s))) 4 4 = nofZ 1 /\ apart g /\ wf_phys (f_ph s) /\ plain (f_ph s) /\
  @moderate_med toy 2 (g_Nx g) (g_Ny g) (g_pml g) (g_dx g) (med (f_ph s)) /\
  every_cell (fun x : @T (B64 toy) => is_finite (x : f64) = true /\ (Rabs (B2R (x : f64)) <= bpow radix2 0)%R) (e_of (f_ph s), h_of (f_ph s)) /\
  forall k, (k <= 30)%nat -> 0 + Z.of_nat k * (6 * 2 + 21) <= 1000 /\ exists s', run (repeat Update k) s = Fine s'.
Proof.
  assert (H : lit_ok = true) by (vm_compute; reflexivity). unfold lit_ok in H.
  destruct (mk_grid _ _ _ _) as [g| |]; [|discriminate..]. destruct (mk_field g "out") as [s0| |] eqn:E0; [|discriminate..].
  apply andb_prop in H. destruct H as [H Hm]. apply andb_prop in H. destruct H as [Hs Ha]. apply startP in Hs. apply medP in Hm.
  assert (Hap : apart g) by (unfold apart; repeat (apply andb_prop in Ha; destruct Ha as [Ha ?]); lia).
  assert (Hr := apart_roomy g Hap).
  assert (Hd : @all_dark (B64 toy) zero64 (f_ph s0)) by (apply (dark64 toy g "out" s0 [] s0 E0 Hs); [constructor|reflexivity]).
  destruct (mk_phys_ok g Hr) as (p & Ep & Hw & Gp & Sp & Tp & Op & Np).
  assert (E1 : f_ph s0 = p) by (clear - E0 Ep; unfold mk_field in E0; rewrite Ep in E0; cbn in E0; injection E0 as <-; reflexivity). rewrite E1 in Hd, Hm.
  assert (Hw' : wf_phys (lit p)).
  { destruct (wf_F p Hw) as (F1 & F2 & F3). unfold lit. wfcon Hw. }
  set (s := Field (lit p) [] [] [] [] mk_clocks).
  exists g, s. split; [reflexivity|]. split; [exact Gp|]. split; [reflexivity|]. split; [exact Hap|]. split; [exact Hw'|].
  split; [unfold mk_phys in Ep; inv_ok; cbn; unfold plain; cbn; auto|]. split; [exact Hm|]. split.
  - assert (Z0 : forall x : f64, zero64 x -> is_finite x = true /\ (Rabs (B2R x) <= bpow radix2 0)%R).
    { intros x Hx. destruct x; try contradiction. split; [reflexivity|]. cbn. rewrite Rabs_R0. lra. }
    assert (Z1 : forall b : bool, is_finite (if b then f64_ofZ 1 else f64_ofZ 0) = true /\ (Rabs (B2R (if b then f64_ofZ 1 else f64_ofZ 0)) <= bpow radix2 0)%R).
    { intros b. destruct b; [|now apply Z0]. split; [reflexivity|].
      replace (B2R (f64_ofZ 1)) with (SF2R radix2 (B2SF (f64_ofZ 1))) by apply SF2R_B2SF. vm_compute (B2SF (f64_ofZ 1)). unfold SF2R, F2R. cbn.
      rewrite Rabs_pos_eq; lra. }
    destruct Hd as (D1 & D2 & D3 & D4 & _). unfold nil_psi in D4. unfold nil2 in *.
    split; intros i j; cbn [fst snd e_of h_of eE eXl eXh eYl eYh hX hXl hXh hY hYl hYh lit f_ph s ph_F set_ph_F fEz fHx fHy ph_pml tval];
      [refine (conj _ (conj _ (conj _ (conj _ _))))|refine (conj _ (conj _ (conj _ (conj _ (conj _ _)))))];
      first [apply Z1 | apply Z0; cbn; first [apply D2 | apply D3 | apply D4]].
  - intros k Hk. split; [lia|].
    assert (Hg : roomy (ph_grid (f_ph s))) by (change (roomy (ph_grid p)); rewrite Gp; exact Hr).
    assert (Hp : placed (f_ph s)) by (split; [change (Forall (src_ok (ph_grid p)) (ph_srcs p)); rewrite Sp; constructor|
      intros q Hq; change (ph_tfsf p = Some q) in Hq; rewrite Tp in Hq; discriminate]).
    assert (Hn : ph_step (f_ph s) = 0) by exact Np.
    destruct (updates_ok k s Hg Hw' Hp eq_refl eq_refl (conj eq_refl eq_refl)) as (s' & E & _);
      [rewrite Hn; unfold INT_MIN; lia|rewrite Hn; unfold INT_MAX; lia|]. exists s'. exact E.
Qed.
