(** A double-precision program with a source for C88. *)
From Coq Require Import ZArith Reals String List Bool Lia Psatz.
From Flocq Require Import Core.Core IEEE754.BinarySingleNaN.
From Verif Require Import Scalar Base BaseFacts VecM GridM GeometryM MaterialM PmlM DftM TfsfM PolarM
  InterpM H5M ClockM MonitorM FieldM OutFacts PhysFacts WfFacts ReachFacts SpecStep StepFacts YeeFacts FullStep SpecSource Float FloatFacts
  SpecDark DarkRun DarkCase SpecRound RoundFacts RoundStep RoundRun RoundCase SpecDriven.
Import ListNotations.
Local Open Scope Z_scope.

(** the sine is always 1/2 *)
Definition tone : libm :=
  Libm (fun _ => f64_div (f64_ofZ 1) (f64_ofZ 2)) (fun _ => f64_div (f64_ofZ 1) (f64_ofZ 2)) (fun _ => f64_ofZ 1) toy_pow.
#[local] Instance toneNum : Num := B64 tone.

Definition tone_medb (n m th : Z) (dx : f64) (x : medium) : bool :=
  divb dx && upto (fun i => upto (fun j => modb (mCa x i j) && modb (mCb x i j) && modb (mDa x i j) && modb (mDb x i j)) (Z.to_nat m)) (Z.to_nat n) &&
  upto (fun i => divb (sEx x i) && divb (sHx x i)) (Z.to_nat n) && upto (fun j => divb (sEy x j) && divb (sHy x j)) (Z.to_nat m) &&
  upto (fun d => (modb (bEx x (d + 1)) && modb (cEx x (d + 1)) && modb (bEy x (d + 1)) && modb (cEy x (d + 1))) &&
                 (modb (bHx x (d + 1)) && modb (cHx x (d + 1)) && modb (bHy x (d + 1)) && modb (cHy x (d + 1)))) (Z.to_nat th).
Lemma tone_medP n m th dx x : tone_medb n m th dx x = true -> @moderate_med tone 2 n m th dx x.
Proof.
  unfold tone_medb, moderate_med. intros H.
  apply andb_prop in H. destruct H as [H H5]. apply andb_prop in H. destruct H as [H H4]. apply andb_prop in H. destruct H as [H H3].
  apply andb_prop in H. destruct H as [H H2].
  split; [now apply divP|]. split; [|split; [|split; [|split]]].
  - intros i j Hi Hj. apply (uptoP _ _ i) in H2; [|lia]. apply (uptoP _ _ j) in H2; [|lia]. cbv beta in H2.
    repeat match goal with K : _ && _ = true |- _ => apply andb_prop in K; destruct K end.
    refine (conj _ (conj _ (conj _ _))); now apply modP.
  - intros i Hi. apply (uptoP _ _ i) in H3; [|lia]. apply andb_prop in H3. destruct H3. split; now apply divP.
  - intros i Hi. apply (uptoP _ _ i) in H4; [|lia]. apply andb_prop in H4. destruct H4. split; now apply divP.
  - intros d Hd. apply (uptoP _ _ (d - 1)) in H5; [|lia]. cbv beta in H5. replace (d - 1 + 1) with d in H5 by lia.
    repeat match goal with K : _ && _ = true |- _ => apply andb_prop in K; destruct K end.
    refine (conj _ (conj _ (conj _ _))); now apply modP.
  - intros d Hd. apply (uptoP _ _ (d - 1)) in H5; [|lia]. cbv beta in H5. replace (d - 1 + 1) with d in H5 by lia.
    repeat match goal with K : _ && _ = true |- _ => apply andb_prop in K; destruct K end.
    refine (conj _ (conj _ (conj _ _))); now apply modP.
Qed.

(** a continuous point source on Ez *)
Definition lamp : source := Source "lamp" Ez (SPoint (nofZ 4, nofZ 4)) (TProfile (Continuous (nofZ 1)) None).
Definition lamp_ok : bool :=
  match mk_grid (nofZ 8) (nofZ 8) (nofZ 1) 2 with
  | Ok g => match mk_field g "out" with
            | Ok s0 => match run [AddSource lamp] s0, to_grid g (nofZ 4, nofZ 4) with
                       | Fine s, Ok q => (fst q =? 4) && (snd q =? 4) && (4 <? g_Nx g) && (4 <? g_Ny g) && ((0 <=? g_pml g) && (2 * g_pml g <? g_Nx g - 1) && (2 * g_pml g <? g_Ny g - 1)) &&
                                   tone_medb (g_Nx g) (g_Ny g) (g_pml g) (g_dx g) (med (f_ph s))
                       | _, _ => false end
            | _ => false end
  | _ => false end.

Lemma half_moderate : moderate 0 (f64_div (f64_ofZ 1) (f64_ofZ 2)).
Proof.
  split; [reflexivity|].
  replace (B2R (f64_div (f64_ofZ 1) (f64_ofZ 2))) with (SF2R radix2 (B2SF (f64_div (f64_ofZ 1) (f64_ofZ 2)))) by apply SF2R_B2SF.
  vm_compute (B2SF (f64_div (f64_ofZ 1) (f64_ofZ 2))). unfold SF2R, F2R. cbn. rewrite Rabs_pos_eq; lra.
Qed.

Lemma tconst_is n m (v : @T toneNum) a : tconst n m v = Ok a -> rows a = n /\ cols a = m /\ forall i j, tval a i j = v.
Proof. unfold tconst. destruct (_ && _); [|discriminate]. injection 1 as <-. auto. Qed.

Lemma lamp_case : exists (g : grid) (s0 s : field), mk_grid (nofZ 8) (nofZ 8) (nofZ 1) 2 = Ok g /\ mk_field g "out" = Ok s0 /\
  run [AddSource lamp] s0 = Fine s /\ ph_grid (f_ph s) = g /\ apart g /\ wf_phys (f_ph s) /\ only_sources (f_ph s) /\
  ph_srcs (f_ph s) = [lamp] /\ Forall2 (fun r l => src_cells g (sr_kind r) l) (ph_srcs (f_ph s)) [[(4, 4)]] /\
  @moderate_med tone 2 (g_Nx g) (g_Ny g) (g_pml g) (g_dx g) (med (f_ph s)) /\
  (forall i, Forall (fun r : @source (B64 tone) => moderate 0 (waveform (tp_shape (sr_tp r)) (moment (ph_t (f_ph s)) (g_dt g) (S i)))) (ph_srcs (f_ph s))) /\
  every_cell (fun x : @T (B64 tone) => is_finite (x : f64) = true /\ (Rabs (B2R (x : f64)) <= bpow radix2 0)%R) (e_of (f_ph s), h_of (f_ph s)) /\
  forall k, (k <= 25)%nat -> 0 + Z.of_nat k * (6 * 2 + 21 + 2 * 1) <= 1000 /\ exists s', run (repeat Update k) s = Fine s'.
Proof.
  assert (H : lamp_ok = true) by (vm_compute; reflexivity). unfold lamp_ok in H.
  destruct (mk_grid _ _ _ _) as [g| |]; [|discriminate..]. destruct (mk_field g "out") as [s0| |] eqn:E0; [|discriminate..].
  destruct (run [AddSource lamp] s0) as [s| |] eqn:E1; [|discriminate..]. destruct (to_grid g (nofZ 4, nofZ 4)) as [q| |] eqn:Eq; [|discriminate..].
  apply andb_prop in H. destruct H as [H Hm]. apply andb_prop in H. destruct H as [H Ha]. apply andb_prop in H. destruct H as [H H4]. apply andb_prop in H. destruct H as [H H3]. apply andb_prop in H. destruct H as [H1 H2]. apply tone_medP in Hm.
  apply Z.eqb_eq in H1, H2. destruct q as [q1 q2]. cbn [fst snd] in H1, H2. subst q1 q2.
  assert (Hap : apart g) by (unfold apart; repeat (apply andb_prop in Ha; destruct Ha as [Ha ?]); lia).
  assert (Hr := apart_roomy g Hap).
  destruct (mk_phys_ok g Hr) as (p & Ep & Hw & Gp & Sp & Tp & Op & Np).
  assert (E2 : s0 = Field p [] [] [] (f_h5 s0) mk_clocks).
  { clear - E0 Ep. unfold mk_field in E0. rewrite Ep in E0. cbn [bind] in E0. change (String.eqb "out" "") with false in E0. cbv iota in E0.
    apply bind_ok in E0. destruct E0 as (f1 & _ & E0). apply bind_ok in E0. destruct E0 as (f2 & _ & E0). injection E0 as <-. reflexivity. }
  assert (E3 : f_ph s = set_ph_srcs [lamp] p /\ f_mons s = [] /\ f_tmons s = [] /\ f_clk s = mk_clocks).
  { rewrite E2 in E1. cbn [run exec] in E1. unfold add_source, prim in E1.
    destruct (write_src _ _) as [f| |]; [|discriminate..].
    cbn [obind] in E1. injection E1 as <-. cbn. rewrite Sp. auto. }
  destruct E3 as (E3 & Mm & Tm & Cm).
  assert (Hw' : wf_phys (f_ph s)) by (rewrite E3; wfcon Hw).
  exists g, s0, s. split; [reflexivity|]. split; [exact E0|]. split; [exact E1|]. split; [rewrite E3; exact Gp|]. split; [exact Hap|]. split; [exact Hw'|].
  assert (Hc : src_cells g (SPoint (nofZ 4, nofZ 4)) [(4, 4)]) by (exists (4, 4); split; [exact Eq|reflexivity]).
  split; [rewrite E3; clear - Ep; unfold mk_phys in Ep; inv_ok; unfold only_sources; cbn; auto|].
  split; [rewrite E3; reflexivity|]. split; [rewrite E3; constructor; [exact Hc|constructor]|]. split; [exact Hm|].
  split; [intros i; rewrite E3; constructor; [exact half_moderate|constructor]|]. split.
  - assert (Z0 : is_finite (f64_ofZ 0) = true /\ (Rabs (B2R (f64_ofZ 0)) <= bpow radix2 0)%R).
    { split; [reflexivity|]. change (B2R (f64_ofZ 0)) with 0%R. rewrite Rabs_R0. cbn. lra. }
    rewrite E3. clear - Ep Z0. unfold mk_phys, mk_pml, mk_pml_psi in Ep. inv_ok.
    repeat match goal with K : tconst _ _ _ = Ok ?r |- _ => apply tconst_is in K; destruct K as (? & ? & K) end.
    split; intros i j; cbn [fst snd e_of h_of eE eXl eXh eYl eYh hX hXl hXh hY hYl hYh ph_F set_ph_srcs fEz fHx fHy ph_pml p_psi Ezx1 Ezx2 Ezy1 Ezy2 Hxy1 Hxy2 Hyx1 Hyx2];
      repeat match goal with K : forall _ _, tval _ _ _ = _ |- _ => rewrite !K; clear K end; auto 10.
  - intros k Hk. split; [lia|].
    assert (Hg : roomy (ph_grid (f_ph s))) by (rewrite E3; change (roomy (ph_grid p)); rewrite Gp; exact Hr).
    assert (Hp : placed (f_ph s)).
    { rewrite E3. split; [|intros q Hq; change (ph_tfsf p = Some q) in Hq; rewrite Tp in Hq; discriminate].
      change (Forall (src_ok (ph_grid p)) [lamp]). rewrite Gp. constructor; [|constructor]. split; [left; reflexivity|]. exists (4, 4). split; [exact Eq|]. apply Z.ltb_lt in H3, H4. unfold in_cells. cbn [fst snd]. lia. }
    assert (Hn : ph_step (f_ph s) = 0) by (rewrite E3; exact Np).
    destruct (updates_ok k s Hg Hw' Hp Mm Tm) as (s' & E & _);
      [unfold idle; rewrite Cm; split; reflexivity|rewrite Hn; unfold INT_MIN; lia|rewrite Hn; unfold INT_MAX; lia|]. exists s'. exact E.
Qed.
