(** A program with an object and a source for C88. *)
From Coq Require Import ZArith Reals String List Bool Lia Psatz.
From Flocq Require Import Core.Core IEEE754.BinarySingleNaN.
From Verif Require Import Scalar Base BaseFacts VecM GridM GeometryM MaterialM PmlM DftM TfsfM PolarM
  InterpM H5M ClockM MonitorM FieldM OutFacts PhysFacts WfFacts ReachFacts SafeFacts SpecStep StepFacts YeeFacts FullStep SpecSource Float FloatFacts
  SpecDark DarkRun DarkCase SpecRound RoundFacts RoundStep RoundRun RoundCase SpecLoose LooseFacts LooseCase SpecDriven DrivenCase SpecWhole WholeFacts.
Import ListNotations.
Local Open Scope Z_scope.

#[local] Existing Instance DrivenCase.toneNum.
Lemma tone_loose : loose_libm tone.
Proof. exact toy_loose. Qed.

Definition glass : obj := Obj "glass" false (Block (nofZ 3, nofZ 3)) (Material "glass" (KSimple (Simple (nofZ 2) (nofZ 1) (nofZ 1)))) (nofZ 4, nofZ 4) (nofZ 0).
Definition shop : list cmd := [AddObject glass; UpdateMaterialGrid].
Definition shop_ok : bool :=
  match mk_grid (nofZ 8) (nofZ 8) (nofZ 1) 2 with
  | Ok g => match mk_field g "out" with
            | Ok s0 => match run shop s0, to_grid g (nofZ 4, nofZ 4) with
                       | Fine s, Ok q => match ph_srcs (f_ph s), f_mons s, f_tmons s, run [AddSource lamp] s, ph_tfsf (f_ph s) with [], [], [], Fine _, None => true | _, _, _, _, _ => false end &&
                                   negb (k_looping (f_clk s)) && negb (k_fourier (f_clk s)) && (ph_step (f_ph s) =? 0) && (fst q =? 4) && (snd q =? 4) && (4 <? g_Nx g) && (4 <? g_Ny g) &&
                                   ((0 <=? g_pml g) && (2 * g_pml g <? g_Nx g - 1) && (2 * g_pml g <? g_Ny g - 1))
                       | _, _ => false end
            | _ => false end
  | _ => false end.

Lemma shop_scene : Forall (@scene_cmd tone) (shop ++ [AddSource lamp]).
Proof.
  repeat constructor. exists (Simple (nofZ 2) (nofZ 1) (nofZ 1)). split; [reflexivity|]. destruct one_val as [O1 O2].
  destruct (f64_ofZ_correct 2) as [T1 T2]; [lia|]. assert (W : (2 <= bpow radix2 300)%R) by (change 2%R with (bpow radix2 1); apply bpow_le; lia).
  split; (split; [assumption|]); cbn [sm_eps sm_conduc]; [change (1 <= B2R (f64_ofZ 2) <= bpow radix2 300)%R|change (0 <= B2R (f64_ofZ 1) <= bpow radix2 300)%R; rewrite O2]; try rewrite T1; lra.
Qed.

Lemma shop_case : exists (g : grid) (s0 s : field), loose_libm tone /\ resolution_within 0 (f64_ofZ 1) /\ mk_grid (nofZ 8) (nofZ 8) (nofZ 1) 2 = Ok g /\ apart g /\
  mk_field g "out" = Ok s0 /\ Forall (@scene_cmd tone) (shop ++ [AddSource lamp]) /\ run (shop ++ [AddSource lamp]) s0 = Fine s /\
  ph_srcs (f_ph s) = [lamp] /\ Forall2 (fun r l => src_cells g (sr_kind r) l) (ph_srcs (f_ph s)) [[(4, 4)]] /\
  (forall i, Forall (fun r : @source (B64 tone) => moderate 0 (waveform (tp_shape (sr_tp r)) (moment (0%num : @T (B64 tone)) (g_dt g) (S i)))) (ph_srcs (f_ph s))) /\
  forall k, (k <= 40)%nat -> 0 + Z.of_nat k * (6 * 0 + 21 + 2 * 1) <= 1000 /\ exists s', run (repeat Update k) s = Fine s'.
Proof.
  assert (H : shop_ok = true) by (vm_compute; reflexivity). unfold shop_ok in H.
  destruct (mk_grid _ _ _ _) as [g| |]; [|discriminate..]. destruct (mk_field g "out") as [s0| |] eqn:E0; [|discriminate..].
  destruct (run shop s0) as [s1| |] eqn:E1; [|discriminate..]. destruct (to_grid g (nofZ 4, nofZ 4)) as [q| |] eqn:Eq; [|discriminate..].
  apply andb_prop in H. destruct H as [H Ha]. apply andb_prop in H. destruct H as [H H4]. apply andb_prop in H. destruct H as [H H3].
  apply andb_prop in H. destruct H as [H H2]. apply andb_prop in H. destruct H as [H H1]. apply andb_prop in H. destruct H as [H H5].
  apply andb_prop in H. destruct H as [H H6]. apply andb_prop in H. destruct H as [H H7].
  apply negb_true_iff in H6, H7. apply Z.eqb_eq in H1, H2, H5. apply Z.ltb_lt in H3, H4. destruct q as [q1 q2]. cbn [fst snd] in H1, H2. subst q1 q2.
  destruct (ph_srcs (f_ph s1)) eqn:Sp; [|discriminate]. destruct (f_mons s1) eqn:Mm; [|discriminate]. destruct (f_tmons s1) eqn:Tm; [|discriminate].
  destruct (run [AddSource lamp] s1) as [s| |] eqn:E2; [|discriminate..].
  assert (Hap : apart g) by (unfold apart; repeat (apply andb_prop in Ha; destruct Ha as [Ha ?]); lia).
  assert (Hr := apart_roomy g Hap).
  assert (E3 : f_ph s = set_ph_srcs [lamp] (f_ph s1) /\ f_mons s = [] /\ f_tmons s = [] /\ f_clk s = f_clk s1).
  { cbn [run exec] in E2. unfold add_source, prim in E2. destruct (write_src _ _) as [f| |]; [|discriminate..].
    cbn [obind] in E2. injection E2 as <-. cbn. rewrite Sp, Mm, Tm. auto. }
  destruct E3 as (E3 & Mm' & Tm' & Cm).
  assert (Er : run (shop ++ [AddSource lamp]) s0 = Fine s) by (rewrite run_app, E1; exact E2).
  assert (Re : reachable g s) by (exists "out"%string, s0, (shop ++ [AddSource lamp]); split; [exact E0|now apply run_run_catch]).
  destruct (reachable_good g s Hr Re) as [Hw Gp].
  assert (Hrs : resolution_within 0 (f64_ofZ 1)) by (destruct one_val as [O1 O2]; split; [exact O1|rewrite O2; change (bpow radix2 (- 0)) with 1%R; change (bpow radix2 0) with 1%R; lra]).
  assert (Hc : src_cells g (SPoint (nofZ 4, nofZ 4)) [(4, 4)]) by (exists (4, 4); split; [exact Eq|reflexivity]).
  assert (Hsr : ph_srcs (f_ph s) = [lamp]) by (rewrite E3; reflexivity).
  exists g, s0, s. split; [exact tone_loose|]. split; [exact Hrs|]. split; [reflexivity|]. split; [exact Hap|]. split; [exact E0|]. split; [exact shop_scene|].
  split; [exact Er|]. split; [exact Hsr|]. split; [rewrite Hsr; constructor; [exact Hc|constructor]|].
  split; [intros i; rewrite Hsr; constructor; [exact half_moderate|constructor]|].
  intros k Hk. split; [lia|].
  assert (Ht : ph_tfsf (f_ph s) = None).
  { rewrite E3. change (ph_tfsf (f_ph s1) = None). destruct (ph_tfsf (f_ph s1)); [discriminate|reflexivity]. }
  assert (Hg : roomy (ph_grid (f_ph s))) by (rewrite Gp; exact Hr).
  assert (Hp : placed (f_ph s)).
  { split; [|intros q Hq; rewrite Ht in Hq; discriminate]. rewrite Hsr, Gp. constructor; [|constructor]. split; [left; reflexivity|]. exists (4, 4). split; [exact Eq|]. unfold in_cells. cbn [fst snd]. lia. }
  assert (Hn : ph_step (f_ph s) = 0) by (rewrite E3; exact H5).
  destruct (updates_ok k s Hg Hw Hp Mm' Tm') as (s' & E & _);
    [unfold idle; rewrite Cm; split; assumption|rewrite Hn; unfold INT_MIN; lia|rewrite Hn; unfold INT_MAX; lia|]. exists s'. exact E.
Qed.
