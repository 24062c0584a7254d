(** A program of simple materials without sources for C18. *)
From Coq Require Import ZArith Reals String List Bool Lia Psatz.
From Flocq Require Import Core.Core IEEE754.BinarySingleNaN.
From Verif Require Import Scalar Base BaseFacts VecM GridM GeometryM MaterialM PmlM DftM TfsfM PolarM
  InterpM H5M ClockM MonitorM FieldM OutFacts PhysFacts WfFacts ReachFacts SafeFacts SpecStep StepFacts YeeFacts FullStep SpecSource Float FloatFacts
  SpecDark DarkRun DarkCase SpecRound RoundFacts RoundStep RoundRun RoundCase SpecLoose LooseFacts LooseCase SpecDriven DrivenCase SpecWhole WholeFacts WholeCase SpecDusk.
Import ListNotations.
Local Open Scope Z_scope.

#[local] Existing Instance DrivenCase.toneNum.
Lemma shop_unlit k : Forall (@unlit_solid_cmd tone) (shop ++ repeat Update k).
Proof.
  apply Forall_app. split; [|induction k; constructor; [exact Logic.I|assumption]]. assert (H := shop_scene). apply Forall_app in H. destruct H as [H _].
  unfold shop in *. inversion H as [|? ? H1 H2]. subst. constructor; [exact H1|]. constructor; [exact Logic.I|constructor].
Qed.
Lemma dusk_case : exists (g : grid) (s0 : field), loose_libm tone /\ handy_resolution (f64_ofZ 1) /\ mk_grid (nofZ 8) (nofZ 8) (nofZ 1) 2 = Ok g /\ apart g /\
  mk_field g "out" = Ok s0 /\ forall k, Z.of_nat k < INT_MAX -> Forall (@unlit_solid_cmd tone) (shop ++ repeat Update k) /\ exists s, run (shop ++ repeat Update k) s0 = Fine s.
Proof.
  assert (H : shop_ok = true) by (vm_compute; reflexivity). unfold shop_ok in H.
  destruct (mk_grid _ _ _ _) as [g| |]; [|discriminate..]. destruct (mk_field g "out") as [s0| |] eqn:E0; [|discriminate..].
  destruct (run shop s0) as [s1| |] eqn:E1; [|discriminate..]. destruct (to_grid g (nofZ 4, nofZ 4)) as [q| |] eqn:Eq; [|discriminate..].
  apply andb_prop in H. destruct H as [H Ha]. apply andb_prop in H. destruct H as [H H4]. apply andb_prop in H. destruct H as [H H3].
  apply andb_prop in H. destruct H as [H H2]. apply andb_prop in H. destruct H as [H H1]. apply andb_prop in H. destruct H as [H H5].
  apply andb_prop in H. destruct H as [H H6]. apply andb_prop in H. destruct H as [H H7].
  apply negb_true_iff in H6, H7. apply Z.eqb_eq in H5.
  destruct (ph_srcs (f_ph s1)) eqn:Sp; [|discriminate]. destruct (f_mons s1) eqn:Mm; [|discriminate]. destruct (f_tmons s1) eqn:Tm; [|discriminate].
  destruct (run [AddSource lamp] s1) as [s| |] eqn:E2; [|discriminate..].
  assert (Hap : apart g) by (unfold apart; repeat (apply andb_prop in Ha; destruct Ha as [Ha ?]); lia).
  assert (Hr := apart_roomy g Hap).
  assert (Re : reachable g s1) by (exists "out"%string, s0, shop; split; [exact E0|now apply run_run_catch]).
  destruct (reachable_good g s1 Hr Re) as [Hw Gp].
  assert (W := bpow_gt_0 radix2 (- 300)). assert (W1 : (1 <= bpow radix2 300)%R) by (change 1%R with (bpow radix2 0); apply bpow_le; lia).
  assert (W2 : (bpow radix2 (- 300) <= 1)%R) by (change 1%R with (bpow radix2 0); apply bpow_le; lia).
  assert (Hrs : handy_resolution (f64_ofZ 1)) by (destruct one_val as [O1 O2]; split; [exact O1|rewrite O2; lra]).
  exists g, s0. split; [exact tone_loose|]. split; [exact Hrs|]. split; [reflexivity|]. split; [exact Hap|]. split; [exact E0|].
  intros k Hk. split; [apply shop_unlit|].
  assert (Ht : ph_tfsf (f_ph s1) = None) by (destruct (ph_tfsf (f_ph s1)); [discriminate|reflexivity]).
  assert (Hg : roomy (ph_grid (f_ph s1))) by (rewrite Gp; exact Hr).
  assert (Hp : placed (f_ph s1)) by (split; [rewrite Sp; constructor|intros x Hx; rewrite Ht in Hx; discriminate]).
  destruct (updates_ok k s1 Hg Hw Hp Mm Tm) as (s' & E & _);
    [split; assumption|rewrite H5; unfold INT_MIN; lia|rewrite H5; lia|]. exists s'. rewrite run_app, E1. exact E.
Qed.
