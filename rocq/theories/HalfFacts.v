(** The two halves of a time step, and what the monitors see between them. *)
From Coq Require Import ZArith String List Bool Lia.
From Verif Require Import Scalar Base BaseFacts VecM GridM GeometryM MaterialM PmlM DftM TfsfM PolarM
  InterpM H5M ClockM MonitorM FieldM OutFacts PhysFacts WfFacts ReachFacts InvFacts YeeFacts.
Import ListNotations.
Local Open Scope Z_scope.

Section Half.
Context {N : Num}.

(** the phases of update before and after the monitors *)
Definition phys_first (p : phys) : out phys :=
  prim p (step_clock p) (fun p =>
  prim p (step_E (step_prev p)) (fun p =>
  prim p (step_pmlE p) (fun p =>
  prim p (step_polar p) (fun p =>
  prim p (step_tfsfD p) (fun p => step_sources p))))).
Definition phys_second (p : phys) : out phys :=
  prim p (step_tfsf_pulse p) (fun p =>
  prim p (step_H p) (fun p =>
  prim p (step_pmlH p) (fun p =>
  prim p (step_tfsfH p) (fun p => Fine p)))).

Lemma phys_step_halves p : phys_step p = (phys_first p >>= phys_second).
Proof.
  unfold phys_step, phys_first.
  repeat match goal with |- context [prim _ ?r _] => destruct r; cbn [prim obind]; [|reflexivity..] end.
  unfold phys_second. reflexivity.
Qed.

Lemma phys_first_clk p p' : phys_first p = Fine p' ->
  ph_grid p' = ph_grid p /\ ph_t p' = (ph_t p + g_dt (ph_grid p))%num /\ ph_step p' = ph_step p + 1.
Proof.
  unfold phys_first. intros H. inv_fine. unfold step_clock, i32 in *. inv_ok.
  destruct (in_i32 (ph_step p + 1)) eqn:Ei; [|discriminate]. inv_ok.
  destruct (step_prev_frame (set_ph_t (ph_t p + g_dt (ph_grid p))%num (set_ph_step (ph_step p + 1) p)))
    as (_ & _ & _ & _ & A1 & A2 & _). cbn in A1, A2.
  assert (G := step_prev_static (set_ph_t (ph_t p + g_dt (ph_grid p))%num (set_ph_step (ph_step p + 1) p))).
  apply static_eq in G. destruct G as (G & _). cbn in G.
  assert (S1 := step_sources_static _ _ H). apply static_eq in S1. destruct S1 as (S1 & _).
  match goal with K : step_tfsfD _ = Ok _ |- _ => assert (S2 := step_tfsfD_static _ _ K) end.
  apply static_eq in S2. destruct S2 as (S2 & _).
  match goal with K : step_polar _ = Ok _ |- _ => assert (S3 := step_polar_static _ _ K) end.
  apply static_eq in S3. destruct S3 as (S3 & _).
  unfold step_E, step_pmlE in *. inv_ok.
  repeat match goal with
  | H : context [let '(_, _) := ?r in _] |- _ => destruct r; inv_ok
  end.
  repeat match goal with
  | H : step_polar _ = Ok _ |- _ => apply step_polar_frame in H; cbn in H; destruct H as (_ & _ & _ & _ & _ & ? & ? & _)
  | H : step_tfsfD _ = Ok _ |- _ => apply step_tfsfD_frame in H; cbn in H; destruct H as (_ & _ & _ & _ & _ & ? & ? & _)
  | H : step_sources _ = Fine _ |- _ => apply step_sources_frame in H; cbn in H; destruct H as (_ & _ & ? & ? & _)
  end.
  cbn in S1, S2, S3. repeat split; congruence.
Qed.

Lemma tm_ready_mons i s s' : tm_ready i s = Fine s' -> f_mons s' = f_mons s.
Proof.
  unfold tm_ready. destruct (nth_error (f_tmons s) i); intros H; inv_fine; [|reflexivity].
  destruct r as [b e]. destruct b; inv_fine; [|reflexivity].
  destruct r. inv_fine. reflexivity.
Qed.
Lemma step_tmons_mons s s' : step_tmons s = Fine s' -> f_mons s' = f_mons s.
Proof.
  unfold step_tmons. intros H. apply (oloop_pres (fun q => f_mons q = f_mons s)) in H; auto.
  intros i a b _ Ha Hb. rewrite <- Ha. eapply tm_ready_mons; eauto.
Qed.

Lemma update_monitors s s' : update s = Fine s' -> exists pm,
  phys_first (f_ph s) = Fine pm /\ phys_second pm = Fine (f_ph s') /\
  mapM (mon_update (ph_grid pm) (ph_F pm) (ph_t pm)) (f_mons s) = Ok (f_mons s').
Proof.
  unfold update. intros H. inv_fine.
  repeat match goal with
  | H : on_ph _ _ = Fine _ |- _ => apply on_ph_fine in H; destruct H as [? [? ?]]; subst
  | H : on_ph_out _ _ = Fine _ |- _ => apply on_ph_out_fine in H; destruct H as [? [? ?]]; subst
  | H : start _ _ = Fine _ |- _ => unfold start in H; apply prim_fine in H; destruct H as [? [_ H]]; injection H as <-
  | H : stop _ _ = Fine _ |- _ => unfold stop in H; apply prim_fine in H; destruct H as [? [_ H]]; injection H as <-
  | H : step_monitors _ = Fine _ |- _ => unfold step_monitors in H; apply prim_fine in H; destruct H as [? [? H]]; injection H as <-
  end.
  assert (P := step_tmons_ph _ _ H). apply step_tmons_mons in H.
  cbn [f_ph set_f_ph set_f_mons set_f_clk f_mons] in *. rewrite P, H. clear P H.
  eexists. split; [|split]; [| |eassumption].
  - unfold phys_first. inv_ok.
    repeat match goal with
    | H : step_clock _ = Ok _ |- _ => rewrite H; clear H; cbn [prim]
    | H : step_E _ = Ok _ |- _ => rewrite H; clear H; cbn [prim]
    | H : step_pmlE _ = Ok _ |- _ => rewrite H; clear H; cbn [prim]
    | H : step_polar _ = Ok _ |- _ => rewrite H; clear H; cbn [prim]
    | H : step_tfsfD _ = Ok _ |- _ => rewrite H; clear H; cbn [prim]
    end. eassumption.
  - unfold phys_second.
    repeat match goal with
    | H : step_tfsf_pulse _ = Ok _ |- _ => rewrite H; clear H; cbn [prim]
    | H : step_H _ = Ok _ |- _ => rewrite H; clear H; cbn [prim]
    | H : step_pmlH _ = Ok _ |- _ => rewrite H; clear H; cbn [prim]
    | H : step_tfsfH _ = Ok _ |- _ => rewrite H; clear H; cbn [prim]
    end. reflexivity.
Qed.
End Half.
