(** Facts about state-level outcomes: inversion of a normal return, and the parts of the
    state each operation leaves alone. *)
From Coq Require Import ZArith String List Bool Lia.
From Verif Require Import Scalar Base BaseFacts VecM GridM GeometryM MaterialM PmlM DftM TfsfM PolarM
  InterpM H5M ClockM MonitorM FieldM.
Import ListNotations.
Local Open Scope Z_scope.

Lemma obind_fine {S} (m : out S) k s' : m >>= k = Fine s' -> exists s, m = Fine s /\ k s = Fine s'.
Proof. destruct m; simpl; intros H; try discriminate; eauto. Qed.
Lemma prim_fine {S A} (s : S) (r : res A) k s' : prim s r k = Fine s' -> exists a, r = Ok a /\ k a = Fine s'.
Proof. destruct r; simpl; intros H; try discriminate; eauto. Qed.

Ltac inv_fine :=
  repeat match goal with
  | H : obind ?m ?k = Fine ?b |- _ =>
      let a := fresh "s" in let H1 := fresh "Hs" in
      apply obind_fine in H; destruct H as [a [H1 H]]
  | H : prim ?s ?r ?k = Fine ?b |- _ =>
      let a := fresh "r" in let H1 := fresh "Hr" in
      apply prim_fine in H; destruct H as [a [H1 H]]
  | H : Fine ?a = Fine ?b |- _ => injection H as H; try subst
  | H : Raise _ _ = Fine _ |- _ => discriminate H
  | H : Undef _ = Fine _ |- _ => discriminate H
  end.

Lemma oloop_post {S} (P : nat -> S -> Prop) (body : nat -> S -> out S) n : forall lo s s',
  P lo s -> (forall i s s', (lo <= i < lo + n)%nat -> P i s -> body i s = Fine s' -> P (Datatypes.S i) s') ->
  oloop lo n body s = Fine s' -> P (lo + n)%nat s'.
Proof.
  induction n as [|n IH]; cbn [oloop]; intros lo s s' H0 Hb Hr.
  - injection Hr as <-. now rewrite Nat.add_0_r.
  - apply obind_fine in Hr. destruct Hr as [s1 [H1 Hr]].
    replace (lo + Datatypes.S n)%nat with (Datatypes.S lo + n)%nat by lia.
    apply (IH (Datatypes.S lo) s1 s'); [|intros i a b Hi; apply Hb; lia|exact Hr].
    apply (Hb lo s s1); [lia|exact H0|exact H1].
Qed.
Lemma oloop_pres {S} (P : S -> Prop) (body : nat -> S -> out S) n lo s s' :
  P s -> (forall i s s', (lo <= i < lo + n)%nat -> P s -> body i s = Fine s' -> P s') ->
  oloop lo n body s = Fine s' -> P s'.
Proof. intros H0 Hb Hr. exact (oloop_post (fun _ => P) body n lo s s' H0 Hb Hr). Qed.

Section Frame.
Context {N : Num}.

Lemma on_ph_fine f (s s' : field) : on_ph f s = Fine s' ->
  exists p, f (f_ph s) = Ok p /\ s' = set_f_ph p s.
Proof. unfold on_ph. intros H. inv_fine. eauto. Qed.
Lemma on_ph_out_fine f (s s' : field) : on_ph_out f s = Fine s' ->
  exists p, f (f_ph s) = Fine p /\ s' = set_f_ph p s.
Proof. unfold on_ph_out. destruct (f (f_ph s)); intros H; inv_fine; eauto. Qed.

(** the parts of the physics that a time step never writes *)
Definition static (p : phys) :=
  (ph_grid p, ph_C p, ph_objs p, ph_bg p, p_par (ph_pml p), p_coef (ph_pml p), ph_sc p).

Lemma static_eq p q : static p = static q <->
  ph_grid p = ph_grid q /\ ph_C p = ph_C q /\ ph_objs p = ph_objs q /\ ph_bg p = ph_bg q /\
  p_par (ph_pml p) = p_par (ph_pml q) /\ p_coef (ph_pml p) = p_coef (ph_pml q) /\ ph_sc p = ph_sc q.
Proof.
  unfold static. split.
  - intros H. injection H as -> -> -> -> -> -> ->. auto 10.
  - intros (-> & -> & -> & -> & -> & -> & ->). reflexivity.
Qed.

Lemma pml_update_E_par b Cb hx hy E b' E' : pml_update_E b Cb hx hy E = Ok (b', E') ->
  p_par b' = p_par b /\ p_coef b' = p_coef b.
Proof.
  unfold pml_update_E. intros H. inv_ok. destruct r as [[? ?] ?]. inv_ok. destruct r as [[? ?] ?].
  inv_ok. auto.
Qed.
Lemma pml_update_H_par b Db E hx hy b' hx' hy' : pml_update_H b Db E hx hy = Ok (b', hx', hy') ->
  p_par b' = p_par b /\ p_coef b' = p_coef b.
Proof.
  unfold pml_update_H. intros H. inv_ok. destruct r as [[? ?] ?]. inv_ok. destruct r as [[? ?] ?].
  inv_ok. auto.
Qed.

Lemma step_clock_static p p' : step_clock p = Ok p' -> static p' = static p.
Proof. unfold step_clock. intros H. inv_ok. reflexivity. Qed.
Lemma step_prev_static p : static (step_prev p) = static p.
Proof. unfold step_prev. destruct p. cbn. destruct ph_prev2E, ph_prevE; reflexivity. Qed.
Lemma step_E_static p p' : step_E p = Ok p' -> static p' = static p.
Proof. unfold step_E. intros H. inv_ok. reflexivity. Qed.
Lemma step_pmlE_static p p' : step_pmlE p = Ok p' -> static p' = static p.
Proof.
  unfold step_pmlE. intros H. inv_ok. destruct r as [b E]. inv_ok.
  apply pml_update_E_par in Hr. destruct Hr as [E1 E2]. unfold static. cbn. now rewrite E1, E2.
Qed.
Lemma step_polar_static p p' : step_polar p = Ok p' -> static p' = static p.
Proof.
  unfold step_polar. intros H. inv_ok. destruct r. inv_ok. destruct r. inv_ok. destruct r. inv_ok.
  reflexivity.
Qed.
Lemma step_tfsfD_static p p' : step_tfsfD p = Ok p' -> static p' = static p.
Proof. unfold step_tfsfD. destruct (ph_tfsf p); intros H; inv_ok; reflexivity. Qed.
Lemma pulse_src_static i p p' : pulse_src i p = Fine p' -> static p' = static p.
Proof.
  unfold pulse_src. destruct (nth_error (ph_srcs p) i); intros H; inv_fine; [|reflexivity].
  destruct r. inv_fine. reflexivity.
Qed.
Lemma step_sources_static p p' : step_sources p = Fine p' -> static p' = static p.
Proof.
  unfold step_sources. intros H. apply (oloop_pres (fun q => static q = static p)) in H; auto.
  intros i a b _ Ha Hb. rewrite <- Ha. eapply pulse_src_static; eauto.
Qed.
Lemma step_tfsf_pulse_static p p' : step_tfsf_pulse p = Ok p' -> static p' = static p.
Proof. unfold step_tfsf_pulse. destruct (ph_tfsf p); intros H; inv_ok; reflexivity. Qed.
Lemma step_H_static p p' : step_H p = Ok p' -> static p' = static p.
Proof. unfold step_H. intros H. inv_ok. destruct r. inv_ok. reflexivity. Qed.
Lemma step_pmlH_static p p' : step_pmlH p = Ok p' -> static p' = static p.
Proof.
  unfold step_pmlH. intros H. inv_ok. destruct r as [[b hx] hy]. inv_ok.
  apply pml_update_H_par in Hr. destruct Hr as [E1 E2]. unfold static. cbn. now rewrite E1, E2.
Qed.
Lemma step_tfsfH_static p p' : step_tfsfH p = Ok p' -> static p' = static p.
Proof. unfold step_tfsfH. destruct (ph_tfsf p); intros H; inv_ok; [destruct r; inv_ok|]; reflexivity. Qed.

(** operations on clocks, monitors and files leave the physics alone *)
Lemma start_ph k s s' : start k s = Fine s' -> f_ph s' = f_ph s.
Proof. unfold start. intros H. inv_fine. reflexivity. Qed.
Lemma stop_ph k s s' : stop k s = Fine s' -> f_ph s' = f_ph s.
Proof. unfold stop. intros H. inv_fine. reflexivity. Qed.
Lemma step_monitors_ph s s' : step_monitors s = Fine s' -> f_ph s' = f_ph s.
Proof. unfold step_monitors. intros H. inv_fine. reflexivity. Qed.
Lemma tm_ready_ph i s s' : tm_ready i s = Fine s' -> f_ph s' = f_ph s.
Proof.
  unfold tm_ready. destruct (nth_error (f_tmons s) i); intros H; inv_fine; [|reflexivity].
  destruct r as [b e]. destruct b; inv_fine; [|reflexivity].
  destruct r. inv_fine. reflexivity.
Qed.
Lemma step_tmons_ph s s' : step_tmons s = Fine s' -> f_ph s' = f_ph s.
Proof.
  unfold step_tmons. intros H. apply (oloop_pres (fun q => f_ph q = f_ph s)) in H; auto.
  intros i a b _ Ha Hb. rewrite <- Ha. eapply tm_ready_ph; eauto.
Qed.

(** the physics of one call of update, as a chain of its phases *)
Definition phys_step (p : phys) : out phys :=
  prim p (step_clock p) (fun p =>
  prim p (step_E (step_prev p)) (fun p =>
  prim p (step_pmlE p) (fun p =>
  prim p (step_polar p) (fun p =>
  prim p (step_tfsfD p) (fun p =>
  step_sources p >>= fun p =>
  prim p (step_tfsf_pulse p) (fun p =>
  prim p (step_H p) (fun p =>
  prim p (step_pmlH p) (fun p =>
  prim p (step_tfsfH p) (fun p => Fine p))))))))).

Lemma update_phys_step s s' : update s = Fine s' -> phys_step (f_ph s) = Fine (f_ph s').
Proof.
  unfold update. intros H. inv_fine.
  repeat match goal with
  | H : on_ph _ _ = Fine _ |- _ => apply on_ph_fine in H; destruct H as [? [? ?]]; subst
  | H : on_ph_out _ _ = Fine _ |- _ => apply on_ph_out_fine in H; destruct H as [? [? ?]]; subst
  | H : start _ _ = Fine _ |- _ => apply start_ph in H
  | H : stop _ _ = Fine _ |- _ => apply stop_ph in H
  | H : step_monitors _ = Fine _ |- _ => apply step_monitors_ph in H
  | H : step_tmons _ = Fine _ |- _ => apply step_tmons_ph in H
  end.
  cbn [f_ph set_f_ph] in *.
  repeat match goal with
  | H : f_ph ?x = _ |- _ => rewrite H in *; clear H
  end.
  inv_ok. unfold phys_step.
  repeat match goal with
  | H : _ = Ok _ |- _ => rewrite H; cbn [prim obind]; clear H
  | H : _ = Fine _ |- _ => rewrite H; cbn [prim obind]; clear H
  end. reflexivity.
Qed.

Lemma phys_step_static p p' : phys_step p = Fine p' -> static p' = static p.
Proof.
  unfold phys_step. intros H. inv_fine.
  repeat match goal with
  | H : step_clock _ = Ok _ |- _ => apply step_clock_static in H
  | H : step_E _ = Ok _ |- _ => apply step_E_static in H; rewrite step_prev_static in H
  | H : step_pmlE _ = Ok _ |- _ => apply step_pmlE_static in H
  | H : step_polar _ = Ok _ |- _ => apply step_polar_static in H
  | H : step_tfsfD _ = Ok _ |- _ => apply step_tfsfD_static in H
  | H : step_sources _ = Fine _ |- _ => apply step_sources_static in H
  | H : step_tfsf_pulse _ = Ok _ |- _ => apply step_tfsf_pulse_static in H
  | H : step_H _ = Ok _ |- _ => apply step_H_static in H
  | H : step_pmlH _ = Ok _ |- _ => apply step_pmlH_static in H
  | H : step_tfsfH _ = Ok _ |- _ => apply step_tfsfH_static in H
  end. congruence.
Qed.

Lemma update_static s s' : update s = Fine s' -> static (f_ph s') = static (f_ph s).
Proof. intros H. apply phys_step_static. now apply update_phys_step. Qed.

End Frame.
