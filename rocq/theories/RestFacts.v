(** The stop-watches in whole programs, and what writeE adds to the file. *)
From Coq Require Import ZArith String List Bool Lia.
From Verif Require Import Scalar Base BaseFacts VecM GridM GeometryM MaterialM PmlM DftM TfsfM PolarM
  InterpM H5M ClockM MonitorM FieldM ReportM OutFacts PhysFacts SpecClock H5Facts TimerFacts SpecOutput OutputFacts.
Import ListNotations.
Local Open Scope Z_scope.

Section Rest.
Context {N : Num}.

Lemma dft_get_mute d k : mute (dft_get d k). Proof. unfold dft_get. mu. Qed.
Hint Resolve dft_get_mute : mute.
Lemma surf_flux_mute dx m : mute (surf_flux dx m). Proof. unfold surf_flux. mu. Qed.
Lemma surf_force_mute dx m : mute (surf_force dx m). Proof. unfold surf_force. mu. Qed.
Lemma surf_torque_mute dx c m : mute (surf_torque dx c m). Proof. unfold surf_torque. mu. Qed.
Lemma surf_ntff_mute dx m c p : mute (surf_ntff dx m c p). Proof. unfold surf_ntff. mu. Qed.
Hint Resolve surf_flux_mute surf_force_mute surf_torque_mute surf_ntff_mute : mute.
Lemma mon_report_mute dx m q : mute (mon_report dx m q).
Proof.
  destruct m, q; cbn [mon_report]; unfold box_flux, box_force, box_torque, box_ntff, cyl_flux, cyl_force, cyl_torque, cyl_ntff, ntff_circle; mu.
Qed.
Hint Resolve mon_report_mute h5_create_mute h5_ops_mute : mute.
Lemma write_report_mute f d n v : mute (write_report f d n v). Proof. unfold write_report, h5_open. mu. Qed.
Hint Resolve write_report_mute : mute.
Lemma tfsf_flux_mute q : mute (tfsf_flux q). Proof. unfold tfsf_flux. mu. Qed.
Hint Resolve tfsf_flux_mute : mute.

Lemma call_calm c s : at_rest s -> calm mk_clocks (exec_call c s).
Proof.
  intros H. destruct c; cbn [exec_call].
  - now apply exec_calm.
  - unfold report. destruct (nth_error _ _); [|exact H]. destruct (mon_sub_name m). apply calm_prim; [mu|]. intros v. cbv zeta. apply calm_prim; [mu|]. intros f. exact H.
  - unfold report_tfsf. destruct (ph_tfsf (f_ph s)); [|exact H]. apply calm_prim; [mu|]. intros. exact H.
  - destruct s as [ph a b c d k]. unfold at_rest in H. cbn in H. subst k. reflexivity.
Qed.
Lemma main_calm l : forall s, at_rest s -> calm mk_clocks (exec_main l s).
Proof.
  induction l as [|c l IH]; intros s H; cbn [exec_main]; [exact H|]. eapply calm_bind; [apply call_calm; exact H|].
  intros s' H'. now apply IH.
Qed.
Lemma main_timers l s : at_rest s -> (forall s', exec_main l s <> Raise RuntimeError s') /\ (forall s', exec_main l s = Fine s' -> at_rest s').
Proof.
  intros H. assert (C := main_calm l s H). split; intros s' E; rewrite E in C; [apply C; reflexivity|exact C].
Qed.

Lemma write_E_row s s' : exec WriteE s = Fine s' -> forall p, data_rows (f_h5 s') p = data_rows (f_h5 s) p ++
    if String.eqb p "fields/Ez" then [PReals (values (fEz (ph_F (f_ph s))) (row_major (rows (fEz (ph_F (f_ph s)))) (cols (fEz (ph_F (f_ph s))))))] else [].
Proof.
  cbn [exec]. unfold writeE. intros H p. destruct (write_field_row _ _ _ H) as (x & X & Rx). cbn [get_field] in X. injection X as <-. rewrite Rx. reflexivity.
Qed.
End Rest.
