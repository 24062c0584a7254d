(** What a result in the file holds. *)
From Coq Require Import ZArith String List Bool Lia.
From Verif Require Import Scalar Base BaseFacts VecM GridM GeometryM MaterialM PmlM DftM TfsfM PolarM InterpM H5M ClockM
  MonitorM FieldM ReportM OutFacts SpecFile FileFacts SpecSpectra SpectraFacts SpecResult.
Import ListNotations.
Local Open Scope Z_scope.

Section Result.
Context {N : Num}.
Lemma mapM_rows {A B} (f : A -> res B) l : forall r, mapM f l = Ok r -> Forall2 (fun a b => f a = Ok b) l r.
Proof.
  induction l as [|a l IH]; intros r H; cbn [mapM] in H; [injection H as <-; constructor|].
  apply bind_ok in H. destruct H as (b & Hb & H). apply bind_ok in H. destruct H as (r' & Hr & H). injection H as <-. constructor; auto.
Qed.
Lemma circle_rows far c r n l : ntff_circle far c r n = Ok l -> around_circle far c r n (concat l).
Proof. unfold ntff_circle. destruct (n <? 0); [discriminate|]. intros H. exists l. split; [|reflexivity]. exact (mapM_rows _ _ _ H). Qed.
Lemma report_measures dx m q v : mon_report dx m q = Ok v -> measures dx m q v.
Proof.
  intros H. destruct m, q; cbn [mon_report] in H; try discriminate; apply bind_ok in H; destruct H as (x & Hx & H); injection H as <-;
    try (econstructor; eassumption); try (econstructor; [eassumption|apply components]); econstructor; apply circle_rows; assumption.
Qed.
Lemma results_stay i q s m s1 : nth_error (f_mons s) i = Some m -> exec_call (Report i q) s = Fine s1 ->
  exists v, measures (g_dx (ph_grid (f_ph s))) m q v /\
  forall l r, In r (kept_at m q v) -> match main_catch l s1 with Fine a | Raise _ a => holds (f_h5 a) r | Undef _ => True end.
Proof.
  intros Hm H. assert (K := H). cbn [exec_call] in H. unfold report in H. rewrite Hm in H. destruct (mon_sub_name m). apply prim_fine in H. destruct H as (v & Hv & _).
  exists v. split; [now apply report_measures|]. intros l r Hr. refine (records_stay (Report i q) s s1 l r K _). apply in_or_app. right. cbn [result_at]. rewrite Hm, Hv.
  destruct m; exact Hr.
Qed.
End Result.
