(** What an update that raises an exception leaves behind. *)
From Coq Require Import ZArith List Bool Lia.
From Verif Require Import Scalar Base BaseFacts VecM GridM GeometryM MaterialM PmlM DftM TfsfM PolarM
  InterpM H5M ClockM MonitorM FieldM OutFacts PhysFacts SpecClock.
Import ListNotations.
Local Open Scope Z_scope.

Section Raising.
Context {N : Num}.

(** update up to the time monitors *)
Definition stepped (s : field) : out field :=
  on_ph step_clock s >>=
  start Looping >>=
  on_ph (fun p => Ok (step_prev p)) >>=
  on_ph step_E >>=
  on_ph step_pmlE >>=
  on_ph step_polar >>=
  on_ph step_tfsfD >>=
  on_ph_out step_sources >>=
  stop Looping >>=
  start Fourier >>=
  step_monitors >>=
  stop Fourier >>=
  start Looping >>=
  on_ph step_tfsf_pulse >>=
  on_ph step_H >>=
  on_ph step_pmlH >>=
  on_ph step_tfsfH >>=
  stop Looping.
Lemma update_stepped s : update s = (stepped s >>= step_tmons).
Proof. reflexivity. Qed.

(** without time monitors the rest is the same *)
Definition omap (h : field -> field) (m : out field) : out field := match m with Fine s => Fine (h s) | Raise e s => Raise e (h s) | Undef u => Undef u end.
Lemma obind_omap h (m m' : out field) k : m' = omap h m -> (forall a, k (h a) = omap h (k a)) -> (m' >>= k) = omap h (m >>= k).
Proof. intros -> H. destruct m; cbn; auto. Qed.
Notation bare := (set_f_tmons []).
Lemma on_ph_bare f s : on_ph f (bare s) = omap bare (on_ph f s).
Proof. unfold on_ph. cbn [f_ph set_f_tmons]. destruct (f (f_ph s)); reflexivity. Qed.
Lemma on_ph_out_bare f s : on_ph_out f (bare s) = omap bare (on_ph_out f s).
Proof. unfold on_ph_out. cbn [f_ph set_f_tmons]. destruct (f (f_ph s)); reflexivity. Qed.
Lemma start_bare k s : start k (bare s) = omap bare (start k s).
Proof. unfold start. cbn [f_clk set_f_tmons]. destruct (clock_start _ _); reflexivity. Qed.
Lemma stop_bare k s : stop k (bare s) = omap bare (stop k s).
Proof. unfold stop. cbn [f_clk set_f_tmons]. destruct (clock_stop _ _); reflexivity. Qed.
Lemma step_monitors_bare s : step_monitors (bare s) = omap bare (step_monitors s).
Proof. unfold step_monitors. cbn [f_ph f_mons set_f_tmons]. destruct (mapM _ _); reflexivity. Qed.
Lemma stepped_bare s : stepped (bare s) = omap bare (stepped s).
Proof.
  unfold stepped. repeat (apply obind_omap; [|intros; first [apply on_ph_bare|apply on_ph_out_bare|apply start_bare|apply stop_bare|apply step_monitors_bare]]). apply on_ph_bare.
Qed.

(** ** where the exception comes from *)
Definition ends (m : out field) (P Q : field -> Prop) : Prop := match m with Fine s => P s | Raise _ s => Q s | Undef _ => True end.
Lemma obind_ends m k P P' Q : ends m P Q -> (forall a, P a -> ends (k a) P' Q) -> ends (m >>= k) P' Q.
Proof. destruct m; cbn; auto. Qed.
(** nothing but fields, monitors and stop-watches has changed *)
Definition under (s : field) (c : clocks) (a : field) : Prop :=
  f_h5 a = f_h5 s /\ f_tmons a = f_tmons s /\ f_mats a = f_mats s /\ static (f_ph a) = static (f_ph s) /\ f_clk a = c.
Definition broken (s : field) (a : field) : Prop := exists c, under s c a /\ c <> mk_clocks.
Lemma on_ph_under f s c a : (forall p p', f p = Ok p' -> static p' = static p) -> c <> mk_clocks -> under s c a -> ends (on_ph f a) (under s c) (broken s).
Proof.
  intros Hf Hc (A & B & C & D & E). unfold on_ph. destruct (f (f_ph a)) eqn:Ef; cbn; [|exists c; repeat split; auto|exact Logic.I].
  apply Hf in Ef. repeat split; cbn; auto. congruence.
Qed.
Lemma pulse_src_raise i p e p' : pulse_src i p = Raise e p' -> static p' = static p.
Proof.
  unfold pulse_src. destruct (nth_error _ _) as [r|]; [|discriminate]. destruct (response _ _) as [[v tp]|e0|u]; cbn [prim]; [|intros H; injection H as _ <-; reflexivity|discriminate].
  destruct (pulse_field _ _ _ _ _); cbn [prim]; [discriminate|intros H; injection H as _ <-; reflexivity|discriminate].
Qed.
Lemma oloop_raise {A} (P : A -> Prop) (body : nat -> A -> out A) n : forall lo s e s', (forall i a b, P a -> body i a = Fine b -> P b) -> (forall i a e b, P a -> body i a = Raise e b -> P b) ->
  P s -> oloop lo n body s = Raise e s' -> P s'.
Proof.
  induction n as [|n IH]; intros lo s e s' Hf Hr Hs H; cbn [oloop] in H; [discriminate|].
  destruct (body lo s) as [a|e0 a|u] eqn:E; cbn [obind] in H; [|injection H as <- <-; eapply Hr; eauto|discriminate]. exact (IH _ _ _ _ Hf Hr (Hf _ _ _ Hs E) H).
Qed.
Lemma step_sources_raise p e p' : step_sources p = Raise e p' -> static p' = static p.
Proof.
  unfold step_sources. intros H. refine (oloop_raise (fun q => static q = static p) _ _ _ _ _ _ _ _ eq_refl H).
  - intros i a b Ha Hb. rewrite <- Ha. eapply pulse_src_static; eauto.
  - intros i a e0 b Ha Hb. rewrite <- Ha. eapply pulse_src_raise; eauto.
Qed.
Lemma sources_under s c a : c <> mk_clocks -> under s c a -> ends (on_ph_out step_sources a) (under s c) (broken s).
Proof.
  intros Hc (A & B & C & D & E). unfold on_ph_out. destruct (step_sources (f_ph a)) eqn:Ef; cbn; [|exists c; split; auto|exact Logic.I].
  - apply step_sources_static in Ef. repeat split; cbn; auto. congruence.
  - apply step_sources_raise in Ef. repeat split; cbn; auto. congruence.
Qed.
Lemma start_under s c k c' a : clock_start k c = Ok c' -> under s c a -> ends (start k a) (under s c') (broken s).
Proof. intros Hc (A & B & C & D & E). unfold start. rewrite E, Hc. cbn. repeat split; auto. Qed.
Lemma stop_under s c k c' a : clock_stop k c = Ok c' -> under s c a -> ends (stop k a) (under s c') (broken s).
Proof. intros Hc (A & B & C & D & E). unfold stop. rewrite E, Hc. cbn. repeat split; auto. Qed.
Lemma monitors_under s c a : c <> mk_clocks -> under s c a -> ends (step_monitors a) (under s c) (broken s).
Proof.
  intros Hc (A & B & C & D & E). unfold step_monitors. destruct (mapM _ _); cbn; [repeat split; auto|exists c; repeat split; auto|exact Logic.I].
Qed.
Lemma step_clock_quiet p e : step_clock p <> Throw e.
Proof. unfold step_clock, i32. match goal with |- context [if ?b then _ else _] => destruct b end; cbn; discriminate. Qed.

Definition loop_on : clocks := Clocks false true false true.
Definition fourier_on : clocks := Clocks true false false true.
Lemma stepped_ends s : at_rest s -> ends (stepped s) (under s mk_clocks) (broken s).
Proof.
  intros Hr. unfold stepped.
  apply (obind_ends _ _ (under s loop_on)); [|intros a Ha; now apply (stop_under s loop_on)].
  do 4 (apply (obind_ends _ _ (under s loop_on)); [|intros a Ha; apply on_ph_under; [first [exact step_tfsfH_static|exact step_pmlH_static|exact step_H_static|exact step_tfsf_pulse_static]|discriminate|exact Ha]]).
  apply (obind_ends _ _ (under s mk_clocks)); [|intros a Ha; now apply (start_under s mk_clocks)].
  apply (obind_ends _ _ (under s fourier_on)); [|intros a Ha; now apply (stop_under s fourier_on)].
  apply (obind_ends _ _ (under s fourier_on)); [|intros a Ha; apply monitors_under; [discriminate|exact Ha]].
  apply (obind_ends _ _ (under s mk_clocks)); [|intros a Ha; now apply (start_under s mk_clocks)].
  apply (obind_ends _ _ (under s loop_on)); [|intros a Ha; now apply (stop_under s loop_on)].
  apply (obind_ends _ _ (under s loop_on)); [|intros a Ha; apply sources_under; [discriminate|exact Ha]].
  do 5 (apply (obind_ends _ _ (under s loop_on)); [|intros a Ha; apply on_ph_under; [first [exact step_tfsfD_static|exact step_polar_static|exact step_pmlE_static|exact step_E_static|intros p p' H; injection H as <-; apply step_prev_static]|discriminate|exact Ha]]).
  apply (obind_ends _ _ (under s mk_clocks)); [|intros a Ha; now apply (start_under s mk_clocks)].
  unfold on_ph. destruct (step_clock (f_ph s)) eqn:E; cbn; [|now apply step_clock_quiet in E|exact Logic.I].
  apply step_clock_static in E. repeat split; auto.
Qed.

Lemma tmons_raise s e s' : step_tmons s = Raise e s' -> f_ph s' = f_ph s /\ f_mons s' = f_mons s /\ f_mats s' = f_mats s /\ f_clk s' = f_clk s.
Proof.
  unfold step_tmons. intros H.
  assert (K : forall i a, ends (tm_ready i a) (fun b => f_ph b = f_ph a /\ f_mons b = f_mons a /\ f_mats b = f_mats a /\ f_clk b = f_clk a) (fun b => f_ph b = f_ph a /\ f_mons b = f_mons a /\ f_mats b = f_mats a /\ f_clk b = f_clk a)).
  { intros i a. unfold tm_ready. destruct (nth_error _ _) as [m|]; [|cbn; auto]. destruct (check_repeat _) as [[b ev]|e0|u]; cbn [prim]; [|cbn; auto|exact Logic.I].
    destruct b; [|cbn; auto]. destruct (tm_write _ _ _ _) as [[f m']|e0|u]; cbn; auto. }
  refine (oloop_raise (fun a => f_ph a = f_ph s /\ f_mons a = f_mons s /\ f_mats a = f_mats s /\ f_clk a = f_clk s) _ _ _ _ _ _ _ _ _ H); [| |auto].
  - intros i a b Ha Hb. specialize (K i a). rewrite Hb in K. cbn in K. intuition congruence.
  - intros i a e0 b Ha Hb. specialize (K i a). rewrite Hb in K. cbn in K. intuition congruence.
Qed.

(** an update ended by an exception: either before the time monitors, then the file and the time monitors are
    as they were and a stop-watch runs on; or in a time monitor, then the step is complete *)
Theorem update_raised s e s' : at_rest s -> update s = Raise e s' ->
  f_mats s' = f_mats s /\ ph_grid (f_ph s') = ph_grid (f_ph s) /\ ph_C (f_ph s') = ph_C (f_ph s) /\ ph_objs (f_ph s') = ph_objs (f_ph s) /\
  ((~ at_rest s' /\ f_h5 s' = f_h5 s /\ f_tmons s' = f_tmons s) \/
   (at_rest s' /\ exists s1, update (set_f_tmons [] s) = Fine s1 /\ f_ph s' = f_ph s1 /\ f_mons s' = f_mons s1)).
Proof.
  intros Hr. rewrite update_stepped. assert (K := stepped_ends s Hr). destruct (stepped s) as [a|e0 a|u] eqn:E; cbn [obind]; intros H; [|injection H as -> ->|discriminate].
  - cbn in K. destruct K as (A & B & C & D & F). apply static_eq in D. destruct (tmons_raise a e s' H) as (P & M & Mt & Ck). rewrite P, Mt.
    split; [congruence|]. do 3 (split; [tauto|]). right. split; [unfold at_rest; rewrite Ck, F; reflexivity|].
    exists (set_f_tmons [] a). rewrite update_stepped, stepped_bare, E. cbn. auto.
  - cbn in K. destruct K as (c & (A & B & C & D & F) & Hc). apply static_eq in D. split; [exact C|]. do 3 (split; [tauto|]). left. split; [|auto].
    unfold at_rest. rewrite F. exact Hc.
Qed.
End Raising.
