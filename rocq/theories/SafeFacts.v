(** Memory safety of update() on reachable states. *)
From Coq Require Import ZArith String List Bool Lia.
From Verif Require Import Scalar Base BaseFacts VecM GridM GeometryM MaterialM PmlM DftM TfsfM PolarM
  InterpM H5M ClockM MonitorM FieldM SpecGrid GridFacts OutFacts PhysFacts PaintFacts WfFacts ReachFacts SpecSafety.
Import ListNotations.
Local Open Scope Z_scope.

Section Safe.
Context {N : Num}.

Lemma line_cells_inside g l : Z.abs (fst (is_b l) - fst (is_a l)) + Z.abs (snd (is_b l) - snd (is_a l)) =
    fst (is_dim l) + snd (is_dim l) ->
  is_tangent l = (Z.sgn (fst (is_b l) - fst (is_a l)), Z.sgn (snd (is_b l) - snd (is_a l))) ->
  fst (is_a l) = fst (is_b l) \/ snd (is_a l) = snd (is_b l) ->
  in_cells g (is_a l) -> in_cells g (is_b l) -> Forall (in_cells g) (line_cells l).
Proof.
  intros Hd Ht Hax Ha Hb. unfold line_cells. rewrite <- Hd, Ht. apply Forall_forall. intros q Hq.
  apply in_map_iff in Hq. destruct Hq as [k [<- Hk]]. apply zrange_In in Hk.
  unfold in_cells, iadd, iscale in *. cbn [fst snd] in *.
  destruct (is_a l) as [a0 a1], (is_b l) as [b0 b1]. cbn [fst snd] in *.
  destruct Hax as [-> | ->]; rewrite ?Z.sub_diag, ?Z.mul_0_r in *; cbn [Z.abs Z.sgn] in *; rewrite ?Z.mul_0_r.
  - destruct (Z.lt_trichotomy (b1 - a1) 0) as [H|[H|H]].
    + rewrite (Z.sgn_neg _ H). lia.
    + lia.
    + rewrite (Z.sgn_pos _ H). lia.
  - destruct (Z.lt_trichotomy (b0 - a0) 0) as [H|[H|H]].
    + rewrite (Z.sgn_neg _ H). lia.
    + lia.
    + rewrite (Z.sgn_pos _ H). lia.
Qed.

Lemma source_inside_ok g r : source_inside g r -> src_ok g r.
Proof.
  intros [Hc Hk]. split; [exact Hc|]. destruct (sr_kind r) as [p|s]; [exact Hk|].
  destruct Hk as (a & b & Ea & Eb & Ga & Gb & Hne & Hax & Hlen).
  destruct (mk_isurface_axis a b (s_sign s) Hax Hne Hlen) as (l & El & Ia & Ib & _ & Hd & _ & Ht).
  exists l. split.
  - unfold to_grid_surface. rewrite Ea, Eb. exact El.
  - apply line_cells_inside; rewrite ?Ia, ?Ib; auto. rewrite Hd. reflexivity.
Qed.

Lemma sources_inside_placed p : sources_inside p -> placed p.
Proof.
  intros [H1 H2]. split.
  - apply Forall_forall. intros r Hr. apply source_inside_ok. auto.
  - intros q Hq. destruct (H2 q Hq) as (A & B & C & D). repeat split; lia.
Qed.

(** the field part of update() *)
Lemma phys_step_safe g s : big_enough g -> reachable g s -> sources_inside (f_ph s) ->
  INT_MIN <= ph_step (f_ph s) < INT_MAX -> exists p', phys_step (f_ph s) = Fine p'.
Proof.
  intros Hg Hr Hs Hn. destruct (reachable_good g s Hg Hr) as [Hw Eg].
  destruct (phys_step_ok (f_ph s)) as (p' & E & _); auto; [now rewrite Eg|now apply sources_inside_placed|].
  eauto.
Qed.

Lemma update_safe g s n : big_enough g -> reachable g s -> sources_inside (f_ph s) -> stopped s ->
  f_mons s = [] -> f_tmons s = [] -> INT_MIN <= ph_step (f_ph s) -> ph_step (f_ph s) + Z.of_nat n <= INT_MAX ->
  exists s', run (repeat Update n) s = Fine s' /\ ph_step (f_ph s') = ph_step (f_ph s) + Z.of_nat n.
Proof.
  intros Hg Hr Hs Hk Hm Ht Hn Hn'. destruct (reachable_good g s Hg Hr) as [Hw Eg].
  destruct (updates_ok n s) as (s' & E & R); auto; [now rewrite Eg|now apply sources_inside_placed|].
  exists s'. split; [exact E|]. tauto.
Qed.

(** with any monitors and time monitors: whatever goes wrong in update() is in the
    sampling of the monitors *)
Lemma obind_undef {S} (m : out S) k u : m >>= k = Undef u -> m = Undef u \/ exists s, m = Fine s /\ k s = Undef u.
Proof. destruct m; cbn; intros H; [right; eauto|discriminate|left; congruence]. Qed.

Lemma run_run_catch l : forall s s', run l s = Fine s' -> run_catch l s = Fine s'.
Proof.
  induction l as [|c l IH]; intros s s' H; cbn [run run_catch] in *; [exact H|].
  apply obind_fine in H. destruct H as (s1 & E & H). rewrite E. auto.
Qed.
Lemma run_catch_app l1 l2 : forall s s1, run_catch l1 s = Fine s1 -> run_catch (l1 ++ l2) s = run_catch l2 s1.
Proof.
  induction l1 as [|c l IH]; intros s s1 H; cbn [app run_catch] in *; [congruence|].
  destruct (exec c s); [auto|auto|discriminate].
Qed.
Lemma run_reachable g s l s' : reachable g s -> run l s = Fine s' -> reachable g s'.
Proof.
  intros (name & s0 & l0 & E0 & E) Hr. exists name, s0, (l0 ++ l). split; [exact E0|].
  rewrite (run_catch_app _ _ _ _ E). now apply run_run_catch.
Qed.

End Safe.
