(** Invariants of the physics under every call: it is enough to look at the primitive
    operations on the physical state. *)
From Coq Require Import ZArith String List Bool Lia.
From Verif Require Import Scalar Base BaseFacts VecM GridM GeometryM MaterialM PmlM DftM TfsfM PolarM
  InterpM H5M ClockM MonitorM FieldM OutFacts PhysFacts WfFacts ReachFacts.
Import ListNotations.
Local Open Scope Z_scope.

Section Inv.
Context {N : Num}.

(** what a source drives, apart from its profile *)
Definition src_place (r : source) := (sr_c r, sr_kind r).
(** the calls a program may make are those allowed by A; the list of sources changes by a source
    whose profile has moved on, or by a new one *)
Definition srcs_step (A : cmd -> Prop) (l l' : list source) : Prop :=
  map src_place l' = map src_place l \/ exists r, A (AddSource r) /\ l' = l ++ [r].
Lemma srcs_length A l l' : srcs_step A l l' -> (length l <= length l')%nat.
Proof. intros [H|(r & _ & ->)]; [apply (f_equal (@length _)) in H; rewrite !map_length in H; lia|rewrite app_length; lia]. Qed.
Lemma upd_place r l : forall i r0, nth_error l i = Some r0 -> src_place r = src_place r0 -> map src_place (upd_nth i r l) = map src_place l.
Proof.
  induction l as [|x l IH]; intros [|i] r0; cbn; try discriminate; intros H E; [injection H as ->; now rewrite E|].
  now rewrite (IH i r0).
Qed.
Lemma upd_in {A} (r : A) l : forall i r0, nth_error l i = Some r0 -> In r (upd_nth i r l).
Proof. induction l as [|x l IH]; intros [|i] r0; cbn; try discriminate; intros H; [now left|right; now apply (IH i r0)]. Qed.

Record keeps_for (A : cmd -> Prop) (P : phys -> Prop) : Prop := Keeps {
  k_clock : forall p p', P p -> step_clock p = Ok p' -> P p';
  k_prev : forall p, P p -> P (step_prev p);
  k_E : forall p p', P p -> step_E p = Ok p' -> P p';
  k_pmlE : forall p p', P p -> step_pmlE p = Ok p' -> P p';
  k_polar : forall p p', P p -> step_polar p = Ok p' -> P p';
  k_tfsfD : forall p p', P p -> step_tfsfD p = Ok p' -> P p';
  k_srcs : forall p l, P p -> srcs_step A (ph_srcs p) l -> P (set_ph_srcs l p);
  k_pulse : forall p r v F, P p -> In r (ph_srcs p) -> pulse_field (ph_grid p) (sr_c r) (sr_kind r) v (ph_F p) = Ok F -> P (set_ph_F F p);
  k_line : forall p p', P p -> step_tfsf_pulse p = Ok p' -> P p';
  k_H : forall p p', P p -> step_H p = Ok p' -> P p';
  k_pmlH : forall p p', P p -> step_pmlH p = Ok p' -> P p';
  k_tfsfH : forall p p', P p -> step_tfsfH p = Ok p' -> P p';
  k_paint : forall o p p', P p -> paint_phys o p = Ok p' -> P p';
  k_insert : forall o p p', P p -> insert_material o p = Ok p' -> P p';
  k_reinsert : forall o p p', P p -> reinsert_material o p = Ok p' -> P p';
  k_objs : forall p l, P p -> P (set_ph_objs l p);
  k_clearF : forall p, P p -> P (clear_fields_phys p);
  k_clearC : forall p c, P p -> clear_coefs (ph_grid p) (ph_bg p) (ph_C p) = Ok c -> P (set_ph_C c p);
  k_tfsf : forall p v tp q, P p -> A (SetTfsf v tp) -> mk_tfsf (ph_grid p) tp v (g_dt (ph_grid p)) = Ok q -> P (set_ph_tfsf (Some q) p) }.

Definition keeps (P : phys -> Prop) : Prop := keeps_for (fun _ => True) P.

Section Keep.
Variable A : cmd -> Prop.
Variable P : phys -> Prop.
Hypothesis K : keeps_for A P.
Definition inv (s : field) : Prop := P (f_ph s).

Lemma on_ph_inv f s : inv s -> (forall p', f (f_ph s) = Ok p' -> P p') -> post inv (on_ph f s).
Proof. intros H Hf. unfold on_ph. apply post_prim; [exact H|]. intros p' Hp. exact (Hf p' Hp). Qed.
Lemma start_inv k s : inv s -> post inv (start k s).
Proof. intros H. unfold start. apply post_prim; auto. Qed.
Lemma stop_inv k s : inv s -> post inv (stop k s).
Proof. intros H. unfold stop. apply post_prim; auto. Qed.
Lemma then_inv (m : out field) k : post inv m -> (forall s, inv s -> post inv (k s)) -> post inv (m >>= k).
Proof. intros H1 H2. apply (post_bind inv); auto. Qed.

Lemma step_sources_inv p : P p -> post P (step_sources p).
Proof.
  intros H. unfold step_sources. apply post_oloop; [exact H|]. intros i q Hq. unfold pulse_src.
  destruct (nth_error (ph_srcs q) i) as [r|] eqn:Er; [|exact Hq]. apply post_prim; [exact Hq|]. intros [v tp] _.
  cbv zeta. assert (Hq' : P (set_ph_srcs (upd_nth i (Source (sr_name r) (sr_c r) (sr_kind r) tp) (ph_srcs q)) q)) by (apply (k_srcs A P K); [exact Hq|left; refine (upd_place _ _ _ _ Er _); reflexivity]).
  apply post_prim; [exact Hq'|]. intros F EF. refine (k_pulse A P K _ (Source (sr_name r) (sr_c r) (sr_kind r) tp) _ _ Hq' _ EF).
  exact (upd_in _ _ _ _ Er).
Qed.

Lemma update_inv s : inv s -> post inv (update s).
Proof.
  intros H. unfold update. repeat apply then_inv.
  - apply on_ph_inv; [exact H|]. intros p'. now apply (k_clock A P K).
  - intros; now apply start_inv.
  - intros s0 H0. apply on_ph_inv; [exact H0|]. intros p' E. injection E as <-. now apply (k_prev A P K).
  - intros s0 H0. apply on_ph_inv; [exact H0|]. intros p'. now apply (k_E A P K).
  - intros s0 H0. apply on_ph_inv; [exact H0|]. intros p'. now apply (k_pmlE A P K).
  - intros s0 H0. apply on_ph_inv; [exact H0|]. intros p'. now apply (k_polar A P K).
  - intros s0 H0. apply on_ph_inv; [exact H0|]. intros p'. now apply (k_tfsfD A P K).
  - intros s0 H0. unfold on_ph_out. assert (P2 := step_sources_inv _ H0).
    destruct (step_sources (f_ph s0)); cbn in *; auto.
  - intros; now apply stop_inv.
  - intros; now apply start_inv.
  - intros s0 H0. unfold step_monitors. apply post_prim; [exact H0|]. intros l _. exact H0.
  - intros; now apply stop_inv.
  - intros; now apply start_inv.
  - intros s0 H0. apply on_ph_inv; [exact H0|]. intros p'. now apply (k_line A P K).
  - intros s0 H0. apply on_ph_inv; [exact H0|]. intros p'. now apply (k_H A P K).
  - intros s0 H0. apply on_ph_inv; [exact H0|]. intros p'. now apply (k_pmlH A P K).
  - intros s0 H0. apply on_ph_inv; [exact H0|]. intros p'. now apply (k_tfsfH A P K).
  - intros; now apply stop_inv.
  - intros s0 H0. unfold step_tmons. apply post_oloop; [exact H0|]. intros i s1 H1. unfold tm_ready.
    destruct (nth_error (f_tmons s1) i) as [t|]; [|exact H1]. apply post_prim; [exact H1|]. intros [b v] _.
    destruct b; [|exact H1]. apply post_prim; [exact H1|]. intros [f t'] _. exact H1.
Qed.

Lemma add_monitor_inv m s : inv s -> post inv (add_monitor m s).
Proof.
  intros H. unfold add_monitor. apply post_prim; [exact H|]. intros m' _.
  apply post_prim; [exact H|]. intros f _. exact H.
Qed.
Lemma write_field_inv c s : inv s -> post inv (write_field c s).
Proof.
  intros H. unfold write_field. apply then_inv; [apply then_inv; [now apply start_inv|]|intros; now apply stop_inv].
  intros s0 H0. apply post_prim; [exact H0|]. intros f _.
  destruct c; try exact H0; (apply post_prim; [exact H0|]; intros f' _; exact H0).
Qed.
Lemma on_obj_inv i h s : inv s -> post inv (on_obj i h s).
Proof.
  intros H. unfold on_obj. destruct (nth_error _ _) as [o|]; [|exact H].
  destruct (o_dyn o); [|exact H]. apply (k_objs A P K). exact H.
Qed.

Lemma exec_inv c s : A c -> inv s -> post inv (exec c s).
Proof.
  intros Ha H. destruct c; cbn [exec].
  - now apply update_inv.
  - apply on_ph_inv; [exact H|]. intros p' E. unfold update_material_grid in E. inv_ok.
    apply (foldM_post P) in E; [exact E| |].
    + apply (k_clearC A P K); assumption.
    + intros a x b _ Hx Hb. unfold repaint_one in Hb. inv_ok.
      eapply (k_reinsert A P K); [|exact Hb]. eapply (k_paint A P K); eassumption.
  - unfold add_object. repeat apply then_inv.
    + unfold register_mat. destruct (str_in _ _); [exact H|]. apply post_prim; [exact H|]. intros f _. exact H.
    + intros s0 H0. apply on_ph_inv; [exact H0|]. intros p'. now apply (k_paint A P K).
    + intros s0 H0. apply on_ph_inv; [exact H0|]. intros p'. now apply (k_insert A P K).
    + intros s0 H0. apply post_prim; [exact H0|]. intros f _. exact H0.
    + intros s0 H0. apply (k_objs A P K). exact H0.
  - unfold add_source. apply post_prim; [exact H|]. intros f _. apply (k_srcs A P K); [exact H|]. right. exists r. split; [exact Ha|reflexivity].
  - now apply add_monitor_inv.
  - unfold add_tmon. apply post_prim; [exact H|]. intros f _. exact H.
  - exact H.
  - apply (k_clearF A P K). exact H.
  - unfold clear_materials. apply on_ph_inv; [exact H|]. intros p' E. inv_ok. apply (k_clearC A P K); [exact H|assumption].
  - unfold set_tfsf. apply post_prim; [exact H|]. intros q Hq.
    assert (H' : inv (map_ph (set_ph_tfsf (Some q)) s)) by (eapply (k_tfsf A P K); [exact H|exact Ha|exact Hq]).
    apply post_prim; [exact H'|]. intros f _. exact H'.
  - now apply write_field_inv.
  - now apply write_field_inv.
  - unfold writeH. apply then_inv; [now apply write_field_inv|]. intros; now apply write_field_inv.
  - unfold write_monitor_data. destruct (nth_error (f_mons s) i) as [m|]; [|exact H].
    destruct (mon_sub_name m). apply post_prim; [exact H|]. intros f _. exact H.
  - unfold write_tmon. destruct (nth_error (f_tmons s) i) as [m|]; [|exact H].
    apply post_prim; [exact H|]. intros [f m'] _. exact H.
  - now apply on_obj_inv.
  - now apply on_obj_inv.
  - now apply on_obj_inv.
  - now apply on_obj_inv.
  - unfold write_current. destruct (nth_error _ _) as [o|]; [|exact H]. destruct (o_dyn o); [|exact H].
    apply post_prim; [exact H|]. intros f _. exact H.
  - unfold get_box_monitor. destruct (nth_error _ _) as [o|]; [|exact H].
    apply post_prim; [exact H|]. intros m _. now apply add_monitor_inv.
Qed.

Lemma run_catch_inv l : Forall A l -> forall s, inv s -> post inv (run_catch l s).
Proof.
  induction 1 as [|c l Ha Hl IH]; intros s H; cbn [run_catch]; [exact H|].
  assert (Hc := exec_inv c s Ha H). destruct (exec c s); cbn in *; auto.
Qed.

Lemma run_from_new g name s0 l s : (forall p, mk_phys g = Ok p -> P p) -> mk_field g name = Ok s0 -> Forall A l ->
  run_catch l s0 = Fine s -> P (f_ph s).
Proof.
  intros H0 E0 Ha E. unfold mk_field in E0. inv_ok.
  destruct (String.eqb name ""); [discriminate|]. inv_ok.
  match goal with H : run_catch l ?s1 = _ |- _ => assert (H' := run_catch_inv l Ha s1 (H0 _ Hr)) end.
  rewrite E in H'. exact H'.
Qed.
End Keep.

Lemma reachable_inv P (K : keeps P) g s : (forall p, mk_phys g = Ok p -> P p) -> reachable g s -> P (f_ph s).
Proof.
  intros H0 (name & s0 & l & E0 & E). apply (run_from_new _ _ K g name s0 l s H0 E0); [|exact E]. apply Forall_forall. auto.
Qed.

End Inv.
