(** No call on a reachable state dereferences an empty optional or misses a map key. *)
From Coq Require Import ZArith String List Bool Lia.
From Verif Require Import Scalar Base BaseFacts VecM GridM GeometryM MaterialM PmlM DftM TfsfM PolarM
  InterpM H5M ClockM MonitorM FieldM OutFacts PhysFacts WfFacts ReachFacts.
From Verif Require Import OpsFacts.
Import ListNotations.
Local Open Scope Z_scope.

Section Clean.
Context {N : Num}.

Definition clean {A} (r : res A) : Prop := r <> UB BadOptional /\ r <> Throw OutOfRange.
Definition oclean {S} (m : out S) : Prop := m <> Undef BadOptional /\ forall s, m <> Raise OutOfRange s.

Lemma clean_ok {A} (a : A) : clean (Ok a). Proof. split; discriminate. Qed.
Lemma clean_bind {A B} (r : res A) (k : A -> res B) : clean r -> (forall a, clean (k a)) -> clean (bind r k).
Proof. unfold clean. destruct r; cbn; intros [H1 H2] Hk; [apply Hk|split; congruence|split; congruence]. Qed.
Lemma clean_foldM {A B} (f : A -> B -> res A) l : (forall a b, clean (f a b)) -> forall a, clean (foldM f a l).
Proof. intros H. induction l as [|b l IH]; intros a; cbn; [apply clean_ok|]. apply clean_bind; auto. Qed.
Lemma clean_mapM {A B} (f : A -> res B) l : (forall a, clean (f a)) -> clean (mapM f l).
Proof.
  intros H. induction l as [|b l IH]; cbn; [apply clean_ok|]. apply clean_bind; auto. intros x.
  apply clean_bind; auto. intros. apply clean_ok.
Qed.
Lemma clean_for_up {A} lo hi (f : Z -> A -> res A) a : (forall i a, clean (f i a)) -> clean (for_up lo hi f a).
Proof.
  intros H. unfold for_up. generalize (Z.to_nat (hi - lo)). intros n; revert lo a. induction n as [|n IH]; intros lo a; cbn [for_n]; [apply clean_ok|].
  apply clean_bind; auto.
Qed.
Lemma oclean_prim {S A} (s : S) (r : res A) k : clean r -> (forall a, oclean (k a)) -> oclean (prim s r k).
Proof. unfold clean, oclean. destruct r; cbn; intros [H1 H2] Hk; [apply Hk|split; [discriminate|congruence]|split; [congruence|discriminate]]. Qed.
Lemma oclean_fine {S} (s : S) : oclean (Fine s). Proof. split; discriminate. Qed.
Lemma oclean_bind {S} (P : S -> Prop) (m : out S) k : oclean m -> post P m -> (forall s, P s -> oclean (k s)) -> oclean (m >>= k).
Proof. unfold oclean. destruct m; cbn; intros [H1 H2] Hp Hk; [apply Hk; exact Hp|split; [discriminate|congruence]|split; [congruence|discriminate]]. Qed.
Lemma oclean_bind' {S} (m : out S) k : oclean m -> (forall s, oclean (k s)) -> oclean (m >>= k).
Proof. intros H Hk. apply (oclean_bind (fun _ => True)); auto. destruct m; cbn; auto. Qed.
Lemma oclean_oloop {S} (f : nat -> S -> out S) n : (forall i s, oclean (f i s)) -> forall lo s, oclean (oloop lo n f s).
Proof. intros H. induction n as [|n IH]; intros lo s; cbn; [apply oclean_fine|]. apply oclean_bind'; auto. Qed.

End Clean.

Ltac cl := repeat first
  [ apply clean_ok | apply oclean_fine
  | match goal with |- clean (bind _ _) => apply clean_bind; [|intros] end
  | match goal with |- clean (foldM _ _ _) => apply clean_foldM; intros end
  | match goal with |- clean (mapM _ _) => apply clean_mapM; intros end
  | match goal with |- clean (for_up _ _ _ _) => apply clean_for_up; intros end
  | match goal with |- clean (UB _) => split; discriminate end
  | match goal with |- clean (Throw _) => split; discriminate end
  | match goal with |- oclean (Raise _ _) => split; [discriminate|intros ? ?; discriminate] end
  | match goal with |- oclean (Undef _) => split; [discriminate|intros ? ?; discriminate] end
  | match goal with |- oclean (prim _ _ _) => apply oclean_prim; [|intros] end
  | match goal with |- oclean (oloop _ _ _ _) => apply oclean_oloop; intros end
  | match goal with |- oclean (_ >>= _) => apply oclean_bind'; [|intros] end
  | match goal with |- clean (ofOption _ ?o) => destruct o; cbn [ofOption] end
  | match goal with |- clean (if ?b then _ else _) => destruct b end
  | match goal with |- clean (match ?b with _ => _ end) => destruct b end
  | match goal with |- oclean (if ?b then _ else _) => destruct b end
  | match goal with |- oclean (match ?b with _ => _ end) => destruct b end
  | match goal with |- clean ((match ?x with _ => _ end) _) => destruct x end
  | progress cbv zeta
  | solve [auto with clean] ].

Create HintDb clean.

Section Clean2.
Context {N : Num}.

Lemma tget_clean a i j : clean (tget a i j). Proof. unfold tget; cl. Qed.
Lemma tset_clean a i j v : clean (tset a i j v). Proof. unfold tset; cl. Qed.
Lemma aget_clean a i : clean (aget a i). Proof. unfold aget; cl. Qed.
Lemma aset_clean a i v : clean (aset a i v). Proof. unfold aset; cl. Qed.
Lemma t3get_clean a i j k : clean (t3get a i j k). Proof. unfold t3get; cl. Qed.
Lemma t3set_clean a i j k v : clean (t3set a i j k v). Proof. unfold t3set; cl. Qed.
Lemma i32_clean z : clean (i32 z). Proof. unfold i32; cl. Qed.
Lemma tconst_clean n m v : clean (tconst n m v). Proof. unfold tconst; cl. Qed.
Lemma aconst_clean n v : clean (aconst n v). Proof. unfold aconst; cl. Qed.
Lemma t3const_clean n m k v : clean (t3const n m k v). Proof. unfold t3const; cl. Qed.
Hint Resolve tget_clean tset_clean aget_clean aset_clean t3get_clean t3set_clean i32_clean tconst_clean
  aconst_clean t3const_clean : clean.
Lemma h5_group_clean f p : clean (h5_group f p). Proof. unfold h5_group; cl. Qed.
Lemma h5_create_clean f p b v : clean (h5_create f p b v). Proof. unfold h5_create; cl. Qed.
Lemma h5_append_clean f p v : clean (h5_append f p v). Proof. unfold h5_append; cl. Qed.
Hint Resolve h5_group_clean h5_create_clean h5_append_clean : clean.
Lemma h5_groups_clean f l : clean (h5_groups f l). Proof. unfold h5_groups; cl. Qed.
Lemma h5_creates_clean f p l : clean (h5_creates f p l). Proof. unfold h5_creates; cl. Qed.
Hint Resolve h5_groups_clean h5_creates_clean : clean.
Lemma to_grid_clean g p : clean (to_grid g p). Proof. unfold to_grid; cl. Qed.
Hint Resolve to_grid_clean : clean.
Lemma inorm_clean v : clean (inorm v). Proof. unfold inorm; cl. Qed.
Hint Resolve inorm_clean : clean.
Lemma to_grid_surface_clean g s : clean (to_grid_surface g s).
Proof. unfold to_grid_surface, mk_isurface. cl. Qed.
Lemma to_grid_volume_clean g v : clean (to_grid_volume g v).
Proof. unfold to_grid_volume. cl. Qed.
Hint Resolve to_grid_surface_clean to_grid_volume_clean : clean.
Lemma dft_add_clean d n k : clean (dft_add d n k). Proof. unfold dft_add; cl. Qed.
Lemma dft_entries_clean {S} (f : sampler S) ph : (forall s n k, clean (f s n k)) ->
  forall m s, clean (dft_entries f ph s m).
Proof. intros H. induction m as [|[n e] m IH]; intros s; cbn [dft_entries]; cl; auto. Qed.
Lemma dft_update_clean {S} (f : sampler S) s d t : (forall s n k, clean (f s n k)) -> clean (dft_update f s d t).
Proof. intros H. unfold dft_update. cl. now apply dft_entries_clean. Qed.
Hint Resolve dft_add_clean : clean.
Lemma interpolate_clean dx F c p : clean (interpolate dx F c p).
Proof. unfold interpolate, bilinear, get_field, tat. cl. Qed.
Hint Resolve interpolate_clean : clean.
Lemma get_field_clean F c : clean (get_field F c). Proof. unfold get_field; cl. Qed.
Lemma tat_clean a p : clean (tat a p). Proof. unfold tat; cl. Qed.
Hint Resolve get_field_clean tat_clean : clean.
Lemma sample_E_clean dx F pos l n : clean (sample_E dx F pos l n).
Proof. unfold sample_E, for_samples, pget. cl. Qed.
Hint Resolve sample_E_clean : clean.
Lemma surf_update_clean g F t m : clean (surf_update g F t m).
Proof. unfold surf_update. cl. apply dft_update_clean. intros. unfold surf_sample, for_samples. cl. Qed.
Hint Resolve surf_update_clean : clean.
Lemma mon_update_clean g F t m : clean (mon_update g F t m).
Proof.
  destruct m; unfold mon_update, box_update, cyl_update, vol_update, pt_update; cl;
  apply dft_update_clean; intros; unfold cyl_sample, vol_sample, for_samples; cl.
Qed.
Lemma mon_attach_clean g m : clean (mon_attach g m).
Proof. destruct m; unfold mon_attach, surf_attach, box_attach, cyl_attach, vol_attach, pt_attach; cl. unfold surf_attach. cl. Qed.
Hint Resolve mon_update_clean mon_attach_clean : clean.
Lemma response_clean tp t : clean (response tp t).
Proof. unfold response, tp_update. cl. apply dft_update_clean. intros; cl. Qed.
Hint Resolve response_clean : clean.
Lemma field_add_clean F c v p : clean (field_add F c v p).
Proof. unfold field_add, tadd. cl. Qed.
Hint Resolve field_add_clean : clean.
Lemma pulse_field_clean g c k v F : clean (pulse_field g c k v F).
Proof. unfold pulse_field. cl. Qed.
Hint Resolve pulse_field_clean : clean.
Lemma step_sources_clean p : oclean (step_sources p).
Proof. unfold step_sources, pulse_src. cl. Qed.
Lemma step_clock_clean p : clean (step_clock p). Proof. unfold step_clock; cl. Qed.
Lemma step_tfsfD_clean p : clean (step_tfsfD p). Proof. unfold step_tfsfD, tfsf_updateD, tadd; cl. Qed.
Lemma step_tfsfH_clean p : clean (step_tfsfH p). Proof. unfold step_tfsfH, tfsf_updateH, tadd; cl. Qed.
Lemma on_ph_clean f s : clean (f (f_ph s)) -> oclean (on_ph f s).
Proof. intros H. unfold on_ph. apply oclean_prim; [exact H|]. intros. apply oclean_fine. Qed.
Lemma on_ph_out_clean f s : oclean (f (f_ph s)) -> oclean (on_ph_out f s).
Proof. unfold on_ph_out, oclean. intros [H1 H2]. destruct (f (f_ph s)); split; congruence. Qed.
Lemma start_clean k s : oclean (start k s). Proof. unfold start, clock_start; cl. Qed.
Lemma stop_clean k s : oclean (stop k s). Proof. unfold stop, clock_stop; cl. Qed.
Lemma step_monitors_clean s : oclean (step_monitors s). Proof. unfold step_monitors; cl. Qed.
Lemma h5_op_clean f o : clean (h5_op f o).
Proof. destruct o; unfold h5_op; cl. Qed.
Lemma h5_ops_clean f l : clean (h5_ops f l).
Proof. unfold h5_ops. apply clean_foldM. intros. apply h5_op_clean. Qed.
Hint Resolve h5_ops_clean : clean.
Lemma tm_write_clean g F f m : clean (tm_write g F f m).
Proof. unfold tm_write, tm_write1, tm_sample; cl. Qed.
Hint Resolve tm_write_clean : clean.
Lemma step_tmons_clean s : oclean (step_tmons s).
Proof. unfold step_tmons, tm_ready, check_repeat; cl. Qed.

Lemma ok_clean {A} (r : res A) : (exists a, r = Ok a) -> clean r.
Proof. intros [a ->]. apply clean_ok. Qed.

Section Calls.
Variable g : grid.
Hypothesis Hg : roomy g.

Definition sane (m : out field) : Prop := post (good g) m /\ oclean m.
Lemma sane_then m k : sane m -> (forall s, good g s -> sane (k s)) -> sane (m >>= k).
Proof.
  intros [H1 H2] Hk. split; [apply post_then; [exact H1|]; intros s Hs; now apply Hk|].
  eapply oclean_bind; eauto. intros s Hs. now apply Hk.
Qed.
Lemma on_ph_sane f s : good g s ->
  (forall p', f (f_ph s) = Ok p' -> wf_phys p' /\ static p' = static (f_ph s)) ->
  clean (f (f_ph s)) -> sane (on_ph f s).
Proof.
  intros H Hf Hc. split; [|now apply on_ph_clean]. apply on_ph_post; auto. intros p' E.
  destruct (Hf p' E) as [W S]. split; [exact W|]. apply static_eq in S. tauto.
Qed.
Lemma on_ph_sane_ok f s : good g s ->
  (wf_phys (f_ph s) -> roomy (ph_grid (f_ph s)) -> exists p', f (f_ph s) = Ok p' /\ wf_phys p') ->
  (forall p', f (f_ph s) = Ok p' -> static p' = static (f_ph s)) -> sane (on_ph f s).
Proof.
  intros H Hf Hs. destruct Hf as (p' & E & W); [apply H|destruct H as [_ ->]; exact Hg|].
  apply on_ph_sane; auto; [|apply ok_clean; eauto]. intros q Eq. split; [congruence|auto].
Qed.
Lemma start_sane k s : good g s -> sane (start k s).
Proof. split; [now apply start_post|apply start_clean]. Qed.
Lemma stop_sane k s : good g s -> sane (stop k s).
Proof. split; [now apply stop_post|apply stop_clean]. Qed.

Lemma update_sane s : good g s -> sane (update s).
Proof.
  intros H. split; [now apply update_post|]. unfold update.
  match goal with |- oclean (?m >>= step_tmons) => assert (Hs : sane m) end.
  2:{ apply oclean_bind'; [apply Hs|intros; apply step_tmons_clean]. }
  repeat (apply sane_then); try (intros; now apply start_sane); try (intros; now apply stop_sane).
  - apply on_ph_sane; [exact H| |apply step_clock_clean]. intros p' E.
    split; [eapply step_clock_wf; [exact E|apply H]|now apply step_clock_static].
  - intros s0 H0. apply on_ph_sane; [exact H0| |apply clean_ok]. intros p' E. injection E as <-.
    split; [apply step_prev_wf, H0|apply step_prev_static].
  - intros s0 H0. apply on_ph_sane_ok; [exact H0|intros; now apply step_E_ok|intros p'; apply step_E_static].
  - intros s0 H0. apply on_ph_sane_ok; [exact H0|intros; now apply step_pmlE_ok|intros p'; apply step_pmlE_static].
  - intros s0 H0. apply on_ph_sane_ok; [exact H0|intros; now apply step_polar_ok|intros p'; apply step_polar_static].
  - intros s0 H0. apply on_ph_sane; [exact H0| |apply step_tfsfD_clean]. intros p' E.
    split; [eapply step_tfsfD_wf; [exact E|apply H0]|now apply step_tfsfD_static].
  - intros s0 [W0 G0]. split; [|apply on_ph_out_clean, step_sources_clean]. unfold on_ph_out.
    assert (P1 := step_sources_post (f_ph s0) W0).
    assert (P2 : post (fun p => ph_grid p = g) (step_sources (f_ph s0))).
    { unfold step_sources. apply post_oloop; [exact G0|]. intros i p Hp. unfold pulse_src.
      destruct (nth_error (ph_srcs p) i); [|exact Hp]. apply post_prim; [exact Hp|]. intros [v tp] _.
      apply post_prim; [exact Hp|]. intros F _. exact Hp. }
    destruct (step_sources (f_ph s0)); cbn in *; auto; split; auto.
  - intros s0 H0. split; [|apply step_monitors_clean]. unfold step_monitors. apply post_prim; [exact H0|]. intros l _. exact H0.
  - intros s0 H0. apply on_ph_sane_ok; [exact H0| |intros p'; apply step_tfsf_pulse_static].
    intros W _. destruct (step_tfsf_pulse_ok _ W) as (p' & E & W' & _). eauto.
  - intros s0 H0. apply on_ph_sane_ok; [exact H0|intros; now apply step_H_ok|intros p'; apply step_H_static].
  - intros s0 H0. apply on_ph_sane_ok; [exact H0|intros; now apply step_pmlH_ok|intros p'; apply step_pmlH_static].
  - intros s0 H0. apply on_ph_sane; [exact H0| |apply step_tfsfH_clean]. intros p' E.
    split; [eapply step_tfsfH_wf; [exact E|apply H0]|now apply step_tfsfH_static].
Qed.

Lemma paint_clean gr o c : clean (paint gr o c). Proof. unfold paint; cl. Qed.
Lemma clear_coefs_clean gr k c : clean (clear_coefs gr k c). Proof. unfold clear_coefs; cl. Qed.
Hint Resolve paint_clean clear_coefs_clean : clean.

Lemma reinsert_keys o p p' : reinsert_material o p = Ok p' -> forall x, keys_ok p x -> keys_ok p' x.
Proof.
  unfold reinsert_material. intros H x. destruct (m_kind (o_mat o)); inv_ok; auto.
  all: unfold reinsert_polar in Hr; destruct (slookup _ _) as [[m0 q]|]; inv_ok.
  all: apply keys_ok_same; cbn; auto; intros k; apply sassign_lookup.
Qed.
Lemma repaint_clean l : forall p, wf_phys p -> Forall (keys_ok p) l -> clean (foldM repaint_one p l).
Proof.
  induction l as [|o l IH]; intros p Hw Hk; cbn [foldM]; [apply clean_ok|].
  inversion Hk as [|? ? Ho Hl]; subst. unfold repaint_one at 1, paint_phys.
  destruct (paint (ph_grid p) o (ph_C p)) as [c|e|u] eqn:E; cbn [bind];
    [|destruct (paint_clean (ph_grid p) o (ph_C p)); split; congruence..].
  assert (W1 : wf_phys (set_ph_C c p)).
  { apply (paint_phys_wf o p); [|exact Hw]. unfold paint_phys. now rewrite E. }
  destruct (reinsert_material_total o (set_ph_C c p) W1) as [p2 E2].
  { revert Ho. apply keys_ok_same; cbn; auto. }
  rewrite E2. cbn [bind]. apply IH; [eapply reinsert_material_wf; eauto|].
  eapply Forall_impl; [|exact Hl]. intros x Hx. eapply reinsert_keys; [exact E2|]. revert Hx. apply keys_ok_same; cbn; auto.
Qed.
Lemma update_material_grid_clean p : wf_phys p -> clean (update_material_grid p).
Proof.
  intros Hw. unfold update_material_grid.
  destruct (clear_coefs_total (ph_grid p) (ph_bg p) (ph_C p) (wf_C p Hw)) as [c [Ec Hc]].
  rewrite Ec. cbn [bind]. apply repaint_clean; [wfcon Hw; exact Hc|].
  eapply Forall_impl; [|apply (wf_keys p Hw)]. intros a. apply keys_ok_same; cbn; auto.
Qed.

Lemma add_polar_clean {M} np (vals : M -> T -> list T) gr P name x o : clean (add_polar np vals gr P name x o).
Proof. unfold add_polar, mk_polar, insert_polar, lget; cl. Qed.
Hint Resolve add_polar_clean : clean.
Lemma add_object_clean o s : oclean (add_object o s).
Proof. unfold add_object, register_mat, write_mat, write_obj, on_ph, paint_phys, insert_material. cl. Qed.
Lemma write_mon_clean f m : clean (write_mon f m).
Proof. apply h5_ops_clean. Qed.
Hint Resolve write_mon_clean : clean.
Lemma add_monitor_clean m s : oclean (add_monitor m s).
Proof. unfold add_monitor; cl. Qed.
Lemma write_field_clean c s : oclean (write_field c s).
Proof. unfold write_field; cl; try apply start_clean; try apply stop_clean. Qed.
Lemma on_obj_clean i h s : oclean (on_obj i h s).
Proof. unfold on_obj; cl. Qed.
Lemma mk_box_mon_clean name v k freq : clean (mk_box_mon name v k freq).
Proof. unfold mk_box_mon, get_surface, mk_surface; cl. Qed.

Lemma exec_clean c s : good g s -> oclean (exec c s).
Proof.
  intros H. destruct c; cbn [exec]; try apply on_obj_clean; try apply write_field_clean.
  - now apply update_sane.
  - apply on_ph_clean, update_material_grid_clean, H.
  - apply add_object_clean.
  - unfold add_source, write_src; cl.
  - apply add_monitor_clean.
  - unfold add_tmon; cl.
  - apply oclean_fine.
  - apply oclean_fine.
  - unfold clear_materials. apply on_ph_clean. cl.
  - unfold set_tfsf, mk_tfsf, write_tfsf; cl.
  - apply oclean_bind'; [|intros]; apply write_field_clean.
  - unfold write_monitor_data; cl.
  - unfold write_tmon; cl.
  - unfold write_current; cl.
  - unfold get_box_monitor. cl; [apply mk_box_mon_clean|apply add_monitor_clean].
Qed.

End Calls.
End Clean2.

Section Present.
Context {N : Num}.
Lemma polarizations_present g s : roomy g -> reachable g s ->
  (exists p', step_polar (f_ph s) = Ok p') /\
  (forall o, In o (ph_objs (f_ph s)) -> exists p', reinsert_material o (f_ph s) = Ok p').
Proof.
  intros Hg Hr. destruct (reachable_good g s Hg Hr) as [Hw _]. split.
  - destruct (step_polar_ok _ Hw) as (p' & E & _). eauto.
  - intros o Ho. apply reinsert_material_total; [exact Hw|]. assert (Hk := wf_keys _ Hw).
    rewrite Forall_forall in Hk. auto.
Qed.
End Present.
