(** The stop-watches. *)
From Coq Require Import ZArith String List Bool Lia.
From Verif Require Import Scalar Base BaseFacts VecM GridM GeometryM MaterialM PmlM DftM TfsfM PolarM
  InterpM H5M ClockM MonitorM FieldM OutFacts PhysFacts SpecClock H5Facts.
Import ListNotations.
Local Open Scope Z_scope.

Definition mute {A} (r : res A) : Prop := r <> Throw RuntimeError.

Lemma mute_ok {A} (a : A) : mute (Ok a). Proof. discriminate. Qed.
Lemma mute_bind {A B} (r : res A) (k : A -> res B) : mute r -> (forall a, mute (k a)) -> mute (bind r k).
Proof. unfold mute. destruct r; cbn; intros H Hk; auto; congruence. Qed.
Lemma mute_foldM {A B} (f : A -> B -> res A) l : (forall a b, mute (f a b)) -> forall a, mute (foldM f a l).
Proof. intros H. induction l as [|b l IH]; intros a; cbn; [apply mute_ok|]. apply mute_bind; auto. Qed.
Lemma mute_mapM {A B} (f : A -> res B) l : (forall a, mute (f a)) -> mute (mapM f l).
Proof.
  intros H. induction l as [|b l IH]; cbn; [apply mute_ok|]. apply mute_bind; auto. intros x.
  apply mute_bind; auto. intros. apply mute_ok.
Qed.
Lemma mute_for_up {A} lo hi (f : Z -> A -> res A) a : (forall i a, mute (f i a)) -> mute (for_up lo hi f a).
Proof.
  intros H. unfold for_up. generalize (Z.to_nat (hi - lo)). intros n; revert lo a. induction n as [|n IH]; intros lo a; cbn [for_n]; [apply mute_ok|].
  apply mute_bind; auto.
Qed.

Create HintDb mute.
Ltac mu := repeat first
  [ apply mute_ok
  | match goal with |- mute (bind _ _) => apply mute_bind; [|intros] end
  | match goal with |- mute (foldM _ _ _) => apply mute_foldM; intros end
  | match goal with |- mute (mapM _ _) => apply mute_mapM; intros end
  | match goal with |- mute (for_up _ _ _ _) => apply mute_for_up; intros end
  | match goal with |- mute (for2 _ _ _ _ _ _) => unfold for2 end
  | match goal with |- mute (UB _) => discriminate end
  | match goal with |- mute (Throw _) => discriminate end
  | match goal with |- mute (ofOption _ ?o) => destruct o; cbn [ofOption] end
  | match goal with |- mute (if ?b then _ else _) => destruct b end
  | match goal with |- mute (match ?b with _ => _ end) => destruct b end
  | match goal with |- mute ((match ?x with _ => _ end) _) => destruct x end
  | progress cbv zeta
  | solve [auto with mute] ].

Section Mute.
Context {N : Num}.
Lemma tget_mute a i j : mute (tget a i j). Proof. unfold tget; mu. Qed.
Lemma tset_mute a i j v : mute (tset a i j v). Proof. unfold tset; mu. Qed.
Lemma aget_mute a i : mute (aget a i). Proof. unfold aget; mu. Qed.
Lemma aset_mute a i v : mute (aset a i v). Proof. unfold aset; mu. Qed.
Lemma t3get_mute a i j k : mute (t3get a i j k). Proof. unfold t3get; mu. Qed.
Lemma t3set_mute a i j k v : mute (t3set a i j k v). Proof. unfold t3set; mu. Qed.
Lemma i32_mute z : mute (i32 z). Proof. unfold i32; mu. Qed.
Lemma tconst_mute n m v : mute (tconst n m v). Proof. unfold tconst; mu. Qed.
Lemma aconst_mute n v : mute (aconst n v). Proof. unfold aconst; mu. Qed.
Lemma t3const_mute n m k v : mute (t3const n m k v). Proof. unfold t3const; mu. Qed.
Hint Resolve tget_mute tset_mute aget_mute aset_mute t3get_mute t3set_mute i32_mute tconst_mute
  aconst_mute t3const_mute : mute.
Lemma h5_group_mute f p : mute (h5_group f p). Proof. unfold h5_group; mu. Qed.
Lemma h5_create_mute f p b v : mute (h5_create f p b v). Proof. unfold h5_create; mu. Qed.
Lemma h5_append_mute f p v : mute (h5_append f p v). Proof. unfold h5_append; mu. Qed.
Hint Resolve h5_group_mute h5_create_mute h5_append_mute : mute.
Lemma h5_groups_mute f l : mute (h5_groups f l). Proof. unfold h5_groups; mu. Qed.
Lemma h5_creates_mute f p l : mute (h5_creates f p l). Proof. unfold h5_creates; mu. Qed.
Hint Resolve h5_groups_mute h5_creates_mute : mute.
Lemma to_grid_mute g p : mute (to_grid g p). Proof. unfold to_grid; mu. Qed.
Hint Resolve to_grid_mute : mute.
Lemma inorm_mute v : mute (inorm v). Proof. unfold inorm; mu. Qed.
Hint Resolve inorm_mute : mute.
Lemma to_grid_surface_mute g s : mute (to_grid_surface g s).
Proof. unfold to_grid_surface, mk_isurface. mu. Qed.
Lemma to_grid_volume_mute g v : mute (to_grid_volume g v).
Proof. unfold to_grid_volume. mu. Qed.
Hint Resolve to_grid_surface_mute to_grid_volume_mute : mute.
Lemma dft_add_mute d n k : mute (dft_add d n k). Proof. unfold dft_add; mu. Qed.
Lemma dft_entries_mute {S} (f : sampler S) ph : (forall s n k, mute (f s n k)) ->
  forall m s, mute (dft_entries f ph s m).
Proof. intros H. induction m as [|[n e] m IH]; intros s; cbn [dft_entries]; mu; auto. Qed.
Lemma dft_update_mute {S} (f : sampler S) s d t : (forall s n k, mute (f s n k)) -> mute (dft_update f s d t).
Proof. intros H. unfold dft_update. mu. now apply dft_entries_mute. Qed.
Hint Resolve dft_add_mute : mute.
Lemma get_field_mute F c : mute (get_field F c). Proof. unfold get_field; mu. Qed.
Lemma tat_mute a p : mute (tat a p). Proof. unfold tat; mu. Qed.
Hint Resolve get_field_mute tat_mute : mute.
Lemma interpolate_mute dx F c p : mute (interpolate dx F c p).
Proof. unfold interpolate, bilinear. mu. Qed.
Hint Resolve interpolate_mute : mute.
Lemma sample_E_mute dx F pos l n : mute (sample_E dx F pos l n).
Proof. unfold sample_E, for_samples, pget. mu. Qed.
Hint Resolve sample_E_mute : mute.
Lemma surf_update_mute g F t m : mute (surf_update g F t m).
Proof. unfold surf_update. mu. apply dft_update_mute. intros. unfold surf_sample, for_samples. mu. Qed.
Hint Resolve surf_update_mute : mute.
Lemma mon_update_mute g F t m : mute (mon_update g F t m).
Proof.
  destruct m; unfold mon_update, box_update, cyl_update, vol_update, pt_update; mu;
  apply dft_update_mute; intros; unfold cyl_sample, vol_sample, for_samples; mu.
Qed.
Lemma mon_attach_mute g m : mute (mon_attach g m).
Proof. destruct m; unfold mon_attach, surf_attach, box_attach, cyl_attach, vol_attach, pt_attach; mu. unfold surf_attach. mu. Qed.
Hint Resolve mon_update_mute mon_attach_mute : mute.
Lemma response_mute tp t : mute (response tp t).
Proof. unfold response, tp_update. mu. apply dft_update_mute. intros; mu. Qed.
Hint Resolve response_mute : mute.
Lemma field_add_mute F c v p : mute (field_add F c v p).
Proof. unfold field_add, tadd. mu. Qed.
Hint Resolve field_add_mute : mute.
Lemma pulse_field_mute g c k v F : mute (pulse_field g c k v F).
Proof. unfold pulse_field. mu. Qed.
Hint Resolve pulse_field_mute : mute.
Lemma h5_op_mute f o : mute (h5_op f o).
Proof. destruct o; unfold h5_op; mu. Qed.
Lemma h5_ops_mute f l : mute (h5_ops f l).
Proof. unfold h5_ops. apply mute_foldM. intros. apply h5_op_mute. Qed.
Hint Resolve h5_ops_mute : mute.
Lemma tm_write_mute g F f m : mute (tm_write g F f m).
Proof. unfold tm_write, tm_write1, tm_sample; mu. Qed.
Hint Resolve tm_write_mute : mute.
Lemma write_mon_mute f m : mute (write_mon f m).
Proof. apply h5_ops_mute. Qed.
Hint Resolve write_mon_mute : mute.
Lemma mk_box_mon_mute name v k freq : mute (mk_box_mon name v k freq).
Proof. unfold mk_box_mon, get_surface, mk_surface; mu. Qed.
Hint Resolve mk_box_mon_mute : mute.
Lemma check_repeat_mute e : mute (check_repeat e). Proof. unfold check_repeat; mu. Qed.
Hint Resolve check_repeat_mute : mute.
Lemma step_clock_mute p : mute (step_clock p). Proof. unfold step_clock; mu. Qed.
Lemma step_tfsfD_mute p : mute (step_tfsfD p). Proof. unfold step_tfsfD, tfsf_updateD, tadd; mu. Qed.
Lemma step_tfsfH_mute p : mute (step_tfsfH p). Proof. unfold step_tfsfH, tfsf_updateH, tadd; mu. Qed.
Hint Resolve step_clock_mute step_tfsfD_mute step_tfsfH_mute : mute.

(** clocks equal to c on normal return, never a stop-watch error *)
Definition calm (c : clocks) (m : out field) : Prop :=
  match m with Fine s => f_clk s = c | Raise e _ => e <> RuntimeError | Undef _ => True end.
Lemma calm_bind c c' m k : calm c m -> (forall s, f_clk s = c -> calm c' (k s)) -> calm c' (m >>= k).
Proof. destruct m; cbn; auto. Qed.
Lemma calm_prim {A} c s (r : res A) k : mute r -> (forall a, calm c (k a)) -> calm c (prim s r k).
Proof. unfold mute. destruct r; cbn; auto. intros H _ E. congruence. Qed.
Lemma on_ph_calm f s c : f_clk s = c -> mute (f (f_ph s)) -> calm c (on_ph f s).
Proof. intros Hc H. unfold on_ph. apply calm_prim; [exact H|]. intros. exact Hc. Qed.
Lemma calm_oloop c body n : (forall i s, f_clk s = c -> calm c (body i s)) -> forall lo s, f_clk s = c -> calm c (oloop lo n body s).
Proof. intros H. induction n as [|n IH]; intros lo s Hs; cbn [oloop]; [exact Hs|]. eapply calm_bind; [apply H; exact Hs|]. intros; now apply IH. Qed.
Lemma start_calm k s c : f_clk s = c -> ticking c k = false -> calm (set_ticking c k true) (start k s).
Proof. intros E H. unfold start, clock_start. rewrite E, H. reflexivity. Qed.
Lemma stop_calm k s c : f_clk s = c -> ticking c k = true -> calm (set_ticking c k false) (stop k s).
Proof. intros E H. unfold stop, clock_stop. rewrite E, H. reflexivity. Qed.

Lemma step_E_mute p : mute (step_E p).
Proof. unfold step_E, E_loop, E_body. mu. Qed.
Lemma step_H_mute p : mute (step_H p).
Proof. unfold step_H, H_loop, H_body. mu. Qed.
Lemma step_pmlE_mute p : mute (step_pmlE p).
Proof. unfold step_pmlE, pml_update_E, pml_Ey, pml_Ex, Ey_body, Ex_body. mu. Qed.
Lemma step_pmlH_mute p : mute (step_pmlH p).
Proof. unfold step_pmlH, pml_update_H, pml_Hx, pml_Hy, Hx_body, Hy_body. mu. Qed.
Lemma polar_all_mute {M} (f : M -> polar -> tensor -> tensor -> res (polar * tensor)) prev P :
  (forall m p a b, mute (f m p a b)) -> forall E, mute (polar_all f prev E P).
Proof. intros H. induction P as [|[name [m q]] P IH]; intros E; cbn [polar_all]; mu; auto. Qed.
Lemma step_polar_mute p : mute (step_polar p).
Proof.
  unfold step_polar. mu; apply polar_all_mute; intros; unfold debye_update, drude_update, lorentz_update, debye_body, drude_body, lorentz_body, lget; mu.
Qed.
Lemma step_tfsf_pulse_mute p : mute (step_tfsf_pulse p).
Proof. unfold step_tfsf_pulse, tfsf_pulse, pulseE_body, pulseH_body. mu. apply dft_update_mute. intros. unfold tfsf_sample. mu. Qed.
Hint Resolve step_E_mute step_H_mute step_pmlE_mute step_pmlH_mute step_polar_mute step_tfsf_pulse_mute : mute.

Lemma pulse_src_raise i p e p' : pulse_src i p = Raise e p' -> e <> RuntimeError.
Proof.
  unfold pulse_src. destruct (nth_error (ph_srcs p) i); [|discriminate].
  assert (M1 := response_mute (sr_tp s) (ph_t p)). destruct (response _ _) as [[v tp]|e1|u]; cbn [prim]; [|intros H E; apply M1; congruence|discriminate].
  match goal with |- context [prim ?a ?r ?k] => assert (M2 : mute r) by mu; destruct r as [F|e2|u]; cbn [prim];
    [discriminate|intros H E; apply M2; congruence|discriminate] end.
Qed.
Lemma oloop_raise {S} (Q : exn -> Prop) (body : nat -> S -> out S) n :
  (forall i s e s', body i s = Raise e s' -> Q e) -> forall lo s e s', oloop lo n body s = Raise e s' -> Q e.
Proof.
  intros H. induction n as [|n IH]; intros lo s e s'; cbn [oloop]; [discriminate|].
  destruct (body lo s) eqn:E; cbn [obind]; [apply IH|intros E'; injection E' as <- _; eapply H; eauto|discriminate].
Qed.
Lemma sources_calm s c : f_clk s = c -> calm c (on_ph_out step_sources s).
Proof.
  intros Hc. unfold on_ph_out. destruct (step_sources (f_ph s)) eqn:E; cbn; auto.
  unfold step_sources in E. eapply (oloop_raise (fun e => e <> RuntimeError)); [apply pulse_src_raise|exact E].
Qed.
Lemma step_monitors_calm s c : f_clk s = c -> calm c (step_monitors s).
Proof. intros Hc. unfold step_monitors. apply calm_prim; [mu|]. intros. exact Hc. Qed.
Lemma tm_ready_calm i s c : f_clk s = c -> calm c (tm_ready i s).
Proof.
  intros Hc. unfold tm_ready. destruct (nth_error (f_tmons s) i); [|exact Hc]. apply calm_prim; [mu|]. intros [b e].
  destruct b; [|exact Hc]. apply calm_prim; [mu|]. intros [f m]. exact Hc.
Qed.

Lemma update_calm s : at_rest s -> calm mk_clocks (update s).
Proof.
  intros H. unfold update.
  eapply calm_bind; [|intros; unfold step_tmons; apply calm_oloop; [intros; now apply tm_ready_calm|eassumption]].
  repeat match goal with
  | |- calm _ (_ >>= stop ?k) => eapply calm_bind; [|intros s' E'; apply (stop_calm k s' (set_ticking mk_clocks k true) E'); reflexivity]
  | |- calm _ (_ >>= start ?k) => eapply calm_bind; [|intros s' E'; apply (start_calm k s' mk_clocks E'); reflexivity]
  | |- calm _ (_ >>= on_ph_out step_sources) => eapply calm_bind; [|intros; apply sources_calm; eassumption]
  | |- calm _ (_ >>= step_monitors) => eapply calm_bind; [|intros; apply step_monitors_calm; eassumption]
  | |- calm _ (_ >>= on_ph _) => eapply calm_bind; [|intros; apply on_ph_calm; [eassumption|auto with mute; apply mute_ok]]
  end.
  apply on_ph_calm; [exact H|apply step_clock_mute].
Qed.

Lemma write_field_calm c s : at_rest s -> calm mk_clocks (write_field c s).
Proof.
  intros H. unfold write_field.
  eapply calm_bind; [|intros s' E'; apply (stop_calm Hdf5 s' (set_ticking mk_clocks Hdf5 true) E'); reflexivity].
  eapply calm_bind; [apply (start_calm Hdf5 s mk_clocks H); reflexivity|]. intros s1 E1.
  apply calm_prim; [mu|]. intros f. destruct c; try (cbn; discriminate); apply calm_prim; try mu; intros; exact E1.
Qed.

Lemma on_obj_calm i h s : at_rest s -> calm mk_clocks (on_obj i h s).
Proof. intros H. unfold on_obj. destruct (nth_error _ _); [destruct (o_dyn _)|]; exact H. Qed.
Lemma paint_mute gr o c : mute (paint gr o c). Proof. unfold paint; mu. Qed.
Lemma clear_coefs_mute gr k c : mute (clear_coefs gr k c). Proof. unfold clear_coefs; mu. Qed.
Lemma mk_tfsf_mute g tp v dt : mute (mk_tfsf g tp v dt). Proof. unfold mk_tfsf; mu. Qed.
Hint Resolve paint_mute clear_coefs_mute mk_tfsf_mute : mute.
Lemma update_material_grid_mute p : mute (update_material_grid p).
Proof. unfold update_material_grid, repaint_one, paint_phys, reinsert_material, reinsert_polar, insert_polar, lget. mu. Qed.
Lemma insert_material_mute o p : mute (insert_material o p).
Proof. unfold insert_material, add_polar, mk_polar, insert_polar, lget. mu. Qed.
Hint Resolve update_material_grid_mute insert_material_mute : mute.
Lemma add_monitor_calm m s : at_rest s -> calm mk_clocks (add_monitor m s).
Proof. intros H. unfold add_monitor. apply calm_prim; [mu|]. intros m'. apply calm_prim; [mu|]. intros. exact H. Qed.

Lemma exec_calm c s : at_rest s -> calm mk_clocks (exec c s).
Proof.
  intros H. destruct c; cbn [exec].
  - now apply update_calm.
  - apply on_ph_calm; [exact H|mu].
  - unfold add_object. eapply calm_bind; [|intros s' E'; exact E'].
    eapply calm_bind; [|intros s' E'; apply calm_prim; [unfold write_obj; mu|]; intros; exact E'].
    eapply calm_bind; [|intros s' E'; apply on_ph_calm; [exact E'|mu]].
    eapply calm_bind; [|intros s' E'; apply on_ph_calm; [exact E'|unfold paint_phys; mu]].
    unfold register_mat. destruct (str_in _ _); [exact H|]. apply calm_prim; [unfold write_mat; mu|]. intros. exact H.
  - unfold add_source, write_src. apply calm_prim; [mu|]. intros. exact H.
  - now apply add_monitor_calm.
  - unfold add_tmon. apply calm_prim; [mu|]. intros. exact H.
  - exact H.
  - exact H.
  - unfold clear_materials. apply on_ph_calm; [exact H|mu].
  - unfold set_tfsf, write_tfsf. apply calm_prim; [mu|]. intros. apply calm_prim; [mu|]. intros. exact H.
  - now apply write_field_calm.
  - now apply write_field_calm.
  - unfold writeH. eapply calm_bind; [now apply write_field_calm|]. intros; now apply write_field_calm.
  - unfold write_monitor_data. destruct (nth_error _ _); [|exact H]. destruct (mon_sub_name m). apply calm_prim; [mu|]. intros. exact H.
  - unfold write_tmon. destruct (nth_error _ _); [|exact H]. apply calm_prim; [mu|]. intros [f m]. exact H.
  - now apply on_obj_calm.
  - now apply on_obj_calm.
  - now apply on_obj_calm.
  - now apply on_obj_calm.
  - unfold write_current. destruct (nth_error _ _); [|exact H]. destruct (o_dyn o); [|exact H]. apply calm_prim; [mu|]. intros. exact H.
  - unfold get_box_monitor. destruct (nth_error _ _); [|exact H]. apply calm_prim; [mu|]. intros. now apply add_monitor_calm.
Qed.

Lemma run_calm l : forall s, at_rest s -> calm mk_clocks (run l s).
Proof.
  induction l as [|c l IH]; intros s H; cbn [run]; [exact H|]. eapply calm_bind; [apply exec_calm; exact H|].
  intros s' H'. now apply IH.
Qed.
Lemma run_timers l s : at_rest s -> (forall s', run l s <> Raise RuntimeError s') /\ (forall s', run l s = Fine s' -> at_rest s').
Proof.
  intros H. assert (C := run_calm l s H). split; intros s' E; rewrite E in C; [apply C; reflexivity|exact C].
Qed.

(** a rejected write_field leaves the hdf5 stop-watch running *)
Lemma write_field_group c s f : at_rest s -> h5_group (f_h5 s) "fields"%string = Ok f -> c = CE \/ c = CH \/ c = Call ->
  exists s', write_field c s = Raise InvalidArgument s' /\ f_ph s' = f_ph s /\ f_mons s' = f_mons s /\
    f_tmons s' = f_tmons s /\ f_mats s' = f_mats s /\ f_h5 s' = f /\ ticking (f_clk s') Hdf5 = true.
Proof.
  intros H Hf Hc. unfold write_field, start, clock_start. rewrite H. cbn [ticking k_hdf5 prim obind]. cbn [set_f_clk f_h5].
  rewrite Hf. cbn [prim].
  destruct Hc as [-> | [-> | ->]]; cbn [obind]; eexists; (split; [reflexivity|]); repeat split.
Qed.
Lemma write_field_after c s : ticking (f_clk s) Hdf5 = true -> write_field c s = Raise RuntimeError s.
Proof. intros H. unfold write_field, start, clock_start. rewrite H. reflexivity. Qed.
Lemma update_after s : in_i32 (ph_step (f_ph s) + 1) = true -> ticking (f_clk s) Looping = true ->
  exists s', update s = Raise RuntimeError s'.
Proof.
  intros Hi H. unfold update.
  assert (E1 : exists s1, on_ph step_clock s = Fine s1 /\ f_clk s1 = f_clk s).
  { unfold on_ph, step_clock, i32. rewrite Hi. cbn [bind prim]. eexists; split; reflexivity. }
  destruct E1 as (s1 & -> & Ec). cbn [obind].
  assert (E2 : start Looping s1 = Raise RuntimeError s1) by (unfold start, clock_start; rewrite Ec, H; reflexivity).
  rewrite E2. cbn [obind]. eauto.
Qed.
End Mute.
