(** Calls that are rejected, and the undefined calls of C52 and C53. *)
From Coq Require Import ZArith Reals String List Bool Lia Lra.
From Verif Require Import Scalar Base BaseFacts VecM GridM GeometryM MaterialM PmlM DftM TfsfM PolarM
  InterpM H5M ClockM MonitorM FieldM OutFacts PhysFacts WfFacts ReachFacts YeeFacts SpecSafety SafeFacts
  SpecClock H5Facts CadenceFacts TimerFacts ClockFacts HalfFacts SpecGrid GridFacts ExampleFacts ExampleSrc.
Import ListNotations.
Local Open Scope Z_scope.

Section Reject.
Context {N : Num}.

(** the phases before the sources *)
Lemma before_sources p : roomy (ph_grid p) -> wf_phys p -> ph_tfsf p = None -> INT_MIN <= ph_step p < INT_MAX ->
  exists p1 p2 p3 p4, step_clock p = Ok p1 /\ step_E (step_prev p1) = Ok p2 /\ step_pmlE p2 = Ok p3 /\
    step_polar p3 = Ok p4 /\ step_tfsfD p4 = Ok p4 /\ ph_srcs p4 = ph_srcs p /\ ph_grid p4 = ph_grid p /\
    ph_step p4 = ph_step p + 1.
Proof.
  intros Hg Hw Ht Hn.
  assert (E1 : step_clock p = Ok (set_ph_t (ph_t p + g_dt (ph_grid p))%num (set_ph_step (ph_step p + 1) p))).
  { unfold step_clock, i32. replace (in_i32 (ph_step p + 1)) with true; [reflexivity|].
    symmetry. apply in_i32_spec. unfold INT_MIN, INT_MAX in *. lia. }
  set (p1 := set_ph_t _ _) in E1. assert (W1 := step_clock_wf _ _ E1 Hw). assert (S1 := step_clock_static _ _ E1).
  assert (W1' := step_prev_wf p1 W1). assert (S1' := step_prev_static p1).
  destruct (step_prev_frame p1) as (_ & _ & F1 & F2 & _ & F4 & _). cbn in F1, F2, F4.
  assert (G1 : ph_grid (step_prev p1) = ph_grid p) by (apply static_eq in S1, S1'; destruct S1 as (A & _), S1' as (B & _); congruence).
  destruct (step_E_ok (step_prev p1)) as (p2 & E2 & W2); [now rewrite G1|exact W1'|].
  assert (G2 : ph_grid p2 = ph_grid p /\ ph_tfsf p2 = ph_tfsf p /\ ph_srcs p2 = ph_srcs p /\ ph_step p2 = ph_step p + 1).
  { unfold step_E in E2. inv_ok. cbn. auto. }
  destruct (step_pmlE_ok p2) as (p3 & E3 & W3); [destruct G2 as (-> & _); exact Hg|exact W2|].
  assert (G3 : ph_grid p3 = ph_grid p /\ ph_tfsf p3 = ph_tfsf p /\ ph_srcs p3 = ph_srcs p /\ ph_step p3 = ph_step p + 1).
  { unfold step_pmlE in E3. inv_ok. destruct r as [b e]. inv_ok. cbn. exact G2. }
  destruct (step_polar_ok p3 W3) as (p4 & E4 & W4). exists p1, p2, p3, p4.
  assert (S4 := step_polar_static _ _ E4). apply static_eq in S4. destruct S4 as (S4 & _).
  assert (F := step_polar_frame _ _ E4). destruct F as (_ & _ & _ & F5 & F6 & _ & F7 & _), G3 as (G3 & G4 & G5 & G6).
  repeat (split; [assumption|]). split; [unfold step_tfsfD; now rewrite F5, G4, Ht|]. repeat split; congruence.
Qed.

Definition bad_comp (c : comp) : Prop := c = CE \/ c = CH \/ c = Call.

(** the first source is a point source on a component selection *)
Lemma bad_source_update g s r rest q ip : big_enough g -> reachable g s -> at_rest s ->
  ph_tfsf (f_ph s) = None -> INT_MIN <= ph_step (f_ph s) < INT_MAX ->
  ph_srcs (f_ph s) = r :: rest -> bad_comp (sr_c r) -> sr_kind r = SPoint q -> to_grid g q = Ok ip ->
  exists s', update s = Raise InvalidArgument s' /\ ticking (f_clk s') Looping = true /\
    ph_step (f_ph s') = ph_step (f_ph s) + 1.
Proof.
  intros Hg Hr Hc Ht Hn Hs Hb Hk Hq. destruct (reachable_good g s Hg Hr) as [Hw Eg].
  destruct (before_sources (f_ph s)) as (p1 & p2 & p3 & p4 & E1 & E2 & E3 & E4 & E5 & S4 & G4 & N4); auto; [now rewrite Eg|].
  assert (E6 : exists p5, step_sources p4 = Raise InvalidArgument p5 /\ ph_step p5 = ph_step p4).
  { unfold step_sources. rewrite S4, Hs. cbn [length oloop]. unfold pulse_src at 1. rewrite S4, Hs. cbn [nth_error].
    destruct (response_ok (sr_tp r) (ph_t p4)) as [tp' ->]. cbn [prim]. cbn [ph_grid set_ph_srcs ph_F]. rewrite G4, Eg, Hk.
    cbn [pulse_field]. rewrite Hq. cbn [bind]. unfold field_add. destruct Hb as [-> | [-> | ->]]; cbn [get_field bind prim obind];
      eexists; split; reflexivity. }
  destruct E6 as (p5 & E6 & N5). destruct s as [ph mo tm ma h c]. unfold at_rest in Hc. cbn [f_ph f_clk] in *. subst c.
  unfold update, on_ph, on_ph_out, start, stop, clock_start, clock_stop. cbn [prim obind set_f_ph set_f_clk f_ph f_clk].
  repeat match goal with
  | H : ?x = Ok _ |- context [?x] => rewrite H; cbn [prim obind set_f_ph set_f_clk f_ph f_clk ticking set_ticking k_looping k_fourier k_hdf5 k_self]
  | H : ?x = Raise _ _ |- context [?x] => rewrite H; cbn [prim obind set_f_ph set_f_clk f_ph f_clk ticking set_ticking k_looping k_fourier]
  end.
  eexists. split; [reflexivity|]. cbn. split; [reflexivity|congruence].
Qed.

(** C41: the next update then reports a stop-watch error instead *)
Lemma bad_source_twice g s r rest q ip : big_enough g -> reachable g s -> at_rest s ->
  ph_tfsf (f_ph s) = None -> INT_MIN <= ph_step (f_ph s) -> ph_step (f_ph s) + 1 < INT_MAX ->
  ph_srcs (f_ph s) = r :: rest -> bad_comp (sr_c r) -> sr_kind r = SPoint q -> to_grid g q = Ok ip ->
  exists s1 s2, update s = Raise InvalidArgument s1 /\ update s1 = Raise RuntimeError s2.
Proof.
  intros Hg Hr Hc Ht Hn Hn' Hs Hb Hk Hq.
  destruct (bad_source_update g s r rest q ip) as (s1 & E & T & S); auto; [lia|].
  destruct (update_after s1) as (s2 & E2); [|exact T|eauto]. apply in_i32_spec. unfold INT_MIN, INT_MAX in *. lia.
Qed.

Lemma rejected_write g name s c : big_enough g -> mk_field g name = Ok s -> bad_comp c ->
  exists s1 s2, write_field Ez s = Fine s1 /\ write_field c s = Raise InvalidArgument s2 /\
    write_field Ez s2 = Raise RuntimeError s2.
Proof.
  intros Hg E Hc. assert (Hn : name <> ""%string).
  { intros ->. unfold mk_field in E. destruct (mk_phys g); discriminate. }
  destruct (mk_field_fresh g name Hg Hn) as (p & Ep & E'). rewrite E in E'. injection E' as ->.
  assert (W : exists s1, write_field Ez (Field p [] [] [] (fresh_h5 g) mk_clocks) = Fine s1) by (eexists; reflexivity).
  destruct W as [s1 W].
  destruct (write_field_group c (Field p [] [] [] (fresh_h5 g) mk_clocks) (fresh_h5 g ++ [("fields"%string, HGroup)])) as (s2 & E2 & _ & _ & _ & _ & _ & T);
    [reflexivity|reflexivity|exact Hc|].
  exists s1, s2. split; [exact W|]. split; [exact E2|]. now apply write_field_after.
Qed.

(** what a rejected write_field leaves alone *)
Lemma rejected_write_frame c s s' e : write_field c s = Raise e s' -> f_ph s' = f_ph s /\ f_mons s' = f_mons s /\
  f_tmons s' = f_tmons s /\ f_mats s' = f_mats s /\
  (bad_comp c -> forall p, data_rows (f_h5 s') p = data_rows (f_h5 s) p).
Proof.
  intros H. unfold write_field, start, stop in H.
  destruct (clock_start Hdf5 (f_clk s)) as [ck|e1|]; cbn [prim obind set_f_clk f_h5] in H; [|injection H as _ <-; auto 10|discriminate].
  destruct (h5_group (f_h5 s) "fields") as [f|e1|] eqn:Eh; cbn [prim obind] in H; [|injection H as _ <-; cbn; auto 10|discriminate].
  assert (W : forall p, data_rows f p = data_rows (f_h5 s) p) by (intros p; rewrite (h5_group_wrote _ _ _ Eh); apply app_nil_r).
  destruct c; cbn [obind] in H;
    try (injection H as _ <-; cbn; auto 10).
  all: match type of H with (prim ?a ?r ?k >>= _) = _ => destruct r as [f1|e1|]; cbn [prim obind] in H; [|injection H as _ <-|discriminate] end.
  all: try (cbn; repeat (split; [reflexivity|]); intros [E|[E|E]]; discriminate).
  all: cbn [set_f_h5 set_f_clk f_clk] in H.
  all: match type of H with (prim ?a ?r ?k) = _ => destruct r as [f2|e2|]; cbn [prim obind] in H; [discriminate|injection H as _ <-|discriminate] end.
  all: cbn; repeat (split; [reflexivity|]); intros [E|[E|E]]; discriminate.
Qed.

Lemma empty_filename g : big_enough g -> mk_field g "" = UB NullDeref.
Proof. intros Hg. destruct (mk_phys_ok g Hg) as (p & E & _). unfold mk_field. rewrite E. reflexivity. Qed.
Lemma nonempty_filename g name : big_enough g -> name <> ""%string -> exists s, mk_field g name = Ok s /\ reachable g s.
Proof.
  intros Hg Hn. destruct (mk_field_fresh g name Hg Hn) as (p & _ & E). eexists. split; [exact E|].
  eexists _, _, []. split; [exact E|reflexivity].
Qed.

(** point monitors *)
Definition records_something (m : pt_mon) : Prop := cart_keys (pm_kind m) <> [].
Lemma dft_add_nonempty d n k d' : dft_add d n k = Ok d' -> d_map d' <> [].
Proof.
  unfold dft_add. destruct (k <? 0); intros H; inv_ok. cbn.
  destruct (slookup n (d_map d)) eqn:E.
  - destruct (d_map d) as [|[a x] m]; [discriminate|]. cbn. now destruct (String.eqb n a).
  - destruct (d_map d) as [|[a x] m]; [discriminate|]. cbn. now destruct (String.compare n a).
Qed.
Lemma pt_attach_nonempty m m' : records_something m -> pt_attach m = Ok m' -> d_map (pm_dft m') <> [] /\ d_t (pm_dft m') = d_t (pm_dft m).
Proof.
  intros Hk H. unfold pt_attach in H. inv_ok. cbn. unfold records_something in Hk. split.
  - destruct (exists_last Hk) as (l & k & E). rewrite E in Hr.
    rewrite foldM_app in Hr. apply bind_ok in Hr. destruct Hr as (d & _ & Hr). cbn [foldM] in Hr.
    apply bind_ok in Hr. destruct Hr as (d1 & Hr & E1). injection E1 as <-. eapply dft_add_nonempty; exact Hr.
  - refine (foldM_post (fun d => d_t d = d_t (pm_dft m)) _ _ _ _ eq_refl _ Hr).
    intros a b c _ Ha Hb. unfold dft_add in Hb. destruct (_ <? 0); inv_ok. exact Ha.
Qed.
Lemma pt_update_dangling t m : d_map (pm_dft m) <> [] -> (d_t (pm_dft m) =? t)%num = false -> pt_update t m = UB DanglingRef.
Proof.
  intros H Ht. unfold pt_update, dft_update. rewrite Ht. destruct (d_map (pm_dft m)) as [|[n e] l]; [congruence|]. reflexivity.
Qed.
Lemma mapM_not {A B} (f : A -> res B) l x : In x l -> (forall y, f x <> Ok y) -> forall l', mapM f l <> Ok l'.
Proof.
  intros Hi Hx. induction l as [|y l IH]; [contradiction|]. cbn [mapM]. intros l' H. inv_ok.
  destruct Hi as [->|Hi]; [eapply Hx; eauto|]. eapply IH; eauto.
Qed.
Lemma point_monitor_undefined g m0 m : records_something m0 -> mon_attach g (MPt m0) = Ok m ->
  forall g' F t, (d_t (pm_dft m0) =? t)%num = false -> mon_update g' F t m = UB DanglingRef.
Proof.
  intros Hk H g' F t Ht. cbn [mon_attach] in H. inv_ok. destruct (pt_attach_nonempty _ _ Hk Hr) as [A B].
  cbn [mon_update]. rewrite pt_update_dangling; auto. now rewrite B.
Qed.
Lemma point_monitor_update g m0 m s : records_something m0 -> mon_attach g (MPt m0) = Ok m -> In m (f_mons s) ->
  (d_t (pm_dft m0) =? ph_t (f_ph s) + g_dt (ph_grid (f_ph s)))%num = false -> forall s', update s <> Fine s'.
Proof.
  intros Hk Hm Hi Ht s' H. apply update_monitors in H. destruct H as (pm & H1 & _ & H).
  apply phys_first_clk in H1. destruct H1 as (_ & T1 & _). rewrite T1 in H.
  revert H. eapply mapM_not; [exact Hi|]. intros y H. rewrite (point_monitor_undefined g m0 m Hk Hm) in H; [discriminate|exact Ht].
Qed.

Lemma update_mon_ub s pm u : phys_first (f_ph s) = Fine pm -> idle s ->
  mapM (mon_update (ph_grid pm) (ph_F pm) (ph_t pm)) (f_mons s) = UB u -> update s = Undef u.
Proof.
  intros E [Hi Hi'] Hm. unfold phys_first in E. inv_fine.
  unfold update, on_ph, on_ph_out, start, stop, step_monitors, clock_start, clock_stop.
  repeat match goal with
  | H : ?x = Ok _ |- context [?x] => rewrite H; cbn [prim obind set_f_ph set_f_clk set_f_mons f_ph f_clk f_mons f_tmons ticking set_ticking k_looping k_fourier]
  | H : ?x = Fine _ |- context [?x] => rewrite H; cbn [prim obind set_f_ph set_f_clk set_f_mons f_ph f_clk f_mons f_tmons ticking set_ticking k_looping k_fourier]
  | _ => rewrite ?Hi, ?Hi', ?Hm; cbn [prim obind set_f_ph set_f_clk set_f_mons f_ph f_clk f_mons f_tmons ticking set_ticking k_looping k_fourier]
  end. reflexivity.
Qed.

(** C53: the first update after a point monitor was added *)
Lemma point_monitor_first g name s0 m0 s1 : big_enough g -> mk_field g name = Ok s0 -> records_something m0 ->
  (d_t (pm_dft m0) =? 0 + g_dt g)%num = false -> add_monitor (MPt m0) s0 = Fine s1 -> update s1 = Undef DanglingRef.
Proof.
  intros Hg E Hk Ht H. assert (Hn : name <> ""%string).
  { intros ->. unfold mk_field in E. destruct (mk_phys g); discriminate. }
  destruct (mk_field_fresh g name Hg Hn) as (p & Ep & E'). rewrite E in E'. injection E' as ->.
  destruct (mk_phys_ok g Hg) as (p' & Ep' & Hw & Gp & Sp & Tp & Op & Np). rewrite Ep in Ep'. injection Ep' as <-.
  assert (T0 : ph_t p = 0%num) by (unfold mk_phys in Ep; inv_ok; reflexivity).
  unfold add_monitor in H. apply prim_fine in H. destruct H as (m & Hm & H). apply prim_fine in H. destruct H as (f & _ & H).
  injection H as <-. cbn [f_ph] in Hm.
  destruct (phys_step_ok p) as (p1 & E1 & _ & _ & _);
    [now rewrite Gp|exact Hw|split; [rewrite Sp; apply Forall_nil|rewrite Tp; discriminate]|rewrite Np; unfold INT_MIN, INT_MAX; lia|].
  rewrite phys_step_halves in E1. apply obind_fine in E1. destruct E1 as (pm & E1 & _).
  eapply update_mon_ub; [exact E1|split; reflexivity|].
  apply phys_first_clk in E1. destruct E1 as (_ & T1 & _). cbn [f_mons set_f_mons set_f_h5 app mapM].
  rewrite (point_monitor_undefined (ph_grid p) m0 m Hk Hm); [reflexivity|]. now rewrite T1, T0, Gp.
Qed.
End Reject.

Local Open Scope R_scope.
#[local] Existing Instance RNum.

Definition pin : pt_mon := mk_pt_mon "pin" (3, 3) DAll [1; 2].
Lemma pin_run : exists (g : grid) s0 s1, big_enough g /\ mk_field g "out" = Ok s0 /\ records_something pin /\
  (d_t (pm_dft pin) =? 0 + g_dt g)%num = false /\ add_monitor (MPt pin) s0 = Fine s1.
Proof.
  destruct grid8 as (g & Eg & Hok & Nx & Ny & Hdx & HLx & HLy & Hp).
  assert (Hr : roomy g) by (unfold roomy; lia).
  destruct (mk_field_fresh g "out" Hr) as (p & Ep & E0); [discriminate|].
  eexists g, _, _. split; [exact Hr|]. split; [exact E0|]. split; [discriminate|]. split; [|reflexivity].
  cbn [d_t pm_dft pin mk_pt_mon mk_dft]. assert (D : 2 * g_dt g = g_dx g) by apply Hok. rnumg. apply Reqb_false. rewrite Hdx in D. lra.
Qed.

(** a point source on the selection "E" *)
Definition blunder : source := Source "blunder" CE (SPoint (3, 3)) (TProfile (Continuous 1) None).
Lemma blunder_run : exists (g : grid) s0 s, big_enough g /\ mk_field g "out" = Ok s0 /\
  run [AddSource blunder] s0 = Fine s /\ reachable g s /\ at_rest s /\ ph_tfsf (f_ph s) = None /\
  ph_step (f_ph s) = 0%Z /\ ph_srcs (f_ph s) = [blunder] /\ to_grid g (3, 3) = Ok (3, 3)%Z.
Proof.
  destruct grid8 as (g & Eg & Hok & Nx & Ny & Hdx & HLx & HLy & Hp).
  assert (Hr : roomy g) by (unfold roomy; lia).
  destruct (mk_field_fresh g "out" Hr) as (p & Ep & E0); [discriminate|].
  destruct (mk_phys_ok g Hr) as (p' & Ep' & Hw & Gp & Sp & Tp & Op & Np). rewrite Ep in Ep'. injection Ep' as <-.
  exists g, (Field p [] [] [] (fresh_h5 g) mk_clocks).
  assert (Ew : exists f, write_src (fresh_h5 g) blunder = Ok f) by (eexists; reflexivity).
  destruct Ew as [f Ew].
  assert (Er : run [AddSource blunder] (Field p [] [] [] (fresh_h5 g) mk_clocks) =
    Fine (map_ph (fun p => set_ph_srcs (ph_srcs p ++ [blunder]) p) (set_f_h5 f (Field p [] [] [] (fresh_h5 g) mk_clocks)))).
  { cbn [run exec]. unfold add_source. cbn [f_h5]. rewrite Ew. reflexivity. }
  eexists. split; [exact Hr|]. split; [exact E0|]. split; [exact Er|].
  split. { exists "out"%string, (Field p [] [] [] (fresh_h5 g) mk_clocks), [AddSource blunder]. split; [exact E0|]. now apply run_run_catch. }
  split; [reflexivity|]. split; [exact Tp|]. split; [exact Np|].
  split. { cbn. now rewrite Sp. }
  now apply (to_grid_int g 3 3).
Qed.
