(** Programs that follow the rules run to completion. *)
From Coq Require Import ZArith Reals List Bool String Ascii Lia.
From Verif Require Import Scalar Base BaseFacts VecM GridM GeometryM MaterialM PmlM DftM TfsfM PolarM
  InterpM H5M ClockM MonitorM FieldM ReportM SpecGrid GridFacts OutFacts PhysFacts PaintFacts PaintSafe WfFacts ReachFacts InvFacts SpecSafety SafeFacts
  YeeFacts HalfFacts SpecClock PassiveFacts
  SpecDft SpecSample SpecLive LiveFacts LiveRun PathFacts ExampleFacts SpecProgram SegFacts ViewFacts ShelfFacts.
From Verif Require Import OpsFacts.
Import ListNotations.
Local Open Scope Z_scope.
#[local] Existing Instance RNum.

Record sound (g : grid) (L : ledger) (s : field) : Prop := Sound {
  so_good : good g s;
  so_rest : at_rest s;
  so_placed : placed (f_ph s);
  so_step : ph_step (f_ph s) = l_step L;
  so_step0 : 0 <= l_step L;
  so_objs : ph_objs (f_ph s) = l_objs L;
  so_onames : Forall (fun o => plain (o_name o)) (l_objs L);
  so_mons : Forall2 (fun m0 m => mon_live g m /\ able m0 m) (l_mons L) (f_mons s);
  so_mdirs : Forall (fun m => incl (mon_dirs m) (l_dirs L)) (l_mons L);
  so_dirs : Forall (fun d => plain (snd d)) (l_dirs L);
  so_results : forall k n x, In (k, n, x) (l_results L) -> In (k, n) (l_dirs L);
  so_views : map tm_name (f_tmons s) = l_views L;
  so_uniq : NoDup (l_views L);
  so_seen : Forall (seen g) (f_tmons s);
  so_line : line_at (l_tfsf L) (f_ph s);
  so_shelf : shelf L (f_mats s) (f_tmons s) (f_h5 s) }.

Section Calls.
Variable g : grid.
Hypothesis Hok : grid_ok g.
Hypothesis Hroom : roomy g.
Hypothesis Hmod : modest g.

Lemma modest_small : small g.
Proof. destruct Hmod as (_ & A & B). split; lia. Qed.

(** *** Update *)
Definition update_pre (s : field) : out field :=
  on_ph step_clock s >>= start Looping >>= on_ph (fun p => Ok (step_prev p)) >>= on_ph step_E >>= on_ph step_pmlE >>=
  on_ph step_polar >>= on_ph step_tfsfD >>= on_ph_out step_sources >>= stop Looping >>= start Fourier >>= step_monitors >>=
  stop Fourier >>= start Looping >>= on_ph step_tfsf_pulse >>= on_ph step_H >>= on_ph step_pmlH >>= on_ph step_tfsfH >>= stop Looping.
Lemma update_pre_eq s : update s = update_pre s >>= step_tmons.
Proof. reflexivity. Qed.
Lemma Forall2_mapM_total {A B} (R : A -> B -> Prop) (f : B -> res B) : (forall a b, R a b -> exists b', f b = Ok b' /\ R a b') ->
  forall l0 l, Forall2 R l0 l -> exists l', mapM f l = Ok l' /\ Forall2 R l0 l'.
Proof.
  intros H l0 l HR. induction HR as [|a b l0 l Hab HR (l' & E & HR')]; cbn [mapM]; [eauto|].
  destruct (H a b Hab) as (b' & Eb & Hb). rewrite Eb. cbn [bind]. rewrite E. cbn [bind]. eauto.
Qed.
Lemma update_first (l0 : list monitor) s : good g s -> placed (f_ph s) -> at_rest s -> Forall2 (fun m0 m => mon_live g m /\ able m0 m) l0 (f_mons s) ->
  INT_MIN <= ph_step (f_ph s) < INT_MAX ->
  exists s', update_pre s = Fine s' /\ phys_step (f_ph s) = Fine (f_ph s') /\ good g s' /\ placed (f_ph s') /\ at_rest s' /\
    Forall2 (fun m0 m => mon_live g m /\ able m0 m) l0 (f_mons s') /\
    f_tmons s' = f_tmons s /\ f_mats s' = f_mats s /\ f_h5 s' = f_h5 s /\ ph_step (f_ph s') = ph_step (f_ph s) + 1.
Proof.
  intros [Hw Gg] Hp Hi Hm Hn. assert (Hg : roomy (ph_grid (f_ph s))) by now rewrite Gg.
  destruct (phys_step_ok (f_ph s) Hg Hw Hp Hn) as (p' & E & Hw' & Hp' & Hn').
  assert (Eg := E). apply phys_step_static, static_eq in Eg. destruct Eg as (Gp & _). rewrite Gg in Gp.
  assert (Eh := E). rewrite phys_step_halves in Eh. apply obind_fine in Eh. destruct Eh as (pm & E1 & E2).
  assert (Wm := phys_first_wf _ _ Hg Hw E1). assert (Gm := phys_first_clk _ _ E1). destruct Gm as (Gm & _ & _).
  assert (HF := wf_F pm Wm). rewrite Gm in HF.
  destruct (Forall2_mapM_total (fun m0 m => mon_live g m /\ able m0 m) (mon_update (ph_grid pm) (ph_F pm) (ph_t pm))) with (l0 := l0) (l := f_mons s) as (ms & Em & Lm);
    [|exact Hm|].
  { intros m0 m [H1 H2]. rewrite Gm, Gg. rewrite Gg in HF. destruct (mon_live_update g (ph_F pm) (ph_t pm) m modest_small HF H1) as (m' & Em & H3). exists m'. split; [exact Em|]. split; [exact H3|].
    eapply able_update; [exact H2|exact Em]. }
  destruct s as [ph mo tm ma h k]. unfold at_rest in Hi. cbn [f_clk f_ph f_mons] in *. subst k.
  unfold phys_first in E1. unfold phys_second in E2. inv_fine.
  unfold update_pre, on_ph, on_ph_out, start, stop, step_monitors, clock_start, clock_stop. cbn [f_ph].
  repeat match goal with
  | H : ?x = Ok _ |- context [?x] => rewrite H; cbn [prim obind set_f_ph set_f_clk set_f_mons f_ph f_clk f_mons f_tmons ticking set_ticking k_looping k_fourier]
  | H : ?x = Fine _ |- context [?x] => rewrite H; cbn [prim obind set_f_ph set_f_clk set_f_mons f_ph f_clk f_mons f_tmons ticking set_ticking k_looping k_fourier]
  end.
  eexists. split; [reflexivity|]. cbn [f_ph set_f_ph set_f_clk set_f_mons f_mons f_tmons f_clk f_mats f_h5 f_clk].
  split; [reflexivity|]. split; [split; [exact Hw'|exact Gp]|]. split; [exact Hp'|]. split; [reflexivity|]. split; [exact Lm|]. repeat (split; [reflexivity|]). exact Hn'.
Qed.

(** the time monitors *)
Lemma tm_ready_ok L i s : good g s -> NoDup (map tm_name (f_tmons s)) -> Forall (seen g) (f_tmons s) -> shelf L (f_mats s) (f_tmons s) (f_h5 s) ->
  exists s', tm_ready i s = Fine s' /\ f_ph s' = f_ph s /\ f_mons s' = f_mons s /\ f_mats s' = f_mats s /\ f_clk s' = f_clk s /\
    map tm_name (f_tmons s') = map tm_name (f_tmons s) /\ Forall (seen g) (f_tmons s') /\ shelf L (f_mats s') (f_tmons s') (f_h5 s').
Proof.
  intros [Hw Gg] Hd Hs Hf. unfold tm_ready. destruct (nth_error (f_tmons s) i) as [m|] eqn:Em.
  2:{ exists s. repeat (split; [reflexivity|]). auto. }
  assert (Sm := nth_error_Forall _ _ _ _ Hs Em). destruct Sm as (S1 & S2 & S3 & S4).
  destruct (paced_check _ S3) as (b & e & Ec & Pe). rewrite Ec. cbn [prim]. cbv zeta.
  set (m1 := TMon (tm_name m) (tm_shape_ m) (tm_fields m) e (tm_dsets m)).
  assert (Sn : seen g m1) by (unfold seen, m1, named in *; cbn; auto).
  assert (Sf : shelf L (f_mats s) (upd_nth i m1 (f_tmons s)) (f_h5 s)) by (apply shelf_tms with m; auto).
  assert (Nm : map tm_name (upd_nth i m1 (f_tmons s)) = map tm_name (f_tmons s)) by now apply upd_map with m.
  assert (Fs : Forall (seen g) (upd_nth i m1 (f_tmons s))) by now apply upd_nth_Forall.
  destruct b.
  - cbn [f_ph f_h5 f_tmons set_f_tmons].
    destruct (tm_write_shelf g (ph_F (f_ph s)) L (f_mats s) (upd_nth i m1 (f_tmons s)) i m1 (f_h5 s)) as (f' & m' & Ew & Sw & N & Sn'); auto.
    { assert (X := wf_F _ Hw). now rewrite Gg in X. }
    { now rewrite Nm. }
    { rewrite nth_upd, Nat.eqb_refl, Em. reflexivity. }
    rewrite Gg, Ew. cbn [prim]. eexists. split; [reflexivity|]. cbn [f_ph f_mons f_mats f_clk f_tmons f_h5 set_f_tmons set_f_h5]. repeat (split; [reflexivity|]).
    split; [|split; [|exact Sw]].
    + rewrite <- Nm. apply upd_map with m1; [rewrite nth_upd, Nat.eqb_refl, Em; reflexivity|exact N].
    + now apply upd_nth_Forall.
  - eexists. split; [reflexivity|]. cbn [f_ph f_mons f_mats f_clk f_tmons f_h5 set_f_tmons set_f_h5]. repeat (split; [reflexivity|]). auto.
Qed.
Lemma tm_loop_ok L n : forall lo s, good g s -> NoDup (map tm_name (f_tmons s)) -> Forall (seen g) (f_tmons s) -> shelf L (f_mats s) (f_tmons s) (f_h5 s) ->
  exists s', oloop lo n tm_ready s = Fine s' /\ f_ph s' = f_ph s /\ f_mons s' = f_mons s /\ f_mats s' = f_mats s /\ f_clk s' = f_clk s /\
    map tm_name (f_tmons s') = map tm_name (f_tmons s) /\ Forall (seen g) (f_tmons s') /\ shelf L (f_mats s') (f_tmons s') (f_h5 s').
Proof.
  induction n as [|n IH]; intros lo s Hw Hd Hs Hf; cbn [oloop].
  - exists s. repeat (split; [reflexivity|]). auto.
  - destruct (tm_ready_ok L lo s Hw Hd Hs Hf) as (s1 & E1 & A1 & A2 & A3 & A4 & A5 & A6 & A7). rewrite E1. cbn [obind].
    destruct (IH (Datatypes.S lo) s1) as (s2 & E2 & B1 & B2 & B3 & B4 & B5 & B6 & B7); auto; [unfold good; now rewrite A1|now rewrite A5|].
    exists s2. rewrite B1, B2, B4, B5. split; [exact E2|]. split; [exact A1|]. split; [exact A2|]. split; [congruence|]. split; [exact A4|]. split; [exact A5|]. split; [exact B6|exact B7].
Qed.
Lemma sound_shift L L' s : sound g L s -> l_objs L' = l_objs L -> l_srcs L' = l_srcs L -> l_dirs L' = l_dirs L -> l_mons L' = l_mons L -> l_views L' = l_views L -> l_results L' = l_results L ->
  l_tfsf L' = l_tfsf L -> l_tfsf_result L' = l_tfsf_result L -> l_step L' = l_step L -> sound g L' s.
Proof. destruct L, L'. cbn. intros H -> -> -> -> -> -> -> -> ->. exact H. Qed.
Lemma with_step_shelf L n mats tms f : shelf L mats tms f -> shelf (with_step n L) mats tms f.
Proof. intros [A B C D]. constructor; auto. Qed.

Lemma update_sound L s : sound g L s -> l_step L < 2147483647 -> exists s', update s = Fine s' /\ sound g (with_step (l_step L + 1) L) s'.
Proof.
  intros H Hn. rewrite update_pre_eq.
  destruct (update_first (l_mons L) s) as (s1 & E1 & Ep & G1 & P1 & R1 & M1 & T1 & Ma1 & F1 & N1); try apply H.
  { rewrite (so_step _ _ _ H). assert (X := so_step0 _ _ _ H). unfold INT_MIN, INT_MAX. lia. }
  rewrite E1. cbn [obind].
  destruct (tm_loop_ok (with_step (l_step L + 1) L) (List.length (f_tmons s1)) 0 s1) as (s2 & E2 & B1 & B2 & B3 & B4 & B5 & B6 & B7); auto.
  { rewrite T1, (so_views _ _ _ H). apply H. }
  { rewrite T1. apply H. }
  { rewrite T1, Ma1, F1. apply with_step_shelf, H. }
  exists s2. split; [exact E2|]. constructor; cbn [with_step l_objs l_srcs l_dirs l_mons l_views l_results l_tfsf l_tfsf_result l_step]; try apply H.
  - unfold good. rewrite B1. exact G1.
  - unfold at_rest. rewrite B4. exact R1.
  - rewrite B1. exact P1.
  - rewrite B1, N1, (so_step _ _ _ H). reflexivity.
  - assert (X := so_step0 _ _ _ H). lia.
  - rewrite B1, (phys_step_objs' _ _ Ep). apply H.
  - rewrite B2. exact M1.
  - rewrite B5, T1. apply H.
  - exact B6.
  - rewrite B1. eapply line_at_keys; [apply phys_step_tkeys; exact Ep|apply H].
  - exact B7.
Qed.

(** good and at rest *)
Lemma exec_kept c s s' : good g s -> at_rest s -> exec c s = Fine s' -> good g s' /\ at_rest s'.
Proof. intros H1 H2 E. split; [|now apply (exec_rest c s)]. assert (X := exec_post g Hroom c s H1). now rewrite E in X. Qed.
Ltac ledgers := cbn [with_step with_objs with_srcs with_mons with_views with_results with_tfsf l_objs l_srcs l_dirs l_mons l_views l_results l_tfsf l_tfsf_result l_step] in *.
Ltac fields := cbn [f_ph f_mons f_mats f_clk f_tmons f_h5 set_f_tmons set_f_h5 set_f_ph set_f_mons set_f_mats set_f_clk map_ph] in *.

(** *** Fields *)
Lemma clear_sound L s : sound g L s -> exists s', clear_fields s = Fine s' /\ sound g (with_step 0 L) s'.
Proof.
  intros H. eexists. split; [reflexivity|]. destruct (exec_kept ClearFields s _ (so_good _ _ _ H) (so_rest _ _ _ H) eq_refl) as [K1 K2].
  constructor; ledgers; fields; try apply H; auto.
  - destruct (so_placed _ _ _ H) as [A B]. split; [exact A|]. cbn [clear_fields_phys ph_tfsf set_ph_tfsf ph_grid set_ph_lorentz set_ph_drude set_ph_debye set_ph_F set_ph_step set_ph_t].
    intros q Hq. destruct (ph_tfsf (f_ph s)) as [q0|] eqn:E; [|discriminate]. injection Hq as <-. now apply (B q0).
  - lia.
  - eapply line_at_keys; [|apply (so_line _ _ _ H)]. unfold line_keys, clear_fields_phys. cbn [ph_tfsf set_ph_tfsf]. now destruct (ph_tfsf (f_ph s)).
  - apply with_step_shelf, H.
Qed.
Lemma unpaint_sound L s : sound g L s -> exists s', clear_materials s = Fine s' /\ sound g L s'.
Proof.
  intros H. assert (Hw := proj1 (so_good _ _ _ H)). unfold clear_materials, on_ph.
  destruct (clear_coefs_total (ph_grid (f_ph s)) (ph_bg (f_ph s)) (ph_C (f_ph s)) (wf_C _ Hw)) as (c & Ec & _). rewrite Ec. cbn [bind prim].
  eexists. split; [reflexivity|]. assert (X : exec ClearMaterials s = Fine (set_f_ph (set_ph_C c (f_ph s)) s)) by (cbn [exec]; unfold clear_materials, on_ph; rewrite Ec; reflexivity).
  destruct (exec_kept ClearMaterials s _ (so_good _ _ _ H) (so_rest _ _ _ H) X) as [K1 K2]. constructor; fields; try apply H; auto.
Qed.
Lemma repaint_line l : forall p p', foldM repaint_one p l = Ok p' -> ph_tfsf p' = ph_tfsf p /\ ph_srcs p' = ph_srcs p /\ ph_step p' = ph_step p /\ ph_objs p' = ph_objs p /\ ph_grid p' = ph_grid p.
Proof.
  induction l as [|o l IH]; intros p p' E; cbn [foldM] in E; [injection E as <-; auto|]. apply bind_ok in E. destruct E as (q & Eq & E). apply IH in E.
  unfold repaint_one in Eq. apply bind_ok in Eq. destruct Eq as (q0 & E0 & Eq). unfold paint_phys in E0. apply bind_ok in E0. destruct E0 as (c & _ & E0). injection E0 as <-.
  unfold reinsert_material in Eq. destruct (m_kind (o_mat o)).
  all: try (apply bind_ok in Eq; destruct Eq as (P & _ & Eq)). all: injection Eq as <-; exact E.
Qed.
Lemma regrid_sound L s : sound g L s -> Forall (in_domain g) (l_objs L) -> exists s', on_ph update_material_grid s = Fine s' /\ sound g L s'.
Proof.
  intros H Hd. destruct (so_good _ _ _ H) as [Hw Gg]. destruct (update_material_grid_domain g (f_ph s) Hok Gg Hw) as [p' Ep].
  { rewrite (so_objs _ _ _ H). intros o Ho. rewrite Forall_forall in Hd. exact (Hd o Ho). }
  unfold on_ph. rewrite Ep. cbn [prim]. eexists. split; [reflexivity|].
  destruct (exec_kept UpdateMaterialGrid s (set_f_ph p' s) (so_good _ _ _ H) (so_rest _ _ _ H)) as [K1 K2]; [cbn [exec]; unfold on_ph; now rewrite Ep|].
  unfold update_material_grid in Ep. apply bind_ok in Ep. destruct Ep as (c & _ & Ep). apply repaint_line in Ep. cbn [ph_tfsf ph_srcs ph_step ph_objs ph_grid set_ph_C] in Ep.
  destruct Ep as (T1 & T2 & T3 & T4 & T5). constructor; fields; try apply H; auto.
  - unfold placed. rewrite T1, T2, T5. apply H.
  - rewrite T3. apply H.
  - rewrite T4. apply H.
  - eapply line_at_keys; [|apply (so_line _ _ _ H)]. unfold line_keys. now rewrite T1.
Qed.
Lemma field_sound L s c : sound g L s -> field_comp c -> exists s', write_field c s = Fine s' /\ sound g L s'.
Proof.
  intros H Hc. assert (Hn : Forall (fun m => ~ In (tm_name m) ["Ez"; "Hx"; "Hy"]%string) (f_tmons s)) by (eapply Forall_impl; [|apply (so_seen _ _ _ H)]; intros m (A & _); apply A).
  destruct (get_field_dims _ _ _ c (wf_F _ (proj1 (so_good _ _ _ H))) Hc) as (a & Ea & _).
  destruct (write_field_shelf L (f_mats s) (f_tmons s) (f_h5 s) c (tensor_pay a) (so_shelf _ _ _ H) Hc Hn) as (f1 & f2 & E1 & E2 & Sh).
  assert (X : write_field c s = Fine (set_f_h5 f2 s)) by (apply write_field_iff; [apply H|exists a, f1, f2; auto]).
  exists (set_f_h5 f2 s). split; [exact X|]. constructor; fields; try apply H. exact Sh.
Qed.

(** *** Objects *)
Lemma register_sound L s o : sound g L s -> plain (m_name (o_mat o)) ->
  exists s', register_mat o s = Fine s' /\ sound g L s' /\ In (m_name (o_mat o)) (f_mats s') /\ f_ph s' = f_ph s.
Proof.
  intros H Hp. unfold register_mat. destruct (str_in (m_name (o_mat o)) (f_mats s)) eqn:E.
  - exists s. split; [reflexivity|]. split; [exact H|]. split; [now apply str_in_In|reflexivity].
  - assert (Hn : ~ In (m_name (o_mat o)) (f_mats s)) by (intros X; apply str_in_In in X; congruence).
    destruct (write_mat_shelf L (f_mats s) (f_tmons s) (f_h5 s) (o_mat o) Hp Hn (so_shelf _ _ _ H)) as (f' & Ew & Sh). fields. rewrite Ew. cbn [prim].
    eexists. split; [reflexivity|]. split; [|split; [|reflexivity]].
    + constructor; fields; try apply H. exact Sh.
    + fields. apply in_or_app. right. now left.
Qed.
Lemma object_sound L s o : sound g L s -> proper (o_name o) -> proper (m_name (o_mat o)) -> in_domain g o -> Forall (fun o' => ~ same_group o o') (l_objs L) ->
  exists s', add_object o s = Fine s' /\ sound g (with_objs (l_objs L ++ [o]) L) s'.
Proof.
  intros H Hn Hm Hd Hu. apply plain_of in Hn. apply plain_of in Hm. assert (Ex : exists s', add_object o s = Fine s' /\
    (placed (f_ph s') /\ ph_step (f_ph s') = l_step L /\ ph_objs (f_ph s') = (l_objs L ++ [o])%list /\ line_at (l_tfsf L) (f_ph s')) /\ f_mons s' = f_mons s /\ f_tmons s' = f_tmons s /\
    shelf (with_objs (l_objs L ++ [o]) L) (f_mats s') (f_tmons s') (f_h5 s')).
  { unfold add_object. destruct (register_sound L s o H Hm) as (s1 & E1 & H1 & In1 & P1). assert (T1 : f_tmons s1 = f_tmons s /\ f_mons s1 = f_mons s).
    { unfold register_mat in E1. destruct (str_in _ _); [injection E1 as <-; auto|]. apply prim_fine in E1. destruct E1 as (f & _ & E1). injection E1 as <-. auto. }
    rewrite E1. cbn [obind]. destruct (so_good _ _ _ H1) as [Hw Gg].
    destruct (paint_in_domain g o (ph_C (f_ph s1)) Hok) as [c Ec]; try apply Hd; [rewrite <- Gg; apply (wf_C _ Hw)|].
    assert (Ep : paint_phys o (f_ph s1) = Ok (set_ph_C c (f_ph s1))) by (unfold paint_phys; rewrite Gg, Ec; reflexivity).
    unfold on_ph. rewrite Ep. cbn [prim obind]. assert (Hw2 := paint_phys_wf _ _ _ Ep Hw).
    destruct (insert_material_total o _ Hw2) as [p3 E3]. { cbn. rewrite Gg. destruct Hroom as (? & ? & ?). lia. } { cbn. rewrite Gg. destruct Hroom as (? & ? & ?). lia. }
    fields. rewrite E3. cbn [prim obind]. fields.
    destruct (write_obj_shelf L (f_mats s1) (f_tmons s1) (f_h5 s1) o Hn Hu In1 (so_shelf _ _ _ H1)) as (f' & Ew & Sh). rewrite Ew. cbn [prim obind].
    eexists. split; [reflexivity|]. fields. assert (Fr := insert_material_frame _ _ _ E3).
    assert (Tf : ph_tfsf p3 = ph_tfsf (f_ph s1) /\ ph_srcs p3 = ph_srcs (f_ph s1) /\ ph_step p3 = ph_step (f_ph s1) /\ ph_objs p3 = ph_objs (f_ph s1) /\ ph_grid p3 = ph_grid (f_ph s1)).
    { unfold insert_material in E3. destruct (m_kind (o_mat o)). all: try (apply bind_ok in E3; destruct E3 as (P & _ & E3)). all: injection E3 as <-; auto. }
    destruct Tf as (A1 & A2 & A3 & A4 & A5). split; [|split; [apply T1|split; [apply T1|exact Sh]]].
    split; [|split; [|split]].
    - unfold placed. cbn [ph_grid ph_srcs ph_tfsf set_ph_objs]. rewrite A1, A2, A5. apply H1.
    - cbn. rewrite A3. apply H1.
    - cbn. rewrite A4, (so_objs _ _ _ H1). reflexivity.
    - eapply line_at_keys; [|apply (so_line _ _ _ H1)]. unfold line_keys. cbn. now rewrite A1. }
  destruct Ex as (s' & E & (A1 & A2 & A3 & A4) & B1 & B2 & Sh). exists s'. split; [exact E|].
  destruct (exec_kept (AddObject o) s s' (so_good _ _ _ H) (so_rest _ _ _ H) E) as [K1 K2].
  constructor; ledgers; auto; rewrite ?B1, ?B2; try apply H.
  - apply Forall_app. split; [apply H|]. constructor; auto.
Qed.
Lemma moved_data (L : ledger) i h mats tms : (forall o, o_dyn (h o) = o_dyn o /\ o_geom (h o) = o_geom o /\ o_name (h o) = o_name o) ->
  forall b q, data_at L mats tms b q -> data_at (with_objs (moved i h (l_objs L)) L) mats tms b q.
Proof.
  intros Hh b q X. destruct q as [|a [|n [|x [|z [|]]]]]; cbn [data_at] in X |- *; auto. destruct X as [X|[X|(o & Ho & X)]]; [now left|now right; left|]. right. right. ledgers.
  unfold moved. destruct (nth_error (l_objs L) i) as [o'|] eqn:E; [|eauto]. destruct (o_dyn o') eqn:D; [|eauto].
  destruct (In_nth_error _ _ Ho) as [j Hj]. destruct (Nat.eq_dec i j) as [->|Hne].
  - rewrite E in Hj. injection Hj as ->. exists (h o). split; [now apply upd_In with o|]. destruct (Hh o) as (H1 & H2 & H3). unfold obj_root. rewrite H1, H2, H3. exact X.
  - exists o. split; [|exact X]. apply nth_error_In with j. rewrite nth_upd. destruct (Nat.eqb_spec i j); [contradiction|exact Hj].
Qed.
Lemma move_sound L s i h c : (forall o, o_dyn (h o) = o_dyn o /\ o_geom (h o) = o_geom o /\ o_name (h o) = o_name o) -> exec c s = on_obj i h s -> sound g L s ->
  exists s', on_obj i h s = Fine s' /\ sound g (with_objs (moved i h (l_objs L)) L) s'.
Proof.
  intros Hh Hc H. unfold on_obj in *. rewrite (so_objs _ _ _ H) in *. unfold moved.
  destruct (nth_error (l_objs L) i) as [o|] eqn:E; [|exists s; split; [reflexivity|]; now apply (sound_shift L)]. destruct (o_dyn o) eqn:D; [|exists s; split; [reflexivity|]; now apply (sound_shift L)].
  eexists. split; [reflexivity|]. destruct (exec_kept c s _ (so_good _ _ _ H) (so_rest _ _ _ H) Hc) as [K1 K2].
  constructor; ledgers; fields; cbn [ph_step ph_objs set_ph_objs]; try apply H; auto.
  - rewrite (so_objs _ _ _ H). reflexivity.
  - apply upd_nth_Forall; [|apply H]. destruct (Hh o) as (_ & _ & ->). apply (nth_error_Forall _ _ _ _ (so_onames _ _ _ H) E).
  - destruct (so_shelf _ _ _ H) as [S1 S2 S3 S4]. constructor; auto.
    + eapply filed_weak; [exact S1| |auto]. intros b q X. apply (moved_data L i h) in X; [|exact Hh]. unfold moved in X. rewrite E, D in X. exact X.
    + ledgers. apply twin_obj with o; auto; [apply Hh|]. destruct (Hh o) as (X1 & X2 & X3). unfold obj_path, obj_root. now rewrite X1, X2, X3.
Qed.
Lemma current_sound L s i : sound g L s -> exists s', write_current i s = Fine s' /\ sound g L s'.
Proof.
  intros H. unfold write_current. rewrite (so_objs _ _ _ H). destruct (nth_error (l_objs L) i) as [o|] eqn:E; [|eauto]. destruct (o_dyn o) eqn:D; [|eauto].
  destruct (write_current_shelf L (f_mats s) (f_tmons s) (f_h5 s) o (vec_pay (o_pos o)) (PReal (o_theta o))) as (f' & Ew & Sh); auto; [|now apply nth_error_In with i|apply H|].
  - apply (nth_error_Forall _ _ _ _ (so_onames _ _ _ H) E).
  - cbv zeta. rewrite current_eq, Ew. cbn [prim]. eexists. split; [reflexivity|]. constructor; fields; try apply H. exact Sh.
Qed.

(** *** Sources *)
Lemma source_sound L s r : sound g L s -> proper (sr_name r) -> source_inside g r -> ~ In (src_sub (sr_kind r), sr_name r) (l_srcs L) ->
  exists s', add_source r s = Fine s' /\ sound g (with_srcs ((src_sub (sr_kind r), sr_name r) :: l_srcs L) L) s'.
Proof.
  intros H Hn Hi Hu. apply plain_of in Hn. unfold add_source.
  destruct (write_src_shelf L (f_mats s) (f_tmons s) (f_h5 s) r Hn Hu (so_shelf _ _ _ H)) as (f' & Ew & Sh).
  assert (X : exec (AddSource r) s = Fine (map_ph (fun p => set_ph_srcs (ph_srcs p ++ [r]) p) (set_f_h5 f' s))) by (cbn [exec]; unfold add_source; rewrite Ew; reflexivity).
  rewrite Ew. cbn [prim]. eexists. split; [reflexivity|]. destruct (exec_kept _ _ _ (so_good _ _ _ H) (so_rest _ _ _ H) X) as [K1 K2].
  constructor; ledgers; fields; cbn [ph_step ph_objs set_ph_srcs]; try apply H; auto.
  - destruct (so_placed _ _ _ H) as [A B]. split; [|exact B]. cbn [ph_srcs ph_grid set_ph_srcs]. apply Forall_app. split; [exact A|]. constructor; [|constructor]. apply source_inside_ok. now rewrite (proj2 (so_good _ _ _ H)).
Qed.
Lemma tfsf_sound L s v tp : sound g L s -> l_tfsf L = None -> tfsf_region g v -> exists s', set_tfsf v tp s = Fine s' /\ sound g (with_tfsf (Some (has_dft tp)) false L) s'.
Proof.
  intros H Hl Hr. assert (Gg := proj2 (so_good _ _ _ H)). destruct (mk_tfsf_ok g tp v (g_dt g) Hmod Hr) as (q & Eq & Pq & V & Tp & Dq).
  destruct (write_tfsf_shelf L (f_mats s) (f_tmons s) (f_h5 s) q (has_dft tp) Hl) as (f' & Ew & Sh); [now rewrite Tp|apply H|].
  assert (X : exec (SetTfsf v tp) s = Fine (set_f_h5 f' (map_ph (set_ph_tfsf (Some q)) s))) by (cbn [exec]; unfold set_tfsf; rewrite Gg, Eq; cbn [prim]; fields; rewrite Ew; reflexivity).
  eexists. split; [exact X|]. destruct (exec_kept _ _ _ (so_good _ _ _ H) (so_rest _ _ _ H) X) as [K1 K2].
  constructor; ledgers; fields; cbn [ph_step ph_objs set_ph_tfsf]; try apply H; auto.
  - split; [apply H|]. cbn [ph_tfsf set_ph_tfsf ph_grid]. intros q' Eq'. injection Eq' as <-. now rewrite Gg.
Qed.
Lemma report_tfsf_sound L s : sound g L s -> (forall b, l_tfsf L = Some b -> b = true /\ l_tfsf_result L = false) ->
  exists s', report_tfsf s = Fine s' /\ sound g (with_tfsf (l_tfsf L) true L) s'.
Proof.
  intros H Ha. assert (Li := so_line _ _ _ H). unfold line_at in Li. unfold report_tfsf. destruct (ph_tfsf (f_ph s)) as [q|] eqn:Q.
  - destruct (l_tfsf L) as [b|] eqn:Lt; [|contradiction]. destruct (Ha b eq_refl) as [-> Hr]. destruct (Li eq_refl) as (d & Ed & D1 & D2).
    assert (Ef : exists v, tfsf_flux q = Ok v).
    { unfold tfsf_flux. rewrite Ed. destruct (holds_get _ _ D1) as [e1 E1]. destruct (holds_get _ _ D2) as [e2 E2]. rewrite E1, E2. cbn [bind]. eauto. }
    destruct Ef as [v Ef]. rewrite Ef. cbn [bind].
    destruct (report_tfsf_shelf L (f_mats s) (f_tmons s) (f_h5 s) (PReals v)) as (f' & Ew & Sh); [congruence|exact Hr|apply H|]. rewrite Ew. cbn [prim].
    eexists. split; [reflexivity|]. constructor; ledgers; fields; try apply H. { unfold line_at. now rewrite Q. } rewrite Lt in Sh. exact Sh.
  - exists s. split; [reflexivity|]. destruct (l_tfsf L) as [b|] eqn:Lt; [contradiction|]. constructor; ledgers; try apply H. { unfold line_at. now rewrite Q. }
    destruct (so_shelf _ _ _ H) as [S1 S2 S3 S4]. constructor; auto. { eapply filed_weak; [exact S1| |auto]. intros b' q X. destruct q as [|a [|n [|x [|z [|]]]]]; cbn [data_at] in X |- *; auto. ledgers.
      destruct X as [X|[X|(_ & _ & X & _)]]; auto. congruence. }
Qed.

(** *** Time monitors *)
Lemma NoDup_snoc {A} (x : A) : forall l, NoDup l -> ~ In x l -> NoDup (l ++ [x]).
Proof.
  induction 1 as [|y l Hy Hl IH]; intros Hx; cbn [app]; [constructor; [auto|constructor]|]. constructor.
  - intros X. apply in_app_or in X. destruct X as [X|[X|[]]]; [contradiction|subst]. apply Hx. now left.
  - apply IH. intros X. apply Hx. now right.
Qed.
Lemma view_sound L s m : sound g L s -> new_view g m -> ~ In (tm_name m) (l_views L) -> exists s', add_tmon m s = Fine s' /\ sound g (with_views (l_views L ++ [tm_name m]) L) s'.
Proof.
  intros H Hv Hn. set (L' := with_views (l_views L ++ [tm_name m]) L).
  destruct (add_tmon_shelf g L L' (f_mats s) (f_tmons s) (f_h5 s) m Hv) as (f1 & f2 & E1 & E2 & Sh); [now rewrite (so_views _ _ _ H)|apply H|reflexivity|].
  unfold add_tmon. rewrite tm_add_eq, E1. cbn [bind]. rewrite E2. cbn [prim]. eexists. split; [reflexivity|]. constructor; ledgers; fields; try apply H; auto.
  - rewrite map_app, (so_views _ _ _ H). reflexivity.
  - apply NoDup_snoc; [apply H|exact Hn].
  - apply Forall_app. split; [apply H|]. constructor; [|constructor]. destruct Hv as (A & B & C & (n & Hn' & D) & E). split; [split; [now apply plain_of|exact B]|]. split; [exact C|]. split; [rewrite D; now apply paced_new|]. rewrite E. constructor.
Qed.
Lemma tm_sound L s i : sound g L s -> exists s', write_tmon i s = Fine s' /\ sound g L s'.
Proof.
  intros H. destruct (so_good _ _ _ H) as [Hw Gg]. unfold write_tmon. destruct (nth_error (f_tmons s) i) as [m|] eqn:Em; [|eauto].
  destruct (tm_write_shelf g (ph_F (f_ph s)) L (f_mats s) (f_tmons s) i m (f_h5 s)) as (f' & m' & Ew & Sw & N & Sn); auto.
  { assert (X := wf_F _ Hw). now rewrite Gg in X. }
  { apply H. }
  { rewrite (so_views _ _ _ H). apply H. }
  { apply (nth_error_Forall _ _ _ _ (so_seen _ _ _ H) Em). }
  rewrite Gg, Ew. cbn [prim]. eexists. split; [reflexivity|]. constructor; fields; try apply H; auto.
  - rewrite <- (so_views _ _ _ H). now apply upd_map with m.
  - apply upd_nth_Forall; [exact Sn|apply H].
Qed.

(** *** Monitors *)
Lemma able_sides l0 l : Forall2 surf_able l0 l -> map sm_name l = map sm_name l0.
Proof. induction 1 as [|x y l0 l H _ IH]; cbn [map]; [reflexivity|]. now rewrite IH, (sb_name _ _ H). Qed.
Lemma able_dirs m0 m : able m0 m -> mon_dirs m = mon_dirs m0 /\ mon_sub_name m = mon_sub_name m0.
Proof.
  destruct m0 as [a|a|a|a|a], m as [b|b|b|b|b]; cbn [able]; try contradiction; cbn [mon_dirs mon_sub_name].
  - intros H. now rewrite (sb_name _ _ H).
  - intros [E H]. rewrite E. split; [|reflexivity]. f_equal. rewrite <- 2 (map_map sm_name (fun n => ("surface_monitor"%string, n))). now rewrite (able_sides _ _ H).
  - intros [E _]. now rewrite E.
  - intros [E _]. now rewrite E.
Qed.
Lemma sub_dirs m : In (mon_sub_name m) (mon_dirs m).
Proof. destruct m; cbn [mon_dirs]; try now left. apply in_or_app. right. now left. Qed.
Lemma sub_plain m : plain (fst (mon_sub_name m)).
Proof. destruct m; cbn [mon_sub_name fst]; kp. Qed.
Lemma monitor_sound L s m : sound g L s -> new_monitor g L m ->
  exists s', add_monitor m s = Fine s' /\ sound g (with_mons (mon_dirs m ++ l_dirs L) (l_mons L ++ [m]) L) s'.
Proof.
  intros H (Hw & Hp & Hd & Hf). assert (Gg := proj2 (so_good _ _ _ H)). destruct (mon_live_attach g m) as (m' & Em & Lm); [apply Hok|exact Hw|].
  assert (Am := able_attach g m m' Hw Em). destruct (able_dirs _ _ Am) as [Ed _].
  assert (Hp' : Forall (fun d => plain (snd d)) (mon_dirs m)) by (eapply Forall_impl; [|exact Hp]; intros d; apply plain_of).
  destruct (write_mon_filed L (f_mats s) (f_tmons s) (f_h5 s) m') as (f' & Ew & Sh); rewrite ?Ed; auto; try apply H.
  assert (X : exec (AddMonitor m) s = Fine (set_f_h5 f' (set_f_mons (f_mons s ++ [m']) s))) by (cbn [exec]; unfold add_monitor; rewrite Gg, Em; cbn [prim]; rewrite Ew; reflexivity).
  eexists. split; [exact X|]. constructor; ledgers; fields; try apply H; auto.
  - apply Forall2_app; [apply H|]. constructor; auto.
  - apply Forall_app. split.
    + eapply Forall_impl; [|apply (so_mdirs _ _ _ H)]. intros y Hy d Hd'. apply in_or_app. right. now apply Hy.
    + constructor; [|constructor]. intros d Hd'. apply in_or_app. now left.
  - apply Forall_app. split; [exact Hp'|apply H].
  - intros k n x Hx. apply in_or_app. right. now apply (so_results _ _ _ H) in Hx.
  - rewrite Ed in Sh. destruct Sh as [S1 S2 S3 S4]. constructor; assumption.
Qed.
Lemma box_sound L s i n fr b o m : sound g L s -> nth_error (l_objs L) i = Some o -> surrounding o n fr b m -> new_monitor g L m ->
  exists s', get_box_monitor i n fr b s = Fine s' /\ sound g (with_mons (mon_dirs m ++ l_dirs L) (l_mons L ++ [m]) L) s'.
Proof.
  intros H Ho (x & Ex & ->) Hm. unfold get_box_monitor. rewrite (so_objs _ _ _ H), Ho. change (nofZ b) with (IZR b). rewrite Ex. cbn [prim]. now apply monitor_sound.
Qed.
Lemma remove_sound L s : sound g L s -> exists s', remove_monitors s = Fine s' /\ sound g (with_mons (l_dirs L) [] L) s'.
Proof.
  intros H. eexists. split; [reflexivity|]. constructor; ledgers; fields; try apply H; auto.
  destruct (so_shelf _ _ _ H) as [S1 S2 S3 S4]. constructor; assumption.
Qed.
Lemma plain_sub L s m : sound g L s -> In m (l_mons L) -> plain (snd (mon_sub_name m)) /\ Forall (fun d => plain (snd d)) (mon_dirs m).
Proof.
  intros H Hm. assert (A := so_mdirs _ _ _ H). rewrite Forall_forall in A. specialize (A m Hm). assert (B := so_dirs _ _ _ H). rewrite Forall_forall in B.
  split; [apply B, A, sub_dirs|]. apply Forall_forall. intros d Hd. apply B, A, Hd.
Qed.
Lemma thin_keys d n ks : thin d n ks -> incl (map fst (dft_items d)) ks.
Proof.
  intros H key Hk. unfold dft_items in Hk. rewrite map_map in Hk. apply in_map_iff in Hk. destruct Hk as ([k e] & <- & Hk). cbn [fst]. now apply (H k e).
Qed.
Lemma items_keys d : map fst (dft_items d) = map fst (d_map d).
Proof. unfold dft_items. rewrite map_map. apply map_ext. now intros [k e]. Qed.
Lemma mon_items_ok m0 m : mon_live g m -> able m0 m -> incl (map fst (mon_items m)) comp_names /\ NoDup (map fst (mon_items m)) /\ (hollow m0 -> mon_items m = []).
Proof.
  assert (I1 : incl ["Ez"; "Hx"; "Hy"]%string comp_names) by (intros x; cbn; tauto). assert (I2 : incl ["Ez"; "Hp"; "Hr"]%string comp_names) by (intros x; cbn; tauto).
  destruct m0 as [a|a|a|a|a], m as [b|b|b|b|b]; cbn [able]; try contradiction; cbn [mon_live mon_items hollow]; rewrite ?items_keys.
  - intros H A. split; [|split; [apply A|contradiction]]. rewrite <- items_keys. intros x Hx. apply I1. now apply (thin_keys _ _ _ (sl_thin _ _ H)).
  - intros _ _. split; [intros x []|]. split; [constructor|reflexivity].
  - intros H A. split; [|split; [apply A|contradiction]]. rewrite <- items_keys. intros x Hx. apply I2. now apply (thin_keys _ _ _ (cl_thin _ _ H)).
  - intros [(iv & _ & _ & H & _)] A. split; [|split; [apply A|contradiction]]. rewrite <- items_keys. intros x Hx. apply I1. now apply (thin_keys _ _ _ H).
Qed.
Lemma Forall2_get {A B} (R : A -> B -> Prop) l m i a : Forall2 R l m -> nth_error l i = Some a -> exists b, nth_error m i = Some b /\ R a b.
Proof. intros H. revert i. induction H; intros [|i]; cbn; try discriminate; [intros E; injection E as ->; eauto|eauto]. Qed.
Lemma with_results_sound L s f' m x : sound g L s -> In m (l_mons L) -> shelf (with_results (result m x :: l_results L) L) (f_mats s) (f_tmons s) f' ->
  sound g (with_results (result m x :: l_results L) L) (set_f_h5 f' s).
Proof.
  intros H Hm Sh. constructor; ledgers; fields; try apply H; auto. intros k n y [Hy|Hy]; [|now apply (so_results _ _ _ H) in Hy].
  unfold result in Hy. injection Hy as Hy _. rewrite <- Hy. assert (A := so_mdirs _ _ _ H). rewrite Forall_forall in A. apply (A m Hm), sub_dirs.
Qed.
Lemma data_sound L s i m0 : sound g L s -> nth_error (l_mons L) i = Some m0 -> hollow m0 \/ ~ In (result m0 transform) (l_results L) ->
  exists s', write_monitor_data i s = Fine s' /\ sound g (with_results (result m0 transform :: l_results L) L) s'.
Proof.
  intros H Hi Ha. destruct (Forall2_get _ _ _ _ _ (so_mons _ _ _ H) Hi) as (m & Em & Lm & Am). unfold write_monitor_data. rewrite Em.
  destruct (able_dirs _ _ Am) as [_ Es]. rewrite Es. assert (Hin := nth_error_In _ _ Hi). destruct (plain_sub L s m0 H Hin) as [P2 _]. assert (P1 := sub_plain m0).
  assert (R : result m0 transform = (fst (mon_sub_name m0), snd (mon_sub_name m0), transform)) by (unfold result; now destruct (mon_sub_name m0)).
  assert (K := with_results_sound L s). destruct (mon_sub_name m0) as [k n] eqn:Ek. cbn [fst snd] in *.
  destruct (mon_groups_shelf L (f_mats s) (f_tmons s) (f_h5 s) k n P1 P2 (so_shelf _ _ _ H)) as (f1 & E1 & S1 & _). cbv zeta. rewrite mon_data_eq, E1. cbn [bind].
  destruct (mon_items_ok m0 m Lm Am) as (J1 & J2 & J3).
  destruct (write_transform_shelf L (f_mats s) (f_tmons s) f1 k n (mon_items m) P1 P2 J1 J2) as (f2 & E2 & S2); [rewrite R in Ha; destruct Ha; auto|exact S1|].
  rewrite E2. cbn [prim]. eexists. split; [reflexivity|]. apply K; auto. now rewrite R.
Qed.
Lemma report_result q : In (report_name q) result_names.
Proof. destruct q; cbn; tauto. Qed.
Lemma report_sound L s i q m0 : sound g L s -> nth_error (l_mons L) i = Some m0 -> offers m0 q -> ~ In (result m0 (report_name q)) (l_results L) ->
  exists s', report i q s = Fine s' /\ sound g (with_results (result m0 (report_name q) :: l_results L) L) s'.
Proof.
  intros H Hi Ho Ha. destruct (Forall2_get _ _ _ _ _ (so_mons _ _ _ H) Hi) as (m & Em & Lm & Am). unfold report. rewrite Em.
  destruct (able_dirs _ _ Am) as [Ed Es]. rewrite Es. assert (Hin := nth_error_In _ _ Hi). destruct (plain_sub L s m0 H Hin) as [P2 P3]. assert (P1 := sub_plain m0).
  assert (R : result m0 (report_name q) = (fst (mon_sub_name m0), snd (mon_sub_name m0), report_name q)) by (unfold result; now destruct (mon_sub_name m0)).
  assert (K := with_results_sound L s). destruct (mon_sub_name m0) as [k n] eqn:Ek. cbn [fst snd] in *.
  destruct (report_ok (g_dx (ph_grid (f_ph s))) m0 m q Am Ho) as [v Ev]. rewrite Ev. cbn [prim]. cbv zeta. rewrite report_groups_eq, bind_assoc.
  assert (Sd : exists f0, match m with MBox b => foldM (fun f (x : surf_mon) => h5_groups f (mon_groups "surface_monitor" (sm_name x))) (f_h5 s) (bm_sides b) | _ => Ok (f_h5 s) end = Ok f0 /\ shelf L (f_mats s) (f_tmons s) f0).
  { assert (S0 := so_shelf _ _ _ H). destruct m as [b|b|b|b|b]; eauto. apply side_groups_shelf; [|exact S0]. rewrite <- Ed in P3. cbn [mon_dirs] in P3. apply Forall_app in P3. destruct P3 as [P3 _].
    rewrite Forall_forall in *. intros x Hx. apply (P3 ("surface_monitor"%string, sm_name x)). now apply (in_map (fun x => ("surface_monitor"%string, sm_name x))). }
  destruct Sd as (f0 & E0 & S0). rewrite E0. cbn [bind].
  destruct (mon_groups_shelf L (f_mats s) (f_tmons s) f0 k n P1 P2 S0) as (f1 & E1 & S1 & K1). rewrite E1. cbn [bind]. rewrite R in Ha.
  destruct (write_report_shelf L (f_mats s) (f_tmons s) f1 k n (report_name q) v P1 P2 (report_result q) Ha K1 S1) as (f2 & E2 & S2).
  rewrite E2. cbn [prim]. eexists. split; [reflexivity|]. apply K; auto. now rewrite R.
Qed.
Lemma watch_sound L s : sound g L s -> exists s', write_monitor s = Fine s' /\ sound g L s'.
Proof.
  intros H. assert (Hr := so_rest _ _ _ H). unfold write_monitor, start, stop, clock_start, clock_stop. destruct s as [ph mo tm ma h k]. unfold at_rest in Hr. cbn [f_clk] in *. subst k.
  eexists. split; [reflexivity|]. constructor; cbn; apply H.
Qed.

Lemma Forall2_len {A B} (R : A -> B -> Prop) l m : Forall2 R l m -> List.length l = List.length m.
Proof. induction 1; cbn; congruence. Qed.
Lemma none_mons L s i : sound g L s -> nth_error (l_mons L) i = None -> nth_error (f_mons s) i = None.
Proof. intros H E. apply nth_error_None in E. apply nth_error_None. assert (X := so_mons _ _ _ H). apply Forall2_len in X. rewrite <- X. exact E. Qed.
Lemma call_sound L c L' s : sound g L s -> allowed g L c -> enters L c L' -> exists s', exec_call c s = Fine s' /\ sound g L' s'.
Proof.
  intros H Ha He. destruct He; cbn [exec_call exec allowed] in *.
  - now apply update_sound.
  - now apply clear_sound.
  - destruct Ha as (A & B & C & D). now apply object_sound.
  - apply (move_sound L s i (obj_move d) (Move i d)); auto.
  - apply (move_sound L s i (obj_rotate d) (Rotate i d)); auto.
  - apply (move_sound L s i (obj_set_pos p) (SetPosition i p)); auto.
  - apply (move_sound L s i (obj_set_theta t) (SetTheta i t)); auto.
  - destruct Ha as (A & B & C). now apply source_sound.
  - now apply monitor_sound.
  - destruct (Ha o H0) as (m' & A & B). assert (m' = m) by (destruct A as (x & Ex & ->), H1 as (y & Ey & ->); congruence). subst. now apply box_sound with o.
  - exists s. split; [|exact H]. unfold get_box_monitor. now rewrite (so_objs _ _ _ H), H0.
  - now apply remove_sound.
  - destruct Ha as [A B]. now apply view_sound.
  - destruct Ha as [A B]. now apply tfsf_sound.
  - now apply data_sound; auto.
  - exists s. split; [|exact H]. unfold write_monitor_data. now rewrite (none_mons L s i H H0).
  - destruct (Ha m H0) as [A B]. now apply report_sound.
  - exists s. split; [|exact H]. unfold report. now rewrite (none_mons L s i H H0).
  - now apply report_tfsf_sound.
  - now apply regrid_sound.
  - now apply unpaint_sound.
  - now apply field_sound.
  - destruct (field_sound L s Ez H) as (s1 & E1 & H1); [now left|]. eauto.
  - destruct (field_sound L s Hx H) as (s1 & E1 & H1); [now right; left|]. unfold writeH. rewrite E1. cbn [obind]. apply field_sound; [exact H1|now right; right].
  - now apply tm_sound.
  - now apply current_sound.
  - now apply watch_sound.
Qed.
Lemma main_sound l : forall L s, well_formed g L l -> sound g L s -> exists s' L', exec_main l s = Fine s' /\ sound g L' s'.
Proof.
  induction l as [|c l IH]; intros L s Hw H; cbn [exec_main]; [eauto|]. inversion Hw as [|? ? L1 ? Ha He Hl]; subst.
  destruct (call_sound L c L1 s H Ha He) as (s1 & E1 & H1). rewrite E1. cbn [obind]. now apply (IH L1).
Qed.
Lemma first_sound name s0 : mk_field g name = Ok s0 -> sound g blank s0.
Proof.
  intros E. assert (Hn : name <> ""%string) by (intros ->; unfold mk_field in E; destruct (mk_phys g); discriminate).
  destruct (mk_field_fresh g name Hroom Hn) as (p & Ep & E0). rewrite E in E0. injection E0 as ->.
  destruct (mk_phys_ok g Hroom) as (p' & Ep' & Hw & Gp & Sp & Tp & Op & Np). rewrite Ep in Ep'. injection Ep' as <-.
  constructor; cbn [f_ph f_mons f_tmons f_mats f_h5 f_clk l_step blank l_objs l_mons l_dirs l_results l_views l_tfsf].
  - exact (mk_field_good g Hroom name _ E).
  - reflexivity.
  - split; [rewrite Sp; constructor|rewrite Tp; discriminate].
  - exact Np.
  - lia.
  - exact Op.
  - constructor.
  - constructor.
  - constructor.
  - constructor.
  - intros k n x [].
  - reflexivity.
  - constructor.
  - constructor.
  - unfold line_at. now rewrite Tp.
  - apply fresh_shelf.
Qed.
End Calls.

Theorem programs_run g name s0 l : grid_ok g -> roomy g -> g_Nx g <= 46341 -> g_Ny g <= 46341 -> mk_field g name = Ok s0 -> well_formed g blank l ->
  exists s, exec_main l s0 = Fine s.
Proof.
  intros Hok Hr A B E H. assert (M : modest g) by (split; auto). destruct (main_sound g Hok Hr M l blank s0 H (first_sound g Hr name s0 E)) as (s & L & X & _). eauto.
Qed.
