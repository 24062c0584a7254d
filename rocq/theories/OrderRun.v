(** Whole programs: the order of the poles of Debye and Drude media does not matter. *)
From Coq Require Import ZArith Reals String List Bool Permutation Lia Lra.
From Verif Require Import Scalar Base BaseFacts VecM GridM GeometryM MaterialM PmlM DftM TfsfM PolarM
  InterpM H5M ClockM MonitorM FieldM OutFacts PhysFacts PaintFacts WfFacts SpecMedium PolarFacts MediumFacts HalfFacts SpecOutput EditFacts CellFacts SpecOrder PoleOrder OrderFacts.
Import ListNotations.
Local Open Scope R_scope.
#[local] Existing Instance RNum.

(** ** The two kinds *)
Definition over_dt (dt c : R) : R := c / dt.
Definition plain (dt c : R) : R := c.
Lemma debye_by_cells x q pe E q' E' : (0 <= pl_n q)%Z -> debye_update x q pe E = Ok (q', E') ->
  by_cells q q' E E' (fun i j => chain (pl_n q)
    (fun k e => e - debye_Cb x (pl_dt q) / 2 * (1 + nth (Z.to_nat k) (map (debye_kappa1 (pl_dt q)) (db_poles x)) 0) * t3val (pl_J q) i j k)
    (fun k e => nth (Z.to_nat k) (map (debye_kappa1 (pl_dt q)) (db_poles x)) 0 * t3val (pl_J q) i j k + over_dt (pl_dt q) (t3val (pl_c q) i j k) * (e + -1 * tval pe i j))
    (tval E i j) (tval E' i j) (t3val (pl_J q') i j)).
Proof.
  intros Hn H. apply debye_update_cells in H; [|exact Hn]. destruct H as (A & B & C). split; [exact A|]. split; [|exact C]. intros i j Hi Hj. specialize (B i j Hi Hj). unfold debye_cell in B.
  eapply chain_extf; [| |exact B]; intros k e _; unfold over_dt, debye_kappa; rnumg; lra.
Qed.
Lemma drude_by_cells x q pe E q' E' : (0 <= pl_n q)%Z -> drude_update x q pe E = Ok (q', E') ->
  by_cells q q' E E' (fun i j => chain (pl_n q)
    (fun k e => e - drude_Cb x (pl_dt q) / 2 * (1 + nth (Z.to_nat k) (map (drude_kappa1 (pl_dt q)) (dr_poles x)) 0) * t3val (pl_J q) i j k)
    (fun k e => nth (Z.to_nat k) (map (drude_kappa1 (pl_dt q)) (dr_poles x)) 0 * t3val (pl_J q) i j k + plain (pl_dt q) (t3val (pl_c q) i j k) * (e + 1 * tval pe i j))
    (tval E i j) (tval E' i j) (t3val (pl_J q') i j)).
Proof.
  intros Hn H. apply drude_update_cells in H; [|exact Hn]. destruct H as (A & B & C). split; [exact A|]. split; [|exact C]. intros i j Hi Hj. specialize (B i j Hi Hj). unfold drude_cell in B.
  eapply chain_extf; [| |exact B]; intros k e _; unfold plain, drude_kappa; rnumg; lra.
Qed.
Definition debye_twins := twins db_poles debye_beta1 debye_kappa1 debye_Cb over_dt.
Definition drude_twins := twins dr_poles drude_beta1 drude_kappa1 drude_Cb plain.

Lemma debye_stuff e l l' : Permutation l l' -> same_stuff db_poles debye_Cb (Debye e l) (Debye e l').
Proof.
  intros H. split; [exact H|]. intros dt. unfold debye_Cb, debye_beta. cbn [db_eps db_poles]. rewrite (nsum_perm (map (debye_beta1 dt) l) (map (debye_beta1 dt) l')); [reflexivity|now apply Permutation_map].
Qed.
Lemma drude_stuff e l l' : Permutation l l' -> same_stuff dr_poles drude_Cb (Drude e l) (Drude e l').
Proof.
  intros H. split; [exact H|]. intros dt. unfold drude_Cb, drude_beta. cbn [dr_eps dr_poles]. rewrite (nsum_perm (map (drude_beta1 dt) l) (map (drude_beta1 dt) l')); [reflexivity|now apply Permutation_map].
Qed.
Lemma stuff_refl {M A} (poles : M -> list A) cb x : same_stuff poles cb x x.
Proof. split; [apply Permutation_refl|reflexivity]. Qed.
Lemma reordered_coefs k k' dt : reordered k k' -> mat_Ca k' dt = mat_Ca k dt /\ mat_Cb k' dt = mat_Cb k dt /\ mat_Da k' dt = mat_Da k dt /\ mat_Db k' dt = mat_Db k dt.
Proof.
  intros [k0|e l l' H|e l l' H]; [auto| |].
  - destruct (debye_stuff e l l' H) as [_ C]. cbn [mat_Ca mat_Cb mat_Da mat_Db]. rewrite C. auto.
  - destruct (drude_stuff e l l' H) as [_ C]. cbn [mat_Ca mat_Cb mat_Da mat_Db]. rewrite C.
    assert (Ca : drude_Ca (Drude e l') dt = drude_Ca (Drude e l) dt).
    { unfold drude_Ca, drude_beta. cbn [dr_eps dr_poles]. rewrite (nsum_perm (map (drude_beta1 dt) l) (map (drude_beta1 dt) l')); [reflexivity|now apply Permutation_map]. }
    rewrite Ca. auto.
Qed.

(** ** States *)
Definition repl (a : list obj) (d : list (string * (debye * polar))) (u : list (string * (drude * polar))) (p : phys) : phys :=
  set_ph_objs a (set_ph_debye d (set_ph_drude u p)).
Notation like := (obj_but reordered).
Definition related (p p' : phys) : Prop := exists a d u, p' = repl a d u p /\ Forall2 like (ph_objs p) a /\ debye_twins (ph_grid p) (ph_debye p) d /\ drude_twins (ph_grid p) (ph_drude p) u.

Lemma like_inside o o' : like o o' -> obj_inside o' = obj_inside o /\ obj_box o' = obj_box o.
Proof. intros (_ & _ & A & B & C & _). unfold obj_inside, obj_box. rewrite A, B, C. auto. Qed.
Lemma like_paint g o o' c : like o o' -> paint g o' c = paint g o c.
Proof.
  intros H. destruct (like_inside _ _ H) as [Hi Hb]. destruct H as (_ & _ & _ & _ & _ & _ & Hk). destruct (reordered_coefs _ _ (g_dt g) Hk) as (C1 & C2 & C3 & C4). unfold paint. now rewrite Hi, Hb, C1, C2, C3, C4.
Qed.
(** phases that neither read nor write what differs *)
Definition blind (f : phys -> res phys) : Prop := forall a d u p, f (repl a d u p) = (q <- f p ;; Ok (repl a d u q)) /\
  forall q, f p = Ok q -> ph_objs q = ph_objs p /\ ph_debye q = ph_debye p /\ ph_drude q = ph_drude p /\ ph_grid q = ph_grid p.
Lemma blind_related f p p' q q' : blind f -> related p p' -> f p = Ok q -> f p' = Ok q' -> related q q'.
Proof.
  intros Hf (a & d & u & -> & Ho & Hd & Hu) H H'. destruct (Hf a d u p) as [E F]. rewrite E, H in H'. cbn [bind] in H'. injection H' as <-. destruct (F q H) as (F1 & F2 & F3 & F4).
  exists a, d, u. rewrite F1, F2, F3, F4. auto.
Qed.
Lemma blind_clock : blind step_clock.
Proof. intros a d u p. unfold step_clock. cbn [repl ph_grid ph_step ph_t set_ph_objs set_ph_debye set_ph_drude]. split; [destruct (i32 _); reflexivity|]. intros q H. inv_ok. auto. Qed.
Lemma prev_repl a d u p : step_prev (repl a d u p) = repl a d u (step_prev p).
Proof. unfold step_prev. cbn. destruct (ph_prev2E p), (ph_prevE p) eqn:E; cbn; rewrite ?E; reflexivity. Qed.
Lemma prev_keeps p : ph_objs (step_prev p) = ph_objs p /\ ph_debye (step_prev p) = ph_debye p /\ ph_drude (step_prev p) = ph_drude p /\ ph_grid (step_prev p) = ph_grid p.
Proof. unfold step_prev. destruct (ph_prev2E p), (ph_prevE p) eqn:E; cbn; rewrite ?E; auto. Qed.
Lemma blind_prev : blind (fun p => Ok (step_prev p)).
Proof. intros a d u p. split; [cbn [bind]; now rewrite prev_repl|]. intros q H. injection H as <-. apply prev_keeps. Qed.
Lemma blind_E : blind step_E.
Proof. intros a d u p. unfold step_E. cbn [repl ph_grid ph_F ph_C ph_sc set_ph_objs set_ph_debye set_ph_drude]. split; [destruct (E_loop _ _ _ _ _ _); reflexivity|]. intros q H. inv_ok. auto. Qed.
Lemma blind_pmlE : blind step_pmlE.
Proof. intros a d u p. unfold step_pmlE. cbn [repl ph_grid ph_F ph_C ph_pml set_ph_objs set_ph_debye set_ph_drude]. split; [destruct (pml_update_E _ _ _ _ _) as [[b E]| |]; reflexivity|]. intros q H. apply bind_ok in H. destruct H as ([b E] & _ & H). injection H as <-. auto. Qed.
Lemma blind_tfsfD : blind step_tfsfD.
Proof. intros a d u p. unfold step_tfsfD. cbn [repl ph_tfsf ph_F set_ph_objs set_ph_debye set_ph_drude]. destruct (ph_tfsf p) as [t|]; [|split; [reflexivity|intros q H; injection H as <-; auto]]. split; [destruct (tfsf_updateD _ _); reflexivity|]. intros q H. inv_ok. auto. Qed.
Lemma blind_tfsf_pulse : blind step_tfsf_pulse.
Proof. intros a d u p. unfold step_tfsf_pulse. cbn [repl ph_tfsf ph_F set_ph_objs set_ph_debye set_ph_drude]. destruct (ph_tfsf p) as [t|]; [|split; [reflexivity|intros q H; injection H as <-; auto]]. split; [destruct (tfsf_pulse _); reflexivity|]. intros q H. inv_ok. auto. Qed.
Lemma blind_H : blind step_H.
Proof. intros a d u p. unfold step_H. cbn [repl ph_grid ph_F ph_C ph_sc set_ph_objs set_ph_debye set_ph_drude]. split; [destruct (H_loop _ _ _ _ _ _) as [[x y]| |]; reflexivity|]. intros q H. apply bind_ok in H. destruct H as ([x y] & _ & H). injection H as <-. auto. Qed.
Lemma blind_pmlH : blind step_pmlH.
Proof. intros a d u p. unfold step_pmlH. cbn [repl ph_grid ph_F ph_C ph_pml set_ph_objs set_ph_debye set_ph_drude]. split; [destruct (pml_update_H _ _ _ _ _) as [[[b x] y]| |]; reflexivity|]. intros q H. apply bind_ok in H. destruct H as ([[b x] y] & _ & H). injection H as <-. auto. Qed.
Lemma blind_tfsfH : blind step_tfsfH.
Proof. intros a d u p. unfold step_tfsfH. cbn [repl ph_tfsf ph_F set_ph_objs set_ph_debye set_ph_drude]. destruct (ph_tfsf p) as [t|]; [|split; [reflexivity|intros q H; injection H as <-; auto]]. split; [destruct (tfsf_updateH _ _ _) as [[x y]| |]; reflexivity|]. intros q H. apply bind_ok in H. destruct H as ([x y] & _ & H). injection H as <-. auto. Qed.
Lemma blind_clear : blind phys_clear_materials.
Proof. intros a d u p. unfold phys_clear_materials. cbn [repl ph_grid ph_bg ph_C set_ph_objs set_ph_debye set_ph_drude]. split; [destruct (clear_coefs _ _ _); reflexivity|]. intros q H. inv_ok. auto. Qed.
Lemma blind_set_tfsf v tp : blind (phys_set_tfsf v tp).
Proof. intros a d u p. unfold phys_set_tfsf. cbn [repl ph_grid set_ph_objs set_ph_debye set_ph_drude]. split; [destruct (mk_tfsf _ _ _ _); reflexivity|]. intros q H. inv_ok. auto. Qed.

Lemma pulse_related i p p' q q' : related p p' -> pulse_src i p = Fine q -> pulse_src i p' = Fine q' -> related q q' /\ length (ph_srcs q) = length (ph_srcs p).
Proof.
  intros (a & d & u & -> & Ho & Hd & Hu) H H'. unfold pulse_src in H, H'. cbn [repl ph_srcs ph_t set_ph_objs set_ph_debye set_ph_drude] in H'. destruct (nth_error (ph_srcs p) i) as [r|].
  - apply prim_fine in H. destruct H as ([v tp] & E1 & H). rewrite E1 in H'. cbn [prim] in H'. cbv zeta in H, H'. apply prim_fine in H. destruct H as (F & E2 & H). injection H as <-.
    cbn [repl ph_srcs ph_t ph_grid ph_F set_ph_objs set_ph_debye set_ph_drude set_ph_srcs] in E2, H'. rewrite E2 in H'. cbn [prim] in H'. injection H' as <-.
    split; [|cbn; apply upd_nth_length]. exists a, d, u. split; [reflexivity|]. auto.
  - injection H as <-. injection H' as <-. split; [|reflexivity]. exists a, d, u. auto.
Qed.
Lemma sources_related p p' q q' : related p p' -> step_sources p = Fine q -> step_sources p' = Fine q' -> related q q'.
Proof.
  intros R0. unfold step_sources. assert (L : length (ph_srcs p') = length (ph_srcs p)) by (destruct R0 as (a & d & u & -> & _); reflexivity). rewrite L. clear L. generalize (length (ph_srcs p)) at 1 2. intros n. generalize O.
  revert p p' R0. induction n as [|n IH]; intros p p' R0 lo H H'; cbn [oloop] in H, H'; [injection H as <-; injection H' as <-; exact R0|].
  apply obind_fine in H. destruct H as (r & H1 & H). apply obind_fine in H'. destruct H' as (r' & H1' & H'). destruct (pulse_related _ _ _ _ _ R0 H1 H1') as [R1 _]. exact (IH _ _ R1 _ H H').
Qed.
Lemma polar_related p p' q q' : related p p' -> step_polar p = Ok q -> step_polar p' = Ok q' -> related q q'.
Proof.
  intros (a & d & u & -> & Ho & Hd & Hu) H H'. unfold step_polar in H, H'. cbn [repl ph_prevE ph_prev2E ph_F ph_debye ph_drude ph_lorentz set_ph_objs set_ph_debye set_ph_drude set_E set_ph_F fEz] in H'.
  apply bind_ok in H. destruct H as ([P1 E1] & A1 & H). apply bind_ok in H'. destruct H' as ([Q1 F1] & B1 & H').
  destruct (twins_all db_poles debye_beta1 debye_kappa1 debye_Cb over_dt (-1) debye_update debye_by_cells debye_extent ltac:(intros; unfold over_dt; lra) (ph_grid p) _ _ _ Hd _ _ _ _ _ A1 B1) as [T1 <-].
  cbv zeta in H, H'. cbn [repl ph_prevE ph_prev2E ph_F ph_debye ph_drude ph_lorentz set_ph_objs set_ph_debye set_ph_drude set_E set_ph_F fEz] in H, H'.
  apply bind_ok in H. destruct H as ([P2 E2] & A2 & H). apply bind_ok in H'. destruct H' as ([Q2 F2] & B2 & H').
  destruct (twins_all dr_poles drude_beta1 drude_kappa1 drude_Cb plain 1 drude_update drude_by_cells drude_extent ltac:(intros; reflexivity) (ph_grid p) _ _ _ Hu _ _ _ _ _ A2 B2) as [T2 <-].
  cbv zeta in H, H'. cbn [repl ph_prevE ph_prev2E ph_F ph_debye ph_drude ph_lorentz set_ph_objs set_ph_debye set_ph_drude set_E set_ph_F fEz] in H, H'.
  apply bind_ok in H. destruct H as ([P3 E3] & A3 & H). injection H as <-. rewrite A3 in H'. cbn [bind] in H'. injection H' as <-.
  exists a, Q1, Q2. split; [reflexivity|]. auto.
Qed.
Lemma first_related p p' q q' : related p p' -> phys_first p = Fine q -> phys_first p' = Fine q' -> related q q'.
Proof.
  intros R0 H H'. unfold phys_first in H, H'.
  apply prim_fine in H. destruct H as (p1 & A1 & H). apply prim_fine in H'. destruct H' as (q1 & B1 & H'). assert (R1 := blind_related _ _ _ _ _ blind_clock R0 A1 B1).
  assert (R1' := blind_related _ _ _ _ _ blind_prev R1 eq_refl eq_refl).
  apply prim_fine in H. destruct H as (p2 & A2 & H). apply prim_fine in H'. destruct H' as (q2 & B2 & H'). assert (R2 := blind_related _ _ _ _ _ blind_E R1' A2 B2).
  apply prim_fine in H. destruct H as (p3 & A3 & H). apply prim_fine in H'. destruct H' as (q3 & B3 & H'). assert (R3 := blind_related _ _ _ _ _ blind_pmlE R2 A3 B3).
  apply prim_fine in H. destruct H as (p4 & A4 & H). apply prim_fine in H'. destruct H' as (q4 & B4 & H'). assert (R4 := polar_related _ _ _ _ R3 A4 B4).
  apply prim_fine in H. destruct H as (p5 & A5 & H). apply prim_fine in H'. destruct H' as (q5 & B5 & H'). assert (R5 := blind_related _ _ _ _ _ blind_tfsfD R4 A5 B5).
  exact (sources_related _ _ _ _ R5 H H').
Qed.
Lemma second_related p p' q q' : related p p' -> phys_second p = Fine q -> phys_second p' = Fine q' -> related q q'.
Proof.
  intros R0 H H'. unfold phys_second in H, H'.
  apply prim_fine in H. destruct H as (p1 & A1 & H). apply prim_fine in H'. destruct H' as (q1 & B1 & H'). assert (R1 := blind_related _ _ _ _ _ blind_tfsf_pulse R0 A1 B1).
  apply prim_fine in H. destruct H as (p2 & A2 & H). apply prim_fine in H'. destruct H' as (q2 & B2 & H'). assert (R2 := blind_related _ _ _ _ _ blind_H R1 A2 B2).
  apply prim_fine in H. destruct H as (p3 & A3 & H). apply prim_fine in H'. destruct H' as (q3 & B3 & H'). assert (R3 := blind_related _ _ _ _ _ blind_pmlH R2 A3 B3).
  apply prim_fine in H. destruct H as (p4 & A4 & H). apply prim_fine in H'. destruct H' as (q4 & B4 & H'). assert (R4 := blind_related _ _ _ _ _ blind_tfsfH R3 A4 B4).
  injection H as <-. injection H' as <-. exact R4.
Qed.

(** ** Objects *)
Lemma like_refl o : like o o. Proof. repeat split. constructor. Qed.
Lemma paint_related o o' p p' q q' : like o o' -> related p p' -> paint_phys o p = Ok q -> paint_phys o' p' = Ok q' -> related q q'.
Proof.
  intros Ho (a & d & u & -> & Ha & Hd & Hu) H H'. unfold paint_phys in H, H'. cbn [repl ph_grid ph_C set_ph_objs set_ph_debye set_ph_drude] in H'. rewrite (like_paint _ _ _ _ Ho) in H'.
  apply bind_ok in H. destruct H as (c & E & H). injection H as <-. rewrite E in H'. cbn [bind] in H'. injection H' as <-. exists a, d, u. split; [reflexivity|]. auto.
Qed.
Lemma insert_related o o' p p' q q' : like o o' -> related p p' -> insert_material o p = Ok q -> insert_material o' p' = Ok q' -> related q q'.
Proof.
  intros Ho (a & d & u & -> & Ha & Hd & Hu) H H'. destruct (like_inside _ _ Ho) as [Hi _]. destruct Ho as (_ & _ & _ & _ & _ & Hn & Hk).
  unfold insert_material in H, H'. rewrite Hn in H'. cbn [repl ph_grid ph_F ph_prevE ph_prev2E ph_debye ph_drude ph_lorentz set_ph_objs set_ph_debye set_ph_drude] in H'.
  destruct (m_kind (o_mat o)) as [m|m|m|m] eqn:K.
  - inversion Hk; subst. rewrite <- H2 in H'. injection H as <-. injection H' as <-. exists a, d, u. auto.
  - assert (exists m', m_kind (o_mat o') = KDebye m' /\ same_stuff db_poles debye_Cb m m') as (m' & K' & Hs) by (inversion Hk; [exists m; split; [reflexivity|apply stuff_refl]|eexists; split; [reflexivity|now apply debye_stuff]]).
    rewrite K' in H'. apply bind_ok in H. destruct H as (P & A & H). injection H as <-. apply bind_ok in H'. destruct H' as (Q & B & H'). injection H' as <-.
    assert (Tw := twins_add db_poles debye_beta1 debye_kappa1 debye_Cb over_dt (ph_grid p) _ _ _ _ _ _ _ _ _ Hd Hs Hi A B).
    exists a, Q, u. split; [reflexivity|]. auto.
  - assert (exists m', m_kind (o_mat o') = KDrude m' /\ same_stuff dr_poles drude_Cb m m') as (m' & K' & Hs) by (inversion Hk; [exists m; split; [reflexivity|apply stuff_refl]|eexists; split; [reflexivity|now apply drude_stuff]]).
    rewrite K' in H'. apply bind_ok in H. destruct H as (P & A & H). injection H as <-. apply bind_ok in H'. destruct H' as (Q & B & H'). injection H' as <-.
    assert (Tw := twins_add dr_poles drude_beta1 drude_kappa1 drude_Cb plain (ph_grid p) _ _ _ _ _ _ _ _ _ Hu Hs Hi A B).
    exists a, d, Q. split; [reflexivity|]. auto.
  - inversion Hk; subst. rewrite <- H2 in H'. unfold add_polar in H, H'. rewrite Hi in H'. apply bind_ok in H. destruct H as (P & A & H). injection H as <-. rewrite A in H'. cbn [bind] in H'. injection H' as <-.
    exists a, d, u. split; [reflexivity|]. auto.
Qed.
Lemma reinsert_related o o' p p' q q' : like o o' -> related p p' -> reinsert_material o p = Ok q -> reinsert_material o' p' = Ok q' -> related q q'.
Proof.
  intros Ho (a & d & u & -> & Ha & Hd & Hu) H H'. destruct (like_inside _ _ Ho) as [Hi _]. destruct Ho as (_ & _ & _ & _ & _ & Hn & Hk).
  unfold reinsert_material in H, H'. rewrite Hn in H'. cbn [repl ph_grid ph_F ph_prevE ph_prev2E ph_debye ph_drude ph_lorentz set_ph_objs set_ph_debye set_ph_drude] in H'.
  destruct (m_kind (o_mat o)) as [m|m|m|m] eqn:K.
  - inversion Hk; subst. rewrite <- H2 in H'. injection H as <-. injection H' as <-. exists a, d, u. auto.
  - assert (exists m', m_kind (o_mat o') = KDebye m') as (m' & K') by (inversion Hk; eexists; reflexivity).
    rewrite K' in H'. apply bind_ok in H. destruct H as (P & A & H). injection H as <-. apply bind_ok in H'. destruct H' as (Q & B & H'). injection H' as <-.
    assert (Tw := twins_reinsert db_poles debye_beta1 debye_kappa1 debye_Cb over_dt (ph_grid p) _ _ _ _ _ _ _ Hd Hi A B).
    exists a, Q, u. split; [reflexivity|]. auto.
  - assert (exists m', m_kind (o_mat o') = KDrude m') as (m' & K') by (inversion Hk; eexists; reflexivity).
    rewrite K' in H'. apply bind_ok in H. destruct H as (P & A & H). injection H as <-. apply bind_ok in H'. destruct H' as (Q & B & H'). injection H' as <-.
    assert (Tw := twins_reinsert dr_poles drude_beta1 drude_kappa1 drude_Cb plain (ph_grid p) _ _ _ _ _ _ _ Hu Hi A B).
    exists a, d, Q. split; [reflexivity|]. auto.
  - inversion Hk; subst. rewrite <- H2 in H'. unfold reinsert_polar in H, H'. rewrite Hi in H'. apply bind_ok in H. destruct H as (P & A & H). injection H as <-. rewrite A in H'. cbn [bind] in H'. injection H' as <-.
    exists a, d, u. split; [reflexivity|]. auto.
Qed.
Lemma repaint_related l l' : Forall2 like l l' -> forall p p' q q', related p p' -> foldM repaint_one p l = Ok q -> foldM repaint_one p' l' = Ok q' -> related q q'.
Proof.
  induction 1 as [|o o' l l' Ho Hl IH]; intros p p' q q' R0 H H'; cbn [foldM] in H, H'; [injection H as <-; injection H' as <-; exact R0|].
  apply bind_ok in H. destruct H as (r & A & H). apply bind_ok in H'. destruct H' as (r' & B & H'). unfold repaint_one in A, B. apply bind_ok in A. destruct A as (t & A1 & A2). apply bind_ok in B. destruct B as (t' & B1 & B2).
  exact (IH _ _ _ _ (reinsert_related _ _ _ _ _ _ Ho (paint_related _ _ _ _ _ _ Ho R0 A1 B1) A2 B2) H H').
Qed.
Lemma umg_related p p' q q' : related p p' -> update_material_grid p = Ok q -> update_material_grid p' = Ok q' -> related q q'.
Proof.
  intros (a & d & u & -> & Ha & Hd & Hu) H H'. unfold update_material_grid in H, H'. cbn [repl ph_grid ph_bg ph_C ph_objs set_ph_objs set_ph_debye set_ph_drude] in H'.
  apply bind_ok in H. destruct H as (c & A & H). rewrite A in H'. cbn [bind] in H'. refine (repaint_related _ _ Ha _ _ _ _ _ H H'). exists a, d, u. split; [reflexivity|]. auto.
Qed.
Lemma add_related o o' p p' q q' : like o o' -> related p p' -> phys_add_object o p = Ok q -> phys_add_object o' p' = Ok q' -> related q q'.
Proof.
  intros Ho R0 H H'. unfold phys_add_object in H, H'. apply bind_ok in H. destruct H as (p1 & A1 & H). apply bind_ok in H. destruct H as (p2 & A2 & H). injection H as <-.
  apply bind_ok in H'. destruct H' as (q1 & B1 & H'). apply bind_ok in H'. destruct H' as (q2 & B2 & H'). injection H' as <-.
  destruct (insert_related _ _ _ _ _ _ Ho (paint_related _ _ _ _ _ _ Ho R0 A1 B1) A2 B2) as (a & d & u & -> & Ha & Hd & Hu). exists (a ++ [o']), d, u. split; [reflexivity|]. split; [|auto].
  cbn. apply Forall2_app; auto.
Qed.
Lemma clear_related p p' : related p p' -> related (clear_fields_phys p) (clear_fields_phys p').
Proof.
  intros (a & d & u & -> & Ha & Hd & Hu). unfold clear_fields_phys. eexists a, _, _. split; [reflexivity|]. split; [exact Ha|]. split; apply twins_reset; assumption.
Qed.
Lemma upd_like h : (forall o o', like o o' -> like (h o) (h o')) -> forall l l', Forall2 like l l' -> forall i,
  match nth_error l i, nth_error l' i with
  | Some o, Some o' => o_dyn o' = o_dyn o /\ like o o' /\ Forall2 like (upd_nth i (h o) l) (upd_nth i (h o') l')
  | None, None => True
  | _, _ => False
  end.
Proof.
  intros Hh. induction 1 as [|o o' l l' Ho Hl IH]; intros [|i]; cbn [nth_error upd_nth]; auto.
  - split; [apply Ho|]. split; [exact Ho|]. constructor; auto.
  - specialize (IH i). destruct (nth_error l i), (nth_error l' i); auto. destruct IH as (I1 & I2 & I3). split; [exact I1|]. split; [exact I2|]. constructor; auto.
Qed.
Lemma on_obj_related i h p p' : (forall o o', like o o' -> like (h o) (h o')) -> related p p' -> related (phys_on_obj i h p) (phys_on_obj i h p').
Proof.
  intros Hh (a & d & u & -> & Ha & Hd & Hu). unfold phys_on_obj. cbn [repl ph_objs set_ph_objs set_ph_debye set_ph_drude]. assert (K := upd_like h Hh _ _ Ha i).
  destruct (nth_error (ph_objs p) i) as [o|], (nth_error a i) as [o'|]; try contradiction; [|exists a, d, u; auto].
  destruct K as (K1 & K2 & K3). rewrite K1. destruct (o_dyn o); [|exists a, d, u; auto]. eexists _, d, u. split; [reflexivity|]. auto.
Qed.
Lemma like_move : (forall dr o o', like o o' -> like (obj_move dr o) (obj_move dr o')) /\ (forall t o o', like o o' -> like (obj_rotate t o) (obj_rotate t o')) /\
  (forall x o o', like o o' -> like (obj_set_pos x o) (obj_set_pos x o')) /\ (forall t o o', like o o' -> like (obj_set_theta t o) (obj_set_theta t o')).
Proof. repeat split; cbn; try apply H; destruct H as (A1 & A2 & A3 & A4 & A5 & A6 & A7); congruence. Qed.

(** ** Programs *)
Definition twin_states (s s' : field) : Prop := related (f_ph s) (f_ph s') /\ f_mons s = f_mons s'.
Lemma set_srcs_related r p p' : related p p' -> related (set_ph_srcs (ph_srcs p ++ [r]) p) (set_ph_srcs (ph_srcs p' ++ [r]) p').
Proof. intros (a & d & u & -> & Ha & Hd & Hu). exists a, d, u. split; [reflexivity|]. auto. Qed.
Lemma related_grid p p' : related p p' -> ph_grid p' = ph_grid p /\ ph_F p' = ph_F p /\ ph_t p' = ph_t p.
Proof. intros (a & d & u & -> & _). auto. Qed.
Lemma phys_exec_related c c' p p' q q' : cmd_but reordered c c' -> c <> Update -> related p p' -> phys_exec c p = Fine q -> phys_exec c' p' = Fine q' -> related q q'.
Proof.
  intros Hc Nu R0. destruct like_move as (L1 & L2 & L3 & L4). destruct Hc as [c|o o' Ho].
  - destruct c; cbn [phys_exec]; intros H H'; try contradiction;
      repeat match goal with H : ok_out _ _ = Fine _ |- _ => apply ok_out_fine in H end; repeat match goal with H : Fine _ = Fine _ |- _ => injection H as <- end; try exact R0.
    + exact (umg_related _ _ _ _ R0 H H').
    + exact (add_related _ _ _ _ _ _ (like_refl o) R0 H H').
    + now apply set_srcs_related.
    + now apply clear_related.
    + exact (blind_related _ _ _ _ _ blind_clear R0 H H').
    + exact (blind_related _ _ _ _ _ (blind_set_tfsf v tp) R0 H H').
    + apply on_obj_related; auto.
    + apply on_obj_related; auto.
    + apply on_obj_related; auto.
    + apply on_obj_related; auto.
  - cbn [phys_exec]. intros H H'. apply ok_out_fine in H. apply ok_out_fine in H'. exact (add_related _ _ _ _ _ _ Ho R0 H H').
Qed.
(** the monitors after a call other than update *)
Lemma add_monitor_mons m s s' : add_monitor m s = Fine s' -> exists m', mon_attach (ph_grid (f_ph s)) m = Ok m' /\ f_mons s' = f_mons s ++ [m'].
Proof. unfold add_monitor. intros H. apply prim_fine in H. destruct H as (m' & A & H). apply prim_fine in H. destruct H as (f & _ & H). injection H as <-. exists m'. auto. Qed.
Lemma add_object_mons o s s' : add_object o s = Fine s' -> f_mons s' = f_mons s.
Proof.
  unfold add_object. intros H. repeat (apply obind_fine in H; destruct H as (? & H & ?)). inv_fine.
  repeat match goal with H : on_ph _ _ = Fine _ |- _ => apply on_ph_fine in H; destruct H as [? [? ?]]; subst end. cbn.
  unfold register_mat in *. destruct (str_in _ _); inv_fine; reflexivity.
Qed.
Lemma exec_mons c c' s s' t t' : cmd_but reordered c c' -> c <> Update -> twin_states s t -> exec c s = Fine s' -> exec c' t = Fine t' -> f_mons s' = f_mons t'.
Proof.
  intros Hc Nu [R0 Em]. destruct (related_grid _ _ R0) as (Eg & _). destruct Hc as [c|o o' Ho].
  - destruct (output c) eqn:Oc.
    { intros H H'. assert (A := output_frame c s Oc). assert (B := output_frame c t Oc). rewrite H in A. rewrite H' in B. cbn [leaves] in A, B. destruct A as [_ ->], B as [_ ->]. exact Em. }
    destruct c; cbn [output] in Oc; try discriminate; cbn [exec]; intros H H'; try contradiction.
    + apply on_ph_fine in H. destruct H as (? & _ & ->). apply on_ph_fine in H'. destruct H' as (? & _ & ->). exact Em.
    + apply add_object_mons in H. apply add_object_mons in H'. congruence.
    + unfold add_source in *. inv_fine. exact Em.
    + apply add_monitor_mons in H. destruct H as (m1 & A & ->). apply add_monitor_mons in H'. destruct H' as (m2 & B & ->). rewrite Eg, A in B. injection B as <-. now rewrite Em.
    + unfold add_tmon in *. inv_fine. exact Em.
    + unfold remove_monitors in *. inv_fine. reflexivity.
    + unfold clear_fields in *. inv_fine. exact Em.
    + unfold clear_materials in *. apply on_ph_fine in H. destruct H as (? & _ & ->). apply on_ph_fine in H'. destruct H' as (? & _ & ->). exact Em.
    + unfold set_tfsf in *. inv_fine. exact Em.
    + unfold on_obj in *. destruct (nth_error _ i) as [o1|], (nth_error (ph_objs (f_ph t)) i) as [o2|]; repeat match goal with H : context [if ?b then _ else _] |- _ => destruct b end; inv_fine; exact Em.
    + unfold on_obj in *. destruct (nth_error _ i) as [o1|], (nth_error (ph_objs (f_ph t)) i) as [o2|]; repeat match goal with H : context [if ?b then _ else _] |- _ => destruct b end; inv_fine; exact Em.
    + unfold on_obj in *. destruct (nth_error _ i) as [o1|], (nth_error (ph_objs (f_ph t)) i) as [o2|]; repeat match goal with H : context [if ?b then _ else _] |- _ => destruct b end; inv_fine; exact Em.
    + unfold on_obj in *. destruct (nth_error _ i) as [o1|], (nth_error (ph_objs (f_ph t)) i) as [o2|]; repeat match goal with H : context [if ?b then _ else _] |- _ => destruct b end; inv_fine; exact Em.
    + unfold get_box_monitor in *. destruct R0 as (a & d & u & E & Ha & _). rewrite E in H'. cbn [repl ph_objs set_ph_objs set_ph_debye set_ph_drude] in H'.
      assert (K := upd_like (fun o => o) ltac:(auto) _ _ Ha i). destruct (nth_error (ph_objs (f_ph s)) i) as [o1|], (nth_error a i) as [o2|]; try contradiction; [|injection H as <-; injection H' as <-; exact Em].
      destruct K as (_ & K & _). destruct (like_inside _ _ K) as [_ Hb]. rewrite Hb in H'. apply prim_fine in H. destruct H as (m & A & H). rewrite A in H'. cbn [prim] in H'.
      apply add_monitor_mons in H. destruct H as (m1 & A1 & ->). apply add_monitor_mons in H'. destruct H' as (m2 & B & ->). rewrite Eg, A1 in B. injection B as <-. now rewrite Em.
  - cbn [exec]. intros H H'. apply add_object_mons in H. apply add_object_mons in H'. congruence.
Qed.
Lemma is_update (c : cmd) : c = Update \/ c <> Update.
Proof. destruct c; auto; right; discriminate. Qed.
Lemma exec_twins c c' s s' t t' : cmd_but reordered c c' -> twin_states s t -> exec c s = Fine s' -> exec c' t = Fine t' -> twin_states s' t'.
Proof.
  intros Hc [R0 Em] H H'. destruct (is_update c) as [->|Nu].
  - assert (Hc' : c' = Update) by (inversion Hc; reflexivity). subst c'. cbn [exec] in H, H'. apply update_monitors in H. destruct H as (pm & A1 & A2 & A3). apply update_monitors in H'. destruct H' as (qm & B1 & B2 & B3).
    assert (R1 := first_related _ _ _ _ R0 A1 B1). assert (R2 := second_related _ _ _ _ R1 A2 B2). split; [exact R2|].
    destruct (related_grid _ _ R1) as (G1 & G2 & G3). rewrite G1, G2, G3, <- Em, A3 in B3. now injection B3.
  - split; [|exact (exec_mons _ _ _ _ _ _ Hc Nu (conj R0 Em) H H')]. apply exec_phys in H. apply exec_phys in H'. exact (phys_exec_related _ _ _ _ _ _ Hc Nu R0 H H').
Qed.
Lemma run_twins l l' : Forall2 (cmd_but reordered) l l' -> forall s t s' t', twin_states s t -> run l s = Fine s' -> run l' t = Fine t' -> twin_states s' t'.
Proof.
  induction 1 as [|c c' l l' Hc Hl IH]; intros s t s' t' R0 H H'; cbn [run] in H, H'; [injection H as <-; injection H' as <-; exact R0|].
  apply obind_fine in H. destruct H as (s1 & A & H). apply obind_fine in H'. destruct H' as (t1 & B & H'). exact (IH _ _ _ _ (exec_twins _ _ _ _ _ _ Hc R0 A B) H H').
Qed.
Lemma fresh_twins g name (s0 : field) : mk_field g name = Ok s0 -> twin_states s0 s0.
Proof.
  intros H. split; [|reflexivity]. unfold mk_field in H. apply bind_ok in H. destruct H as (p & Hp & H).
  assert (E : f_ph s0 = p). { destruct (String.eqb name ""); [discriminate|]. apply bind_ok in H. destruct H as (? & _ & H). apply bind_ok in H. destruct H as (? & _ & H). injection H as <-. reflexivity. }
  rewrite E. clear H E. unfold mk_phys in Hp. apply bind_ok in Hp. destruct Hp as (z & _ & Hp). apply bind_ok in Hp. destruct Hp as (c & _ & Hp).
  apply bind_ok in Hp. destruct Hp as (b & _ & Hp). apply bind_ok in Hp. destruct Hp as (sc & _ & Hp). injection Hp as <-. exists [], [], []. repeat split; constructor.
Qed.
Theorem pole_order g name s0 l l' s s' : mk_field g name = Ok s0 -> Forall2 (cmd_but reordered) l l' -> run l s0 = Fine s -> run l' s0 = Fine s' ->
  ph_F (f_ph s') = ph_F (f_ph s) /\ f_mons s' = f_mons s.
Proof.
  intros H0 Hl H H'. destruct (run_twins _ _ Hl _ _ _ _ (fresh_twins _ _ _ H0) H H') as [R0 Em]. split; [apply (related_grid _ _ R0)|auto].
Qed.
