(** clear_fields() and update_material_grid() against a fresh simulation with the same objects and
    sources. *)
From Coq Require Import ZArith String List Bool Lia.
From Verif Require Import Scalar Base BaseFacts VecM GridM GeometryM MaterialM PmlM DftM TfsfM PolarM InterpM H5M ClockM
  MonitorM FieldM OutFacts PhysFacts PaintFacts WfFacts ReachFacts InvFacts SpecStep StepFacts EngineFacts PolarFacts MediumFacts
  SpecSource SourceFacts SpecGrid FullStep SafeFacts SpecCone ConeFacts SpecRestart RestartMap RestartLine.
Import ListNotations.
Local Open Scope Z_scope.

Section Restart.
Context {N : Num}.

Definition mdebye (m : material) : option debye := match m_kind m with KDebye x => Some x | _ => None end.
Definition mdrude (m : material) : option drude := match m_kind m with KDrude x => Some x | _ => None end.
Definition mlorentz (m : material) : option lorentz := match m_kind m with KLorentz x => Some x | _ => None end.
Notation odebye := (fun o => mdebye (o_mat o)).
Notation odrude := (fun o => mdrude (o_mat o)).
Notation olorentz := (fun o => mlorentz (o_mat o)).
Definition disp (o : obj) : bool := match m_kind (o_mat o) with KSimple _ => false | _ => true end.
Definition lor (o : obj) : bool := match m_kind (o_mat o) with KLorentz _ => true | _ => false end.

Definition isome {A} (o : option A) : bool := match o with Some _ => true | None => false end.
Record built (p : phys) : Prop := Built {
  bt_debye : toc (ph_debye p) = shapes odebye (ph_objs p);
  bt_drude : toc (ph_drude p) = shapes odrude (ph_objs p);
  bt_lorentz : toc (ph_lorentz p) = shapes olorentz (ph_objs p);
  bt_prev : isome (ph_prevE p) = existsb disp (ph_objs p);
  bt_prev2 : isome (ph_prev2E p) = existsb lor (ph_objs p) }.

Lemma shapes_mat {M} (sm : material -> option M) : forall O O', map o_mat O = map o_mat O' -> shapes (fun o => sm (o_mat o)) O = shapes (fun o => sm (o_mat o)) O'.
Proof.
  unfold shapes. generalize (@nil (string * M)) as S. intros S O O'. revert S O'. induction O as [|o O IH]; intros S [|o' O'] H; try discriminate; [reflexivity|].
  injection H as H1 H2. cbn [fold_left]. replace (shape1 (fun o => sm (o_mat o)) S o') with (shape1 (fun o => sm (o_mat o)) S o) by (unfold shape1, key; now rewrite H1).
  now apply IH.
Qed.
Lemma existsb_mat (f : material -> bool) : forall O O', map o_mat O = map o_mat O' -> existsb (fun o => f (o_mat o)) O = existsb (fun o => f (o_mat o)) O'.
Proof. induction O as [|o O IH]; intros [|o' O'] H; try discriminate; [reflexivity|]. injection H as H1 H2. cbn. rewrite H1. f_equal. now apply IH. Qed.

Lemma polar_toc {M} f prev (P : list (string * (M * polar))) : forall E P' E', polar_all f prev E P = Ok (P', E') -> toc P' = toc P.
Proof.
  induction P as [|[n [m q]] P IH]; intros E P' E' H; cbn [polar_all] in H; [now injection H as <- _|].
  apply bind_ok in H. destruct H as (pe & _ & H). apply bind_ok in H. destruct H as ([q1 E1] & _ & H).
  apply bind_ok in H. destruct H as ([r E2] & H2 & H). injection H as <- _. unfold toc in *. cbn [map fst snd]. f_equal. now apply (IH E1 r E2).
Qed.
Lemma reset_toc {M} (P : list (string * (M * polar))) : toc (map (fun '(n, (m, p)) => (n, (m, reset_polar p))) P) = toc P.
Proof. induction P as [|[n [m q]] P IH]; unfold toc in *; cbn; [reflexivity|]. f_equal. exact IH. Qed.

(** ** One object added, one object re-inserted *)
Lemma insert_maps o p p' : insert_material o p = Ok p' ->
  addsel np_debye debye_beta (ph_grid p) odebye (ph_debye p) o = Ok (ph_debye p') /\
  addsel np_drude drude_beta (ph_grid p) odrude (ph_drude p) o = Ok (ph_drude p') /\
  addsel np_lorentz lorentz_delta (ph_grid p) olorentz (ph_lorentz p) o = Ok (ph_lorentz p') /\
  ph_prevE p' = (if disp o then ensure (ph_prevE p) (fEz (ph_F p)) else ph_prevE p) /\
  ph_prev2E p' = (if lor o then ensure (ph_prev2E p) (fEz (ph_F p)) else ph_prev2E p).
Proof.
  unfold insert_material, addsel, mdebye, mdrude, mlorentz, disp, lor, key. destruct (m_kind (o_mat o)); intros H; inv_ok; cbn; auto 8.
Qed.
Lemma reinsert_maps o p p' : reinsert_material o p = Ok p' ->
  resel debye_beta (ph_grid p) odebye (ph_debye p) o = Ok (ph_debye p') /\
  resel drude_beta (ph_grid p) odrude (ph_drude p) o = Ok (ph_drude p') /\
  resel lorentz_delta (ph_grid p) olorentz (ph_lorentz p) o = Ok (ph_lorentz p') /\
  ph_prevE p' = ph_prevE p /\ ph_prev2E p' = ph_prev2E p.
Proof.
  unfold reinsert_material, resel, mdebye, mdrude, mlorentz, key. destruct (m_kind (o_mat o)); intros H; inv_ok; cbn; auto 8.
Qed.

Lemma add_inv o p p' : phys_add_object o p = Ok p' ->
  exists c q, paint (ph_grid p) o (ph_C p) = Ok c /\ insert_material o (set_ph_C c p) = Ok q /\ p' = set_ph_objs (ph_objs q ++ [o]) q.
Proof.
  unfold phys_add_object, paint_phys. intros H. apply bind_ok in H. destruct H as (p0 & Hr & H). apply bind_ok in Hr. destruct Hr as (c & Hr & K). injection K as <-.
  apply bind_ok in H. destruct H as (q & Hq & H). injection H as <-. exists c, q. repeat split; assumption.
Qed.
Definition paints (g : grid) : coefs -> obj -> res coefs := fun c o => paint g o c.
Lemma repaint_maps O : forall p p', foldM repaint_one p O = Ok p' ->
  foldM (paints (ph_grid p)) (ph_C p) O = Ok (ph_C p') /\
  foldM (resel debye_beta (ph_grid p) odebye) (ph_debye p) O = Ok (ph_debye p') /\
  foldM (resel drude_beta (ph_grid p) odrude) (ph_drude p) O = Ok (ph_drude p') /\
  foldM (resel lorentz_delta (ph_grid p) olorentz) (ph_lorentz p) O = Ok (ph_lorentz p') /\
  ph_prevE p' = ph_prevE p /\ ph_prev2E p' = ph_prev2E p.
Proof.
  induction O as [|o O IH]; intros p p' H; cbn [foldM] in *; [injection H as <-; auto 8|].
  apply bind_ok in H. destruct H as (p1 & H1 & H). unfold repaint_one, paint_phys in H1. apply bind_ok in H1. destruct H1 as (p0 & Hr & H1).
  apply bind_ok in Hr. destruct Hr as (c0 & Hr & K). injection K as <-.
  assert (F := reinsert_material_frame _ _ _ H1). apply reinsert_maps in H1. cbn in F, H1. destruct F as (F1 & F2 & _).
  destruct H1 as (A1 & A2 & A3 & A4 & A5). destruct (IH _ _ H) as (B1 & B2 & B3 & B4 & B5 & B6). rewrite F1 in *. rewrite F2 in B1.
  unfold paints at 1. rewrite Hr, A1, A2, A3. cbn [bind]. repeat split; congruence.
Qed.
Lemma adds_maps O : forall p p', phys_run (map AddObject O) p = Fine p' ->
  foldM (paints (ph_grid p)) (ph_C p) O = Ok (ph_C p') /\
  foldM (addsel np_debye debye_beta (ph_grid p) odebye) (ph_debye p) O = Ok (ph_debye p') /\
  foldM (addsel np_drude drude_beta (ph_grid p) odrude) (ph_drude p) O = Ok (ph_drude p') /\
  foldM (addsel np_lorentz lorentz_delta (ph_grid p) olorentz) (ph_lorentz p) O = Ok (ph_lorentz p') /\
  (ph_grid p' = ph_grid p /\ ph_F p' = ph_F p /\ ph_pml p' = ph_pml p /\ ph_sc p' = ph_sc p /\ ph_t p' = ph_t p /\
   ph_tfsf p' = ph_tfsf p /\ ph_srcs p' = ph_srcs p /\ ph_objs p' = ph_objs p ++ O) /\
  (forall e, ph_prevE p' = Some e -> ph_prevE p = Some e \/ e = fEz (ph_F p)).
Proof.
  induction O as [|o O IH]; intros p p' H; cbn [map phys_run foldM] in *; [injection H as <-; rewrite app_nil_r; repeat split; auto|].
  apply obind_fine in H. destruct H as (p1 & H1 & H). cbn [phys_exec] in H1. apply ok_out_fine in H1. apply add_inv in H1. destruct H1 as (c0 & p0 & Hr & Hr0 & ->).
  assert (F := insert_material_frame _ _ _ Hr0). apply insert_maps in Hr0. cbn in F, Hr0. destruct F as (F1 & F2 & F3 & F4 & F5 & F6 & F7 & F8 & F9 & F10 & F11).
  destruct Hr0 as (A1 & A2 & A3 & A4 & A5). destruct (IH _ _ H) as (B1 & B2 & B3 & B4 & (C1 & C2 & C3 & C4 & C5 & C6 & C7 & C8) & B6). cbn in *. rewrite F1 in *. rewrite F2 in B1.
  unfold paints at 1. rewrite Hr, A1, A2, A3. cbn [bind]. repeat split; try congruence.
  - rewrite C8, F3, <- app_assoc. reflexivity.
  - intros e He. destruct (B6 e He) as [K|K]; [|rewrite F7 in K; auto]. rewrite A4 in K. destruct (disp o); [|auto].
    unfold ensure in K. destruct (ph_prevE p); [auto|]. injection K as <-. auto.
Qed.

Lemma paints_alike g O : forall c d c' d', (forall i j, 0 <= i < g_Nx g -> 0 <= j < g_Ny g -> gcell c i j = gcell d i j) ->
  foldM (paints g) c O = Ok c' -> foldM (paints g) d O = Ok d' -> forall i j, 0 <= i < g_Nx g -> 0 <= j < g_Ny g -> gcell c' i j = gcell d' i j.
Proof.
  induction O as [|o O IH]; intros c d c' d' H Hc Hd; cbn [foldM] in *; [injection Hc as <-; injection Hd as <-; exact H|].
  apply bind_ok in Hc. destruct Hc as (c1 & C1 & Hc). apply bind_ok in Hd. destruct Hd as (d1 & D1 & Hd).
  apply (IH c1 d1); try assumption. intros i j Hi Hj. unfold paints in C1, D1. apply paint_post in C1, D1.
  destruct C1 as (_ & ib & E1 & C1), D1 as (_ & ib' & E2 & D1). rewrite E1 in E2. injection E2 as <-.
  destruct (C1 i j) as [K1 K2], (D1 i j) as [L1 L2].
  assert (Dec : in_ibox (iv_a (iclip g ib)) (iv_b (iclip g ib)) (i, j) \/ ~ in_ibox (iv_a (iclip g ib)) (iv_b (iclip g ib)) (i, j)).
  { unfold in_ibox. cbn [fst snd]. lia. }
  destruct Dec as [I|I]; [rewrite K1, L1 by exact I; destruct (obj_inside _ _); [reflexivity|now apply H]|rewrite K2, L2 by exact I; now apply H].
Qed.

(** ** The maps follow the objects in every run *)
Lemma isome_saved {A} (o : option A) v : isome (saved o v) = isome o. Proof. destruct o; reflexivity. Qed.
Lemma isome_shifted {A} (o v : option A) : (o <> None -> v <> None) -> isome (shifted o v) = isome o.
Proof. destruct o, v; cbn; try reflexivity. intros H. exfalso. now apply H. Qed.
Lemma isome_ensure o E : isome (ensure o E) = true. Proof. destruct o; reflexivity. Qed.

Lemma existsb_snoc {A} (f : A -> bool) l x : existsb f (l ++ [x]) = existsb f l || f x.
Proof. rewrite existsb_app. cbn. now rewrite orb_false_r. Qed.

Lemma exec_built c p p' : apart (ph_grid p) -> wf_phys p -> built p -> phys_exec c p = Fine p' -> built p'.
Proof.
  intros Ha Hw B H. assert (B' := B). destruct B' as [B1 B2 B3 B4 B5].
  assert (Obj : forall i h, (forall o, o_mat (h o) = o_mat o) -> built (phys_on_obj i h p)).
  { intros i h Hh. unfold phys_on_obj. destruct (nth_error (ph_objs p) i) as [o|] eqn:E; [|exact B]. destruct (o_dyn o); [|exact B].
    assert (K : map o_mat (upd_nth i (h o) (ph_objs p)) = map o_mat (ph_objs p)) by (eapply upd_nth_map; [exact E|apply Hh]).
    constructor; cbn [set_ph_objs ph_debye ph_drude ph_lorentz ph_prevE ph_prev2E ph_objs].
    - now rewrite (shapes_mat mdebye _ _ K). - now rewrite (shapes_mat mdrude _ _ K). - now rewrite (shapes_mat mlorentz _ _ K).
    - rewrite B4. symmetry. apply (existsb_mat (fun m => match m_kind m with KSimple _ => false | _ => true end)). exact K.
    - rewrite B5. symmetry. apply (existsb_mat (fun m => match m_kind m with KLorentz _ => true | _ => false end)). exact K. }
  destruct c; cbn [phys_exec] in H; try (injection H as <-; exact B); try (injection H as <-; now apply Obj).
  - destruct (full_step p p' Ha Hw H) as (E0 & E1 & E2 & E3 & Ls & u & h & []). apply static_eq in cw_static. destruct cw_static as (_ & _ & Eo & _).
    apply polar_toc in cw_debye, cw_drude, cw_lorentz. destruct cw_prev as [P1 P2].
    constructor; rewrite Eo.
    + congruence. + congruence. + congruence.
    + rewrite P1, isome_saved. exact B4.
    + rewrite P2, isome_shifted; [exact B5|exact (wf_prev2_prev p Hw)].
  - apply ok_out_fine in H. unfold update_material_grid in H. inv_ok. assert (F := repaint_frame _ _ _ H). apply repaint_maps in H. cbn in F, H.
    destruct F as (_ & F & _). destruct H as (_ & H1 & H2 & H3 & H4 & H5).
    assert (T : forall M (vals : M -> T -> list T) sel O P P', foldM (resel vals (ph_grid p) sel) P O = Ok P' -> toc P' = toc P).
    { intros M vals sel O. induction O as [|o O IH]; intros P P' K; cbn [foldM] in K; [now injection K as <-|].
      apply bind_ok in K. destruct K as (P1 & K1 & K). apply toc_re in K1. rewrite (IH _ _ K). exact K1. }
    constructor; rewrite F.
    + rewrite (T _ _ _ _ _ _ H1). exact B1. + rewrite (T _ _ _ _ _ _ H2). exact B2. + rewrite (T _ _ _ _ _ _ H3). exact B3.
    + now rewrite H4. + now rewrite H5.
  - apply ok_out_fine in H. apply add_inv in H. destruct H as (c0 & p0 & Hr & Hr0 & ->). assert (F := insert_material_frame _ _ _ Hr0). apply insert_maps in Hr0. cbn in F, Hr0.
    destruct F as (_ & _ & F & _). destruct Hr0 as (A1 & A2 & A3 & A4 & A5). apply toc_add in A1, A2, A3.
    constructor; cbn [set_ph_objs ph_debye ph_drude ph_lorentz ph_prevE ph_prev2E ph_objs]; rewrite F.
    + rewrite shapes_snoc, <- B1. exact A1. + rewrite shapes_snoc, <- B2. exact A2. + rewrite shapes_snoc, <- B3. exact A3.
    + rewrite existsb_snoc, A4, <- B4. destruct (disp o); [now rewrite isome_ensure, orb_true_r|now rewrite orb_false_r].
    + rewrite existsb_snoc, A5, <- B5. destruct (lor o); [now rewrite isome_ensure, orb_true_r|now rewrite orb_false_r].
  - injection H as <-. constructor; assumption.
  - injection H as <-. constructor; [exact (eq_trans (reset_toc _) B1)|exact (eq_trans (reset_toc _) B2)|exact (eq_trans (reset_toc _) B3)|exact B4|exact B5].
  - apply ok_out_fine in H. unfold phys_clear_materials in H. inv_ok. constructor; assumption.
  - apply ok_out_fine in H. unfold phys_set_tfsf in H. inv_ok. constructor; assumption.
Qed.

Lemma run_built g l : forall s s', apart g -> reachable g s -> built (f_ph s) -> run l s = Fine s' -> built (f_ph s').
Proof.
  induction l as [|c l IH]; intros s s' Ha Hr B H; cbn [run] in H; [injection H as <-; exact B|].
  apply obind_fine in H. destruct H as (s1 & H1 & H). destruct (reachable_good g s (apart_roomy _ Ha) Hr) as [W G].
  apply (IH s1); auto.
  - apply (run_reachable g s [c]); [exact Hr|]. cbn [run]. rewrite H1. reflexivity.
  - apply exec_phys in H1. apply (exec_built c (f_ph s)); auto. now rewrite G.
Qed.
Lemma fresh_built g name s0 : mk_field g name = Ok s0 -> built (f_ph s0).
Proof.
  unfold mk_field. intros H. inv_ok. destruct (String.eqb name ""); [discriminate|]. inv_ok. unfold mk_phys in Hr. inv_ok.
  constructor; reflexivity.
Qed.

(** ** Blank polarizations *)
Definition stepped (g : grid) (_ : string) (q : polar) : Prop := pl_dx q = g_dx g /\ pl_dt q = g_dt g.
Lemma reachable_stepped g s : reachable g s -> maps_ok g (fun n (_ : debye) q => stepped g n q) (fun n (_ : drude) q => stepped g n q) (fun n (_ : lorentz) q => stepped g n q) (f_ph s).
Proof.
  intros H. apply maps_reachable; try exact H; unfold stepped.
  1-3: intros nm x q pe E q' E' Hq K; unfold debye_update, drude_update, lorentz_update in K;
    apply bind_ok in K; destruct K as (z & _ & K); repeat (destruct z as [z ?]); injection K as <- _; exact Hq.
  1-3: intros nm x o q q' Hq K; unfold insert_polar in K; inv_ok; exact Hq.
  1-3: intros nm x q K; unfold mk_polar in K; inv_ok; split; reflexivity.
  1-3: intros nm x q Hq; exact Hq.
Qed.
Lemma reset_blank g np q : 0 <= g_Nx g -> 0 <= g_Ny g -> polar_dims (g_Nx g) (g_Ny g) np q -> pl_dx q = g_dx g -> pl_dt q = g_dt g -> mk_polar g np = Ok (reset_polar q).
Proof.
  intros H1 H2 (Q1 & Q2 & Q3 & (J1 & J2 & J3) & (C1 & C2 & C3) & (P1 & P2 & P3)) Dx Dt. unfold mk_polar, t3const.
  replace (0 <=? g_Nx g) with true by lia. replace (0 <=? g_Ny g) with true by lia. replace (0 <=? Z.of_nat np) with true by lia. cbn [andb bind].
  unfold reset_polar, t3zero. rewrite J1, J2, J3, C1, C2, C3, P1, P2, P3, Q1, Q2, Q3, Dx, Dt. reflexivity.
Qed.

(** ** The two initial states agree *)
Lemma src_cells_det g k L L' : src_cells g k L -> src_cells g k L' -> L = L'.
Proof.
  destruct k as [q|s]; cbn.
  - intros (c & E & ->) (c' & E' & ->). rewrite E in E'. now injection E' as <-.
  - intros (a & b & Ea & Eb & ->) (a' & b' & Ea' & Eb' & ->). rewrite Ea in Ea'. rewrite Eb in Eb'. injection Ea' as <-. injection Eb' as <-. reflexivity.
Qed.
Lemma same_drive_refl g S i j : same_drive g S S i j.
Proof.
  intros Ls Ls' F F' t c x. replace Ls' with Ls; [reflexivity|]. revert Ls' F'. induction F as [|r L S Ls K F IH]; intros Ls' F'; inversion F' as [|? L' ? Ls1 K' F1]; subst; [reflexivity|].
  f_equal; [now apply (src_cells_det g (sr_kind r))|now apply IH].
Qed.
Lemma alike_all_eq {M} i j (P : list (string * (M * polar))) : alike_all i j i j P P.
Proof. induction P; constructor; [|assumption]. split; [reflexivity|]. split; [reflexivity|]. repeat split. Qed.

(** update() does not look at the copy of Ez before last *)
Lemma forget a b p p' : (forall p0, ph_prevE p0 = ph_prevE p -> ph_prev2E p0 = ph_prev2E p -> step_prev (set_ph_prev2E b (set_ph_prevE a p0)) = step_prev p0) ->
  phys_step p = Fine p' -> phys_step (set_ph_prev2E b (set_ph_prevE a p)) = Fine p'.
Proof.
  intros Hs. unfold phys_step, step_clock. cbn [set_ph_prevE set_ph_prev2E ph_step ph_t ph_grid].
  destruct (i32 (ph_step p + 1)) as [k|e|e]; cbn [bind prim]; try discriminate.
  match goal with |- prim _ (step_E (step_prev ?x)) _ = _ -> prim _ (step_E (step_prev ?y)) _ = _ =>
    change y with (set_ph_prev2E b (set_ph_prevE a x)); rewrite (Hs x eq_refl eq_refl); destruct (step_E (step_prev x)) end; cbn [prim]; try discriminate.
  exact (fun H => H).
Qed.

Lemma srcs_run R : forall p, phys_run (map AddSource R) p = Fine (set_ph_srcs (ph_srcs p ++ R) p).
Proof.
  induction R as [|r R IH]; intros p; cbn [map phys_run]; [rewrite app_nil_r; destruct p; reflexivity|].
  cbn [phys_exec obind]. rewrite IH. cbn. rewrite <- app_assoc. reflexivity.
Qed.

Lemma reset_in {M} g (np : M -> nat) (P : list (string * (M * polar))) : 0 <= g_Nx g -> 0 <= g_Ny g -> pmap_dims (g_Nx g) (g_Ny g) np P ->
  all_entries (fun n (_ : M) q => stepped g n q) P ->
  forall n m q, In (n, (m, q)) (map (fun '(n, (m, p)) => (n, (m, reset_polar p))) P) -> mk_polar g (np m) = Ok q.
Proof.
  intros H1 H2 Hd Hs n m q Hin. apply in_map_iff in Hin. destruct Hin as ([n' [m' q']] & E & Hin). injection E as <- <- <-.
  destruct (Hs _ _ _ Hin) as [K1 K2]. apply reset_blank; try assumption. exact (proj1 (Forall_forall _ _) Hd _ Hin).
Qed.

(** ** The restarted simulation and the fresh one *)
Lemma fresh_facts g name s0 : mk_field g name = Ok s0 ->
  (ph_grid (f_ph s0) = g /\ ph_t (f_ph s0) = 0%num /\ ph_tfsf (f_ph s0) = None /\ ph_objs (f_ph s0) = [] /\ ph_srcs (f_ph s0) = []) /\
  (blank (fEz (ph_F (f_ph s0))) /\ blank (fHx (ph_F (f_ph s0))) /\ blank (fHy (ph_F (f_ph s0)))) /\
  (forall i j, 0 <= i < g_Nx g -> 0 <= j < g_Ny g -> gcell (ph_C (f_ph s0)) i j = gmat_cell vacuum (g_dt g)) /\
  blank_memory (p_psi (ph_pml (f_ph s0))) /\
  (ph_debye (f_ph s0) = [] /\ ph_drude (f_ph s0) = [] /\ ph_lorentz (f_ph s0) = [] /\ ph_prevE (f_ph s0) = None).
Proof.
  unfold mk_field. intros E0. apply bind_ok in E0. destruct E0 as (p0 & E0 & K). destruct (String.eqb name ""); [discriminate|].
  apply bind_ok in K. destruct K as (f1 & _ & K). apply bind_ok in K. destruct K as (f2 & _ & K). injection K as <-. cbn [f_ph].
  unfold mk_phys in E0. apply bind_ok in E0. destruct E0 as (z & Ez & E0). apply bind_ok in E0. destruct E0 as (c0 & Ec0 & E0).
  apply bind_ok in E0. destruct E0 as (b & Eb & E0). apply bind_ok in E0. destruct E0 as (sc0 & Esc0 & E0). injection E0 as <-.
  assert (Tc : forall n m t, tconst n m 0%num = Ok t -> blank t).
  { intros n m t H. unfold tconst in H. destruct ((0 <=? n) && (0 <=? m)); [injection H as <-|discriminate]. intros i j. reflexivity. }
  split; [repeat split|]. split; [pose proof (Tc _ _ _ Ez); repeat split; assumption|]. split; [exact (proj1 (clear_coefs_post _ _ _ _ Ec0))|].
  split; [|repeat split].
  cbn [ph_pml]. unfold mk_pml in Eb. apply bind_ok in Eb. destruct Eb as (cc & _ & Eb). apply bind_ok in Eb. destruct Eb as (ss & Es & Eb). injection Eb as <-.
  unfold mk_pml_psi in Es. apply bind_ok in Es. destruct Es as (z1 & Z1 & Es). apply bind_ok in Es. destruct Es as (z2 & Z2 & Es). injection Es as <-. cbn [p_psi].
  apply Tc in Z1, Z2. unfold blank_memory. cbn [Ezx1 Ezx2 Ezy1 Ezy2 Hxy1 Hxy2 Hyx1 Hyx2]. auto 12.
Qed.

Definition wiped {M} (P : list (string * (M * polar))) := map (fun '(n, (m, p)) => (n, (m, reset_polar p))) P.
Lemma clear_facts p p1 : update_material_grid (clear_fields_phys p) = Ok p1 ->
  (ph_grid p1 = ph_grid p /\ ph_t p1 = 0%num /\ ph_tfsf p1 = option_map tfsf_reset (ph_tfsf p) /\ ph_objs p1 = ph_objs p /\ ph_srcs p1 = ph_srcs p /\ ph_pml p1 = ph_pml p /\ ph_step p1 = 0) /\
  (blank (fEz (ph_F p1)) /\ blank (fHx (ph_F p1)) /\ blank (fHy (ph_F p1))) /\
  (exists c, foldM (paints (ph_grid p)) c (ph_objs p) = Ok (ph_C p1) /\
     forall i j, 0 <= i < g_Nx (ph_grid p) -> 0 <= j < g_Ny (ph_grid p) -> gcell c i j = gmat_cell (ph_bg p) (g_dt (ph_grid p))) /\
  (foldM (resel debye_beta (ph_grid p) odebye) (wiped (ph_debye p)) (ph_objs p) = Ok (ph_debye p1) /\
   foldM (resel drude_beta (ph_grid p) odrude) (wiped (ph_drude p)) (ph_objs p) = Ok (ph_drude p1) /\
   foldM (resel lorentz_delta (ph_grid p) olorentz) (wiped (ph_lorentz p)) (ph_objs p) = Ok (ph_lorentz p1)) /\
  ph_prevE p1 = ph_prevE p /\ ph_prev2E p1 = ph_prev2E p.
Proof.
  unfold update_material_grid. intros H1. apply bind_ok in H1. destruct H1 as (c & Hc & H1).
  assert (Fr := repaint_frame _ _ _ H1). apply repaint_maps in H1. apply clear_coefs_post in Hc. destruct Hc as [Hc _].
  destruct H1 as (M1 & M2 & M3 & M4 & M5 & M6). destruct Fr as (F1 & F2 & F3 & F4 & F5 & F6 & F7 & F8 & F9 & F10).
  split; [repeat split; assumption|]. split; [rewrite F4; repeat split; intros i j; reflexivity|].
  split; [exists c; split; [exact M1|exact Hc]|]. split; [repeat split; assumption|]. split; assumption.
Qed.

Lemma run_cons c l p p1 : phys_run (c :: l) p = Fine p1 -> exists q, phys_exec c p = Fine q /\ phys_run l q = Fine p1.
Proof. intros H. cbn [phys_run] in H. now apply obind_fine in H. Qed.
Lemma exec_clear p q : phys_exec ClearFields p = Fine q -> q = clear_fields_phys p.
Proof. intros H. injection H as H. now symmetry. Qed.
Lemma exec_regrid p q : phys_exec UpdateMaterialGrid p = Fine q -> update_material_grid p = Ok q.
Proof. intros H. cbn [phys_exec] in H. now apply ok_out_fine in H. Qed.
Lemma run_nil (p q : phys) : phys_run [] p = Fine q -> p = q.
Proof. intros H. now injection H as H. Qed.
Lemma clear_run p p1 : phys_run [ClearFields; UpdateMaterialGrid] p = Fine p1 -> update_material_grid (clear_fields_phys p) = Ok p1.
Proof.
  intros H. apply run_cons in H. destruct H as (p2 & H2 & H). apply exec_clear in H2. rewrite <- H2.
  apply run_cons in H. destruct H as (p3 & H3 & H). apply run_nil in H. apply exec_regrid in H3. rewrite <- H. exact H3.
Qed.
Lemma restart_cells g name s0 l s s1 sf Sr : apart g -> mk_field g name = Ok s0 -> run l s0 = Fine s ->
  run [ClearFields; UpdateMaterialGrid] s = Fine s1 ->
  run (map AddObject (ph_objs (f_ph s)) ++ map AddSource Sr) s0 = Fine sf ->
  blank_memory (p_psi (ph_pml (f_ph s))) ->
  (forall i j, 0 <= i < g_Nx g -> 0 <= j < g_Ny g ->
    agree_field (f_ph s1) (f_ph sf) i j /\ agree_coefs (f_ph s1) (f_ph sf) i j /\ agree_memory (f_ph s1) (f_ph sf) i j) /\
  ph_debye (f_ph s1) = ph_debye (f_ph sf) /\ ph_drude (f_ph s1) = ph_drude (f_ph sf) /\ ph_lorentz (f_ph s1) = ph_lorentz (f_ph sf) /\
  (ph_prevE (f_ph s1) = ph_prevE (f_ph s) /\ ph_prev2E (f_ph s1) = ph_prev2E (f_ph s)) /\
  (ph_srcs (f_ph s1) = ph_srcs (f_ph s) /\ ph_srcs (f_ph sf) = Sr) /\ ph_t (f_ph s1) = ph_t (f_ph sf) /\
  ph_objs (f_ph s1) = ph_objs (f_ph sf) /\ ph_tfsf (f_ph sf) = None /\ ph_tfsf (f_ph s1) = option_map tfsf_reset (ph_tfsf (f_ph s)) /\
  (forall e, ph_prevE (f_ph sf) = Some e -> blank e).
Proof.
  intros Ha H0 Hl H1 Hf Hb. assert (R0 : reachable g s0) by (exists name, s0, []; split; [exact H0|reflexivity]).
  assert (R : reachable g s) by (exact (SafeFacts.run_reachable g s0 l s R0 Hl)).
  destruct (reachable_good g s (apart_roomy _ Ha) R) as [W G]. assert (B := run_built g l s0 s Ha R0 (fresh_built g name s0 H0) Hl).
  destruct (reachable_engine g s R) as (co & sc & Eco & Esc & En). unfold engine in En. injection En as En1 En2 En3 En4 En5. clear En3 En4 En5 Eco Esc co sc.
  destruct (reachable_stepped g s R) as (_ & St1 & St2 & St3).
  assert (Nn : 0 <= g_Nx g /\ 0 <= g_Ny g) by (destruct Ha as [? ?]; lia). destruct Nn as [N1 N2].
  destruct (fresh_facts g name s0 H0) as ((X1 & X2 & X3 & X4 & X5) & (Y1 & Y2 & Y3) & Yc & Ym & (Yd & Yr & Yl & Yp)).
  apply run_phys in H1, Hf. apply clear_run in H1. apply clear_facts in H1. rewrite G in H1.
  destruct H1 as ((F1 & F2 & F3 & F4 & F5 & F6 & _) & (Z1 & Z2 & Z3) & (c & Mc & Hc) & (M2 & M3 & M4) & M5 & M6).
  rewrite phys_run_app in Hf. apply obind_fine in Hf. destruct Hf as (pa & Hpa & Hf). rewrite srcs_run in Hf. injection Hf as Hf.
  assert (Sf : ph_C (f_ph sf) = ph_C pa /\ ph_F (f_ph sf) = ph_F pa /\ ph_pml (f_ph sf) = ph_pml pa /\ ph_debye (f_ph sf) = ph_debye pa /\ ph_drude (f_ph sf) = ph_drude pa /\
    ph_lorentz (f_ph sf) = ph_lorentz pa /\ ph_srcs (f_ph sf) = ph_srcs pa ++ Sr /\ ph_t (f_ph sf) = ph_t pa /\ ph_objs (f_ph sf) = ph_objs pa /\ ph_tfsf (f_ph sf) = ph_tfsf pa /\ ph_prevE (f_ph sf) = ph_prevE pa).
  { rewrite <- Hf. repeat split. }
  clear Hf. destruct Sf as (S1 & S2 & S3 & S4 & S5 & S6 & S7 & S8 & S9 & S10 & S11).
  apply adds_maps in Hpa. rewrite X1, Yd, Yr, Yl, X4, X5 in Hpa.
  destruct Hpa as (L1 & L2 & L3 & L4 & (G1 & G2 & G3 & G4 & G5 & G6 & G7 & G8) & L6).
  split; [|split; [|split; [|split; [|split; [|split; [|split; [|split; [|split; [|split]]]]]]]]].
  - intros i j Hi Hj. split; [|split].
    + unfold agree_field. rewrite S2, G2, Y1, Y2, Y3, Z1, Z2, Z3. repeat split.
    + assert (K := paints_alike g _ c _ _ _ ltac:(intros a d Ka Kd; rewrite (Hc a d Ka Kd), (Yc a d Ka Kd), En2; reflexivity) Mc L1 i j Hi Hj).
      unfold gcell in K. injection K as K1 K2 K3 K4. unfold agree_coefs. rewrite S1. auto.
    + destruct Hb as ((P1 & P2 & P3 & P4) & P5 & P6 & P7 & P8), Ym as ((Q1 & Q2 & Q3 & Q4) & Q5 & Q6 & Q7 & Q8).
      unfold agree_memory. rewrite S3, F6, G3, P1, P2, P3, P4, P5, P6, P7, P8, Q1, Q2, Q3, Q4, Q5, Q6, Q7, Q8. repeat split.
  - rewrite S4. exact (rebuild np_debye debye_beta g odebye (ph_objs (f_ph s)) _ _ _ (reset_in g np_debye _ N1 N2 ltac:(rewrite <- G; exact (wf_debye _ W)) St1) (eq_trans (reset_toc _) (bt_debye _ B)) M2 L2).
  - rewrite S5. exact (rebuild np_drude drude_beta g odrude (ph_objs (f_ph s)) _ _ _ (reset_in g np_drude _ N1 N2 ltac:(rewrite <- G; exact (wf_drude _ W)) St2) (eq_trans (reset_toc _) (bt_drude _ B)) M3 L3).
  - rewrite S6. exact (rebuild np_lorentz lorentz_delta g olorentz (ph_objs (f_ph s)) _ _ _ (reset_in g np_lorentz _ N1 N2 ltac:(rewrite <- G; exact (wf_lorentz _ W)) St3) (eq_trans (reset_toc _) (bt_lorentz _ B)) M4 L4).
  - split; assumption. - split; [exact F5|]. rewrite S7, G7. reflexivity. - rewrite F2, S8, G5, X2. reflexivity. - rewrite F4, S9, G8. reflexivity.
  - rewrite S10, G6. exact X3. - exact F3.
  - intros e He. rewrite S11 in He. destruct (L6 e He) as [K|K]; [congruence|]. rewrite K. exact Y1.
Qed.

Lemma restart_wave g name s0 l s s1 sf Sr R : apart g -> mk_field g name = Ok s0 -> run l s0 = Fine s ->
  run [ClearFields; UpdateMaterialGrid] s = Fine s1 -> same_tfsf (ph_tfsf (f_ph s)) R ->
  run ((map AddObject (ph_objs (f_ph s)) ++ map AddSource Sr) ++ R) s0 = Fine sf ->
  exists sa, run (map AddObject (ph_objs (f_ph s)) ++ map AddSource Sr) s0 = Fine sa /\ f_ph sf = set_ph_tfsf (ph_tfsf (f_ph sf)) (f_ph sa) /\
    (ph_tfsf (f_ph sa) = None -> ph_tfsf (f_ph s1) = option_map tfsf_reset (ph_tfsf (f_ph s)) ->
     option_map bare_wave (ph_tfsf (f_ph s1)) = option_map bare_wave (ph_tfsf (f_ph sf))).
Proof.
  intros Ha H0 Hl H1 Hs Hf. rewrite run_app in Hf. apply obind_fine in Hf. destruct Hf as (sa & Ea & Hf). exists sa. split; [exact Ea|].
  assert (R0 : reachable g s0) by (exists name, s0, []; split; [exact H0|reflexivity]).
  assert (R1 : reachable g s) by (exact (SafeFacts.run_reachable g s0 l s R0 Hl)). assert (Ra : reachable g sa) by (exact (SafeFacts.run_reachable g s0 _ sa R0 Ea)).
  assert (Fd := run_fed g l s0 s Ha R0 (fresh_fed g name s0 H0) Hl).
  destruct (reachable_good g s (apart_roomy _ Ha) R1) as [_ G]. destruct (reachable_good g sa (apart_roomy _ Ha) Ra) as [_ Ga].
  unfold same_tfsf in Hs. destruct (ph_tfsf (f_ph s)) as [q|] eqn:Eq.
  - destruct Hs as (tp & -> & St). apply run_phys in Hf. apply run_cons in Hf. destruct Hf as (p & Hp & Hf). apply run_nil in Hf. subst p.
    cbn [phys_exec] in Hp. apply ok_out_fine in Hp. unfold phys_set_tfsf in Hp. apply bind_ok in Hp. destruct Hp as (q1 & Hq1 & Hp). injection Hp as Hp. rewrite Ga in Hq1.
    destruct (Fd q Eq) as (tp0 & q0 & Y1 & Y2 & Y3). rewrite G in Y1. assert (Y4 := mk_tfsf_bare g tp0 tp _ _ _ _ Y1 Hq1 ltac:(congruence)).
    rewrite <- Hp. cbn [set_ph_tfsf ph_tfsf]. split; [reflexivity|]. intros _ ->. cbn [option_map]. now rewrite Y3, Y4.
  - subst R. injection Hf as <-. split; [destruct (f_ph sa); reflexivity|]. intros -> ->. reflexivity.
Qed.

Lemma restart n g name s0 l s s1 sf s1' sf' Sr Rt i j : apart g -> mk_field g name = Ok s0 -> run l s0 = Fine s -> nothing_left (f_ph s) -> map src_core Sr = map src_core (ph_srcs (f_ph s)) ->
  run [ClearFields; UpdateMaterialGrid] s = Fine s1 ->
  same_tfsf (ph_tfsf (f_ph s)) Rt -> run ((map AddObject (ph_objs (f_ph s)) ++ map AddSource Sr) ++ Rt) s0 = Fine sf ->
  run (repeat Update n) s1 = Fine s1' -> run (repeat Update n) sf = Fine sf' -> 0 <= i < g_Nx g -> 0 <= j < g_Ny g ->
  agree_field (f_ph s1') (f_ph sf') i j.
Proof.
  intros Ha H0 Hl [Hb Hp] Hsr H1 Hs Hf U1 Uf Hi Hj.
  destruct (restart_wave g name s0 l s s1 sf Sr Rt Ha H0 Hl H1 Hs Hf) as (sa & Hsa & Esa & Hwave).
  destruct (restart_cells g name s0 l s s1 sa Sr Ha H0 Hl H1 Hsa Hb) as (A & D1 & D2 & D3 & (P1 & P2) & (Sr1 & Sr2) & Tm & O & X1 & X2 & Bl).
  specialize (Hwave X1 X2). clear X1 X2.
  assert (A' : forall i j, 0 <= i < g_Nx g -> 0 <= j < g_Ny g -> agree_field (f_ph s1) (f_ph sf) i j /\ agree_coefs (f_ph s1) (f_ph sf) i j /\ agree_memory (f_ph s1) (f_ph sf) i j)
    by (rewrite Esa; exact A).
  assert (Fs : ph_debye (f_ph sf) = ph_debye (f_ph sa) /\ ph_drude (f_ph sf) = ph_drude (f_ph sa) /\ ph_lorentz (f_ph sf) = ph_lorentz (f_ph sa) /\ ph_srcs (f_ph sf) = ph_srcs (f_ph sa) /\
    ph_t (f_ph sf) = ph_t (f_ph sa) /\ ph_objs (f_ph sf) = ph_objs (f_ph sa) /\ ph_prevE (f_ph sf) = ph_prevE (f_ph sa)) by (rewrite Esa; repeat split).
  destruct Fs as (Fs1 & Fs2 & Fs3 & Fs4 & Fs5 & Fs6 & Fs7). rewrite <- Fs1 in D1. rewrite <- Fs2 in D2. rewrite <- Fs3 in D3. rewrite <- Fs4 in Sr2. rewrite <- Fs5 in Tm. rewrite <- Fs6 in O. rewrite <- Fs7 in Bl.
  clear A Fs1 Fs2 Fs3 Fs4 Fs5 Fs6 Fs7 Esa Hsa. rename A' into A.
  destruct n as [|n]; [injection U1 as <-; injection Uf as <-; exact (proj1 (A i j Hi Hj))|].
  assert (R0 : reachable g s0) by (exists name, s0, []; split; [exact H0|reflexivity]).
  assert (R : reachable g s) by (exact (SafeFacts.run_reachable g s0 l s R0 Hl)).
  assert (R1 : reachable g s1) by (exact (SafeFacts.run_reachable g s _ s1 R H1)).
  assert (Rf : reachable g sf) by (exact (SafeFacts.run_reachable g s0 _ sf R0 Hf)).
  assert (B1 := run_built g _ s s1 Ha R (run_built g l s0 s Ha R0 (fresh_built g name s0 H0) Hl) H1).
  assert (Bf := run_built g _ s0 sf Ha R0 (fresh_built g name s0 H0) Hf).
  destruct (reachable_good g s1 (apart_roomy _ Ha) R1) as [W1 G1]. destruct (reachable_good g sf (apart_roomy _ Ha) Rf) as [Wf Gf].
  destruct (reachable_engine g s1 R1) as (co & sc & Eco & Esc & En). destruct (reachable_engine g sf Rf) as (co' & sc' & Eco' & Esc' & En').
  rewrite Eco in Eco'. injection Eco' as <-. rewrite Esc in Esc'. injection Esc' as <-.
  unfold engine in En, En'. injection En as _ _ _ En1 En2. injection En' as _ _ _ Ef1 Ef2.
  assert (I1 : isome (ph_prevE (f_ph s1)) = isome (ph_prevE (f_ph sf))) by (rewrite (bt_prev _ B1), (bt_prev _ Bf), O; reflexivity).
  assert (I2 : isome (ph_prev2E (f_ph s1)) = isome (ph_prev2E (f_ph sf))) by (rewrite (bt_prev2 _ B1), (bt_prev2 _ Bf), O; reflexivity).
  apply run_phys in U1, Uf.
  (* replace what update() overwrites before it looks *)
  assert (Q : exists q, phys_run (repeat Update (S n)) q = Fine (f_ph s1') /\ wf_phys q /\ ph_grid q = g /\
      (forall i j, alike_prev i j i j (ph_prevE q) (ph_prevE (f_ph sf)) /\ alike_prev i j i j (ph_prev2E q) (ph_prev2E (f_ph sf))) /\
      exists a b, q = set_ph_prev2E b (set_ph_prevE a (f_ph s1))).
  { destruct (ph_prev2E (f_ph s1)) as [e2|] eqn:E2.
    - assert (N1 : ph_prevE (f_ph s1) <> None) by (apply (wf_prev2_prev _ W1); rewrite E2; discriminate).
      destruct (ph_prevE (f_ph s1)) as [e1|] eqn:E1; [|congruence].
      exists (set_ph_prev2E (ph_prev2E (f_ph sf)) (set_ph_prevE (Some e1) (f_ph s1))).
      cbn in I1, I2. destruct (ph_prevE (f_ph sf)) as [f1|] eqn:F1; [|discriminate]. destruct (ph_prev2E (f_ph sf)) as [f2|] eqn:F2; [|discriminate].
      split; [|split; [|split; [exact G1|split; [|now eexists; eexists]]]].
      + cbn [repeat phys_run] in *. cbn [phys_exec] in *. apply obind_fine in U1. destruct U1 as (p' & K & U1).
        rewrite (forget _ _ _ p'); [exact U1| |exact K]. intros p0 K1 K2. unfold step_prev. cbn. rewrite E1 in K1. rewrite E2 in K2. rewrite K1, K2. cbn. rewrite K1. reflexivity.
      + constructor; cbn; try apply W1; try discriminate; intros; try discriminate.
        * apply (wf_prevE _ W1). congruence. * rewrite G1, <- Gf. apply (wf_prev2E _ Wf). congruence.
      + intros a b. cbn. split; [|reflexivity].
        destruct Hp as [Hp|Hp]; [congruence|]. rewrite (Hp e1) by congruence. rewrite (Bl f1) by reflexivity. reflexivity.
    - cbn in I2. destruct (ph_prev2E (f_ph sf)) as [f2|] eqn:F2; [discriminate|].
      exists (set_ph_prev2E None (set_ph_prevE (ph_prevE (f_ph sf)) (f_ph s1))).
      split; [|split; [|split; [exact G1|split; [|now eexists; eexists]]]].
      + cbn [repeat phys_run] in *. cbn [phys_exec] in *. apply obind_fine in U1. destruct U1 as (p' & K & U1).
        rewrite (forget _ _ _ p'); [exact U1| |exact K]. intros p0 K1 K2. rewrite E2 in K2. rewrite <- K1 in I1. clear - K2 I1. unfold step_prev. cbn. rewrite K2.
        destruct (ph_prevE (f_ph sf)), (ph_prevE p0) eqn:K1; cbn in I1; try discriminate; destruct p0; cbn in *; subst; reflexivity.
      + constructor; cbn; try apply W1; try discriminate; intros; try discriminate.
        * rewrite G1, <- Gf. apply (wf_prevE _ Wf). congruence.
        * intros K. apply (wf_debye_prev _ W1) in H. rewrite K in I1. destruct (ph_prevE (f_ph s1)); [discriminate|congruence].
        * intros K. apply (wf_drude_prev _ W1) in H. rewrite K in I1. destruct (ph_prevE (f_ph s1)); [discriminate|congruence].
        * intros K. exact (wf_lorentz_prev _ W1 H E2).
        * congruence.
      + intros a b. cbn. split; [|exact I]. destruct (ph_prevE (f_ph sf)); cbn; auto. }
  destruct Q as (q & Uq & Wq & Gq & Aq & (a & b & Eq)).
  assert (SF : same_frame q (f_ph sf)).
  { subst q. unfold same_frame. cbn [set_ph_prevE set_ph_prev2E ph_grid ph_t ph_sc ph_pml ph_tfsf]. rewrite G1, Gf, En1, Ef1, En2, Ef2, Tm. repeat split; assumption. }
  assert (C := cone_run (S n) q (f_ph sf) (f_ph s1') (f_ph sf') 0 i j ltac:(rewrite Gq; exact Ha) Wq Wf SF Uq Uf ltac:(lia)).
  assert (Gn : ph_grid (f_ph s1') = g) by (rewrite <- Gq; eapply phys_run_grid; exact Uq).
  refine (ag_field _ _ _ _ (C _ i j _ _ _ _)); clear C; try (rewrite Gn; assumption); try (rewrite Z.sub_diag; cbn; lia).
  intros a' b' Ka Kb _ _. rewrite Gq in Ka, Kb. destruct (A a' b' Ka Kb) as (A1 & A2 & A3). destruct (Aq a' b') as [Q1 Q2].
  clear Uq Wq SF Gq Aq. subst q. constructor; [exact A1|exact A2|exact A3| | | |exact Q1|exact Q2|]; cbn [set_ph_prevE set_ph_prev2E ph_grid ph_debye ph_drude ph_lorentz ph_srcs].
  - rewrite D1. apply alike_all_eq. - rewrite D2. apply alike_all_eq. - rewrite D3. apply alike_all_eq.
  - rewrite Sr1, Sr2. apply (drive_core _ (ph_srcs (f_ph s)) _ (ph_srcs (f_ph s)) _); [reflexivity|exact Hsr|apply same_drive_refl].
Qed.
End Restart.
