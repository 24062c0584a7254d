(** Which medium a cell is made of, from the objects a program added. *)
From Coq Require Import ZArith Reals String List Bool Lia Lra.
From Verif Require Import Scalar Base BaseFacts VecM GridM GeometryM MaterialM PmlM DftM TfsfM PolarM
  InterpM H5M ClockM MonitorM FieldM SpecGrid GridFacts SpecGeometry GeometryFacts OutFacts PhysFacts SpecPaint PaintFacts WfFacts ReachFacts
  InvFacts SpecStep StepFacts SpecMedium SpecMedia PolarFacts MediumFacts StrengthFacts.
Import ListNotations.

Section Gen.
Context {N : Num}.
Local Open Scope Z_scope.

Lemma str_repaint g l : forall os p p', str_phys g os p -> (forall o, In o l -> In o os) ->
  foldM repaint_one p l = Ok p' -> str_phys g os p' /\ ph_objs p' = ph_objs p.
Proof.
  induction l as [|o l IH]; cbn [foldM]; intros os p p' Hs Hl H; [inv_ok; auto|].
  apply bind_ok in H. destruct H as (p1 & H1 & H). unfold repaint_one in H1. apply bind_ok in H1. destruct H1 as (p2 & H2 & H1).
  assert (S2 : str_phys g os p2 /\ ph_objs p2 = ph_objs p).
  { unfold paint_phys in H2. inv_ok. unfold str_phys in *. cbn. auto. }
  destruct S2 as [S2 O2].
  assert (O1 : ph_objs p1 = ph_objs p2) by (apply reinsert_material_frame in H1; tauto).
  apply str_reinsert_material with (os := os) (g := g) in H1; [|exact S2|apply Hl; now left].
  apply (IH os) in H; [|exact H1|intros; apply Hl; now right]. rewrite (proj2 H), O1, O2. tauto.
Qed.

Lemma str_fresh g name s : mk_field g name = Ok s -> str_phys g (ph_objs (f_ph s)) (f_ph s).
Proof.
  unfold mk_field. intros H. apply bind_ok in H. destruct H as (p & Hp & H). destruct (String.eqb name ""); [discriminate|].
  apply bind_ok in H. destruct H as (f0 & _ & H). apply bind_ok in H. destruct H as (f & _ & H). injection H as <-. cbn [f_ph].
  unfold mk_phys in Hp. inv_ok. unfold str_phys, str_map. cbn.
  assert (forall M (G : string -> M -> polar -> Prop), all_entries G []) by (intros ? ? ? ? ? []).
  assert (ND : forall A, NoDup (@nil A)) by (intros; constructor).
  split; [reflexivity|]. split; [|split]; (split; [apply ND|split; [intros o x Ho; destruct Ho|apply H]]).
Qed.

End Gen.

Section Real.
#[local] Existing Instance RNum.
Local Open Scope R_scope.

Lemma str_exec g c p p' : repositions c = false -> c <> ClearFields ->
  str_phys g (ph_objs p) p -> phys_exec c p = Fine p' -> str_phys g (ph_objs p') p'.
Proof.
  intros Hc Hn Hs H. destruct c; cbn [phys_exec repositions] in *; try discriminate; try (injection H as <-; exact Hs); try congruence.
  - assert (E : ph_objs p' = ph_objs p) by (apply phys_step_static, static_eq in H; tauto). rewrite E. eapply str_step; eassumption.
  - apply ok_out_fine in H. unfold update_material_grid in H. apply bind_ok in H. destruct H as (c & Hc' & H).
    apply (str_repaint g _ (ph_objs p)) in H; [|exact Hs|auto]. destruct H as [H E]. rewrite E. exact H.
  - apply ok_out_fine in H. unfold phys_add_object in H. apply bind_ok in H. destruct H as (p1 & H1 & H).
    apply bind_ok in H. destruct H as (p2 & H2 & H). injection H as <-. cbn [set_ph_objs ph_objs].
    assert (O2 := insert_material_frame _ _ _ H2). destruct O2 as (_ & _ & O2 & _). rewrite O2.
    assert (S1 : str_phys g (ph_objs p) p1 /\ ph_objs p1 = ph_objs p).
    { unfold paint_phys in H1. inv_ok. unfold str_phys in *. cbn. auto. }
    destruct S1 as [S1 O1]. rewrite O1. apply (str_insert g (ph_objs p) o) in H2; [|exact S1]. exact H2.
  - apply ok_out_fine in H. unfold phys_set_tfsf in H. inv_ok. exact Hs.
Qed.

Lemma str_run g name s0 l s : mk_field g name = Ok s0 -> run l s0 = Fine s ->
  forallb (fun c => negb (repositions c)) l = true -> ~ In ClearFields l ->
  str_phys g (ph_objs (f_ph s)) (f_ph s).
Proof.
  intros H0 Hr Hl Hn. apply run_phys in Hr. apply str_fresh in H0.
  apply (phys_run_inv (fun p => str_phys g (ph_objs p) p)) with (3 := Hr); [|exact H0].
  intros c p p' Hc. rewrite forallb_forall in Hl. specialize (Hl c Hc). apply negb_true_iff in Hl.
  apply str_exec; [exact Hl|congruence].
Qed.
Section Kind.
Context {M : Type}.
Variables (np : M -> nat) (vals : M -> R -> list R) (mat : obj -> option M) (mk : M -> mat_kind) (g : grid).
Hypothesis mat_mk : forall o x, mat o = Some x <-> m_kind (o_mat o) = mk x.
Hypothesis mk_inj : forall x y, mk x = mk y -> x = y.

Lemma covered_iff os nm i j : covered mat g os nm i j = true <->
  exists o x, In o os /\ o_mat o = Material nm (mk x) /\ in_obj o (g_dx g * IZR i, g_dx g * IZR j).
Proof.
  unfold covered. rewrite existsb_exists. split.
  - intros (o & Ho & K). apply andb_true_iff in K. destruct K as [K1 K2]. unfold mine in K1.
    destruct (mat o) as [x|] eqn:E; [|discriminate]. apply mat_mk in E. apply String.eqb_eq in K1.
    exists o, x. split; [exact Ho|]. split; [destruct (o_mat o); cbn in *; congruence|].
    apply obj_inside_iff in K2. exact K2.
  - intros (o & x & Ho & Em & K). exists o. split; [exact Ho|]. apply andb_true_iff. split; [|now apply obj_inside_iff].
    unfold mine. assert (E : mat o = Some x) by (apply mat_mk; now rewrite Em). now rewrite E, Em, String.eqb_refl.
Qed.

(** a cell in no object of this kind has no strength *)
Lemma str_none os P i j : str_map np vals mat g os P -> (0 <= i < g_Nx g)%Z -> (0 <= j < g_Ny g)%Z ->
  (forall o x, In o os -> in_obj o (g_dx g * IZR i, g_dx g * IZR j) -> m_kind (o_mat o) <> mk x) ->
  no_strength i j P.
Proof.
  intros (_ & _ & S) Hi Hj H nm x q Hin k Hk. destruct (S nm x q Hin) as ((_ & _ & _ & _ & En) & _ & V).
  rewrite V by lia. destruct (covered mat g os nm i j) eqn:E; [|reflexivity].
  apply covered_iff in E. destruct E as (o & y & Ho & Em & K). exfalso. apply (H o y Ho K). now rewrite Em.
Qed.

Lemma nodup_nth {A} (P : list (string * A)) n n' a b nm : NoDup (map fst P) ->
  nth_error P n = Some (nm, a) -> nth_error P n' = Some (nm, b) -> n = n'.
Proof.
  intros ND H1 H2. rewrite NoDup_nth_error in ND. apply ND.
  - assert (K : (n < length P)%nat) by (apply nth_error_Some; congruence). now rewrite map_length.
  - now rewrite !nth_error_map, H1, H2.
Qed.

Lemma str_one os P i j nm x : str_map np vals mat g os P -> (0 <= i < g_Nx g)%Z -> (0 <= j < g_Ny g)%Z ->
  only_in os nm (mk x) (g_dx g * IZR i, g_dx g * IZR j) ->
  exists n q, entry P n nm x q /\ full_strength q (vals x (g_dt g)) i j /\ alone P n i j.
Proof.
  intros (ND & Keys & S) Hi Hj (o & Ho & Em & In_o & Only).
  assert (E : mat o = Some x) by (apply mat_mk; now rewrite Em).
  assert (K := Keys o x Ho E). rewrite Em in K. cbn [m_name] in K. apply in_map_iff in K. destruct K as ([nm' [x' q]] & Enm & Hin).
  cbn in Enm. subst nm'. destruct (In_nth_error _ _ Hin) as [n Hn].
  destruct (S nm x' q Hin) as ((_ & _ & _ & _ & En) & (o' & Ho' & Em' & Nm') & V).
  assert (x' = x).
  { apply mat_mk in Em'. rewrite (Only o' Ho' (or_intror Nm')) in Em'. cbn in Em'. apply mk_inj. congruence. }
  subst x'. exists n, q. split; [exact Hn|]. split.
  - intros k Hk. rewrite V by lia. assert (C : covered mat g os nm i j = true); [|now rewrite C].
    apply covered_iff. exists o, x. auto.
  - intros n' nm' x' q' Hne Hn' k Hk. unfold entry in Hn'. assert (Hin' := nth_error_In _ _ Hn').
    destruct (S nm' x' q' Hin') as ((_ & _ & _ & _ & En') & _ & V'). rewrite V' by lia.
    destruct (covered mat g os nm' i j) eqn:C; [|reflexivity]. apply covered_iff in C. destruct C as (o2 & y & Ho2 & Em2 & K2).
    assert (Q := Only o2 Ho2 (or_introl K2)). rewrite Em2 in Q. injection Q as -> _. exfalso. apply Hne.
    symmetry. eapply nodup_nth; eassumption.
Qed.
End Kind.

Lemma mat_debye_iff o x : mat_debye o = Some x <-> m_kind (o_mat o) = KDebye x.
Proof. unfold mat_debye. destruct (m_kind (o_mat o)); split; congruence. Qed.
Lemma mat_drude_iff o x : mat_drude o = Some x <-> m_kind (o_mat o) = KDrude x.
Proof. unfold mat_drude. destruct (m_kind (o_mat o)); split; congruence. Qed.
Lemma mat_lorentz_iff o x : mat_lorentz o = Some x <-> m_kind (o_mat o) = KLorentz x.
Proof. unfold mat_lorentz. destruct (m_kind (o_mat o)); split; congruence. Qed.

Section Run.
Variables (g : grid) (name : string) (s0 s : field) (l : list cmd) (i j : Z).
Hypotheses (Hg : grid_ok g) (H0 : mk_field g name = Ok s0) (Hr : run l s0 = Fine s).
Hypotheses (Hl : forallb (fun c => negb (repositions c)) l = true) (Hc : ~ In ClearFields l).
Hypotheses (Hs : Forall (fun o => shape_ok (o_geom o)) (added l)).
Hypotheses (Hi : (0 <= i < g_Nx g)%Z) (Hj : (0 <= j < g_Ny g)%Z).
Notation pos := (g_dx g * IZR i, g_dx g * IZR j).

Lemma run_str : str_phys g (added l) (f_ph s).
Proof.
  assert (K := str_run g name s0 l s H0 Hr Hl Hc).
  destruct (painting_last_wins g name s0 l s Hg H0 Hr Hl Hs) as [<- _]. exact K.
Qed.
Lemma run_made k : material_at (added l) vacuum pos k -> made_of (f_ph s) k i j.
Proof.
  intros Hk. destruct (painting_last_wins g name s0 l s Hg H0 Hr Hl Hs) as [_ P].
  specialize (P i j k (conj Hi Hj) Hk). unfold cell, mat_cell in P. injection P as P1 P2 _ _.
  assert (K := run_str). destruct K as (<- & _). split; assumption.
Qed.
Lemma only_at nm k : only_in (added l) nm k pos -> material_at (added l) vacuum pos k.
Proof.
  intros (o & Ho & Em & In_o & Only). destruct (material_at_exists (added l) vacuum pos) as [k' K].
  destruct K as [(b & o' & a & Eq & Io & Na & ->)|[No _]]; [|exfalso; now apply (No o)].
  left. exists b, o', a. split; [exact Eq|]. split; [exact Io|]. split; [exact Na|].
  rewrite (Only o'); [reflexivity|rewrite Eq; apply in_or_app; right; now left|now left].
Qed.
Lemma only_other nm k k' : only_in (added l) nm k pos -> k' <> k ->
  forall o, In o (added l) -> in_obj o pos -> m_kind (o_mat o) <> k'.
Proof. intros (_ & _ & _ & _ & Only) Hne o Ho Io E. rewrite (Only o Ho (or_introl Io)) in E. cbn in E. congruence. Qed.

Lemma no_lorentz : (forall o x, In o (added l) -> m_kind (o_mat o) <> KLorentz x) -> ph_lorentz (f_ph s) = [].
Proof.
  intros H. destruct run_str as (_ & _ & _ & _ & _ & S). destruct (ph_lorentz (f_ph s)) as [|[nm [x q]] P]; [reflexivity|].
  destruct (S nm x q (or_introl eq_refl)) as (_ & (o & Ho & Em & _) & _). apply mat_lorentz_iff in Em. exfalso. eapply H; eassumption.
Qed.

Lemma run_debye nm x : only_in (added l) nm (KDebye x) pos -> (forall o y, In o (added l) -> m_kind (o_mat o) <> KLorentz y) ->
  exists n q, debye_only (f_ph s) n nm x q i j.
Proof.
  intros Ho Nl. assert (K := run_str). destruct K as (Eg & S1 & S2 & _).
  destruct (str_one _ _ _ KDebye g mat_debye_iff ltac:(congruence) _ _ i j nm x S1 Hi Hj Ho) as (n & q & En & Fu & Al).
  exists n, q. split; [apply run_made; eapply only_at; exact Ho|]. rewrite Eg. split; [exact En|]. split; [exact Fu|]. split; [exact Al|].
  split; [|now apply no_lorentz]. apply (str_none _ _ _ KDrude g mat_drude_iff _ _ i j S2 Hi Hj).
  intros o y. eapply only_other; [exact Ho|discriminate].
Qed.
Lemma run_drude nm x : only_in (added l) nm (KDrude x) pos -> (forall o y, In o (added l) -> m_kind (o_mat o) <> KLorentz y) ->
  exists n q, drude_only (f_ph s) n nm x q i j.
Proof.
  intros Ho Nl. assert (K := run_str). destruct K as (Eg & S1 & S2 & _).
  destruct (str_one _ _ _ KDrude g mat_drude_iff ltac:(congruence) _ _ i j nm x S2 Hi Hj Ho) as (n & q & En & Fu & Al).
  exists n, q. split; [apply run_made; eapply only_at; exact Ho|]. rewrite Eg. split; [exact En|]. split; [exact Fu|]. split; [exact Al|].
  split; [|now apply no_lorentz]. apply (str_none _ _ _ KDebye g mat_debye_iff _ _ i j S1 Hi Hj).
  intros o y. eapply only_other; [exact Ho|discriminate].
Qed.
Lemma run_lorentz nm x : only_in (added l) nm (KLorentz x) pos ->
  (forall o y, In o (added l) -> m_kind (o_mat o) = KLorentz y -> m_name (o_mat o) = nm) ->
  exists q, lorentz_only (f_ph s) nm x q i j.
Proof.
  intros Ho Nl. assert (K := run_str). destruct K as (Eg & S1 & S2 & S3).
  destruct (str_one _ _ _ KLorentz g mat_lorentz_iff ltac:(congruence) _ _ i j nm x S3 Hi Hj Ho) as (n & q & En & Fu & Al).
  exists q. split; [apply run_made; eapply only_at; exact Ho|]. rewrite Eg. split.
  { destruct S3 as (ND & _ & S3). assert (All : forall nm' v, In (nm', v) (ph_lorentz (f_ph s)) -> nm' = nm).
    { intros nm' [y q'] Hin. destruct (S3 nm' y q' Hin) as (_ & (o & Ho' & Em & <-) & _). apply mat_lorentz_iff in Em.
      now apply (Nl o y). }
    unfold entry in En. destruct (ph_lorentz (f_ph s)) as [|[a v] P]; [now destruct n|].
    assert (a = nm) by (apply (All a v); now left). subst a. destruct P as [|[b w] P].
    - destruct n as [|[|n]]; [now injection En as ->|discriminate|discriminate].
    - assert (b = nm) by (apply (All b w); right; now left). subst b. cbn in ND. inversion_clear ND as [|? ? K _]. exfalso. apply K. now left. }
  split; [exact Fu|]. split.
  - apply (str_none _ _ _ KDebye g mat_debye_iff _ _ i j S1 Hi Hj). intros o y. eapply only_other; [exact Ho|discriminate].
  - apply (str_none _ _ _ KDrude g mat_drude_iff _ _ i j S2 Hi Hj). intros o y. eapply only_other; [exact Ho|discriminate].
Qed.
End Run.
End Real.
