(** Without sources the field stays zero. *)
From Coq Require Import ZArith Reals String List Bool Lia Lra.
From Verif Require Import Scalar Base BaseFacts VecM GridM GeometryM MaterialM PmlM DftM TfsfM PolarM
  InterpM H5M ClockM MonitorM FieldM SpecGrid GridFacts OutFacts PhysFacts PaintFacts WfFacts ReachFacts InvFacts
  SpecStep StepFacts EngineFacts YeeFacts PolarFacts FullStep MediumFacts SpecWave.
Import ListNotations.
Local Open Scope Z_scope.
#[local] Existing Instance RNum.

Lemma z2_upd a i j v : z2 a -> v = 0%R -> z2 (tupd a i j v).
Proof. intros H -> x y. cbn. destruct ((x =? i) && (y =? j)); [reflexivity|apply H]. Qed.
Lemma z3_upd a i j k v : z3 a -> v = 0%R -> z3 (t3upd a i j k v).
Proof. intros H -> x y w. cbn. destruct ((x =? i) && (y =? j) && (w =? k)); [reflexivity|apply H]. Qed.

Ltac cells := repeat match goal with
  | H : tget _ _ _ = Ok _ |- _ => apply tget_inv in H; destruct H as (_ & _ & ->)
  | H : tset _ _ _ _ = Ok _ |- _ => apply tset_inv in H; destruct H as (_ & _ & ->)
  | H : t3get _ _ _ _ = Ok _ |- _ => apply t3get_inv in H; subst
  | H : t3set _ _ _ _ _ = Ok _ |- _ => apply t3set_inv in H; subst
  | H : aget _ _ = Ok _ |- _ => clear H
  | H : lget _ _ = Ok _ |- _ => clear H
  end.
Ltac zeros := repeat match goal with
  | H : z2 ?a |- context [tval ?a ?i ?j] => rewrite (H i j)
  | H : z3 ?a |- context [t3val ?a ?i ?j ?k] => rewrite (H i j k)
  end.
Ltac null := rnum; zeros; unfold Rdiv; change (@T RNum) with R; ring.
Ltac dark1 := first [assumption | apply z2_upd; [dark1|] | apply z3_upd; [dark1|] | idtac].

Lemma E_dark C sc X Y i j E E' : z2 X -> z2 Y -> z2 E -> E_body C sc X Y i j E = Ok E' -> z2 E'.
Proof. intros HX HY HE H. unfold E_body in H. inv_ok. cells. apply z2_upd; [assumption|]. null. Qed.
Lemma E_loop_dark g C sc X Y E E' : z2 X -> z2 Y -> z2 E -> E_loop g C sc X Y E = Ok E' -> z2 E'.
Proof.
  intros HX HY HE H. unfold E_loop in H. revert H. apply (for_up_pres z2); [exact HE|].
  intros i a b _ Ha. apply (for_up_pres z2); [exact Ha|]. intros j c d _ Hc. now apply E_dark.
Qed.
Definition z22 (s : tensor * tensor) : Prop := z2 (fst s) /\ z2 (snd s).
Lemma H_loop_dark g C sc E X Y X' Y' : z2 E -> z2 X -> z2 Y -> H_loop g C sc E X Y = Ok (X', Y') -> z2 X' /\ z2 Y'.
Proof.
  intros HE HX HY H. unfold H_loop in H. change (z22 (X', Y')). revert H. apply (for_up_pres z22); [split; assumption|].
  intros i a b _ Ha. apply (for_up_pres z22); [exact Ha|]. intros j [c c'] [d d'] _ [Hc Hc'] H. cbn [fst snd] in *.
  unfold H_body in H. inv_ok. cells. split; cbn [fst snd]; (apply z2_upd; [assumption|]); null.
Qed.
Definition z222 (s : tensor * tensor * tensor) : Prop := z2 (fst (fst s)) /\ z2 (snd (fst s)) /\ z2 (snd s).
Ltac pmlbody := intros i a0 b0 _ Ha; apply (for_up_pres z222); [exact Ha|];
  intros j [[c c'] c''] [[d d'] d''] _ (Hc & Hc' & Hc'') H; cbn [fst snd] in *.

Ltac pmldone c c' c'' := cells;
  match goal with |- z222 (tupd c ?i ?j ?v, tupd c' _ _ ?w, _) =>
    assert (Q1 : v = 0%R) by null; assert (Q2 : w = 0%R) by null;
    assert (Z1 : z2 (tupd c i j v)) by (apply z2_upd; assumption);
    assert (Z2 : z2 (tupd c' i j w)) by (apply z2_upd; assumption);
    split; [exact Z1|split; [exact Z2|]]; cbn [fst snd] end;
  match goal with |- z2 (tupd (tupd c'' ?i ?j ?v) _ _ _) =>
    let Z3 := fresh in assert (Z3 : z2 (tupd c'' i j v)) by (apply z2_upd; [assumption|null]);
    apply z2_upd; [exact Z3|null] end.
Lemma pmlE_dark b Cb X Y E b' E' : z2 X -> z2 Y -> z2 E ->
  z222 (Ezy1 (p_psi b), Ezy2 (p_psi b), E) -> z222 (Ezx1 (p_psi b), Ezx2 (p_psi b), E) ->
  pml_update_E b Cb X Y E = Ok (b', E') ->
  z2 E' /\ z2 (Ezx1 (p_psi b')) /\ z2 (Ezx2 (p_psi b')) /\ z2 (Ezy1 (p_psi b')) /\ z2 (Ezy2 (p_psi b')) /\
  Hxy1 (p_psi b') = Hxy1 (p_psi b) /\ Hxy2 (p_psi b') = Hxy2 (p_psi b) /\
  Hyx1 (p_psi b') = Hyx1 (p_psi b) /\ Hyx2 (p_psi b') = Hyx2 (p_psi b).
Proof.
  intros HX HY HE Hy Hx H. unfold pml_update_E in H.
  apply bind_ok in H. destruct H as ([[y1 y2] E1] & H1 & H). apply bind_ok in H. destruct H as ([[x1 x2] E2] & H2 & H).
  injection H as <- <-. cbn [p_psi Ezx1 Ezx2 Ezy1 Ezy2 Hxy1 Hxy2 Hyx1 Hyx2].
  assert (A : z222 (y1, y2, E1)).
  { revert H1. unfold pml_Ey. apply (for_up_pres z222); [exact Hy|]. pmlbody. unfold Ey_body in H. inv_ok. pmldone c c' c''. }
  assert (B : z222 (x1, x2, E2)).
  { revert H2. unfold pml_Ex. apply (for_up_pres z222); [split; [apply Hx|split; [apply Hx|apply A]]|]. pmlbody. unfold Ex_body in H. inv_ok. pmldone c c' c''. }
  destruct A as (A1 & A2 & _), B as (B1 & B2 & B3). cbn [fst snd] in *. repeat (split; [assumption|]). repeat split.
Qed.
Lemma pmlH_dark b Db E X Y b' X' Y' : z2 E ->
  z222 (Hxy1 (p_psi b), Hxy2 (p_psi b), X) -> z222 (Hyx1 (p_psi b), Hyx2 (p_psi b), Y) ->
  pml_update_H b Db E X Y = Ok (b', X', Y') ->
  z2 X' /\ z2 Y' /\ z2 (Hxy1 (p_psi b')) /\ z2 (Hxy2 (p_psi b')) /\ z2 (Hyx1 (p_psi b')) /\ z2 (Hyx2 (p_psi b')) /\
  Ezx1 (p_psi b') = Ezx1 (p_psi b) /\ Ezx2 (p_psi b') = Ezx2 (p_psi b) /\
  Ezy1 (p_psi b') = Ezy1 (p_psi b) /\ Ezy2 (p_psi b') = Ezy2 (p_psi b).
Proof.
  intros HE Hx Hy H. unfold pml_update_H in H.
  apply bind_ok in H. destruct H as ([[y1 y2] E1] & H1 & H). apply bind_ok in H. destruct H as ([[x1 x2] E2] & H2 & H).
  injection H as <- <- <-. cbn [p_psi Ezx1 Ezx2 Ezy1 Ezy2 Hxy1 Hxy2 Hyx1 Hyx2].
  assert (A : z222 (y1, y2, E1)).
  { revert H1. unfold pml_Hx. apply (for_up_pres z222); [exact Hx|]. pmlbody. unfold Hx_body in H. inv_ok. pmldone c c' c''. }
  assert (B : z222 (x1, x2, E2)).
  { revert H2. unfold pml_Hy. apply (for_up_pres z222); [exact Hy|]. pmlbody. unfold Hy_body in H. inv_ok. pmldone c c' c''. }
  destruct A as (A1 & A2 & A3), B as (B1 & B2 & B3). cbn [fst snd] in *. repeat (split; [assumption|]). repeat split.
Qed.

(** polarizations *)
Definition z23 (s : tensor * tensor3) : Prop := z2 (fst s) /\ z3 (snd s).
Definition z233 (s : tensor * tensor3 * tensor3) : Prop := z2 (fst (fst s)) /\ z3 (snd (fst s)) /\ z3 (snd s).
Lemma debye_dark x q pe E q' E' : zq q -> z2 pe -> z2 E -> debye_update x q pe E = Ok (q', E') -> zq q' /\ z2 E'.
Proof.
  intros [Hj Hp] He HE H. unfold debye_update in H. apply bind_ok in H. destruct H as ([E1 J1] & H1 & H). injection H as <- <-.
  assert (A : z23 (E1, J1)).
  { revert H1. do 2 (apply (for_up_pres z23); [first [assumption | split; assumption]|intros ? ? ? _ ?]).
    apply (for_up_pres z23); [assumption|]. intros k [c c'] [d d'] _ [Hc Hc'] Hb. cbn [fst snd] in *. unfold debye_body in Hb. inv_ok.
    cells. match goal with |- z23 (tupd c ?i ?j ?v, _) => assert (Q : z2 (tupd c i j v)) by (apply z2_upd; [assumption|null]) end.
    split; [exact Q|]. cbn [snd]. apply z3_upd; [assumption|null]. }
  destruct A. split; [split; assumption|assumption].
Qed.
Lemma drude_dark x q pe E q' E' : zq q -> z2 pe -> z2 E -> drude_update x q pe E = Ok (q', E') -> zq q' /\ z2 E'.
Proof.
  intros [Hj Hp] He HE H. unfold drude_update in H. apply bind_ok in H. destruct H as ([E1 J1] & H1 & H). injection H as <- <-.
  assert (A : z23 (E1, J1)).
  { revert H1. do 2 (apply (for_up_pres z23); [first [assumption | split; assumption]|intros ? ? ? _ ?]).
    apply (for_up_pres z23); [assumption|]. intros k [c c'] [d d'] _ [Hc Hc'] Hb. cbn [fst snd] in *. unfold drude_body in Hb. inv_ok.
    cells. match goal with |- z23 (tupd c ?i ?j ?v, _) => assert (Q : z2 (tupd c i j v)) by (apply z2_upd; [assumption|null]) end.
    split; [exact Q|]. cbn [snd]. apply z3_upd; [assumption|null]. }
  destruct A. split; [split; assumption|assumption].
Qed.
Lemma lorentz_dark x q pe E q' E' : zq q -> z2 pe -> z2 E -> lorentz_update x q pe E = Ok (q', E') -> zq q' /\ z2 E'.
Proof.
  intros [Hj Hp] He HE H. unfold lorentz_update in H. apply bind_ok in H. destruct H as ([[E1 J1] K1] & H1 & H). injection H as <- <-.
  assert (A : z233 (E1, J1, K1)).
  { revert H1. do 2 (apply (for_up_pres z233); [first [assumption | split; [assumption|split; assumption]]|intros ? ? ? _ ?]).
    apply (for_up_pres z233); [assumption|]. intros k [[c c'] c''] [[d d'] d''] _ (Hc & Hc' & Hc'') Hb. cbn [fst snd] in *. unfold lorentz_body in Hb. inv_ok.
    cells. match goal with |- z233 (tupd c ?i ?j ?v, _, _) => assert (Q : z2 (tupd c i j v)) by (apply z2_upd; [assumption|null]) end.
    split; [exact Q|]. split; cbn [fst snd]; (apply z3_upd; [assumption|null]). }
  destruct A as (A1 & A2 & A3). split; [split; assumption|assumption].
Qed.
Lemma polar_all_dark {M} (f : M -> polar -> tensor -> tensor -> res (polar * tensor)) prev :
  (forall x q pe E q' E', zq q -> z2 pe -> z2 E -> f x q pe E = Ok (q', E') -> zq q' /\ z2 E') ->
  (forall a, prev = Some a -> z2 a) -> forall P E P' E', zP P -> z2 E -> polar_all f prev E P = Ok (P', E') -> zP P' /\ z2 E'.
Proof.
  intros Hf Hp. induction P as [|[nm [x q]] P IH]; intros E P' E' HP HE H; cbn [polar_all] in H.
  - injection H as <- <-. auto.
  - apply bind_ok in H. destruct H as (pe & He & H). apply ofOption_ok in He. apply bind_ok in H. destruct H as ([q1 E1] & H1 & H).
    apply bind_ok in H. destruct H as ([r E2] & H2 & H). injection H as <- <-.
    destruct (Hf _ _ _ _ _ _ (HP _ _ _ (or_introl eq_refl)) (Hp _ He) HE H1) as [A B].
    destruct (IH E1 r E2) as [C D]; [intros ? ? ? K; apply (HP _ _ _ (or_intror K))|exact B|exact H2|].
    split; [|exact D]. intros nm' x' q' [K|K]; [injection K as <- <- <-; exact A|exact (C _ _ _ K)].
Qed.

Definition unlit (p : phys) : Prop := ph_srcs p = [] /\ ph_tfsf p = None -> dark p.

Lemma insert_zq q vals ins q' : zq q -> insert_polar q vals ins = Ok q' -> zq q'.
Proof. intros H K. unfold insert_polar in K. inv_ok. exact H. Qed.
Lemma mk_zq g np q : mk_polar g np = Ok q -> zq q.
Proof.
  unfold mk_polar, t3const. intros H. destruct ((0 <=? g_Nx g) && (0 <=? g_Ny g) && (0 <=? Z.of_nat np)); inv_ok. split; intros ? ? ?; reflexivity.
Qed.
Lemma add_zP {M} np (vals : M -> R -> list R) g P nm m o P' : zP P -> add_polar np vals g P nm m o = Ok P' -> zP P'.
Proof.
  intros H K. eapply add_polar_entries; [exact H|exact K| |].
  - intros p p' Hp. apply insert_zq. eapply mk_zq, Hp.
  - intros x p p' Hp. now apply insert_zq.
Qed.
Lemma reinsert_zP {M} (vals : M -> R -> list R) g P nm o P' : zP P -> reinsert_polar vals g P nm o = Ok P' -> zP P'.
Proof. intros H K. eapply reinsert_polar_entries; [exact H|exact K|]. intros x p p' Hp. now apply insert_zq. Qed.
Lemma ensure_zo o E : zo o -> z2 E -> zo (ensure o E).
Proof. intros H HE a. destruct o; cbn; intros K; injection K as <-; [now apply H|exact HE]. Qed.
Lemma reset_zP {M} (P : list (string * (M * polar))) : zP (map (fun '(n, (m, p)) => (n, (m, reset_polar p))) P).
Proof.
  intros nm x q K. apply in_map_iff in K. destruct K as ([n [m p]] & E & _). injection E as <- <- <-. split; intros ? ? ?; reflexivity.
Qed.

Lemma unlit_keeps : keeps unlit.
Proof.
  constructor; unfold unlit; intros.
  - unfold step_clock in H0. inv_ok. cbn in H1. specialize (H H1). destruct H. constructor; assumption.
  - unfold step_prev in *. destruct (ph_prev2E p) eqn:E2; cbn in *; destruct (ph_prevE p) eqn:E1; cbn in *; specialize (H H0); destruct H;
      constructor; cbn; try assumption; try congruence; rewrite ?E1; try (intros a K; injection K as <-; assumption); try (intros a K; discriminate);
      try (rewrite E1 in *; assumption).
  - unfold step_E in H0. inv_ok. cbn in H1. specialize (H H1). destruct H. constructor; try assumption. cbn. eapply E_loop_dark; [..|exact Hr]; assumption.
  - unfold step_pmlE in H0. apply bind_ok in H0. destruct H0 as ([b E] & Hb & H0). injection H0 as <-. cbn in H1. specialize (H H1). destruct H.
    apply pmlE_dark in Hb; try (repeat split; assumption); try assumption. destruct Hb as (A & B1 & B2 & B3 & B4 & C1 & C2 & C3 & C4).
    constructor; cbn; try assumption; congruence.
  - assert (K := H0). unfold step_polar in H0. apply bind_ok in H0. destruct H0 as ([P1 T1] & L1 & H0).
    apply bind_ok in H0. destruct H0 as ([P2 T2] & L2 & H0).
    apply bind_ok in H0. destruct H0 as ([P3 T3] & L3 & H0). injection H0 as <-. cbn in H1, L2, L3. specialize (H H1). destruct H.
    apply (polar_all_dark debye_update) in L1; [|exact debye_dark|assumption..]. destruct L1 as [A1 B1].
    apply (polar_all_dark drude_update) in L2; [|exact drude_dark|assumption..]. destruct L2 as [A2 B2].
    apply (polar_all_dark lorentz_update) in L3; [|exact lorentz_dark|assumption..]. destruct L3 as [A3 B3].
    constructor; cbn; assumption.
  - unfold step_tfsfD in H0. destruct (ph_tfsf p) eqn:E; inv_ok; [|apply H; destruct H1; auto]. cbn in H1. destruct H1. congruence.
  - cbn in H1. destruct H1 as [-> H1]. destruct (ph_srcs p) eqn:E; [|apply srcs_length in H0; cbn in H0; lia]. destruct (H (conj eq_refl H1)); constructor; assumption.
  - cbn in H2. destruct H2 as [E0 _]. rewrite E0 in H0. destruct H0.
  - unfold step_tfsf_pulse in H0. destruct (ph_tfsf p) eqn:E; inv_ok; [|apply H; destruct H1; auto]. cbn in H1. destruct H1. congruence.
  - unfold step_H in H0. apply bind_ok in H0. destruct H0 as ([hx hy] & Hh & H0). injection H0 as <-. cbn in H1. specialize (H H1). destruct H.
    apply H_loop_dark in Hh; try assumption. destruct Hh. constructor; cbn; assumption.
  - unfold step_pmlH in H0. apply bind_ok in H0. destruct H0 as ([[b X] Y] & Hb & H0). injection H0 as <-. cbn in H1. specialize (H H1). destruct H.
    apply pmlH_dark in Hb; try (repeat split; assumption); try assumption. destruct Hb as (A1 & A2 & B1 & B2 & B3 & B4 & C1 & C2 & C3 & C4).
    constructor; cbn; try assumption; congruence.
  - unfold step_tfsfH in H0. destruct (ph_tfsf p) eqn:E; [|inv_ok; apply H; destruct H1; auto]. apply bind_ok in H0. destruct H0 as ([hx hy] & _ & H0). injection H0 as <-.
    cbn in H1. destruct H1. congruence.
  - unfold paint_phys in H0. inv_ok. cbn in H1. destruct (H H1). constructor; assumption.
  - unfold insert_material in H0. destruct (m_kind (o_mat o)); inv_ok; cbn in H1; destruct (H H1); constructor; cbn; try assumption;
      try (apply ensure_zo; assumption); eapply add_zP; eassumption.
  - unfold reinsert_material in H0. destruct (m_kind (o_mat o)); inv_ok; cbn in H1; destruct (H H1); constructor; cbn; try assumption;
      eapply reinsert_zP; eassumption.
  - cbn in H0. destruct (H H0). constructor; assumption.
  - cbn in H0. destruct H0 as [H0 H1]. destruct (ph_tfsf p) eqn:E; [discriminate|]. destruct (H (conj H0 eq_refl)).
    constructor; cbn; try assumption; try (intros ? ?; reflexivity); apply reset_zP.
  - cbn in H1. destruct (H H1). constructor; assumption.
  - cbn in *. match goal with H : _ /\ Some _ = None |- _ => destruct H; discriminate end.
Qed.

Lemma stays_dark g s : reachable g s -> ph_srcs (f_ph s) = [] -> ph_tfsf (f_ph s) = None -> dark (f_ph s).
Proof.
  intros H H1 H2. refine (reachable_inv unlit unlit_keeps g s _ H (conj H1 H2)).
  intros p Hp _. unfold mk_phys, mk_pml, mk_pml_psi in Hp. inv_ok.
  unfold tconst in *. repeat match goal with H : (if ?b then _ else _) = Ok _ |- _ => destruct b; inversion H; clear H; subst end.
  constructor; cbn; try (intros ? ?; reflexivity); try (intros ? K; discriminate); intros ? ? ? [].
Qed.
