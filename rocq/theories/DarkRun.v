(** Without sources the field stays zero, in any arithmetic in which zero behaves. *)
From Coq Require Import ZArith String List Bool Lia.
From Flocq Require Import IEEE754.BinarySingleNaN.
From Verif Require Import Scalar Base BaseFacts VecM GridM GeometryM MaterialM PmlM DftM TfsfM PolarM
  InterpM H5M ClockM MonitorM FieldM OutFacts PhysFacts HalfFacts MediumFacts PolarFacts Float SpecDark.
Import ListNotations.
Local Open Scope Z_scope.

Section Laws.
Context {N : Num}.
Variables (nil fin dvs : T -> Prop).
Hypothesis nil0 : nil 0%num.
Hypothesis nil_fin : forall a, nil a -> fin a.
Hypothesis nil_add : forall a b, nil a -> nil b -> nil (a + b)%num.
Hypothesis nil_sub : forall a b, nil a -> nil b -> nil (a - b)%num.
Hypothesis nil_mul : forall a b, fin a -> nil b -> nil (a * b)%num.
Hypothesis nil_div : forall a b, nil a -> dvs b -> nil (a / b)%num.
Notation nil2 := (nil2 nil). Notation nil3 := (nil3 nil). Notation nilo := (nilo nil).

Definition fin2 (a : tensor) : Prop := forall i j, fin (tval a i j).
Definition fin_coefs (c : coefs) : Prop := fin2 (cCa c) /\ fin2 (cCb c) /\ fin2 (cDa c) /\ fin2 (cDb c).

Lemma all2_upd (P : T -> Prop) a i j v : (forall i j, P (tval a i j)) -> P v -> forall x y, P (tval (tupd a i j v) x y).
Proof. intros H Hv x y. cbn. destruct ((x =? i) && (y =? j)); [exact Hv|apply H]. Qed.
Lemma all3_upd (P : T -> Prop) a i j k v : (forall i j k, P (t3val a i j k)) -> P v -> forall x y w, P (t3val (t3upd a i j k v) x y w).
Proof. intros H Hv x y w. cbn. destruct ((x =? i) && (y =? j) && (w =? k)); [exact Hv|apply H]. Qed.
Lemma nil2_upd a i j v : nil2 a -> nil v -> nil2 (tupd a i j v).
Proof. exact (all2_upd nil a i j v). Qed.
Lemma fin2_upd a i j v : fin2 a -> fin v -> fin2 (tupd a i j v).
Proof. exact (all2_upd fin a i j v). Qed.
Lemma nil3_upd a i j k v : nil3 a -> nil v -> nil3 (t3upd a i j k v).
Proof. exact (all3_upd nil a i j k v). Qed.
Lemma aget_all (P : T -> Prop) a i v : all_arr P a -> aget a i = Ok v -> P v.
Proof. unfold aget, inr. destruct (_ && _) eqn:E; [|discriminate]. intros H K. injection K as <-. apply H. lia. Qed.
Lemma lget_in l k v : lget l k = Ok v -> In v l.
Proof.
  unfold lget, inr. destruct ((0 <=? k) && (k <? Z.of_nat (length l))) eqn:E; [|discriminate]. intros H. injection H as <-.
  apply andb_prop in E. apply nth_In. lia.
Qed.
Ltac cells := repeat match goal with
  | H : tget _ _ _ = Ok _ |- _ => apply tget_inv in H; destruct H as (_ & _ & ->)
  | H : tset _ _ _ _ = Ok _ |- _ => apply tset_inv in H; destruct H as (_ & _ & ->)
  | H : t3get _ _ _ _ = Ok _ |- _ => apply t3get_inv in H; subst
  | H : t3set _ _ _ _ _ = Ok _ |- _ => apply t3set_inv in H; subst
  | H : aget ?a ?i = Ok ?v, F : all_arr _ ?a |- _ => apply (aget_all _ a i v F) in H
  end.
Ltac zero := repeat first
  [ assumption
  | match goal with H : SpecDark.nil2 nil ?a |- nil (tval ?a _ _) => apply H end
  | match goal with H : SpecDark.nil3 nil ?a |- nil (t3val ?a _ _ _) => apply H end
  | match goal with H : fin2 ?a |- fin (tval ?a _ _) => apply H end
  | match goal with |- nil (_ + _)%num => apply nil_add end
  | match goal with |- nil (_ - _)%num => apply nil_sub end
  | match goal with |- nil (_ * _)%num => apply nil_mul end
  | match goal with |- nil (_ / _)%num => apply nil_div end ].

Section Step.
Variables (C : coefs) (b : pml) (sc : scaling).
Hypothesis HC : fin_coefs C.
Hypothesis Hb : calm_pml fin dvs b sc.
Lemma HCa : fin2 (cCa C). Proof. apply HC. Qed.
Lemma HCb : fin2 (cCb C). Proof. apply HC. Qed.
Lemma HDa : fin2 (cDa C). Proof. apply HC. Qed.
Lemma HDb : fin2 (cDb C). Proof. apply HC. Qed.

Lemma E_loop_nil g X Y E E' : nil2 X -> nil2 Y -> nil2 E -> E_loop g C sc X Y E = Ok E' -> nil2 E'.
Proof.
  destruct Hb as (Bd & _ & _ & _ & _ & _ & _ & _ & _ & K1 & K2 & K3 & K4). assert (A1 := HCa). assert (A2 := HCb).
  intros HX HY HE H. unfold E_loop in H. revert H. apply (for_up_pres nil2); [exact HE|].
  intros i c d _ Hc. apply (for_up_pres nil2); [exact Hc|]. intros j c' d' _ Hc' H. unfold E_body in H. inv_ok. cells.
  apply nil2_upd; [assumption|]. zero.
Qed.
Definition nil22 (s : tensor * tensor) : Prop := nil2 (fst s) /\ nil2 (snd s).
Lemma H_loop_nil g E X Y X' Y' : nil2 E -> nil2 X -> nil2 Y -> H_loop g C sc E X Y = Ok (X', Y') -> nil2 X' /\ nil2 Y'.
Proof.
  destruct Hb as (Bd & _ & _ & _ & _ & _ & _ & _ & _ & K1 & K2 & K3 & K4). assert (A1 := HDa). assert (A2 := HDb).
  intros HE HX HY H. unfold H_loop in H. change (nil22 (X', Y')). revert H. apply (for_up_pres nil22); [split; assumption|].
  intros i c d _ Hc. apply (for_up_pres nil22); [exact Hc|]. intros j [u u'] [w w'] _ [Hu Hu'] H. cbn [fst snd] in *.
  unfold H_body in H. inv_ok. cells. split; cbn [fst snd]; (apply nil2_upd; [assumption|]); zero.
Qed.
Definition nil222 (s : tensor * tensor * tensor) : Prop := nil2 (fst (fst s)) /\ nil2 (snd (fst s)) /\ nil2 (snd s).
Ltac pmlbody := intros i a0 b0 _ Ha; apply (for_up_pres nil222); [exact Ha|];
  intros j [[c c'] c''] [[d d'] d''] _ (Hc & Hc' & Hc'') H; cbn [fst snd] in *.
Ltac pmldone c c' c'' := cells;
  match goal with |- nil222 (tupd c ?i ?j ?v, tupd c' _ _ ?w, _) =>
    assert (Q1 : nil v) by zero; assert (Q2 : nil w) by zero;
    assert (Z1 : nil2 (tupd c i j v)) by (apply nil2_upd; assumption);
    assert (Z2 : nil2 (tupd c' i j w)) by (apply nil2_upd; assumption);
    split; [exact Z1|split; [exact Z2|]]; cbn [fst snd] end;
  match goal with |- SpecDark.nil2 nil (tupd (tupd c'' ?i ?j ?v) _ _ _) =>
    let Z3 := fresh in assert (Z3 : nil2 (tupd c'' i j v)) by (apply nil2_upd; [assumption|zero]);
    apply nil2_upd; [exact Z3|zero] end.
Lemma pmlE_nil X Y E b' E' : nil2 X -> nil2 Y -> nil2 E -> nil_psi nil (p_psi b) -> pml_update_E b (cCb C) X Y E = Ok (b', E') ->
  nil2 E' /\ nil_psi nil (p_psi b') /\ p_par b' = p_par b /\ p_coef b' = p_coef b.
Proof.
  destruct Hb as (Bd & Bx1 & Bx2 & Bx3 & Bx4 & By1 & By2 & By3 & By4 & _). assert (A2 := HCb).
  intros HX HY HE (P1 & P2 & P3 & P4 & P5 & P6 & P7 & P8) H. unfold pml_update_E in H.
  apply bind_ok in H. destruct H as ([[y1 y2] E1] & H1 & H). apply bind_ok in H. destruct H as ([[x1 x2] E2] & H2 & H).
  injection H as <- <-. unfold nil_psi. cbn [p_par p_coef p_psi Ezx1 Ezx2 Ezy1 Ezy2 Hxy1 Hxy2 Hyx1 Hyx2].
  assert (A : nil222 (y1, y2, E1)).
  { revert H1. unfold pml_Ey. apply (for_up_pres nil222); [repeat split; assumption|]. pmlbody. unfold Ey_body in H. inv_ok. pmldone c c' c''. }
  assert (B : nil222 (x1, x2, E2)).
  { revert H2. unfold pml_Ex. apply (for_up_pres nil222); [split; [exact P1|split; [exact P2|apply A]]|]. pmlbody. unfold Ex_body in H. inv_ok. pmldone c c' c''. }
  destruct A as (K1 & K2 & _), B as (B1 & B2 & B3). cbn [fst snd] in *. repeat (split; [solve [auto 12]|]). reflexivity.
Qed.
Lemma pmlH_nil E X Y b' X' Y' : nil2 E -> nil2 X -> nil2 Y -> nil_psi nil (p_psi b) -> pml_update_H b (cDb C) E X Y = Ok (b', X', Y') ->
  nil2 X' /\ nil2 Y' /\ nil_psi nil (p_psi b') /\ p_par b' = p_par b /\ p_coef b' = p_coef b.
Proof.
  destruct Hb as (Bd & Bx1 & Bx2 & Bx3 & Bx4 & By1 & By2 & By3 & By4 & _). assert (A2 := HDb).
  intros HE HX HY (P1 & P2 & P3 & P4 & P5 & P6 & P7 & P8) H. unfold pml_update_H in H.
  apply bind_ok in H. destruct H as ([[y1 y2] E1] & H1 & H). apply bind_ok in H. destruct H as ([[x1 x2] E2] & H2 & H).
  injection H as <- <- <-. unfold nil_psi. cbn [p_par p_coef p_psi Ezx1 Ezx2 Ezy1 Ezy2 Hxy1 Hxy2 Hyx1 Hyx2].
  assert (A : nil222 (y1, y2, E1)).
  { revert H1. unfold pml_Hx. apply (for_up_pres nil222); [repeat split; assumption|]. pmlbody. unfold Hx_body in H. inv_ok. pmldone c c' c''. }
  assert (B : nil222 (x1, x2, E2)).
  { revert H2. unfold pml_Hy. apply (for_up_pres nil222); [repeat split; assumption|]. pmlbody. unfold Hy_body in H. inv_ok. pmldone c c' c''. }
  destruct A as (K1 & K2 & K3), B as (B1 & B2 & B3). cbn [fst snd] in *. repeat (split; [solve [auto 12]|]). reflexivity.
Qed.
End Step.

(** *** polarizations *)
Variable dt : T.
Hypothesis dvs_dt : dvs dt.
Hypothesis dvs_2dt : dvs (2 * dt)%num.
Definition quiet {M} (cm : M -> T -> Prop) (wt : T -> T) (_ : string) (x : M) (q : polar) : Prop :=
  pl_dt q = dt /\ cm x dt /\ (forall i j k, fin (wt (t3val (pl_c q) i j k))) /\ nil3 (pl_J q) /\ nil3 (pl_pJ q).
Definition q_debye := quiet (calm_debye fin) (fun c => c / dt)%num.
Definition q_drude := quiet (calm_drude fin) (fun c => c).
Definition q_lorentz := quiet (calm_lorentz fin) (fun c => c / (2 * dt))%num.
Definition nil23 (s : tensor * tensor3) : Prop := nil2 (fst s) /\ nil3 (snd s).
Definition nil233 (s : tensor * tensor3 * tensor3) : Prop := nil2 (fst (fst s)) /\ nil3 (snd (fst s)) /\ nil3 (snd s).
Ltac inlist H := let K := fresh in assert (K := H); apply lget_in in K.

Lemma debye_nil nm x q pe E q' E' : q_debye nm x q -> nil2 pe -> nil2 E -> debye_update x q pe E = Ok (q', E') -> q_debye nm x q' /\ nil2 E'.
Proof.
  intros (Hd & Hm & Hw & Hj & Hp) He HE H. unfold debye_update in H. rewrite Hd in H. apply bind_ok in H. destruct H as ([E1 J1] & H1 & H). injection H as <- <-.
  assert (A : nil23 (E1, J1)).
  { revert H1. do 2 (apply (for_up_pres nil23); [first [assumption | split; assumption]|intros ? ? ? _ ?]).
    apply (for_up_pres nil23); [assumption|]. intros k [c c'] [d d'] _ [Hc Hc'] Hb. cbn [fst snd] in *. unfold debye_body in Hb. rewrite Hd in Hb. inv_ok.
    match goal with K : lget _ _ = Ok ?v |- _ => apply lget_in in K; destruct Hm as [Hk Hbt]; rewrite Forall_forall in Hk; destruct (Hk _ K) as [F1 F2] end.
    cells. match goal with |- nil23 (tupd c ?i ?j ?v, _) => assert (Q : nil2 (tupd c i j v)) by (apply nil2_upd; [assumption|zero]) end.
    split; [exact Q|]. cbn [snd]. apply nil3_upd; [assumption|]. zero. apply Hw. }
  destruct A. split; [|assumption]. repeat split; try assumption; apply Hm.
Qed.
Lemma drude_nil nm x q pe E q' E' : q_drude nm x q -> nil2 pe -> nil2 E -> drude_update x q pe E = Ok (q', E') -> q_drude nm x q' /\ nil2 E'.
Proof.
  intros (Hd & Hm & Hw & Hj & Hp) He HE H. unfold drude_update in H. rewrite Hd in H. apply bind_ok in H. destruct H as ([E1 J1] & H1 & H). injection H as <- <-.
  assert (A : nil23 (E1, J1)).
  { revert H1. do 2 (apply (for_up_pres nil23); [first [assumption | split; assumption]|intros ? ? ? _ ?]).
    apply (for_up_pres nil23); [assumption|]. intros k [c c'] [d d'] _ [Hc Hc'] Hb. cbn [fst snd] in *. unfold drude_body in Hb. inv_ok.
    match goal with K : lget _ _ = Ok ?v |- _ => apply lget_in in K; destruct Hm as [Hk Hbt]; rewrite Forall_forall in Hk; destruct (Hk _ K) as [F1 F2] end.
    cells. match goal with |- nil23 (tupd c ?i ?j ?v, _) => assert (Q : nil2 (tupd c i j v)) by (apply nil2_upd; [assumption|zero]) end.
    split; [exact Q|]. cbn [snd]. apply nil3_upd; [assumption|]. zero. apply Hw. }
  destruct A. split; [|assumption]. repeat split; try assumption; apply Hm.
Qed.
Lemma lorentz_nil nm x q pe E q' E' : q_lorentz nm x q -> nil2 pe -> nil2 E -> lorentz_update x q pe E = Ok (q', E') -> q_lorentz nm x q' /\ nil2 E'.
Proof.
  intros (Hd & Hm & Hw & Hj & Hp) He HE H. unfold lorentz_update in H. rewrite Hd in H. apply bind_ok in H. destruct H as ([[E1 J1] K1] & H1 & H). injection H as <- <-.
  assert (A : nil233 (E1, J1, K1)).
  { revert H1. do 2 (apply (for_up_pres nil233); [first [assumption | split; [assumption|split; assumption]]|intros ? ? ? _ ?]).
    apply (for_up_pres nil233); [assumption|]. intros k [[c c'] c''] [[d d'] d''] _ (Hc & Hc' & Hc'') Hb. cbn [fst snd] in *. unfold lorentz_body in Hb. rewrite Hd in Hb. inv_ok.
    destruct Hm as (F1 & F2 & F3 & F4 & F5). rewrite Forall_forall in F3, F4.
    repeat match goal with K : lget (lorentz_alpha _ _) _ = Ok ?v |- _ => apply lget_in in K; destruct (F3 _ K) end.
    repeat match goal with K : lget (lorentz_beta _ _) _ = Ok ?v |- _ => apply lget_in in K; assert (fin v) by (apply F4; exact K) end.
    cells. match goal with |- nil233 (tupd c ?i ?j ?v, _, _) => assert (Q : nil2 (tupd c i j v)) by (apply nil2_upd; [assumption|zero]) end.
    split; [exact Q|]. split; cbn [fst snd]; (apply nil3_upd; [assumption|]); zero. apply Hw. }
  destruct A as (A1 & A2 & A3). split; [|assumption]. split; [exact Hd|]. split; [exact Hm|]. repeat split; assumption.
Qed.
Lemma polar_all_nil {M} (G : string -> M -> polar -> Prop) f prev :
  (forall nm x q pe E q' E', G nm x q -> nil2 pe -> nil2 E -> f x q pe E = Ok (q', E') -> G nm x q' /\ nil2 E') ->
  nilo prev -> forall P E P' E', all_entries G P -> nil2 E -> polar_all f prev E P = Ok (P', E') -> all_entries G P' /\ nil2 E'.
Proof.
  intros Hf Hp. induction P as [|[nm [x q]] P IH]; intros E P' E' HP HE H; cbn [polar_all] in H.
  - injection H as <- <-. auto.
  - apply bind_ok in H. destruct H as (pe & He & H). apply ofOption_ok in He. apply bind_ok in H. destruct H as ([q1 E1] & H1 & H).
    apply bind_ok in H. destruct H as ([r E2] & H2 & H). injection H as <- <-.
    destruct (Hf _ _ _ _ _ _ _ (HP _ _ _ (or_introl eq_refl)) (Hp _ He) HE H1) as [A B].
    destruct (IH E1 r E2) as [C D]; [intros ? ? ? K; apply (HP _ _ _ (or_intror K))|exact B|exact H2|].
    split; [|exact D]. intros nm' x' q' [K|K]; [injection K as <- <- <-; exact A|exact (C _ _ _ K)].
Qed.
Lemma insert_weights (wt : T -> T) q vals ins q' : Forall (fun v => fin (wt v)) vals -> (forall i j k, fin (wt (t3val (pl_c q) i j k))) ->
  insert_polar q vals ins = Ok q' -> (forall i j k, fin (wt (t3val (pl_c q') i j k))) /\ pl_dt q' = pl_dt q /\ pl_J q' = pl_J q /\ pl_pJ q' = pl_pJ q.
Proof.
  intros Hv Hc H. unfold insert_polar in H. apply bind_ok in H. destruct H as (c & H & K). injection K as <-. cbn [pl_c pl_dt pl_J pl_pJ with_c]. split; [|auto].
  set (W := fun c : tensor3 => forall i j k, fin (wt (t3val c i j k))). change (W c). change (W (pl_c q)) in Hc.
  revert H. apply (for_up_pres W); [exact Hc|]. intros i a1 a2 _ H1. apply (for_up_pres W); [exact H1|]. intros j a3 a4 _ H3.
  destruct (ins _); [|intros K; injection K as <-; exact H3]. apply (for_up_pres W); [exact H3|]. intros k a5 a6 _ H5 K. apply bind_ok in K. destruct K as (v & Kv & K). apply lget_in in Kv. apply t3set_inv in K. subst a6.
  refine (all3_upd (fun z => fin (wt z)) a5 i j k v H5 _). rewrite Forall_forall in Hv. now apply Hv.
Qed.
Section Maps.
Context {M : Type} (cm : M -> T -> Prop) (wt : T -> T) (np : M -> nat) (vals : M -> T -> list T).
Hypothesis wt0 : fin (wt 0%num).
Hypothesis cm_vals : forall x, cm x dt -> Forall (fun v => fin (wt v)) (vals x dt).
Variable g : grid.
Hypothesis gdt : g_dt g = dt.
Notation G := (quiet cm wt).
Lemma quiet_insert nm x q ins q' : G nm x q -> insert_polar q (vals x (g_dt g)) ins = Ok q' -> G nm x q'.
Proof.
  intros (A & B & C & D & E) H. rewrite gdt in H. apply (insert_weights wt) in H; [|now apply cm_vals|exact C]. destruct H as (H1 & H2 & H3 & H4).
  split; [congruence|]. split; [exact B|]. split; [exact H1|]. rewrite H3, H4. auto.
Qed.
Lemma quiet_add P nm m o P' : cm m dt -> all_entries G P -> add_polar np vals g P nm m o = Ok P' -> all_entries G P'.
Proof.
  intros Hm HP H. eapply add_polar_entries; [exact HP|exact H| |].
  - intros p p' Hp. apply quiet_insert. unfold mk_polar in Hp. apply bind_ok in Hp. destruct Hp as (z & Hz & Hp). injection Hp as <-.
    unfold t3const in Hz. destruct (_ && _); [|discriminate]. injection Hz as <-. split; [exact gdt|]. split; [exact Hm|]. split; [intros; exact wt0|]. split; intros i j k; exact nil0.
  - intros x p p' Hp. now apply quiet_insert.
Qed.
Lemma quiet_reinsert P nm o P' : all_entries G P -> reinsert_polar vals g P nm o = Ok P' -> all_entries G P'.
Proof. intros HP H. eapply reinsert_polar_entries; [exact HP|exact H|]. intros x p p' Hp. now apply quiet_insert. Qed.
Lemma quiet_reset P : all_entries G P -> all_entries G (map (fun '(n, (m, p)) => (n, (m, reset_polar p))) P).
Proof. intros HP. apply reset_entries; [exact HP|]. intros nm x q (A & B & _). split; [exact A|]. split; [exact B|]. split; [intros; exact wt0|]. split; intros i j k; exact nil0. Qed.
End Maps.

(** *** the whole state *)
Record still (p : phys) : Prop := Still {
  st_grid : g_dt (ph_grid p) = dt; st_srcs : ph_srcs p = []; st_tfsf : ph_tfsf p = None;
  st_bg : calm fin (ph_bg p) dt; st_objs : Forall (fun o => calm fin (m_kind (o_mat o)) dt) (ph_objs p);
  st_C : fin_coefs (ph_C p); st_pml : calm_pml fin dvs (ph_pml p) (ph_sc p);
  st_E : nil2 (fEz (ph_F p)); st_X : nil2 (fHx (ph_F p)); st_Y : nil2 (fHy (ph_F p)); st_psi : nil_psi nil (p_psi (ph_pml p));
  st_prev : nilo (ph_prevE p); st_prev2 : nilo (ph_prev2E p);
  st_debye : all_entries q_debye (ph_debye p); st_drude : all_entries q_drude (ph_drude p); st_lorentz : all_entries q_lorentz (ph_lorentz p) }.
Lemma w_debye : fin (0 / dt)%num. Proof. apply nil_fin, nil_div; auto. Qed.
Lemma w_lorentz : fin (0 / (2 * dt))%num. Proof. apply nil_fin, nil_div; auto. Qed.

Lemma paint_fin g o c c' : g_dt g = dt -> calm fin (m_kind (o_mat o)) dt -> fin_coefs c -> paint g o c = Ok c' -> fin_coefs c'.
Proof.
  intros Hg (K1 & K2 & K3 & K4 & _) Hc H. unfold paint in H. rewrite Hg in H. apply bind_ok in H. destruct H as (ib & _ & H). cbv zeta in H. revert H.
  apply for_up_pres; [exact Hc|]. intros i a1 a2 _ H1. apply for_up_pres; [exact H1|]. intros j a3 a4 _ (B1 & B2 & B3 & B4) H.
  destruct (obj_inside _ _); [|injection H as <-; repeat split; assumption]. inv_ok. cells. repeat split; cbn [cCa cCb cDa cDb]; apply fin2_upd; assumption.
Qed.
Lemma clear_fin g k c c' : g_dt g = dt -> calm fin k dt -> fin_coefs c -> clear_coefs g k c = Ok c' -> fin_coefs c'.
Proof.
  intros Hg (K1 & K2 & K3 & K4 & _) Hc H. unfold clear_coefs in H. rewrite Hg in H. cbv zeta in H. revert H.
  apply for_up_pres; [exact Hc|]. intros i a1 a2 _ H1. apply for_up_pres; [exact H1|]. intros j a3 a4 _ (B1 & B2 & B3 & B4) H.
  inv_ok. cells. repeat split; cbn [cCa cCb cDa cDb]; apply fin2_upd; assumption.
Qed.
Lemma still_paint o p p' : calm fin (m_kind (o_mat o)) dt -> still p -> paint_phys o p = Ok p' -> still p'.
Proof. intros Ho Hs H. unfold paint_phys in H. apply bind_ok in H. destruct H as (c & Hc & H). injection H as <-. destruct Hs. constructor; try assumption. cbn. now apply (paint_fin (ph_grid p) o (ph_C p)). Qed.
Lemma ensure_nil o E : nilo o -> nil2 E -> nilo (ensure o E).
Proof. intros H HE a. destruct o; cbn; intros K; injection K as <-; [now apply H|exact HE]. Qed.
Lemma still_insert o p p' : calm fin (m_kind (o_mat o)) dt -> still p -> insert_material o p = Ok p' -> still p'.
Proof.
  intros (_ & _ & _ & _ & Ho) Hs H. unfold insert_material in H. destruct (m_kind (o_mat o)) as [m|m|m|m]; [injection H as <-; exact Hs|..]; apply bind_ok in H; destruct H as (P & HP & H); injection H as <-; destruct Hs;
    constructor; cbn; try assumption; try (apply ensure_nil; assumption).
  - refine (quiet_add (calm_debye fin) _ np_debye debye_beta w_debye _ (ph_grid p) st_grid0 _ _ _ _ _ Ho st_debye0 HP). intros x Hx. apply Hx.
  - refine (quiet_add (calm_drude fin) _ np_drude drude_beta (nil_fin _ nil0) _ (ph_grid p) st_grid0 _ _ _ _ _ Ho st_drude0 HP). intros x Hx. apply Hx.
  - refine (quiet_add (calm_lorentz fin) _ np_lorentz lorentz_delta w_lorentz _ (ph_grid p) st_grid0 _ _ _ _ _ Ho st_lorentz0 HP). intros x Hx. apply Hx.
Qed.
Lemma still_reinsert o p p' : still p -> reinsert_material o p = Ok p' -> still p'.
Proof.
  intros Hs H. unfold reinsert_material in H. destruct (m_kind (o_mat o)) as [m|m|m|m]; [injection H as <-; exact Hs|..]; apply bind_ok in H; destruct H as (P & HP & H); injection H as <-; destruct Hs;
    constructor; cbn; try assumption.
  - refine (quiet_reinsert (calm_debye fin) _ debye_beta _ (ph_grid p) st_grid0 _ _ _ _ st_debye0 HP). intros x Hx. apply Hx.
  - refine (quiet_reinsert (calm_drude fin) _ drude_beta _ (ph_grid p) st_grid0 _ _ _ _ st_drude0 HP). intros x Hx. apply Hx.
  - refine (quiet_reinsert (calm_lorentz fin) _ lorentz_delta _ (ph_grid p) st_grid0 _ _ _ _ st_lorentz0 HP). intros x Hx. apply Hx.
Qed.
Lemma still_fold l : Forall (fun o => calm fin (m_kind (o_mat o)) dt) l -> forall p p', still p -> foldM repaint_one p l = Ok p' -> still p'.
Proof.
  induction 1 as [|o l Ho Hl IH]; intros p p' Hs H; cbn [foldM] in H; [injection H as <-; exact Hs|]. apply bind_ok in H. destruct H as (q & H1 & H). unfold repaint_one in H1.
  apply bind_ok in H1. destruct H1 as (r & H0 & H1). exact (IH _ _ (still_reinsert _ _ _ (still_paint _ _ _ Ho Hs H0) H1) H).
Qed.
Lemma still_first p p' : still p -> phys_first p = Fine p' -> still p'.
Proof.
  intros Hs H. unfold phys_first in H. apply prim_fine in H. destruct H as (p1 & H1 & H). unfold step_clock in H1. apply bind_ok in H1. destruct H1 as (n & _ & H1). injection H1 as <-.
  set (a := set_ph_t _ _) in H. assert (Ha : still a) by (destruct Hs; constructor; assumption). clearbody a. clear p Hs n.
  assert (Hp : still (step_prev a)).
  { unfold step_prev. destruct Ha. destruct (ph_prev2E a) eqn:E2; cbn; destruct (ph_prevE a) eqn:E1; cbn; constructor; cbn; try assumption; try congruence; rewrite ?E1, ?E2;
      try (intros z K; injection K as <-; assumption); try (intros z K; discriminate); try (rewrite E1 in *; assumption); try (rewrite E2 in *; assumption). }
  apply prim_fine in H. destruct H as (p2 & H2 & H). unfold step_E in H2. apply bind_ok in H2. destruct H2 as (E & HE & H2). injection H2 as <-.
  set (r := set_E _ _) in H. assert (Hr : still r).
  { destruct Hp. constructor; try assumption. cbn. eapply (E_loop_nil _ _ _ st_C0 st_pml0); [exact st_X0|exact st_Y0|exact st_E0|exact HE]. }
  clearbody r. clear a Ha Hp E HE.
  apply prim_fine in H. destruct H as (p3 & H3 & H). unfold step_pmlE in H3. apply bind_ok in H3. destruct H3 as ([b E] & HE & H3). injection H3 as <-.
  match type of H with context [step_polar ?z] => set (u := z) in H end. assert (Hu : still u).
  { destruct Hr. apply (pmlE_nil _ _ _ st_C0 st_pml0) in HE; try assumption. destruct HE as (A & B & C & D). constructor; cbn; try assumption. unfold calm_pml. rewrite C, D. exact st_pml0. }
  clearbody u. clear r Hr b E HE.
  apply prim_fine in H. destruct H as (p4 & H4 & H). unfold step_polar in H4. apply bind_ok in H4. destruct H4 as ([P1 E1] & L1 & H4). apply bind_ok in H4. destruct H4 as ([P2 E2] & L2 & H4).
  apply bind_ok in H4. destruct H4 as ([P3 E3] & L3 & H4). injection H4 as <-. cbn in L2, L3. 
  match type of H with context [step_tfsfD ?z] => set (w := z) in H end. assert (Hw : still w).
  { destruct Hu. apply (polar_all_nil q_debye debye_update) in L1; [|exact debye_nil|assumption..]. destruct L1 as [A1 B1].
    apply (polar_all_nil q_drude drude_update) in L2; [|exact drude_nil|assumption..]. destruct L2 as [A2 B2].
    apply (polar_all_nil q_lorentz lorentz_update) in L3; [|exact lorentz_nil|assumption..]. destruct L3 as [A3 B3]. constructor; cbn; assumption. }
  clearbody w. clear u Hu P1 P2 P3 E1 E2 E3 L1 L2 L3.
  apply prim_fine in H. destruct H as (p5 & H5 & H). unfold step_tfsfD in H5. rewrite (st_tfsf _ Hw) in H5. injection H5 as <-.
  unfold step_sources in H. rewrite (st_srcs _ Hw) in H. cbn [length oloop] in H. injection H as <-. exact Hw.
Qed.
Lemma still_second p p' : still p -> phys_second p = Fine p' -> still p'.
Proof.
  intros Hs H. unfold phys_second in H. apply prim_fine in H. destruct H as (p1 & H1 & H). unfold step_tfsf_pulse in H1. rewrite (st_tfsf _ Hs) in H1. injection H1 as <-.
  apply prim_fine in H. destruct H as (p2 & H2 & H). unfold step_H in H2. apply bind_ok in H2. destruct H2 as ([X Y] & HH & H2). injection H2 as <-.
  set (r := set_H _ _ _) in H. assert (Hr : still r).
  { destruct Hs. apply (H_loop_nil _ _ _ st_C0 st_pml0) in HH; try assumption. destruct HH. constructor; cbn; assumption. }
  clearbody r. clear p Hs X Y HH.
  apply prim_fine in H. destruct H as (p3 & H3 & H). unfold step_pmlH in H3. apply bind_ok in H3. destruct H3 as ([[b X] Y] & HE & H3). injection H3 as <-.
  match type of H with context [step_tfsfH ?z] => set (u := z) in H end. assert (Hu : still u).
  { destruct Hr. apply (pmlH_nil _ _ _ st_C0 st_pml0) in HE; try assumption. destruct HE as (A1 & A2 & B & C & D). constructor; cbn; try assumption. unfold calm_pml. rewrite C, D. exact st_pml0. }
  clearbody u. clear r Hr b X Y HE.
  apply prim_fine in H. destruct H as (p4 & H4 & H). unfold step_tfsfH in H4. rewrite (st_tfsf _ Hu) in H4. injection H4 as <-. injection H as <-. exact Hu.
Qed.
Lemma upd_objs (h : obj -> obj) l i o : (forall o, o_mat (h o) = o_mat o) -> Forall (fun o => calm fin (m_kind (o_mat o)) dt) l -> nth_error l i = Some o ->
  Forall (fun o => calm fin (m_kind (o_mat o)) dt) (upd_nth i (h o) l).
Proof.
  intros Hh H. revert i. induction H as [|a l Ha Hl IH]; intros [|i] E; cbn in *; try discriminate; constructor; auto. injection E as ->. now rewrite Hh.
Qed.
Lemma still_on_obj i h p : (forall o, o_mat (h o) = o_mat o) -> still p -> still (phys_on_obj i h p).
Proof.
  intros Hh Hs. unfold phys_on_obj. destruct (nth_error (ph_objs p) i) as [o|] eqn:E; [|exact Hs]. destruct (o_dyn o); [|exact Hs].
  destruct Hs. constructor; try assumption. cbn. now apply upd_objs.
Qed.
Lemma still_exec c p p' : unlit_cmd fin dt c -> still p -> phys_exec c p = Fine p' -> still p'.
Proof.
  intros Hc Hs. destruct c; cbn [phys_exec unlit_cmd] in *; intros H; try contradiction; repeat match goal with H : ok_out _ _ = Fine _ |- _ => apply ok_out_fine in H end;
    repeat match goal with H : Fine _ = Fine _ |- _ => injection H as <- end; try exact Hs; try (apply still_on_obj; [reflexivity|exact Hs]).
  - rewrite phys_step_halves in H. apply obind_fine in H. destruct H as (q & H1 & H). exact (still_second _ _ (still_first _ _ Hs H1) H).
  - unfold update_material_grid in H. apply bind_ok in H. destruct H as (c & Hc' & H). refine (still_fold _ (st_objs _ Hs) _ _ _ H). destruct Hs. constructor; try assumption. cbn. now apply (clear_fin (ph_grid p) (ph_bg p) (ph_C p)).
  - unfold phys_add_object in H. apply bind_ok in H. destruct H as (a & H1 & H). apply bind_ok in H. destruct H as (b & H2 & H). injection H as <-.
    assert (Hb := still_insert _ _ _ Hc (still_paint _ _ _ Hc Hs H1) H2). destruct Hb. constructor; try assumption. cbn. apply Forall_app. auto.
  - unfold clear_fields_phys. destruct Hs. constructor; cbn; try assumption; try (intros i j; exact nil0).
    + now rewrite st_tfsf0.
    + apply (quiet_reset _ _ w_debye), st_debye0.
    + apply (quiet_reset _ _ (nil_fin _ nil0)), st_drude0.
    + apply (quiet_reset _ _ w_lorentz), st_lorentz0.
  - unfold phys_clear_materials in H. apply bind_ok in H. destruct H as (c & Hc' & H). injection H as <-. destruct Hs. constructor; try assumption. cbn. now apply (clear_fin (ph_grid p) (ph_bg p) (ph_C p)).
Qed.
Lemma still_run l : Forall (unlit_cmd fin dt) l -> forall p p', still p -> phys_run l p = Fine p' -> still p'.
Proof.
  induction 1 as [|c l Hc Hl IH]; intros p p' Hs H; cbn [phys_run] in H; [injection H as <-; exact Hs|]. apply obind_fine in H. destruct H as (q & H1 & H). exact (IH _ _ (still_exec _ _ _ Hc Hs H1) H).
Qed.
Lemma still_start g name s0 : mk_field g name = Ok s0 -> g_dt g = dt -> calm fin vacuum dt -> calm_pml fin dvs (ph_pml (f_ph s0)) (ph_sc (f_ph s0)) -> still (f_ph s0).
Proof.
  intros H Hg Hv Hp. unfold mk_field in H. apply bind_ok in H. destruct H as (p & Ep & H).
  assert (E : f_ph s0 = p). { destruct (String.eqb name ""); [discriminate|]. apply bind_ok in H. destruct H as (? & _ & H). apply bind_ok in H. destruct H as (? & _ & H). injection H as <-. reflexivity. }
  rewrite E in *. clear H E. unfold mk_phys in Ep. apply bind_ok in Ep. destruct Ep as (z & Hz & Ep). apply bind_ok in Ep. destruct Ep as (c & Hc & Ep).
  apply bind_ok in Ep. destruct Ep as (b & Eb & Ep). apply bind_ok in Ep. destruct Ep as (sc & _ & Ep). injection Ep as <-. cbn in Hp.
  assert (Z : forall n m a, tconst n m 0%num = Ok a -> nil2 a). { unfold tconst. intros n m a K. destruct (_ && _); [|discriminate]. injection K as <-. intros i j. exact nil0. }
  assert (Hz2 := Z _ _ _ Hz). constructor; cbn; auto; try (intros ? K; discriminate); try (intros ? ? ? []).
  - apply (clear_fin g vacuum _ c Hg Hv) in Hc; [exact Hc|]. repeat split; intros i j; apply nil_fin, Hz2.
  - unfold mk_pml in Eb. apply bind_ok in Eb. destruct Eb as (cf & _ & Eb). apply bind_ok in Eb. destruct Eb as (s & Es & Eb). injection Eb as <-. cbn [p_psi].
    unfold mk_pml_psi in Es. apply bind_ok in Es. destruct Es as (zx & Hx & Es). apply bind_ok in Es. destruct Es as (zy & Hy & Es). injection Es as <-.
    assert (A := Z _ _ _ Hx). assert (B := Z _ _ _ Hy). repeat split; assumption.
Qed.
Lemma still_dark p : still p -> all_dark nil p.
Proof.
  intros []. assert (Q : forall (M : Type) (cm : M -> T -> Prop) wt (P : list (string * (M * polar))), all_entries (quiet cm wt) P -> nilP nil P).
  { intros M cm wt P HP nm x q K. destruct (HP nm x q K) as (_ & _ & _ & A & B). auto. }
  unfold all_dark. do 8 (split; [first [assumption | eapply Q; eassumption]|]). eapply Q. exact st_lorentz0.
Qed.
End Laws.

Theorem dark_run {N : Num} (nil fin dvs : T -> Prop) : nil 0%num -> (forall a, nil a -> fin a) ->
  (forall a b, nil a -> nil b -> nil (a + b)%num) -> (forall a b, nil a -> nil b -> nil (a - b)%num) ->
  (forall a b, fin a -> nil b -> nil (a * b)%num) -> (forall a b, nil a -> dvs b -> nil (a / b)%num) ->
  forall g name s0 l s, mk_field g name = Ok s0 -> calm_start fin dvs g s0 -> Forall (unlit_cmd fin (g_dt g)) l -> run l s0 = Fine s -> all_dark nil (f_ph s).
Proof.
  intros L0 L1 L2 L3 L4 L5 g name s0 l s H0 (D1 & D2 & Hv & Hp) Hl H. apply run_phys in H.
  eapply (still_dark nil fin dvs (g_dt g)). eapply (still_run nil fin dvs L0 L1 L2 L3 L4 L5 (g_dt g) D1 D2 l Hl); [|exact H].
  now apply (still_start nil fin dvs L0 L1 (g_dt g) D1 D2 g name).
Qed.

(** double *)
Lemma zero64_add a b : zero64 a -> zero64 b -> zero64 (f64_add a b).
Proof. destruct a, b; try contradiction. intros _ _. unfold f64_add, Bplus. destruct (Bool.eqb _ _); exact Logic.I. Qed.
Lemma zero64_sub a b : zero64 a -> zero64 b -> zero64 (f64_sub a b).
Proof. destruct a as [[]| | |], b as [[]| | |]; try contradiction; intros _ _; exact Logic.I. Qed.
Lemma zero64_mul a b : finite64 a -> zero64 b -> zero64 (f64_mul a b).
Proof. unfold finite64. destruct a, b; try contradiction; try discriminate; intros _ _; exact Logic.I. Qed.
Lemma zero64_div a b : zero64 a -> divisor64 b -> zero64 (f64_div a b).
Proof. destruct a, b; try contradiction; intros _ _; exact Logic.I. Qed.
Theorem dark64 (L : libm) g name s0 l s : @mk_field (B64 L) g name = Ok s0 -> @calm_start (B64 L) finite64 divisor64 g s0 ->
  Forall (@unlit_cmd (B64 L) finite64 (@g_dt (B64 L) g)) l -> @run (B64 L) l s0 = Fine s -> @all_dark (B64 L) zero64 (@f_ph (B64 L) s).
Proof.
  apply (@dark_run (B64 L)).
  - exact Logic.I.
  - intros a. destruct a; try contradiction. intros _. reflexivity.
  - exact zero64_add.
  - exact zero64_sub.
  - exact zero64_mul.
  - exact zero64_div.
Qed.
