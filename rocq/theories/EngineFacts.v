(** The grid, the PML coefficients and the stretched cell sizes never change after
    construction; their values. *)
From Coq Require Import ZArith String List Bool Lia.
From Verif Require Import Scalar Base BaseFacts VecM GridM GeometryM MaterialM PmlM DftM TfsfM PolarM
  InterpM H5M ClockM MonitorM FieldM OutFacts PhysFacts WfFacts ReachFacts InvFacts.
Import ListNotations.
Local Open Scope Z_scope.

Section Engine.
Context {N : Num}.

Definition engine (p : phys) := (ph_grid p, ph_bg p, p_par (ph_pml p), p_coef (ph_pml p), ph_sc p).
Lemma static_engine p q : static p = static q -> engine p = engine q.
Proof. intros H. apply static_eq in H. destruct H as (E0 & _ & _ & E3 & E1 & E2 & E4). unfold engine. now rewrite E0, E3, E1, E2, E4. Qed.

Lemma engine_keeps e : keeps (fun p => engine p = e).
Proof.
  constructor; intros; try (etransitivity; [|eassumption]).
  - now apply static_engine, step_clock_static.
  - apply static_engine, step_prev_static.
  - now apply static_engine, step_E_static.
  - now apply static_engine, step_pmlE_static.
  - now apply static_engine, step_polar_static.
  - now apply static_engine, step_tfsfD_static.
  - reflexivity.
  - reflexivity.
  - now apply static_engine, step_tfsf_pulse_static.
  - now apply static_engine, step_H_static.
  - now apply static_engine, step_pmlH_static.
  - now apply static_engine, step_tfsfH_static.
  - unfold paint_phys in *. inv_ok. reflexivity.
  - unfold insert_material in *. destruct (m_kind (o_mat o)); inv_ok; reflexivity.
  - unfold reinsert_material in *. destruct (m_kind (o_mat o)); inv_ok; reflexivity.
  - reflexivity.
  - reflexivity.
  - reflexivity.
  - reflexivity.
Qed.

(** what construction puts there *)
Lemma reachable_engine g s : reachable g s ->
  exists c sc, mk_pml_coef (mk_pml_par g) = Ok c /\ set_scaling (mk_pml_par g) = Ok sc /\
    engine (f_ph s) = (g, vacuum, mk_pml_par g, c, sc).
Proof.
  intros H. assert (H1 := H). destruct H1 as (name & s0 & l & E0 & _). unfold mk_field in E0. inv_ok.
  unfold mk_phys in Hr. inv_ok. unfold mk_pml in *. inv_ok. cbn [p_par] in *.
  eexists; eexists. split; [eassumption|]. split; [eassumption|].
  refine (reachable_inv _ (engine_keeps _) g s _ H). intros p Hp.
  unfold mk_phys, mk_pml in Hp. inv_ok. cbn [p_par p_coef] in *.
  unfold engine. cbn. clear E0.
  repeat match goal with H : ?x = Ok ?a, H' : ?x = Ok ?b |- _ => rewrite H in H'; injection H' as -> end. reflexivity.
Qed.

(** ** Values of the PML coefficients *)
Definition coef_at (p : pml_par) (c : pml_coef) (i : Z) : Prop :=
  let t := nofZ i in let h := (nofZ i + half)%num in
  (aval (be_x c) i = b_func p t /\ aval (ce_x c) i = c_func p t /\
   aval (be_y c) i = b_func p t /\ aval (ce_y c) i = c_func p t) /\
  (aval (bh_x c) i = b_func p h /\ aval (ch_x c) i = c_func p h /\
   aval (bh_y c) i = b_func p h /\ aval (ch_y c) i = c_func p h).

Lemma mk_pml_coef_val p c : 0 <= p_th p -> mk_pml_coef p = Ok c ->
  forall i, 0 <= i <= p_th p -> coef_at p c i.
Proof.
  unfold mk_pml_coef. intros Hth H. inv_ok.
  intros i Hi. revert i Hi.
  enough (A : forall i, 0 <= i < p_th p + 1 -> coef_at p c i) by (intros; apply A; lia).
  refine (for_up_post (fun k c => forall i, 0 <= i < k -> coef_at p c i) _ _ _ _ _ _ _ _ H); [lia|intros; lia|].
  intros k a b Hk Ha Hb i Hi. unfold coef_step in Hb. inv_ok.
  unfold aset in *. repeat match goal with H : (if ?b then _ else _) = Ok _ |- _ => destruct b; inversion H; clear H; subst end.
  unfold coef_at. cbn. destruct (Z.eqb_spec i k) as [->|Hne]; [repeat split|].
  apply Ha. lia.
Qed.

Definition sc_lo (p : pml_par) (ke kh : arr) (i : Z) : Prop :=
  aval ke i = (k_func p (nofZ i) * p_dx p)%num /\ aval kh i = (k_func p (nofZ i + half) * p_dx p)%num.
Definition sc_hi (p : pml_par) (n : Z) (ke kh : arr) (i : Z) : Prop :=
  aval ke (n - 1 - i) = (k_func p (nofZ i) * p_dx p)%num /\
  aval kh (n - 1 - i) = (k_func p (nofZ i - half) * p_dx p)%num.
Definition sc_at (p : pml_par) (s : scaling) (k : Z) : Prop :=
  (forall i, 0 <= i < k -> (sc_lo p (kedx s) (khdx s) i /\ sc_hi p (p_Nx p) (kedx s) (khdx s) i) /\
                           (sc_lo p (kedy s) (khdy s) i /\ sc_hi p (p_Ny p) (kedy s) (khdy s) i)) /\
  (forall i, k <= i <= p_Nx p - 1 - k -> aval (kedx s) i = (p_dx p * 1)%num /\ aval (khdx s) i = (p_dx p * 1)%num) /\
  (forall i, k <= i <= p_Ny p - 1 - k -> aval (kedy s) i = (p_dx p * 1)%num /\ aval (khdy s) i = (p_dx p * 1)%num).

Lemma set_scaling_val p s : 0 <= p_th p -> 2 * p_th p < p_Nx p + 1 -> 2 * p_th p < p_Ny p + 1 ->
  set_scaling p = Ok s -> sc_at p s (p_th p).
Proof.
  unfold set_scaling. intros Hth Hx Hy H. inv_ok.
  unfold aconst in *. repeat match goal with H : (if ?b then _ else _) = Ok _ |- _ => destruct b; inversion H; clear H; subst end.
  refine (for_up_post (fun k c => sc_at p c k) _ _ _ _ _ _ _ _ H); [lia| |].
  - repeat split; intros; lia.
  - intros k a b Hk (A1 & A2 & A3) Hb. unfold scaling_step in Hb. inv_ok.
    unfold aset in *. repeat match goal with H : (if ?b then _ else _) = Ok _ |- _ => destruct b; inversion H; clear H; subst end.
    unfold sc_at. split; [|split].
    + intros i Hi. unfold sc_lo, sc_hi in *. cbn. destruct (Z.eq_dec i k) as [->|Hne].
      * repeat match goal with |- context [Z.eqb ?a ?b] => destruct (Z.eqb_spec a b); try lia end. repeat split.
      * repeat match goal with |- context [Z.eqb ?a ?b] => destruct (Z.eqb_spec a b); try lia end. apply A1. lia.
    + intros i Hi. cbn.
      repeat match goal with |- context [Z.eqb ?a ?b] => destruct (Z.eqb_spec a b); try lia end. apply A2. lia.
    + intros i Hi. cbn.
      repeat match goal with |- context [Z.eqb ?a ?b] => destruct (Z.eqb_spec a b); try lia end. apply A3. lia.
Qed.

End Engine.
