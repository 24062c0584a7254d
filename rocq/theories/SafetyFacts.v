(** Small grids: the loops of the absorbing layer leave the arrays. *)
From Coq Require Import ZArith String List Bool Lia.
From Verif Require Import Scalar Base BaseFacts VecM GridM GeometryM MaterialM PmlM DftM TfsfM PolarM
  InterpM H5M ClockM MonitorM FieldM OutFacts PhysFacts PaintFacts WfFacts ReachFacts.
Import ListNotations.
Local Open Scope Z_scope.

(** a loop that reaches a bad index *)
Lemma for_n_ub {A} (P : A -> Prop) (body : Z -> A -> res A) u n : forall lo a i0,
  lo <= i0 < lo + Z.of_nat n -> P a ->
  (forall i a, lo <= i < i0 -> P a -> exists a', body i a = Ok a' /\ P a') ->
  (forall a, P a -> body i0 a = UB u) -> for_n lo n body a = UB u.
Proof.
  induction n as [|n IH]; intros lo a i0 Hi Ha Hs Hu; [lia|]. cbn [for_n].
  destruct (Z.eq_dec lo i0) as [->|Hne]; [now rewrite Hu|].
  destruct (Hs lo a) as [a' [-> Ha']]; [lia|exact Ha|]. cbn [bind].
  apply (IH (lo + 1) a' i0); auto; [lia|]. intros i b Hb. apply Hs. lia.
Qed.
Lemma for_up_ub {A} (P : A -> Prop) (body : Z -> A -> res A) u lo hi a i0 :
  lo <= i0 < hi -> P a ->
  (forall i a, lo <= i < i0 -> P a -> exists a', body i a = Ok a' /\ P a') ->
  (forall a, P a -> body i0 a = UB u) -> for_up lo hi body a = UB u.
Proof. intros Hi. unfold for_up. apply for_n_ub. lia. Qed.

Section Small.
Context {N : Num}.

Ltac acc :=
  repeat (first
    [ erewrite aget_len by (eassumption || lia)
    | erewrite tget_dims by (eassumption || (eapply tdims_tupd; eassumption) || lia)
    | erewrite tset_dims by (eassumption || (eapply tdims_tupd; eassumption) || lia) ]; cbn [bind]).

Lemma mk_pml_coef_small p : 0 <= p_Nx p -> 0 <= p_Ny p -> p_Nx p <= p_th p \/ p_Ny p <= p_th p ->
  mk_pml_coef p = UB OutOfBounds.
Proof.
  intros Hx Hy Hs. unfold mk_pml_coef. rewrite !aconst_ok by lia. cbn [bind].
  apply (for_up_ub (fun c => coef_dims (p_Nx p) (p_Ny p) c) _ _ _ _ _ (Z.min (p_Nx p) (p_Ny p))); [lia|repeat split| |].
  - intros i c Hi ((A1 & A2 & A3 & A4) & (B1 & B2 & B3 & B4)). unfold coef_step.
    rewrite !aset_ok by lia. cbn [bind]. eexists. split; [reflexivity|]. repeat split; cbn; assumption.
  - intros c ((A1 & A2 & A3 & A4) & (B1 & B2 & B3 & B4)). unfold coef_step.
    set (i := Z.min (p_Nx p) (p_Ny p)) in *.
    destruct (Z.lt_ge_cases i (p_Nx p)) as [Hlt|Hge].
    + rewrite !aset_ok by lia. cbn [bind]. unfold aset at 1.
      replace (inr (alen (be_y c)) i) with false by (symmetry; apply inr_false; lia). reflexivity.
    + unfold aset at 1. replace (inr (alen (be_x c)) i) with false by (symmetry; apply inr_false; lia). reflexivity.
Qed.

Lemma mk_phys_small g : 0 <= g_Nx g -> 0 <= g_Ny g -> g_Nx g <= g_pml g \/ g_Ny g <= g_pml g ->
  mk_phys g = UB OutOfBounds.
Proof.
  intros Hx Hy Hs. unfold mk_phys. rewrite tconst_ok by lia. cbn [bind].
  set (z := Tensor (g_Nx g) (g_Ny g) (fun _ _ => 0%num)).
  destruct (clear_coefs_total g vacuum (Coefs z z z z)) as [c [Ec Hc]]; [repeat split|]. rewrite Ec. cbn [bind].
  unfold mk_pml. rewrite mk_pml_coef_small by (cbn; lia). reflexivity.
Qed.

(** one cell short: the first update leaves the arrays *)
Lemma pml_E_small p : wf_phys p -> 1 <= g_pml (ph_grid p) -> snug (ph_grid p) ->
  g_Nx (ph_grid p) = g_pml (ph_grid p) + 1 \/ g_Ny (ph_grid p) = g_pml (ph_grid p) + 1 ->
  ~ (g_Nx (ph_grid p) = 2 /\ g_Ny (ph_grid p) = 2) ->
  step_pmlE p = UB OutOfBounds.
Proof.
  intros Hwf H1 (_ & Hx & Hy) Hs Hn22. unfold step_pmlE, pml_update_E.
  destruct (wf_F p Hwf) as (F1 & F2 & F3). destruct (wf_C p Hwf) as (C1 & C2 & C3 & C4).
  destruct (wf_coef p Hwf) as ((A1 & A2 & A3 & A4) & (B1 & B2 & B3 & B4)).
  destruct (wf_psi p Hwf) as ((P1 & P2 & P3 & P4) & (Q1 & Q2 & Q3 & Q4)).
  rewrite (wf_par p Hwf). unfold pml_Ey. cbn [p_Nx p_Ny p_th mk_pml_par].
  set (n := g_Nx (ph_grid p)) in *. set (m := g_Ny (ph_grid p)) in *. set (th := g_pml (ph_grid p)) in *.
  set (D := fun n1 m1 (s : tensor * tensor * tensor) => tdims n1 m1 (fst (fst s)) /\ tdims n1 m1 (snd (fst s)) /\ tdims n m (snd s)).
  assert (Hey : forall i j s, 1 <= i < n - 1 -> 1 <= j < th + 1 -> j <= m - 2 -> D n (th + 1) s ->
    exists s', Ey_body (mk_pml_par (ph_grid p)) (p_coef (ph_pml p)) (cCb (ph_C p)) (fHx (ph_F p)) i j s = Ok s' /\ D n (th + 1) s').
  { intros i j [[s1 s2] E] Hi Hj Hm (D1 & D2 & D3). cbn [fst snd] in D1, D2, D3. unfold Ey_body.
    cbn [p_Nx p_Ny mk_pml_par]. fold n m. acc. eexists; split; [reflexivity|]. repeat split; apply D1 || apply D2 || apply D3. }
  assert (HD0 : D n (th + 1) (Ezy1 (p_psi (ph_pml p)), Ezy2 (p_psi (ph_pml p)), fEz (ph_F p))).
  { repeat split; apply P3 || apply P4 || apply F1. }
  destruct (Z.eq_dec m (th + 1)) as [Em|Em].
  - rewrite (for_up_ub (D n (th + 1)) _ OutOfBounds _ _ _ 1); [reflexivity|lia|exact HD0|intros; lia|].
    intros s Hs'. apply (for_up_ub (D n (th + 1)) _ OutOfBounds _ _ _ th); [lia|exact Hs'| |].
    + intros j a Hj Ha. apply Hey; auto; lia.
    + intros [[s1 s2] E] (D1 & D2 & D3). cbn [fst snd] in D1, D2, D3. unfold Ey_body.
      cbn [p_Nx p_Ny mk_pml_par]. fold n m. acc. rewrite tget_oob; [reflexivity|]. destruct F2. lia.
  - assert (Hsn : n = th + 1) by lia. clear Hs.
    destruct (for2_total (D n (th + 1)) (fun i j s => Ey_body (mk_pml_par (ph_grid p)) (p_coef (ph_pml p)) (cCb (ph_C p)) (fHx (ph_F p)) i j s)
      1 (n - 1) 1 (th + 1) _ HD0) as [[[y1 y2] E1] [-> (D1 & D2 & D3)]]; [intros; apply Hey; auto; lia|].
    cbn [bind fst snd] in *. unfold pml_Ex. cbn [p_Nx p_Ny p_th mk_pml_par]. fold n m th.
    rewrite (for_up_ub (D (th + 1) m) _ OutOfBounds _ _ _ th); [reflexivity|lia| | |].
    + repeat split; apply P1 || apply P2 || apply D3.
    + intros i s Hi Hs'. apply for_up_total; [exact Hs'|]. intros j [[s1 s2] E] Hj (D4 & D5 & D6).
      cbn [fst snd] in D4, D5, D6. unfold Ex_body.
      cbn [p_Nx p_Ny mk_pml_par]. fold n m. acc. eexists; split; [reflexivity|]. repeat split; apply D4 || apply D5 || apply D6.
    + intros s Hs'. apply (for_up_ub (D (th + 1) m) _ OutOfBounds _ _ _ 1); [lia|exact Hs'|intros; lia|].
      intros [[s1 s2] E] (D4 & D5 & D6). cbn [fst snd] in D4, D5, D6. unfold Ex_body.
      cbn [p_Nx p_Ny mk_pml_par]. fold n m. acc. rewrite tget_oob; [reflexivity|]. destruct F3. lia.
Qed.

Lemma small_grid_undefined g name : name <> ""%string -> 1 <= g_pml g -> 0 <= g_Nx g -> 0 <= g_Ny g ->
  g_Nx g < g_pml g + 2 \/ g_Ny g < g_pml g + 2 -> ~ (g_Nx g = 2 /\ g_Ny g = 2) ->
  match mk_field g name with
  | Ok s => update s = Undef OutOfBounds
  | Throw _ => False
  | UB u => u = OutOfBounds
  end.
Proof.
  intros Hname Hth Hx Hy Hs Hn. unfold mk_field.
  destruct (Z.le_gt_cases (g_Nx g) (g_pml g)) as [Hx'|Hx'].
  { now rewrite mk_phys_small by auto. }
  destruct (Z.le_gt_cases (g_Ny g) (g_pml g)) as [Hy'|Hy'].
  { now rewrite mk_phys_small by auto. }
  destruct (mk_phys_snug g) as (p & -> & Hw & Eg & Es & Et & Eo & E0); [unfold snug; lia|]. cbn [bind].
  replace (String.eqb name "") with false by (symmetry; now apply String.eqb_neq).
  cbn. unfold update, on_ph, step_clock. cbn [f_ph]. rewrite E0, Eg. cbn [prim bind i32 in_i32 obind set_f_ph f_ph f_clk start clock_start].
  unfold start. cbn. set (p1 := set_ph_t _ _).
  assert (Hw1 : wf_phys p1) by (unfold p1; wfcon Hw).
  assert (Hw2 := step_prev_wf p1 Hw1). assert (Eg2 : ph_grid (step_prev p1) = g).
  { assert (H := step_prev_static p1). apply static_eq in H. destruct H as (-> & _). exact Eg. }
  unfold step_E at 1. destruct (E_loop_total (step_prev p1) Hw2) as [E [-> HE]]. cbn.
  rewrite (pml_E_small (set_E E (step_prev p1))); [reflexivity| | | | |]; cbn; rewrite ?Eg2; auto.
  - now apply set_E_wf.
  - unfold snug. lia.
  - lia.
Qed.

End Small.
