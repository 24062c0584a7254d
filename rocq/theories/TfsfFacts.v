(** The total-field region: one plane wave inside, nothing outside. *)
From Coq Require Import ZArith Reals String List Bool Lia Lra.
From Verif Require Import Scalar Base BaseFacts VecM GridM GeometryM MaterialM PmlM DftM TfsfM PolarM
  InterpM H5M ClockM MonitorM FieldM SpecGrid GridFacts OutFacts PhysFacts PaintFacts WfFacts ReachFacts InvFacts
  SpecStep StepFacts EngineFacts YeeFacts SpecSource SourceFacts PolarFacts FullStep TextbookFacts SpecWave DarkFacts SpecTfsf.
Import ListNotations.
Local Open Scope Z_scope.
#[local] Existing Instance RNum.

(** ** The incident line *)
Record line_ok (f : R -> R) (dt : R) (q : tfsf) (now before : wave) (n : nat) : Prop := LineOk {
  lo_N : 5 <= q_N q;
  lo_len : alen (q_E q) = q_N q /\ alen (q_D q) = q_N q /\ alen (q_H q) = q_N q /\ alen (q_I q) = q_N q;
  lo_f : forall t, shape_val (tp_shape (q_tp q)) t = f t;
  lo_dt : q_dt q = dt; lo_t : q_t q = (INR n * dt)%R;
  lo_E : forall k, 0 <= k < q_N q -> aval (q_E q) k = wE now k;
  lo_H : forall k, 0 <= k < q_N q - 1 -> aval (q_H q) k = wH now k;
  lo_D : forall k, 2 <= k <= q_N q - 2 -> aval (q_D q) k = wE now k;
  lo_I : forall k, aval (q_I q) k = 0%R;
  lo_ca : forall k, aval (q_ca q) k = 1%R; lo_cb : forall k, aval (q_cb q) k = 0%R;
  lo_l0 : q_l0 q = wE now 1; lo_l1 : q_l1 q = wE before 1;
  lo_r0 : q_r0 q = wE now (q_N q - 2); lo_r1 : q_r1 q = wE before (q_N q - 2) }.

Lemma aset_inv a i v b : aset a i v = Ok b -> 0 <= i < alen a /\ alen b = alen a /\ forall k, aval b k = if k =? i then v else aval a k.
Proof. unfold aset. intros H. destruct (inr (alen a) i) eqn:E; inv_ok. apply inr_true in E. auto. Qed.
Ltac arrs := repeat match goal with
  | H : aget _ _ = Ok _ |- _ => apply aget_inv in H; destruct H as [-> H]
  | H : aset _ _ _ = Ok _ |- _ => apply aset_inv in H; destruct H as (? & ? & ?)
  end.

Lemma pulseE_loop H ca cb n D E J D' E' J' : (forall k, aval ca k = 1%R) -> (forall k, aval cb k = 0%R) -> (forall k, aval J k = 0%R) ->
  1 <= n -> for_up 1 n (pulseE_body H ca cb) (D, E, J) = Ok (D', E', J') ->
  (alen D' = alen D /\ alen E' = alen E /\ alen J' = alen J) /\ (forall k, aval J' k = 0%R) /\
  (forall k, 1 <= k < n -> aval D' k = (aval D k + / 2 * (aval H (k - 1) - aval H k))%R /\ aval E' k = aval D' k).
Proof.
  intros Hca Hcb HJ Hn Hr.
  refine (proj1 (_ : _ /\ (forall k, n <= k -> aval D' k = aval D k))).
  apply (for_up_post (fun m (s : arr * arr * arr) => let '(D', E', J') := s in
    ((alen D' = alen D /\ alen E' = alen E /\ alen J' = alen J) /\ (forall k, aval J' k = 0%R) /\
    (forall k, 1 <= k < m -> aval D' k = (aval D k + / 2 * (aval H (k - 1) - aval H k))%R /\ aval E' k = aval D' k)) /\
    (forall k, m <= k -> aval D' k = aval D k)) _ _ _ _ _ Hn) in Hr; [exact Hr| |].
  - repeat split; auto; intros; lia.
  - clear - Hca Hcb. intros k [[D1 E1] J1] [[D2 E2] J2] Hk (((L1 & L2 & L3) & HJ & HD) & Ho) Hb.
    unfold pulseE_body in Hb. inv_ok. arrs. subst.
    assert (K1 : aval D2 k = (aval D k + / 2 * (aval H (k - 1) - aval H k))%R).
    { rewrite H8, Z.eqb_refl, (Ho k) by lia. rnum. change (@T RNum) with R. lra. }
    split; [split; [repeat split; congruence|split]|].
    + intros x. rewrite H2. destruct (Z.eqb_spec x k); [|apply HJ]. rewrite Hcb, HJ. rnum. change (@T RNum) with R. ring.
    + intros x Hx. destruct (Z.eq_dec x k) as [->|Hne].
      * split; [exact K1|]. rewrite H5, Z.eqb_refl, Hca, HJ. rnum. change (@T RNum) with R. ring.
      * rewrite H5, H8. rewrite (proj2 (Z.eqb_neq x k)) by exact Hne. apply HD. lia.
    + intros x Hx. rewrite H8. rewrite (proj2 (Z.eqb_neq x k)) by lia. apply Ho. lia.
Qed.

Lemma pulseH_loop E n H H' : 0 <= n -> for_up 0 n (pulseH_body E) H = Ok H' ->
  alen H' = alen H /\ (forall k, 0 <= k < n -> aval H' k = (aval H k + / 2 * (aval E k - aval E (k + 1)))%R).
Proof.
  intros Hn Hr.
  refine (proj1 (_ : _ /\ (forall k, n <= k -> aval H' k = aval H k))).
  apply (for_up_post (fun m H' => (alen H' = alen H /\ (forall k, 0 <= k < m -> aval H' k = (aval H k + / 2 * (aval E k - aval E (k + 1)))%R)) /\
    (forall k, m <= k -> aval H' k = aval H k)) _ _ _ _ _ Hn) in Hr; [exact Hr| |].
  - repeat split; auto; intros; lia.
  - clear. intros k H1 H2 Hk ((L & HD) & Ho) Hb. unfold pulseH_body in Hb. inv_ok. arrs.
    match goal with K : forall k0, aval H2 k0 = _ |- _ => rename K into V end.
    split; [split; [congruence|]|].
    + intros x Hx. rewrite V. destruct (Z.eqb_spec x k) as [->|]; [|apply HD; lia]. rewrite Ho by lia. rnum. change (@T RNum) with R. lra.
    + intros x Hx. rewrite V. rewrite (proj2 (Z.eqb_neq x k)) by lia. apply Ho. lia.
Qed.

Lemma line_step f dt q q' now before n : line_ok f dt q now before n -> tfsf_pulse q = Ok q' ->
  line_ok f dt q' (advance f (q_N q) (INR (S n) * dt) now before) now (S n) /\
  q_ia q' = q_ia q /\ q_ib q' = q_ib q /\ q_ja q' = q_ja q /\ q_jb q' = q_jb q /\ q_N q' = q_N q.
Proof.
  intros L H. destruct L. unfold tfsf_pulse in H.
  apply bind_ok in H. destruct H as (pe & _ & H). apply bind_ok in H. destruct H as ([[D E] J] & HL & H).
  apply bind_ok in H. destruct H as ([v tp] & Hv & H).
  apply bind_ok in H. destruct H as (E1 & H1 & H). apply bind_ok in H. destruct H as (E2 & H2 & H).
  apply bind_ok in H. destruct H as (l0 & Hl0 & H). apply bind_ok in H. destruct H as (E3 & H3 & H).
  apply bind_ok in H. destruct H as (r0 & Hr0 & H). apply bind_ok in H. destruct H as (d & _ & H).
  apply bind_ok in H. destruct H as (Hn & HH & H). injection H as <-.
  apply pulseE_loop in HL; auto; [|lia]. destruct HL as ((A1 & A2 & A3) & A4 & A5).
  destruct lo_len0 as (B1 & B2 & B3 & B4).
  assert (Tp : tp_shape tp = tp_shape (q_tp q) /\ v = f (INR (S n) * dt)%R).
  { unfold response in Hv. apply bind_ok in Hv. destruct Hv as (tp' & Hp & Hv). injection Hv as <- <-. split.
    - unfold tp_update in Hp. destruct (tp_dft (q_tp q)); [apply bind_ok in Hp; destruct Hp as ([? ?] & _ & Hp)|]; inv_ok; reflexivity.
    - rewrite lo_f0. f_equal. rewrite lo_t0, lo_dt0, S_INR. rnum. change (@T RNum) with R. lra. }
  destruct Tp as [Tp ->].
  apply aset_inv in H1. destruct H1 as (_ & C1 & V1). apply aset_inv in H2. destruct H2 as (_ & C2 & V2). apply aset_inv in H3. destruct H3 as (_ & C3 & V3).
  apply aget_inv in Hl0. destruct Hl0 as [-> _]. apply aget_inv in Hr0. destruct Hr0 as [-> _].
  set (w := advance f (q_N q) (INR (S n) * dt) now before).
  assert (V : forall k, 0 <= k < q_N q -> aval E3 k = wE w k).
  { intros k Hk. rewrite V3, V2, V1. unfold w, advance. cbn [wE].
    destruct (Z.eqb_spec k (q_N q - 1)) as [->|K1].
    - rewrite (proj2 (Z.eqb_neq (q_N q - 1) 1)), (proj2 (Z.eqb_neq (q_N q - 1) 0)) by lia. exact lo_r3.
    - destruct (Z.eqb_spec k 0) as [->|K2]; [exact lo_l3|]. destruct (Z.eqb_spec k 1) as [->|K3]; [reflexivity|].
      destruct (A5 k ltac:(lia)) as [Q1 Q2]. rewrite Q2, Q1, lo_D0, !lo_H0 by lia. reflexivity. }
  apply pulseH_loop in HH; [|lia]. destruct HH as [G1 G2].
  cbn [q_N q_E q_D q_H q_I q_tp q_dt q_t q_ca q_cb q_l0 q_l1 q_r0 q_r1 q_ia q_ib q_ja q_jb].
  split; [|repeat split]. constructor; cbn [q_N q_E q_D q_H q_I q_tp q_dt q_t q_ca q_cb q_l0 q_l1 q_r0 q_r1]; auto.
  - repeat split; congruence.
  - intros t. rewrite Tp. apply lo_f0.
  - rewrite lo_t0, lo_dt0, S_INR. rnum. change (@T RNum) with R. lra.
  - intros k Hk. rewrite G2 by lia. rewrite lo_H0, !V by lia. reflexivity.
  - intros k Hk. rewrite <- V by lia. rewrite V3, V2, V1.
    rewrite (proj2 (Z.eqb_neq k (q_N q - 1))), (proj2 (Z.eqb_neq k 0)), (proj2 (Z.eqb_neq k 1)) by lia. symmetry. apply A5. lia.
  - rewrite <- V by lia. rewrite V3. rewrite (proj2 (Z.eqb_neq 1 (q_N q - 1))) by lia. reflexivity.
  - apply V. lia.
Qed.

(** ** The grid *)
Definition empty_space (g : grid) (md : medium) : Prop :=
  forall i j, 0 <= i < g_Nx g -> 0 <= j < g_Ny g ->
    mCa md i j = 1%R /\ mCb md i j = g_dt g /\ mDa md i j = 1%R /\ mDb md i j = g_dt g.
Definition flat (g : grid) (md : medium) : Prop :=
  (forall i, 0 <= i < g_Nx g -> sEx md i = g_dx g /\ sHx md i = g_dx g) /\
  (forall j, 0 <= j < g_Ny g -> sEy md j = g_dx g /\ sHy md j = g_dx g).

Lemma kappa_one th (t : R) : kappa th t = 1%R.
Proof. unfold kappa. rnum. change (@T RNum) with R. ring. Qed.
Lemma coefs_flat g md : apart g -> cpml_coefs g md -> flat g md.
Proof.
  intros (A0 & A1 & A2) (_ & Cs & Cx & Cy).
  assert (K : forall th (t : R), (kappa th t * g_dx g)%num = g_dx g :> R) by (intros; rewrite kappa_one; rnum; change (@T RNum) with R; ring).
  assert (K1 : (g_dx g * 1)%num = g_dx g :> R) by (rnum; change (@T RNum) with R; ring).
  split; intros i Hi.
  - destruct (Z.lt_ge_cases i (g_pml g)) as [B|B].
    + destruct (Cs i ltac:(lia)) as ((-> & _) & (-> & _)). split; apply K.
    + destruct (Z.le_gt_cases i (g_Nx g - 1 - g_pml g)) as [B'|B'].
      * destruct (Cx i ltac:(lia)) as [-> ->]. split; exact K1.
      * destruct (Cs (g_Nx g - 1 - i) ltac:(lia)) as ((_ & _ & Q1 & _) & (_ & _ & Q2 & _)).
        replace (g_Nx g - 1 - (g_Nx g - 1 - i)) with i in Q1, Q2 by lia. rewrite Q1, Q2. split; apply K.
  - destruct (Z.lt_ge_cases i (g_pml g)) as [B|B].
    + destruct (Cs i ltac:(lia)) as ((_ & -> & _) & (_ & -> & _)). split; apply K.
    + destruct (Z.le_gt_cases i (g_Ny g - 1 - g_pml g)) as [B'|B'].
      * destruct (Cy i ltac:(lia)) as [-> ->]. split; exact K1.
      * destruct (Cs (g_Ny g - 1 - i) ltac:(lia)) as ((_ & _ & _ & Q1) & (_ & _ & _ & Q2)).
        replace (g_Ny g - 1 - (g_Ny g - 1 - i)) with i in Q1, Q2 by lia. rewrite Q1, Q2. split; apply K.
Qed.

Definition quiet_e (u : emag) : Prop := forall i j, eXl u i j = 0%R /\ eXh u i j = 0%R /\ eYl u i j = 0%R /\ eYh u i j = 0%R.
Definition quiet_h (u : hmag) : Prop := forall i j, hXl u i j = 0%R /\ hXh u i j = 0%R /\ hYl u i j = 0%R /\ hYh u i j = 0%R.

Lemma recur0 (dx b c q d : R) : q = 0%R -> d = 0%R -> recur dx b c q d = 0%R.
Proof. intros -> ->. unfold recur. rnum. change (@T RNum) with R. unfold Rdiv. ring. Qed.

(** the electric half step, with no magnetic field that the layers can see *)
Lemma e_quiet g md hx hy u : apart g -> quiet_e u -> empty_space g md -> flat g md -> g_dx g <> 0%R -> g_dt g = (g_dx g / 2)%R ->
  (forall i j, i <= g_pml g \/ g_Nx g - 2 - g_pml g <= i -> hy i j = 0%R) ->
  (forall i j, j <= g_pml g \/ g_Ny g - 2 - g_pml g <= j -> hx i j = 0%R) ->
  let v := next_e (g_Nx g) (g_Ny g) (g_pml g) (g_dx g) md hx hy u in
  quiet_e v /\ forall i j, eE v i j = if core (g_Nx g) (g_Ny g) i j
    then (eE u i j + / 2 * (hy i j - hy (i - 1)%Z j + (hx i (j - 1)%Z - hx i j)))%R else eE u i j.
Proof.
  intros (A0 & A1 & A2) Q Em Fl Hd Ht Hy Hx v.
  assert (Qv : quiet_e v).
  { intros i j. destruct (Q i j) as (Q1 & Q2 & Q3 & Q4). unfold v, next_e. cbn [eXl eXh eYl eYh]. unfold memXl, memXh, memYl, memYh.
    repeat split; match goal with |- (if ?b then _ else _) = _ => destruct b eqn:B; [|assumption] end; apply recur0; try assumption; rnum.
    - rewrite !Hy by lia. change (@T RNum) with R. ring.
    - rewrite !Hy by lia. change (@T RNum) with R. ring.
    - rewrite !Hx by lia. change (@T RNum) with R. ring.
    - rewrite !Hx by lia. change (@T RNum) with R. ring. }
  split; [exact Qv|]. intros i j. unfold v, next_e. cbn [eE]. destruct (core (g_Nx g) (g_Ny g) i j) eqn:C; [|reflexivity].
  unfold core in C. destruct (Em i j ltac:(lia) ltac:(lia)) as (C1 & C2 & _).
  destruct (proj1 Fl i ltac:(lia)) as [S1 _]. destruct (proj2 Fl j ltac:(lia)) as [S2 _].
  assert (X0 : yeeE md hx hy (eE u) i j = (eE u i j + / 2 * (hy i j - hy (i - 1)%Z j + (hx i (j - 1)%Z - hx i j)))%R).
  { unfold yeeE. rewrite C1, C2, S1, S2, Ht. rnum. change (@T RNum) with R. field. exact Hd. }
  destruct (Qv i j) as (Q1 & _ & Q3 & _). destruct (Qv (g_Nx g - 1 - i)%Z j) as (_ & Q2 & _). destruct (Qv i (g_Ny g - 1 - j)%Z) as (_ & _ & _ & Q4).
  unfold v, next_e in Q1, Q2, Q3, Q4. cbn [eXl eXh eYl eYh] in Q1, Q2, Q3, Q4.
  assert (Y0 : forall e, addY (g_Ny g) (g_pml g) md (memYl (g_Nx g) (g_pml g) (g_dx g) md hx (eYl u)) (memYh (g_Nx g) (g_Ny g) (g_pml g) (g_dx g) md hx (eYh u)) e i j = e i j).
  { intros e. unfold addY. rewrite Q3, Q4. rnum. repeat match goal with |- context [if ?b then _ else _] => destruct b end; first [reflexivity|change (@T RNum) with R; ring]. }
  unfold addX. rewrite Q1, Q2, Y0, X0. rnum. repeat match goal with |- context [if ?b then _ else _] => destruct b end; first [reflexivity|change (@T RNum) with R; ring].
Qed.

Lemma h_quiet g md e u : apart g -> quiet_h u -> empty_space g md -> flat g md -> g_dx g <> 0%R -> g_dt g = (g_dx g / 2)%R ->
  (forall i j, (i <= g_pml g \/ g_Nx g - 1 - g_pml g <= i) \/ (j <= g_pml g \/ g_Ny g - 1 - g_pml g <= j) -> e i j = 0%R) ->
  let v := next_h (g_Nx g) (g_Ny g) (g_pml g) (g_dx g) md e u in
  quiet_h v /\ forall i j,
    hX v i j = (if core (g_Nx g) (g_Ny g) i j then (hX u i j - / 2 * (e i (j + 1)%Z - e i j))%R else hX u i j) /\
    hY v i j = (if core (g_Nx g) (g_Ny g) i j then (hY u i j + / 2 * (e (i + 1)%Z j - e i j))%R else hY u i j).
Proof.
  intros (A0 & A1 & A2) Q Em Fl Hd Ht He v.
  assert (Qv : quiet_h v).
  { intros i j. destruct (Q i j) as (Q1 & Q2 & Q3 & Q4). unfold v, next_h. cbn [hXl hXh hYl hYh]. unfold memHxl, memHxh, memHyl, memHyh.
    repeat split; match goal with |- (if ?b then _ else _) = _ => destruct b eqn:B; [|assumption] end; apply recur0; try assumption; rnum;
      rewrite !He by lia; change (@T RNum) with R; ring. }
  split; [exact Qv|]. intros i j. unfold v, next_h. cbn [hX hY]. destruct (core (g_Nx g) (g_Ny g) i j) eqn:C; [|split; reflexivity].
  unfold core in C. destruct (Em i j ltac:(lia) ltac:(lia)) as (_ & _ & C1 & C2).
  destruct (proj1 Fl i ltac:(lia)) as [_ S1]. destruct (proj2 Fl j ltac:(lia)) as [_ S2].
  destruct (Qv i j) as (Q1 & _ & Q3 & _). destruct (Qv i (g_Ny g - 2 - j)%Z) as (_ & Q2 & _). destruct (Qv (g_Nx g - 2 - i)%Z j) as (_ & _ & _ & Q4).
  unfold v, next_h in Q1, Q2, Q3, Q4. cbn [hXl hXh hYl hYh] in Q1, Q2, Q3, Q4.
  unfold addHx, addHy, yeeHx, yeeHy. rewrite Q1, Q2, Q3, Q4, C1, C2, S1, S2, Ht. rnum. change (@T RNum) with R in *.
  split; repeat match goal with |- context [if ?b then _ else _] => destruct b end; field; exact Hd.
Qed.

(** ** One step *)
Ltac corecase := match goal with |- context [if core ?a ?b ?c ?d then _ else _] => destruct (core a b c d) end;
  repeat match goal with |- context [if ?b then _ else _] => destruct b end; rnum; change (@T RNum) with R in *; lra.
Record lit_up (g : grid) (f : R -> R) (ia ib ja jb : Z) (n : nat) (p : phys) : Prop := LitUp {
  lu_grid : ph_grid p = g; lu_wf : wf_phys p;
  lu_em : empty_space g (med p); lu_fl : flat g (med p);
  lu_bare : ph_debye p = [] /\ ph_drude p = [] /\ ph_lorentz p = []; lu_srcs : ph_srcs p = [];
  lu_q : exists q, ph_tfsf p = Some q /\ q_ia q = ia /\ q_ib q = ib /\ q_ja q = ja /\ q_jb q = jb /\ q_N q = (jb - ja + 5)%Z /\
    line_ok f (g_dt g) q (fst (history f (jb - ja + 5) (g_dt g) n)) (snd (history f (jb - ja + 5) (g_dt g) n)) n;
  lu_e : quiet_e (e_of p); lu_h : quiet_h (h_of p);
  lu_box : lit_box ia ib ja jb (incident f (jb - ja + 5) (g_dt g) n) (tval (fEz (ph_F p))) (tval (fHx (ph_F p))) (tval (fHy (ph_F p))) }.

Lemma lit_step g f ia ib ja jb n p p' : (0 < g_dx g)%R -> g_dt g = (g_dx g / 2)%R -> apart g -> 1 <= g_pml g -> clear_of_pml g ia ib ja jb ->
  lit_up g f ia ib ja jb n p -> phys_step p = Fine p' -> lit_up g f ia ib ja jb (S n) p'.
Proof.
  intros Hd Ht Ha B0 (B1 & B2 & B3 & B4 & B5 & B6) L Hs. destruct L.
  destruct (full_step p p') as (F0 & F1 & F2 & E3 & Ls & u & h & C); [now rewrite lu_grid0|exact lu_wf0|exact Hs|]. destruct C.
  rewrite lu_grid0 in *. destruct lu_bare0 as (D1 & D2 & D3). rewrite D1 in cw_debye. rewrite D2 in cw_drude. rewrite D3 in cw_lorentz.
  cbn [polar_all] in *. injection cw_debye as P1 K1. injection cw_drude as P2 K2. injection cw_lorentz as P3 K3.
  assert (EE : forall i j, tval E3 i j = eE u i j) by (intros; rewrite <- K3, <- K2, <- K1; apply cw_E0).
  rewrite lu_srcs0 in *. cbn [combine] in *.
  destruct lu_q0 as (q & Eq & Q1 & Q2 & Q3 & Q4 & QN & Ql). rewrite Eq in *.
  unfold line in cw_line. apply bind_ok in cw_line. destruct cw_line as (q' & Hp & El). injection El as El.
  destruct (line_step _ _ _ _ _ _ _ Ql Hp) as (Ql' & R1 & R2 & R3 & R4 & RN).
  set (N := (jb - ja + 5)%Z) in *. set (w := incident f N (g_dt g) n) in *. set (w' := incident f N (g_dt g) (S n)).
  assert (Ew' : w' = advance f N (INR (S n) * g_dt g) w (snd (history f N (g_dt g) n))).
  { unfold w', w, incident. cbn [history]. destruct (history f N (g_dt g) n). reflexivity. }
  assert (HH : history f N (g_dt g) (S n) = (w', w)).
  { rewrite Ew'. unfold w, incident. cbn [history]. destruct (history f N (g_dt g) n). reflexivity. }
  fold w in Ql, Ql'. change (fst (history f N (g_dt g) n)) with w in Ql, Ql'. rewrite QN, <- Ew' in Ql'.
  rename lu_box0 into Bx.
  assert (BxE := fun i j => proj1 (Bx i j)). assert (BxX := fun i j => proj1 (proj2 (Bx i j))). assert (BxY := fun i j => proj2 (proj2 (Bx i j))). clear Bx.
  destruct (e_quiet g (med p) (hX (h_of p)) (hY (h_of p)) (e_of p)) as [Qu Vu]; auto; [lra| | |].
  { intros i j _. apply BxY. }
  { intros i j Hj. cbn [hX h_of]. rewrite BxX. replace (in_box_H ia ib ja jb i j) with false by (unfold in_box_H; lia). reflexivity. }
  unfold grid_next_e in cw_u. rewrite lu_grid0 in cw_u. rewrite <- cw_u in Qu, Vu. cbn [eE e_of hX hY h_of] in Vu.
  assert (W' : forall k, 2 <= k <= N - 2 -> wE w' k = (wE w k + / 2 * (wH w (k - 1) - wH w k))%R).
  { intros k Hk. rewrite Ew'. unfold advance. cbn [wE]. rewrite (proj2 (Z.eqb_neq k 1)), (proj2 (Z.eqb_neq k 0)), (proj2 (Z.eqb_neq k (N - 1))) by lia. reflexivity. }
  assert (WH' : forall k, wH w' k = (wH w k + / 2 * (wE w' k - wE w' (k + 1)))%R) by (intros; rewrite Ew'; reflexivity).
  assert (LH2 : aval (q_H q) 2 = wH w 2) by (apply (lo_H _ _ _ _ _ _ Ql); lia).
  assert (LHN : aval (q_H q) (N - 2) = wH w (N - 2)) by (apply (lo_H _ _ _ _ _ _ Ql); lia).
  assert (LE' : forall k, 0 <= k < N -> aval (q_E q') k = wE w' k) by (intros k Hk; apply (lo_E _ _ _ _ _ _ Ql'); lia).
  destruct cw_e as (Ve & Me1 & Me2 & Me3 & Me4). destruct cw_h as (Vx & Mh1 & Mh2 & Vy & Mh3 & Mh4). cbn [eE hX hY with_xy eXl eXh eYl eYh hXl hXh hYl hYh] in *.
  assert (AE : forall i j, tval (fEz (ph_F p')) i j = if in_box_E ia ib ja jb i j then wE w' (j - ja + 3) else 0%R).
  { intros i j. change (tval (fEz (ph_F p')) i j) with (eE (e_of p') i j). rewrite (Ve i j). unfold lits, lit. cbn [fold_left tf].
    rewrite EE, Vu. unfold tfD1. rewrite Q1, Q2, Q3, Q4, QN, LH2, LHN.
    assert (Hcore : forall a b : R, in_box_E ia ib ja jb i j = true -> (if core (g_Nx g) (g_Ny g) i j then a else b) = a).
    { intros a b. destruct Ha. unfold in_box_E, core. intros. replace (_ && _ && _ && _) with true by lia. reflexivity. }
    assert (BE := BxE i j). assert (X1 := BxX i (j - 1)%Z). assert (X2 := BxX i j). rewrite !BxY.
    unfold in_box_E, in_box_H, band in *. destruct ((ia <=? i) && (i <=? ib)) eqn:Ei; cbn [andb] in *.
    2:{ rewrite BE, X1, X2. corecase. }
    destruct (Z.lt_trichotomy j ja) as [J|[J|J]].
    - replace (ja <=? j) with false in * by lia. replace (ja <=? j - 1) with false in * by lia. cbn [andb] in *. rewrite BE, X1, X2.
      replace (j =? ja) with false by lia. replace (j =? jb) with false by lia. corecase.
    - subst j. replace (ja <=? ja) with true in * by lia. replace (ja <=? jb) with true in * by lia. replace (ja <=? ja - 1) with false in * by lia. cbn [andb] in *.
      rewrite Hcore by reflexivity. rewrite BE, X1, X2. rewrite Z.eqb_refl. replace (ja - ja + 3)%Z with 3%Z by lia. rewrite W' by lia. change (3 - 1)%Z with 2%Z.
      destruct (Z.eqb_spec ja jb) as [Ej|Ej].
      + replace (ja <? jb) with false by lia. replace (N - 2)%Z with 3%Z by lia. rnum. change (@T RNum) with R in *. lra.
      + replace (ja <? jb) with true by lia. rnum. change (@T RNum) with R in *. lra.
    - replace (ja <=? j) with true in * by lia. replace (ja <=? j - 1) with true in * by lia. replace (j =? ja) with false by lia. cbn [andb] in *.
      destruct (Z.lt_trichotomy j jb) as [K|[K|K]].
      + replace (j <=? jb) with true in * by lia. replace (j <? jb) with true in * by lia. replace (j - 1 <? jb) with true in * by lia. replace (j =? jb) with false by lia.
        rewrite Hcore by reflexivity. rewrite BE, X1, X2. rewrite W' by lia. replace (j - ja + 3 - 1)%Z with (j - 1 - ja + 3)%Z by lia. lra.
      + subst j. replace (jb <=? jb) with true in * by lia. replace (jb <? jb) with false in * by lia. replace (jb - 1 <? jb) with true in * by lia. rewrite Z.eqb_refl.
        rewrite Hcore by reflexivity. rewrite BE, X1, X2. replace (N - 2)%Z with (jb - ja + 3)%Z by lia. rewrite W' by lia. replace (jb - ja + 3 - 1)%Z with (jb - 1 - ja + 3)%Z by lia. rnum. change (@T RNum) with R in *. lra.
      + replace (j <=? jb) with false in * by lia. replace (j <? jb) with false in * by lia. replace (j - 1 <? jb) with false in * by lia. replace (j =? jb) with false by lia.
        rewrite BE, X1, X2. corecase. }
  destruct (h_quiet g (med p) (eE (e_of p')) (with_xy (lits (ph_t p + g_dt g)%num [] Hx (hX (h_of p))) (lits (ph_t p + g_dt g)%num [] Hy (hY (h_of p))) (h_of p))) as [Qh Vh]; auto; [lra| |].
  { intros i j Hij. cbn [eE e_of]. rewrite AE. replace (in_box_E ia ib ja jb i j) with false by (unfold in_box_E; lia). reflexivity. }
  unfold grid_next_h in cw_hm. rewrite lu_grid0 in cw_hm. rewrite <- cw_hm in Qh, Vh. cbn [hX hY with_xy h_of eE e_of] in Vh. unfold lits, lit in Vh. cbn [fold_left] in Vh.
  assert (AX : forall i j, tval (fHx (ph_F p')) i j = if in_box_H ia ib ja jb i j then wH w' (j - ja + 3) else 0%R).
  { intros i j. change (tval (fHx (ph_F p')) i j) with (hX (h_of p') i j). rewrite (Vx i j). rewrite <- El. unfold tf, tfHx1.
    rewrite (proj1 (Vh i j)). rewrite !AE, BxX. rewrite R1, R2, R3, R4, RN, Q1, Q2, Q3, Q4, QN. rewrite !LE' by lia.
    assert (Hcore : forall a b : R, g_pml g <= j <= jb -> ia <= i <= ib -> (if core (g_Nx g) (g_Ny g) i j then a else b) = a).
    { intros a b Ji Ii. destruct Ha. unfold core. replace (_ && _ && _ && _) with true by lia. reflexivity. }
    unfold in_box_E, in_box_H, band in *. destruct ((ia <=? i) && (i <=? ib)) eqn:Ei; cbn [andb] in *; [|corecase].
    destruct (Z.lt_trichotomy (j + 1) ja) as [J|[J|J]].
    - replace (ja <=? j) with false by lia. replace (ja <=? j + 1) with false by lia. replace (j =? ja - 1) with false by lia. replace (j =? jb) with false by lia.
      cbn [andb]. corecase.
    - replace (ja <=? j) with false by lia. replace (ja <=? j + 1) with true by lia. replace (j =? ja - 1) with true by lia. replace (j =? jb) with false by lia.
      replace (j + 1 <=? jb) with true by lia. cbn [andb]. rewrite Hcore by lia. replace (j + 1 - ja + 3)%Z with 3%Z by lia. rnum. change (@T RNum) with R in *. lra.
    - replace (ja <=? j) with true by lia. replace (ja <=? j + 1) with true by lia. replace (j =? ja - 1) with false by lia. cbn [andb].
      destruct (Z.lt_trichotomy j jb) as [K|[K|K]].
      + replace (j + 1 <=? jb) with true by lia. replace (j <=? jb) with true by lia. replace (j <? jb) with true by lia. replace (j =? jb) with false by lia.
        rewrite Hcore by lia. rewrite WH'. replace (j - ja + 3 + 1)%Z with (j + 1 - ja + 3)%Z by lia. lra.
      + subst j. replace (jb + 1 <=? jb) with false by lia. replace (jb <=? jb) with true by lia. replace (jb <? jb) with false by lia. rewrite Z.eqb_refl.
        rewrite Hcore by lia. replace (N - 2)%Z with (jb - ja + 3)%Z by lia. rnum. change (@T RNum) with R in *. lra.
      + replace (j + 1 <=? jb) with false by lia. replace (j <=? jb) with false by lia. replace (j <? jb) with false by lia. replace (j =? jb) with false by lia.
        corecase. }
  assert (AY : forall i j, tval (fHy (ph_F p')) i j = 0%R).
  { intros i j. change (tval (fHy (ph_F p')) i j) with (hY (h_of p') i j). rewrite (Vy i j). rewrite <- El. unfold tf, tfHy1.
    rewrite (proj2 (Vh i j)). rewrite !AE, BxY. rewrite R1, R2, R3, R4, Q1, Q2, Q3, Q4.
    assert (Hcore : forall a b : R, g_pml g <= i <= ib -> ja <= j <= jb -> (if core (g_Nx g) (g_Ny g) i j then a else b) = a).
    { intros a b Ji Ii. destruct Ha. unfold core. replace (_ && _ && _ && _) with true by lia. reflexivity. }
    unfold in_box_E, band in *. destruct ((ja <=? j) && (j <=? jb)) eqn:Ej.
    2:{ rewrite <- !andb_assoc, Ej, !andb_false_r. corecase. }
    rewrite <- !andb_assoc, Ej, !andb_true_r. rewrite LE' by lia.
    destruct (Z.lt_trichotomy (i + 1) ia) as [J|[J|J]].
    - replace (ia <=? i) with false by lia. replace (ia <=? i + 1) with false by lia. replace (i =? ia - 1) with false by lia. replace (i =? ib) with false by lia.
      cbn [andb]. corecase.
    - replace (ia <=? i) with false by lia. replace (ia <=? i + 1) with true by lia. replace (i =? ia - 1) with true by lia. replace (i =? ib) with false by lia.
      replace (i + 1 <=? ib) with true by lia. cbn [andb]. rewrite Hcore by lia. rnum. change (@T RNum) with R in *. lra.
    - replace (ia <=? i) with true by lia. replace (ia <=? i + 1) with true by lia. replace (i =? ia - 1) with false by lia. cbn [andb].
      destruct (Z.lt_trichotomy i ib) as [K|[K|K]].
      + replace (i + 1 <=? ib) with true by lia. replace (i <=? ib) with true by lia. replace (i =? ib) with false by lia. rewrite Hcore by lia. cbv zeta. rnum. change (@T RNum) with R in *. lra.
      + subst i. replace (ib + 1 <=? ib) with false by lia. replace (ib <=? ib) with true by lia. rewrite Z.eqb_refl. rewrite Hcore by lia. rnum. change (@T RNum) with R in *. lra.
      + replace (i + 1 <=? ib) with false by lia. replace (i <=? ib) with false by lia. replace (i =? ib) with false by lia. corecase. }
  assert (St := cw_static). apply static_eq in St. destruct St as (S1 & S2 & S3 & S4 & S5 & S6 & S7).
  assert (Em : med p' = med p) by (unfold med; now rewrite S2, S6, S7).
  constructor; auto; rewrite ?Em; auto.
  - now rewrite S1.
  - destruct (ph_srcs p'); [reflexivity|discriminate].
  - exists q'. rewrite <- El. fold N. rewrite HH. cbn [fst snd]. split; [reflexivity|]. do 5 (split; [congruence|]). exact Ql'.
  - intros i j. rewrite (Me1 i j), (Me2 i j), (Me3 i j), (Me4 i j). apply Qu.
  - intros i j. rewrite (Mh1 i j), (Mh2 i j), (Mh3 i j), (Mh4 i j). apply Qh.
  - intros i j. fold N. fold w'. auto.
Qed.
