(** The energy balance of a rectangle of cells. *)
From Coq Require Import ZArith Reals String List Bool Lia Lra Psatz.
From Verif Require Import Scalar Base BaseFacts VecM GridM GeometryM MaterialM PmlM DftM TfsfM PolarM
  InterpM H5M ClockM MonitorM FieldM SpecGrid GridFacts OutFacts PhysFacts SpecGeometry GeometryFacts SpecPaint PaintFacts WfFacts ReachFacts InvFacts
  SpecStep StepFacts EngineFacts YeeFacts SpecSource SourceFacts SpecMedium PolarFacts FullStep TextbookFacts
  SafeFacts SpecTfsf TfsfFacts TfsfRun SpecRim MediumFacts StrengthFacts SpecMaterial MediaFacts MaterialFacts MagnetFacts SpecMedia MediaRun CellFacts
  SpecTrace TraceFacts MediaCases SpecEnergy EnergyFacts SpecLoss LossFacts SpecFreq FreqFacts SpecPoynt.
Import ListNotations.
Local Open Scope R_scope.
#[local] Existing Instance RNum.

(** ** Sums *)
Lemma zsum_ext a b f h : (forall k, (a <= k < b)%Z -> f k = h k) -> zsum a b f = zsum a b h.
Proof. intros H. apply rsum_ext. intros k Hk. apply H. lia. Qed.
Lemma zsum_add a b f h : zsum a b (fun k => f k + h k) = zsum a b f + zsum a b h.
Proof. apply (rsum_add _ (fun k => f (a + Z.of_nat k)%Z) (fun k => h (a + Z.of_nat k)%Z)). Qed.
Lemma zsum_scal a b c f : zsum a b (fun k => c * f k) = c * zsum a b f.
Proof. apply (rsum_scal _ c (fun k => f (a + Z.of_nat k)%Z)). Qed.
Lemma zsum_sub a b f h : zsum a b (fun k => f k - h k) = zsum a b f - zsum a b h.
Proof.
  rewrite (zsum_ext a b (fun k => f k - h k) (fun k => f k + -1 * h k)); [|intros; ring]. rewrite zsum_add, (zsum_scal a b (-1) h). ring.
Qed.
Lemma zsum_tele a b f : (a <= b)%Z -> zsum a b (fun k => f (k + 1)%Z - f k) = f b - f a.
Proof.
  intros H. unfold zsum. replace (f b) with (f (a + Z.of_nat (Z.to_nat (b - a)))%Z) by (f_equal; lia).
  induction (Z.to_nat (b - a)) as [|n IH]; [cbn [rsum]; rewrite Z.add_0_r; ring|].
  cbn [rsum]. rewrite IH. replace (a + Z.of_nat n + 1)%Z with (a + Z.of_nat (S n))%Z by lia. ring.
Qed.
Lemma zsum_swap a b c d f : zsum a b (fun i => zsum c d (f i)) = zsum c d (fun j => zsum a b (fun i => f i j)).
Proof.
  unfold zsum. induction (Z.to_nat (b - a)) as [|n IH]; cbn [rsum].
  - symmetry. clear. induction (Z.to_nat (d - c)) as [|k H]; cbn [rsum]; [reflexivity|]. rewrite H. ring.
  - rewrite IH, <- (rsum_add _ (fun k => rsum n (fun k0 => f (a + Z.of_nat k0)%Z (c + Z.of_nat k)%Z)) (fun k => f (a + Z.of_nat n)%Z (c + Z.of_nat k)%Z)). reflexivity.
Qed.
Lemma over_ext q f h : (forall i j, inside q i j -> f i j = h i j) -> over q f = over q h.
Proof. intros H. apply zsum_ext. intros i Hi. apply zsum_ext. intros j Hj. apply H. split; assumption. Qed.
Lemma over_add q f h : over q (fun i j => f i j + h i j) = over q f + over q h.
Proof. unfold over. rewrite <- zsum_add. apply zsum_ext. intros i _. apply zsum_add. Qed.
Lemma over_sub q f h : over q (fun i j => f i j - h i j) = over q f - over q h.
Proof. unfold over. rewrite <- zsum_sub. apply zsum_ext. intros i _. apply zsum_sub. Qed.
Lemma over_scal q c f : over q (fun i j => c * f i j) = c * over q f.
Proof. unfold over. rewrite <- zsum_scal. apply zsum_ext. intros i _. apply zsum_scal. Qed.

(** summation by parts over a rectangle *)
Lemma over_parts q (e hx hy : Z -> Z -> R) : (ra q <= rb q)%Z -> (rc q <= rd q)%Z ->
  over q (fun i j => e i j * (hy i j - hy (i - 1)%Z j + hx i (j - 1)%Z - hx i j)
                     + hy i j * (e (i + 1)%Z j - e i j) - hx i j * (e i (j + 1)%Z - e i j))
  = zsum (rc q) (rd q) (fun j => e (rb q) j * hy (rb q - 1)%Z j) - zsum (rc q) (rd q) (fun j => e (ra q) j * hy (ra q - 1)%Z j)
    - (zsum (ra q) (rb q) (fun i => e i (rd q) * hx i (rd q - 1)%Z) - zsum (ra q) (rb q) (fun i => e i (rc q) * hx i (rc q - 1)%Z)).
Proof.
  intros Hx Hy. set (A := fun j i => e i j * hy (i - 1)%Z j). set (B := fun i j => e i j * hx i (j - 1)%Z).
  rewrite (over_ext q _ (fun i j => (A j (i + 1)%Z - A j i) - (B i (j + 1)%Z - B i j))).
  2:{ intros i j _. unfold A, B. replace (i + 1 - 1)%Z with i by lia. replace (j + 1 - 1)%Z with j by lia. ring. }
  rewrite over_sub. f_equal.
  - unfold over. rewrite zsum_swap. rewrite (zsum_ext (rc q) (rd q) _ (fun j => A j (rb q) - A j (ra q))); [apply zsum_sub|].
    intros j _. now apply zsum_tele.
  - unfold over. rewrite (zsum_ext (ra q) (rb q) _ (fun i => B i (rd q) - B i (rc q))); [apply zsum_sub|].
    intros i _. now apply zsum_tele.
Qed.

(** ** One cell *)
Lemma curl_inner g s i j : apart g -> reachable g s ->
  (g_pml g < i < g_Nx g - 1 - g_pml g)%Z -> (g_pml g < j < g_Ny g - 1 - g_pml g)%Z -> (0 <= g_pml g)%Z ->
  curl_at (f_ph s) i j = curlH (Hx_of (f_ph s)) (Hy_of (f_ph s)) i j / g_dx g.
Proof.
  intros Ha Hr Hi Hj Hp. destruct (reachable_good g s (apart_roomy g Ha) Hr) as [Hw Gg].
  assert (Fl := coefs_flat g _ Ha (reachable_coefs g s Ha Hr)).
  unfold curl_at. rewrite Gg. cbv zeta. set (u := next_e _ _ _ _ _ _ _ _). unfold curl_h, curlH.
  replace (j <=? g_pml g)%Z with false by lia. replace (i <=? g_pml g)%Z with false by lia.
  replace (g_Ny g - 1 - g_pml g <=? j)%Z with false by lia. replace (g_Nx g - 1 - g_pml g <=? i)%Z with false by lia.
  destruct (proj1 Fl i ltac:(lia)) as [-> _]. destruct (proj2 Fl j ltac:(lia)) as [-> _].
  change (hX (h_of (f_ph s))) with (Hx_of (f_ph s)). change (hY (h_of (f_ph s))) with (Hy_of (f_ph s)).
  rnum. change (@T RNum) with R. unfold Rdiv. ring.
Qed.

Lemma half_back (d c : R) : d * c = / 2 * (2 * d * c). Proof. field. Qed.
Lemma over_back (d c : R) : 0 < d -> c = 2 * d * c / (2 * d). Proof. intros. field. lra. Qed.
Lemma cell_energy g name s0 l s s' i j mt : grid_ok g -> mk_field g name = Ok s0 -> run l s0 = Fine s ->
  forallb (fun c => negb (repositions c)) l = true -> ~ In ClearFields l ->
  Forall (fun o => SpecGeometry.shape_ok (o_geom o)) (added l) -> (forall o y, In o (added l) -> m_kind (o_mat o) <> KLorentz y) ->
  passive (m_kind mt) -> point_of (added l) mt (g_dx g * IZR i, g_dx g * IZR j) -> step_at g s s' i j ->
  let p := f_ph s in let p' := f_ph s' in
  (Ez_of p i j + Ez_of p' i j) * (eps_of (m_kind mt) * (Ez_of p' i j - Ez_of p i j) - g_dt g * curl_at p i j)
  + (held p' mt i j - held p mt i j) = - (2 * g_dt g) * heat p p' mt i j.
Proof.
  intros Hg H0 Hr Hl Hc Hs Nl Pm Po St. cbv zeta.
  assert (Dt := sa_dt _ _ _ _ _ St).
  assert (Hi : (0 <= i < g_Nx g)%Z) by (assert (K := sa_i _ _ _ _ _ St); lia).
  assert (Hj : (0 <= j < g_Ny g)%Z) by (assert (K := sa_j _ _ _ _ _ St); lia).
  assert (Hr' : run (l ++ [Update]) s0 = Fine s').
  { rewrite run_app, Hr. cbn [obind run exec]. rewrite (sa_update _ _ _ _ _ St). reflexivity. }
  assert (Hl' : forallb (fun c => negb (repositions c)) (l ++ [Update]) = true) by (rewrite forallb_app, Hl; reflexivity).
  assert (Hc' : ~ In ClearFields (l ++ [Update])) by (intros K; apply in_app_or in K; destruct K as [K|[K|[]]]; [auto|discriminate]).
  assert (Hs' : Forall (fun o => SpecGeometry.shape_ok (o_geom o)) (added (l ++ [Update]))) by (change [Update] with (repeat Update 1); rewrite added_updates; exact Hs).
  destruct (run_str g name s0 s l Hg H0 Hr Hl Hc Hs) as (_ & (N1 & _) & (N2 & _) & _).
  destruct (run_str g name s0 s' (l ++ [Update]) Hg H0 Hr' Hl' Hc' Hs') as (_ & (N1' & _) & (N2' & _) & _).
  rewrite (half_back (g_dt g) (curl_at (f_ph s) i j)).
  assert (Cq : curl_at (f_ph s) i j = 2 * g_dt g * curl_at (f_ph s) i j / (2 * g_dt g)) by exact (over_back _ _ Dt).
  unfold point_of in Po. unfold held, heat, J_of. destruct (m_kind mt) as [m|x|x|x] eqn:Km; cbn [passive eps_of] in *.
  - destruct Po as [P1 P2]. destruct Pm as [E1 E2].
    assert (L := cell_simple g s s' i j St m E1 E2 (run_simple g name s0 s l i j m Hg H0 Hr Hl Hc Hs Hi Hj P1 P2 Nl)).
    rewrite Cq in L. apply (loss_simple _ _ _ _ _ _ Dt) in L.
    unfold Ez_of, Ez_at in *. rewrite Rminus_eq_0, Rplus_0_r. exact L.
  - destruct Pm as (E1 & d & Hp & E2 & E3). rewrite Hp.
    destruct (debye_objects g name s0 s s' l i j (m_name mt) x d Hg H0 Hr Hl Hc) as (k & q & q' & Q1 & Q2 & A & B); auto; [lra|].
    rewrite (current_entry _ _ _ _ _ i j N1 Q1), (current_entry _ _ _ _ _ i j N1' Q2). rewrite Cq in A.
    apply (loss_debye _ _ _ _ _ _ _ _ _ Dt E3 A B).
  - destruct Pm as (E1 & d & Hp & E2 & E3). rewrite Hp.
    destruct (drude_objects g name s0 s s' l i j (m_name mt) x d Hg H0 Hr Hl Hc) as (k & q & q' & Q1 & Q2 & A & B); auto.
    rewrite (current_entry _ _ _ _ _ i j N2 Q1), (current_entry _ _ _ _ _ i j N2' Q2). rewrite Cq in A.
    apply (loss_drude _ _ _ _ _ _ _ _ _ Dt E2 A B).
  - destruct Pm.
Qed.

Lemma faraday_cell g s s' i j : calm g s s' i j -> (g_pml g <= i < g_Nx g - 1 - g_pml g)%Z -> (g_pml g <= j < g_Ny g - 1 - g_pml g)%Z ->
  Hx_of (f_ph s') i j = Hx_of (f_ph s) i j - g_dt g / g_dx g * (Ez_of (f_ph s') i (j + 1)%Z - Ez_of (f_ph s') i j) /\
  Hy_of (f_ph s') i j = Hy_of (f_ph s) i j + g_dt g / g_dx g * (Ez_of (f_ph s') (i + 1)%Z j - Ez_of (f_ph s') i j).
Proof.
  intros C Hi Hj. destruct C as [[Ha Hr Hf Hu Bi Bj Hd Hsr] Ox Us Oy Uy].
  destruct (magnetic_law g s s' i j Ha Hr Hd Hu Hi Hj) as [A B]; try lia. assert (A1 := A Ox Us). assert (B1 := B Oy Uy).
  destruct (reachable_good g s (apart_roomy g Ha) Hr) as [_ Gg].
  assert (Gs : ph_grid (f_ph s') = g) by (apply update_phys_step, phys_step_static, grid_static in Hu; congruence).
  unfold faraday, curl_e_x, curl_e_y, Hx_at, Hy_at, Ez_at in *. rewrite Gs in *.
  assert (F : forall a b c, 1 * (a - b) / g_dt g = - c -> a = b - g_dt g * c).
  { intros a b c E. replace c with (- (1 * (a - b) / g_dt g)) by lra. field. lra. }
  apply F in A1. apply F in B1. unfold Hx_of, Hy_of, Ez_of. split; [etransitivity; [exact A1|]|etransitivity; [exact B1|]]; unfold Rdiv; ring.
Qed.

(** ** One step, and any number of steps *)
Lemma rect_step g name s0 l mat q s s1 s2 : grid_ok g -> mk_field g name = Ok s0 -> run l s0 = Fine s1 ->
  forallb (fun c => negb (repositions c)) l = true -> ~ In ClearFields l ->
  Forall (fun o => SpecGeometry.shape_ok (o_geom o)) (added l) -> (forall o y, In o (added l) -> m_kind (o_mat o) <> KLorentz y) ->
  clear_rect g q ->
  (forall i j, inside q i j -> passive (m_kind (mat i j)) /\ point_of (added l) (mat i j) (g_dx g * IZR i, g_dx g * IZR j) /\
     calm g s s1 i j /\ calm g s1 s2 i j) ->
  kept g mat q (f_ph s1) (f_ph s2) - kept g mat q (f_ph s) (f_ph s1)
  = - g_dt g * (outflow g q (f_ph s1) (f_ph s2) + warming g mat q (f_ph s1) (f_ph s2)).
Proof.
  intros Hg H0 Hr Hl Hc Hs Nl (Q1 & Q2 & Q3 & Q4 & Q5 & Q6) HQ.
  assert (Hd : 0 < g_dx g) by apply Hg.
  set (p := f_ph s). set (p1 := f_ph s1). set (p2 := f_ph s2). set (e := Ez_mid p1 p2).
  unfold kept, outflow, warming. fold e.
  set (loc := fun i j => e i j * (Hy_of p1 i j - Hy_of p1 (i - 1)%Z j + Hx_of p1 i (j - 1)%Z - Hx_of p1 i j)
                     + Hy_of p1 i j * (e (i + 1)%Z j - e i j) - Hx_of p1 i j * (e i (j + 1)%Z - e i j)).
  assert (K : forall i j, inside q i j ->
     g_dx g ^ 2 * ((eps_map mat i j * Ez_of p2 i j ^ 2 + Hx_of p1 i j * Hx_of p2 i j + Hy_of p1 i j * Hy_of p2 i j + held p2 (mat i j) i j) / 2)
     - g_dx g ^ 2 * ((eps_map mat i j * Ez_of p1 i j ^ 2 + Hx_of p i j * Hx_of p1 i j + Hy_of p i j * Hy_of p1 i j + held p1 (mat i j) i j) / 2)
     = g_dt g * g_dx g * loc i j - g_dt g * g_dx g ^ 2 * heat p1 p2 (mat i j) i j).
  { intros i j Hq. destruct (HQ i j Hq) as (Pm & Po & C & C1). destruct Hq as [Bi Bj].
    assert (Hp : (0 <= g_pml g)%Z) by apply (sa_apart _ _ _ _ _ (ca_e _ _ _ _ _ C)).
    assert (L := cell_energy g name s0 l s1 s2 i j (mat i j) Hg H0 Hr Hl Hc Hs Nl Pm Po (ca_e _ _ _ _ _ C1)). cbv zeta in L. fold p1 p2 in L.
    destruct (faraday_cell g s s1 i j C) as [X1 Y1]; try lia. destruct (faraday_cell g s1 s2 i j C1) as [X2 Y2]; try lia. fold p p1 p2 in X1, Y1, X2, Y2.
    destruct (ca_e _ _ _ _ _ C1) as [Ha Re _ _ _ _ _ _].
    assert (Cu : curl_at p1 i j = curlH (Hx_of p1) (Hy_of p1) i j / g_dx g) by (apply curl_inner; auto; lia).
    assert (M : g_dt g * curl_at p1 i j * g_dx g = g_dt g * curlH (Hx_of p1) (Hy_of p1) i j) by (rewrite Cu; field; lra). unfold curlH in M.
    assert (X : g_dx g * (Hx_of p2 i j - Hx_of p i j) = - g_dt g * (2 * (e i (j + 1)%Z - e i j))) by (rewrite X2, X1; unfold e, Ez_mid; field; lra).
    assert (Y : g_dx g * (Hy_of p2 i j - Hy_of p i j) = g_dt g * (2 * (e (i + 1)%Z j - e i j))) by (rewrite Y2, Y1; unfold e, Ez_mid; field; lra).
    assert (E2 : Ez_of p1 i j + Ez_of p2 i j = 2 * e i j) by (unfold e, Ez_mid; field).
    unfold eps_map in *. set (ep := eps_of (m_kind (mat i j))) in *.
    assert (L' : ep * Ez_of p2 i j ^ 2 - ep * Ez_of p1 i j ^ 2 + (held p2 (mat i j) i j - held p1 (mat i j) i j)
        = 2 * e i j * (g_dt g * curl_at p1 i j) - 2 * g_dt g * heat p1 p2 (mat i j) i j).
    { rewrite <- E2. lra. }
    unfold loc.
    transitivity (g_dx g / 2 * (g_dx g * (ep * Ez_of p2 i j ^ 2 - ep * Ez_of p1 i j ^ 2 + (held p2 (mat i j) i j - held p1 (mat i j) i j))
      + Hx_of p1 i j * (g_dx g * (Hx_of p2 i j - Hx_of p i j)) + Hy_of p1 i j * (g_dx g * (Hy_of p2 i j - Hy_of p i j)))); [field|].
    rewrite L', X, Y.
    replace (g_dx g * (2 * e i j * (g_dt g * curl_at p1 i j) - 2 * g_dt g * heat p1 p2 (mat i j) i j))
      with (2 * e i j * (g_dt g * curl_at p1 i j * g_dx g) - 2 * g_dt g * g_dx g * heat p1 p2 (mat i j) i j) by ring.
    rewrite M. field. }
  assert (P := over_parts q e (Hx_of p1) (Hy_of p1) Q5 Q6). fold loc in P.
  rewrite <- !over_scal, <- over_sub. rewrite (over_ext q _ _ K), over_sub.
  rewrite (over_scal q (g_dt g * g_dx g) loc), P, !over_scal.
  rewrite (zsum_ext (rc q) (rd q) (fun j => - e (rb q) j * Hy_of p1 (rb q - 1)%Z j) (fun j => -1 * (e (rb q) j * Hy_of p1 (rb q - 1)%Z j))) by (intros; ring).
  rewrite (zsum_ext (rc q) (rd q) (fun j => - e (ra q) j * Hy_of p1 (ra q - 1)%Z j) (fun j => -1 * (e (ra q) j * Hy_of p1 (ra q - 1)%Z j))) by (intros; ring).
  rewrite !(zsum_scal (rc q) (rd q) (-1)). ring.
Qed.

Lemma poynting g name s0 l mat q (tr : nat -> field) N : grid_ok g -> mk_field g name = Ok s0 ->
  (forall n, (n <= S N)%nat -> run (l ++ repeat Update n) s0 = Fine (tr n)) ->
  forallb (fun c => negb (repositions c)) l = true -> ~ In ClearFields l ->
  Forall (fun o => SpecGeometry.shape_ok (o_geom o)) (added l) -> (forall o y, In o (added l) -> m_kind (o_mat o) <> KLorentz y) ->
  clear_rect g q ->
  (forall i j, inside q i j -> passive (m_kind (mat i j)) /\ point_of (added l) (mat i j) (g_dx g * IZR i, g_dx g * IZR j)) ->
  (forall i j n, inside q i j -> (n <= N)%nat -> calm g (tr n) (tr (S n)) i j) ->
  let st n := f_ph (tr n) in
  kept g mat q (st N) (st (S N)) = kept g mat q (st 0%nat) (st 1%nat)
  - g_dt g * rsum N (fun n => outflow g q (st (S n)) (st (S (S n))) + warming g mat q (st (S n)) (st (S (S n)))).
Proof.
  intros Hg H0 Hr Hl Hc Hs Nl Cl Pm Ca st. induction N as [|N IH].
  - cbn [rsum]. unfold st. ring.
  - cbn [rsum]. assert (A := rect_step g name s0 (l ++ repeat Update (S N)) mat q (tr N) (tr (S N)) (tr (S (S N))) Hg H0).
    rewrite !added_updates in A. rewrite <- Rmult_opp_opp in A.
    assert (B : kept g mat q (st (S N)) (st (S (S N))) - kept g mat q (st N) (st (S N))
      = - g_dt g * (outflow g q (st (S N)) (st (S (S N))) + warming g mat q (st (S N)) (st (S (S N))))).
    { unfold st. rewrite <- Rmult_opp_opp. apply A; auto using still_updates, clear_updates.
      intros i j Hq. destruct (Pm i j Hq). split; [assumption|]. split; [assumption|]. split; apply Ca; auto. }
    rewrite IH in B; [|intros; apply Hr; lia|intros; apply Ca; auto]. cbv zeta in B. lra.
Qed.

Lemma over_nonneg q f : (forall i j, inside q i j -> 0 <= f i j) -> 0 <= over q f.
Proof.
  intros H. unfold over, zsum. apply rsum_nonneg. intros a Ha. apply rsum_nonneg. intros b Hb. apply H. split; lia.
Qed.
Lemma warming_nonneg g mat q p p' : (forall i j, inside q i j -> passive (m_kind (mat i j))) -> 0 <= warming g mat q p p'.
Proof.
  intros H. unfold warming. apply Rmult_le_pos; [apply pow2_ge_0|]. apply over_nonneg. intros i j Hq. specialize (H i j Hq).
  unfold heat. destruct (m_kind (mat i j)) as [m|x|x|x]; cbn [passive] in H.
  - apply Rmult_le_pos; [apply H|apply pow2_ge_0].
  - destruct H as (_ & d & -> & A & B). apply Rmult_le_pos; [|apply pow2_ge_0]. apply Rlt_le, Rdiv_lt_0_compat; assumption.
  - destruct H as (_ & d & -> & A & B). apply Rmult_le_pos; [|apply pow2_ge_0]. apply Rmult_le_pos; [exact B|].
    apply Rlt_le, Rinv_0_lt_compat. assert (0 <= up_omega d ^ 2) by apply pow2_ge_0. assert (up_omega d ^ 2 <> 0) by (now apply pow_nonzero). lra.
  - lra.
Qed.
