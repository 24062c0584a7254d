(** The energy balance of a rectangle with sources in it. *)
From Coq Require Import ZArith Reals String List Bool Lia Lra Psatz.
From Verif Require Import Scalar Base BaseFacts VecM GridM GeometryM MaterialM PmlM DftM TfsfM PolarM
  InterpM H5M ClockM MonitorM FieldM SpecGrid GridFacts OutFacts PhysFacts SpecGeometry GeometryFacts SpecPaint PaintFacts WfFacts ReachFacts InvFacts
  SpecStep StepFacts EngineFacts YeeFacts SpecSource SourceFacts SpecMedium PolarFacts FullStep TextbookFacts
  SafeFacts SpecTfsf TfsfFacts TfsfRun SpecRim MediumFacts StrengthFacts SpecMaterial MediaFacts MaterialFacts MagnetFacts SpecMedia MediaRun CellFacts
  SpecTrace TraceFacts MediaCases SpecEnergy EnergyFacts SpecLoss LossFacts SpecFreq FreqFacts SpecPoynt PoyntFacts ConeFacts OutsideFacts SpecOutput SpecWork.
Import ListNotations.
Local Open Scope R_scope.
#[local] Existing Instance RNum.

Lemma add_at_supply v L i j : forall x : R, add_at v L i j x = x + v * visits_to L i j.
Proof.
  unfold add_at, visits_to. induction L as [|q L IH]; intros x; cbn [fold_left filter]; [cbn; lra|]. rewrite IH.
  destruct ((fst q =? i)%Z && (snd q =? j)%Z); [|reflexivity]. cbn [List.length]. rewrite S_INR. rnumg. change (@T RNum) with R in *. ring.
Qed.
Lemma lit_supply t c i j RL : forall x : R, lit t RL c i j x = x + supply t RL c i j.
Proof.
  unfold lit, supply. induction RL as [|[r L] RL IH]; intros x; cbn [fold_left fold_right fst snd]; [lra|]. rewrite IH.
  change (comp_eqb (sr_c r) c) with (same_comp (sr_c r) c). destruct (same_comp (sr_c r) c); [rewrite add_at_supply|]; lra.
Qed.
Lemma supply_core t c i j a b Ls : map src_core a = map src_core b -> supply t (combine a Ls) c i j = supply t (combine b Ls) c i j.
Proof. intros H. assert (K := lit_core t c i j a b Ls 0 H). rewrite !lit_supply in K. lra. Qed.

Section Step.
Variables (g : grid) (S0 : list source) (Ls : list (list (Z * Z))).
Hypothesis Cells : Forall2 (fun r L => src_cells g (sr_kind r) L) S0 Ls.
Notation RL := (combine S0 Ls).

Lemma driven_simple s s' mt m i j : open_cell g s s' mt i j -> map src_core (ph_srcs (f_ph s)) = map src_core S0 ->
  (1 <= i < g_Nx g - 1)%Z -> (1 <= j < g_Ny g - 1)%Z -> 0 < sm_eps m -> 0 <= sm_conduc m -> simple_only (f_ph s) m i j ->
  conductor_law (sm_eps m) (sm_conduc m) (g_dt g) (Ez_at (f_ph s) i j) (Ez_at (f_ph s') i j)
    (curl_at (f_ph s) i j + (sm_eps m / g_dt g + sm_conduc m / 2) * supply (ph_t (f_ph s) + g_dt g) RL Ez i j).
Proof.
  intros [Ha Hr Hu Hd Oe _ _ _] Hc Hi Hj He Hs Ho.
  destruct (reachable_good g s (apart_roomy g Ha) Hr) as [Hw Gg]. assert (Ht := reachable_tame g s Hr). apply update_phys_step in Hu.
  destruct Ho as ((Ca & Cb) & Z1 & Z2 & Z3). rewrite <- Gg in Ha.
  destruct (step_media _ _ Ha Hw Hu) as (E0 & E1 & E2 & E3 & V0 & K1 & K2 & K3 & (Ls' & HL & V3) & _).
  rewrite Gg in *. rewrite Z3 in K3. cbn [polar_all] in K3. injection K3 as _ ->. destruct Ht as (_ & T1 & T2 & _). rewrite Gg in *.
  assert (Q : Ls' = Ls) by (apply (src_cells_list g S0); [apply (cells_core g _ _ _ Hc HL)|exact Cells]). subst Ls'.
  assert (V : Ez_at (f_ph s') i j = simple_Ca m (g_dt g) * Ez_at (f_ph s) i j + simple_Cb m (g_dt g) * curl_at (f_ph s) i j + supply (ph_t (f_ph s) + g_dt g) RL Ez i j).
  { unfold Ez_at at 1. rewrite V3, (tf_off_E _ _ _ _ Oe). rewrite (lit_core _ _ _ _ _ _ _ _ Hc), lit_supply. f_equal.
    rewrite (idle_drude _ _ _ _ _ _ i j T2 ltac:(lia) ltac:(lia) Z2 K2).
    rewrite (idle_debye _ _ _ _ _ _ i j T1 ltac:(lia) ltac:(lia) Z1 K1).
    rewrite V0. assert (Y := yee_value (f_ph s) i j). rewrite Gg in Y. rewrite (Y Hi Hj), Ca, Cb, ?Gg. reflexivity. }
  unfold conductor_law. rewrite V. unfold simple_Ca, simple_Cb. rnumg. change (@T RNum) with R in *.
  assert (2 * sm_eps m + sm_conduc m * g_dt g <> 0) by nra. field. repeat split; try lra.
Qed.

Lemma driven_faraday s s' mt i j : open_cell g s s' mt i j -> map src_core (ph_srcs (f_ph s)) = map src_core S0 ->
  (g_pml g <= i < g_Nx g - 1 - g_pml g)%Z -> (g_pml g <= j < g_Ny g - 1 - g_pml g)%Z -> (1 <= i < g_Nx g - 1)%Z -> (1 <= j < g_Ny g - 1)%Z ->
  let t := ph_t (f_ph s) + g_dt g in
  Hx_of (f_ph s') i j = Hx_of (f_ph s) i j + supply t RL Hx i j - g_dt g / g_dx g * (Ez_of (f_ph s') i (j + 1)%Z - Ez_of (f_ph s') i j) /\
  Hy_of (f_ph s') i j = Hy_of (f_ph s) i j + supply t RL Hy i j + g_dt g / g_dx g * (Ez_of (f_ph s') (i + 1)%Z j - Ez_of (f_ph s') i j).
Proof.
  intros [Hg Hr Hs Hd _ Ox Oy _] Hc Bi Bj Hi Hj t. destruct (reachable_good g s (apart_roomy g Hg) Hr) as [Hw Gg].
  assert (Nm := reachable_nonmag g s Hr). destruct Nm as [_ Nm]. assert (Cf := reachable_coefs g s Hg Hr).
  destruct Cf as (_ & _ & Sx & Sy). apply update_phys_step in Hs.
  rewrite <- Gg in Hg. destruct (step_magnet _ _ Hg Hw Hs) as (Ls' & HL & Hq & V). rewrite Gg in *. destruct (V i j) as [Vx Vy].
  assert (Q : Ls' = Ls) by (apply (src_cells_list g S0); [apply (cells_core g _ _ _ Hc HL)|exact Cells]). subst Ls'.
  destruct (Nm i j ltac:(lia) ltac:(lia)) as [Da Db].
  assert (Cc : core (g_Nx g) (g_Ny g) i j = true) by (unfold core; lia).
  unfold Hx_of at 1, Hy_of at 1. split; [rewrite Vx, (proj1 (tf_off_H _ _ _ _ _ Hq) Ox)|rewrite Vy, (proj2 (tf_off_H _ _ _ _ _ Hq) Oy)].
  all: unfold next_h; cbn [hX hY]; rewrite Cc; unfold addHx, addHy, yeeHx, yeeHy.
  1: replace (j <? g_pml g)%Z with false by lia; replace (g_Ny g - 1 - g_pml g <=? j)%Z with false by lia; destruct (Sy j ltac:(lia)) as [_ Qq].
  2: replace (i <? g_pml g)%Z with false by lia; replace (g_Nx g - 1 - g_pml g <=? i)%Z with false by lia; destruct (Sx i ltac:(lia)) as [_ Qq].
  all: cbn [andb hX hY]; rewrite ?Qq.
  all: change (mDa (med (f_ph s)) i j) with (tval (cDa (ph_C (f_ph s))) i j); change (mDb (med (f_ph s)) i j) with (tval (cDb (ph_C (f_ph s))) i j).
  all: rewrite Da, Db, (lit_core _ _ _ _ _ _ _ _ Hc), lit_supply; cbn [fval]; rnumg; unfold Ez_of; change (@T RNum) with R in *; unfold Rdiv; unfold t, Hx_of, Hy_of. all: try rewrite (Rmult_1_r (g_dx g)); ring.
Qed.

(** a cell with sources *)
Lemma driven_cell name s0 l s s' i j mt : grid_ok g -> mk_field g name = Ok s0 -> run l s0 = Fine s ->
  forallb (fun c => negb (repositions c)) l = true -> ~ In ClearFields l ->
  Forall (fun o => SpecGeometry.shape_ok (o_geom o)) (added l) -> (forall o y, In o (added l) -> m_kind (o_mat o) <> KLorentz y) ->
  passive (m_kind mt) -> point_of (added l) mt (g_dx g * IZR i, g_dx g * IZR j) -> open_cell g s s' mt i j ->
  (1 <= i < g_Nx g - 1)%Z -> (1 <= j < g_Ny g - 1)%Z -> map src_core (ph_srcs (f_ph s)) = map src_core S0 ->
  let p := f_ph s in let p' := f_ph s' in
  (Ez_of p i j + Ez_of p' i j) * (eps_of (m_kind mt) * (Ez_of p' i j - Ez_of p i j)
     - g_dt g * (curl_at p i j + as_current (g_dt g) (m_kind mt) (supply (ph_t p + g_dt g) RL Ez i j)))
  + (held p' mt i j - held p mt i j) = - (2 * g_dt g) * heat p p' mt i j.
Proof.
  intros Hg H0 Hr Hl Hc Hs Nl Pm Po Oc Hi Hj Hk. cbv zeta. destruct (m_kind mt) as [m|x|x|x] eqn:Km.
  - assert (Dt := oc_dt _ _ _ _ _ _ Oc). cbn [passive eps_of as_current] in *. destruct Pm as [E1 E2].
    unfold point_of in Po. rewrite Km in Po. destruct Po as [P1 P2].
    assert (L := driven_simple s s' mt m i j Oc Hk Hi Hj E1 E2 (run_simple g name s0 s l i j m Hg H0 Hr Hl Hc Hs ltac:(lia) ltac:(lia) P1 P2 Nl)).
    set (c := curl_at (f_ph s) i j + _) in *.
    unfold held, heat. rewrite Km. rewrite Rminus_eq_0, Rplus_0_r.
    assert (Cq : c = 2 * g_dt g * c / (2 * g_dt g)) by exact (over_back _ _ Dt). rewrite Cq in L. apply (loss_simple _ _ _ _ _ _ Dt) in L.
    unfold Ez_of, Ez_at in *. rewrite (half_back (g_dt g) c). exact L.
  - rewrite <- Km in Pm. assert (L := cell_energy g name s0 l s s' i j mt Hg H0 Hr Hl Hc Hs Nl Pm Po). cbv zeta in L. rewrite <- Km in *. cbn [as_current]. rewrite Km at 2. cbn [as_current]. rewrite Rplus_0_r.
    apply L. destruct Oc as [a b c d e _ _ f]. constructor; auto. apply f. rewrite Km. exact I.
  - rewrite <- Km in Pm. assert (L := cell_energy g name s0 l s s' i j mt Hg H0 Hr Hl Hc Hs Nl Pm Po). cbv zeta in L. rewrite <- Km in *. rewrite Km at 2. cbn [as_current]. rewrite Rplus_0_r.
    apply L. destruct Oc as [a b c d e _ _ f]. constructor; auto. apply f. rewrite Km. exact I.
  - destruct Pm.
Qed.

Lemma driven_step name s0 l mat q s s1 s2 : grid_ok g -> mk_field g name = Ok s0 -> run l s0 = Fine s1 ->
  forallb (fun c => negb (repositions c)) l = true -> ~ In ClearFields l ->
  Forall (fun o => SpecGeometry.shape_ok (o_geom o)) (added l) -> (forall o y, In o (added l) -> m_kind (o_mat o) <> KLorentz y) ->
  clear_rect g q -> map src_core (ph_srcs (f_ph s)) = map src_core S0 -> map src_core (ph_srcs (f_ph s1)) = map src_core S0 ->
  ph_t (f_ph s1) = ph_t (f_ph s) + g_dt g -> ph_t (f_ph s2) = ph_t (f_ph s1) + g_dt g ->
  (forall i j, inside q i j -> passive (m_kind (mat i j)) /\ point_of (added l) (mat i j) (g_dx g * IZR i, g_dx g * IZR j) /\
     open_cell g s s1 (mat i j) i j /\ open_cell g s1 s2 (mat i j) i j) ->
  kept g mat q (f_ph s1) (f_ph s2) - kept g mat q (f_ph s) (f_ph s1)
  = g_dt g * (work g RL mat q (f_ph s1) (f_ph s2) - outflow g q (f_ph s1) (f_ph s2) - warming g mat q (f_ph s1) (f_ph s2)).
Proof.
  intros Hg H0 Hr Hl Hc Hs Nl (Q1 & Q2 & Q3 & Q4 & Q5 & Q6) C0 C1 T1 T2 HQ.
  assert (Hd : 0 < g_dx g) by apply Hg.
  unfold kept, outflow, warming, work. rewrite T2.
  set (p := f_ph s) in *. set (p1 := f_ph s1) in *. set (p2 := f_ph s2) in *. set (e := Ez_mid p1 p2).
  set (loc := fun i j => e i j * (Hy_of p1 i j - Hy_of p1 (i - 1)%Z j + Hx_of p1 i (j - 1)%Z - Hx_of p1 i j)
                     + Hy_of p1 i j * (e (i + 1)%Z j - e i j) - Hx_of p1 i j * (e i (j + 1)%Z - e i j)).
  set (wk := fun i j => e i j * as_current (g_dt g) (m_kind (mat i j)) (supply (ph_t p1 + g_dt g) RL Ez i j)
    + Hx_of p1 i j * ((supply (ph_t p1) RL Hx i j + supply (ph_t p1 + g_dt g) RL Hx i j) / (2 * g_dt g))
    + Hy_of p1 i j * ((supply (ph_t p1) RL Hy i j + supply (ph_t p1 + g_dt g) RL Hy i j) / (2 * g_dt g))).
  assert (K : forall i j, inside q i j ->
     g_dx g ^ 2 * ((eps_map mat i j * Ez_of p2 i j ^ 2 + Hx_of p1 i j * Hx_of p2 i j + Hy_of p1 i j * Hy_of p2 i j + held p2 (mat i j) i j) / 2)
     - g_dx g ^ 2 * ((eps_map mat i j * Ez_of p1 i j ^ 2 + Hx_of p i j * Hx_of p1 i j + Hy_of p i j * Hy_of p1 i j + held p1 (mat i j) i j) / 2)
     = (g_dt g * g_dx g * loc i j - g_dt g * g_dx g ^ 2 * heat p1 p2 (mat i j) i j) + g_dt g * g_dx g ^ 2 * wk i j).
  { intros i j Hq. destruct (HQ i j Hq) as (Pm & Po & C & D). destruct Hq as [Bi Bj].
    assert (Hp : (0 <= g_pml g)%Z) by apply (oc_apart _ _ _ _ _ _ C). assert (Dt := oc_dt _ _ _ _ _ _ C).
    assert (L := driven_cell name s0 l s1 s2 i j (mat i j) Hg H0 Hr Hl Hc Hs Nl Pm Po D ltac:(lia) ltac:(lia) C1). cbv zeta in L. fold p1 p2 in L.
    destruct (driven_faraday s s1 (mat i j) i j C C0) as [X1 Y1]; try lia. destruct (driven_faraday s1 s2 (mat i j) i j D C1) as [X2 Y2]; try lia.
    fold p p1 p2 in X1, Y1, X2, Y2. rewrite <- T1 in X1, Y1.
    assert (Cu : curl_at p1 i j = curlH (Hx_of p1) (Hy_of p1) i j / g_dx g) by (apply curl_inner; try apply D; lia).
    assert (M : g_dt g * curl_at p1 i j * g_dx g = g_dt g * curlH (Hx_of p1) (Hy_of p1) i j) by (rewrite Cu; field; lra). unfold curlH in M.
    unfold wk. set (kx1 := supply (ph_t p1) RL Hx i j) in *. set (kx2 := supply (ph_t p1 + g_dt g) RL Hx i j) in *.
    set (ky1 := supply (ph_t p1) RL Hy i j) in *. set (ky2 := supply (ph_t p1 + g_dt g) RL Hy i j) in *.
    set (ac := as_current (g_dt g) (m_kind (mat i j)) _) in *.
    assert (X : g_dx g * (Hx_of p2 i j - Hx_of p i j) = - g_dt g * (2 * (e i (j + 1)%Z - e i j)) + g_dx g * (kx1 + kx2)) by (rewrite X2, X1; unfold e, Ez_mid; field; lra).
    assert (Y : g_dx g * (Hy_of p2 i j - Hy_of p i j) = g_dt g * (2 * (e (i + 1)%Z j - e i j)) + g_dx g * (ky1 + ky2)) by (rewrite Y2, Y1; unfold e, Ez_mid; field; lra).
    assert (E2 : Ez_of p1 i j + Ez_of p2 i j = 2 * e i j) by (unfold e, Ez_mid; field).
    unfold eps_map in *. set (ep := eps_of (m_kind (mat i j))) in *.
    assert (L' : ep * Ez_of p2 i j ^ 2 - ep * Ez_of p1 i j ^ 2 + (held p2 (mat i j) i j - held p1 (mat i j) i j)
        = 2 * e i j * (g_dt g * (curl_at p1 i j + ac)) - 2 * g_dt g * heat p1 p2 (mat i j) i j).
    { rewrite <- E2. lra. }
    unfold loc.
    transitivity (g_dx g / 2 * (g_dx g * (ep * Ez_of p2 i j ^ 2 - ep * Ez_of p1 i j ^ 2 + (held p2 (mat i j) i j - held p1 (mat i j) i j))
      + Hx_of p1 i j * (g_dx g * (Hx_of p2 i j - Hx_of p i j)) + Hy_of p1 i j * (g_dx g * (Hy_of p2 i j - Hy_of p i j)))); [field|].
    rewrite L', X, Y.
    replace (g_dx g * (2 * e i j * (g_dt g * (curl_at p1 i j + ac)) - 2 * g_dt g * heat p1 p2 (mat i j) i j))
      with (2 * e i j * (g_dt g * curl_at p1 i j * g_dx g) + 2 * e i j * g_dt g * g_dx g * ac - 2 * g_dt g * g_dx g * heat p1 p2 (mat i j) i j) by ring.
    rewrite M. field. lra. }
  assert (P := over_parts q e (Hx_of p1) (Hy_of p1) Q5 Q6). fold loc in P.
  rewrite <- !over_scal, <- over_sub. rewrite (over_ext q _ _ K), over_add, over_sub.
  rewrite (over_scal q (g_dt g * g_dx g) loc), P, !over_scal.
  rewrite (zsum_ext (rc q) (rd q) (fun j => - e (rb q) j * Hy_of p1 (rb q - 1)%Z j) (fun j => -1 * (e (rb q) j * Hy_of p1 (rb q - 1)%Z j))) by (intros; ring).
  rewrite (zsum_ext (rc q) (rd q) (fun j => - e (ra q) j * Hy_of p1 (ra q - 1)%Z j) (fun j => -1 * (e (ra q) j * Hy_of p1 (ra q - 1)%Z j))) by (intros; ring).
  rewrite !(zsum_scal (rc q) (rd q) (-1)). ring.
Qed.
End Step.

Lemma driven g name s0 l mat q (tr : nat -> field) Ls N : grid_ok g -> apart g -> mk_field g name = Ok s0 ->
  (forall n, (n <= S N)%nat -> run (l ++ repeat Update n) s0 = Fine (tr n)) ->
  forallb (fun c => negb (repositions c)) l = true -> ~ In ClearFields l ->
  Forall (fun o => SpecGeometry.shape_ok (o_geom o)) (added l) -> (forall o y, In o (added l) -> m_kind (o_mat o) <> KLorentz y) ->
  clear_rect g q -> Forall2 (fun r L => src_cells g (sr_kind r) L) (ph_srcs (f_ph (tr 0%nat))) Ls ->
  (forall i j, inside q i j -> passive (m_kind (mat i j)) /\ point_of (added l) (mat i j) (g_dx g * IZR i, g_dx g * IZR j)) ->
  (forall i j n, inside q i j -> (n <= N)%nat -> open_cell g (tr n) (tr (S n)) (mat i j) i j) ->
  let st n := f_ph (tr n) in let lamps := combine (ph_srcs (st 0%nat)) Ls in
  kept g mat q (st N) (st (S N)) = kept g mat q (st 0%nat) (st 1%nat)
  + g_dt g * rsum N (fun n => work g lamps mat q (st (S n)) (st (S (S n))) - outflow g q (st (S n)) (st (S (S n))) - warming g mat q (st (S n)) (st (S (S n)))).
Proof.
  intros Hg Ha H0 Hr Hl Hc Hs Nl Cl Cs Pm Oc st lamps.
  assert (St : forall n, (n <= N)%nat -> map src_core (ph_srcs (st (S n))) = map src_core (ph_srcs (st n)) /\ ph_t (st (S n)) = ph_t (st n) + g_dt g).
  { intros n Hn. assert (R1 : run (l ++ repeat Update n) s0 = Fine (tr n)) by (apply Hr; lia). assert (R2 := Hr (S n) ltac:(lia)).
    cbn [repeat] in R2; rewrite repeat_cons, app_assoc, run_app, R1 in R2. cbn [obind run exec] in R2. destruct (update (tr n)) as [x|x|x] eqn:Eu; cbn [obind] in R2; try discriminate. injection R2 as ->.
    assert (Re : reachable g (tr n)) by (exists name, s0, (l ++ repeat Update n); split; [exact H0|now apply run_run_catch]).
    destruct (reachable_good g (tr n) (apart_roomy g Ha) Re) as [Hw Gg]. apply update_phys_step in Eu.
    assert (Ha' := Ha). rewrite <- Gg in Ha'. destruct (full_step _ _ Ha' Hw Eu) as (E0 & E1 & E2 & E3 & L' & u & h & []). rewrite Gg in *. unfold st. split; [exact cw_srcs|exact cw_t]. }
  assert (Sr : forall n, (n <= S N)%nat -> map src_core (ph_srcs (st n)) = map src_core (ph_srcs (st 0%nat))).
  { induction n as [|n IH]; intros Hn; [reflexivity|]. destruct (St n ltac:(lia)) as [-> _]. apply IH. lia. }
  enough (forall k, (k <= N)%nat -> kept g mat q (st k) (st (S k)) = kept g mat q (st 0%nat) (st 1%nat)
    + g_dt g * rsum k (fun n => work g lamps mat q (st (S n)) (st (S (S n))) - outflow g q (st (S n)) (st (S (S n))) - warming g mat q (st (S n)) (st (S (S n))))) as G by (apply G; lia).
  induction k as [|k IH]; intros Hk; [cbn [rsum]; lra|]. cbn [rsum].
  assert (A := driven_step g _ Ls Cs name s0 (l ++ repeat Update (S k)) mat q (tr k) (tr (S k)) (tr (S (S k))) Hg H0).
  rewrite !added_updates in A. fold (st k) (st (S k)) (st (S (S k))) lamps in A.
  assert (B := A (Hr (S k) ltac:(lia)) ltac:(auto using still_updates) ltac:(auto using clear_updates) Hs Nl Cl (Sr k ltac:(lia)) (Sr (S k) ltac:(lia)) (proj2 (St k ltac:(lia))) (proj2 (St (S k) ltac:(lia)))).
  rewrite IH in B by lia.
  enough (C : forall i j, inside q i j -> passive (m_kind (mat i j)) /\ point_of (added l) (mat i j) (g_dx g * IZR i, g_dx g * IZR j) /\
     open_cell g (tr k) (tr (S k)) (mat i j) i j /\ open_cell g (tr (S k)) (tr (S (S k))) (mat i j) i j) by (specialize (B C); change (combine (ph_srcs (f_ph (tr 0%nat))) Ls) with lamps in B; lra).
  intros i j Hq. destruct (Pm i j Hq) as [P1 P2]. split; [exact P1|]. split; [exact P2|]. split; apply Oc; try exact Hq; lia.
Qed.
