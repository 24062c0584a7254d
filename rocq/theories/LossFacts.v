(** One step in absorbing media: the energy lost is the heat. *)
From Coq Require Import ZArith Reals String List Bool Lia Lra Psatz.
From Verif Require Import Scalar Base BaseFacts VecM GridM GeometryM MaterialM PmlM DftM TfsfM PolarM
  InterpM H5M ClockM MonitorM FieldM SpecGrid GridFacts OutFacts PhysFacts SpecPaint PaintFacts WfFacts ReachFacts InvFacts
  SpecStep StepFacts EngineFacts YeeFacts SpecSource SourceFacts SpecMedium PolarFacts FullStep TextbookFacts SpecWave DarkFacts
  SafeFacts SpecTfsf TfsfFacts TfsfRun SpecRim MediumFacts SpecMaterial MediaFacts MaterialFacts SpecMedia SpecTrace SpecEnergy EnergyFacts SpecLoss.
Import ListNotations.
Local Open Scope R_scope.
#[local] Existing Instance RNum.

(** ** The maps of polarizations keep names, materials and strengths *)
Section Skeleton.
Context {M : Type}.
Variable f : M -> polar -> tensor -> tensor -> res (polar * tensor).
Definition alike_entry (a b : string * (M * polar)) : Prop :=
  fst a = fst b /\ fst (snd a) = fst (snd b) /\ pl_c (snd (snd b)) = pl_c (snd (snd a)) /\ pl_n (snd (snd b)) = pl_n (snd (snd a)).
Hypothesis keep : forall x q pe E q' E', f x q pe E = Ok (q', E') -> pl_c q' = pl_c q /\ pl_n q' = pl_n q.
Lemma polar_all_alike pe P : forall E P' E', polar_all f pe E P = Ok (P', E') -> Forall2 alike_entry P P'.
Proof.
  induction P as [|[nm [x q]] P IH]; intros E P' E' H; cbn [polar_all] in H; [injection H as <- <-; constructor|].
  apply bind_ok in H. destruct H as (pe0 & _ & H). apply bind_ok in H. destruct H as ([q1 E1] & H1 & H).
  apply bind_ok in H. destruct H as ([r E2] & H2 & H). injection H as <- <-. constructor; [|eapply IH; exact H2].
  destruct (keep _ _ _ _ _ _ H1). unfold alike_entry. cbn. auto.
Qed.
Lemma alike_names P P' : Forall2 alike_entry P P' -> map fst P' = map fst P.
Proof. induction 1 as [|a b ? ? [E _] ? IH]; cbn; [reflexivity|]. now rewrite IH, E. Qed.
Lemma alike_none P P' i j : Forall2 alike_entry P P' -> no_strength i j P -> no_strength i j P'.
Proof.
  intros H Hz nm x q Hin k Hk. induction H as [|[a [b c]] [a' [b' c']] P P' (E1 & E2 & E3 & E4) H IH]; [destruct Hin|]. cbn in *.
  destruct Hin as [Hin|Hin]; [|apply IH; auto; intros ? ? ? ?; eapply Hz; right; eassumption].
  injection Hin as -> -> ->. rewrite E3. rewrite E4 in Hk. apply (Hz a b c (or_introl eq_refl)). exact Hk.
Qed.
Lemma alike_nth P P' n b : Forall2 alike_entry P P' -> nth_error P' n = Some b -> exists a, nth_error P n = Some a /\ alike_entry a b.
Proof. intros H. revert n. induction H as [|a c P P' A H IH]; intros [|n] E; cbn in *; try discriminate; [injection E as <-; eauto|auto]. Qed.
Lemma alike_alone P P' n i j : Forall2 alike_entry P P' -> alone P n i j -> alone P' n i j.
Proof.
  intros H Ha n' nm x q Hn Hin k Hk. destruct (alike_nth P P' n' _ H Hin) as ([a [b c]] & Ea & (E1 & E2 & E3 & E4)). cbn in *.
  rewrite E3. rewrite E4 in Hk. eapply Ha; [exact Hn|exact Ea|exact Hk].
Qed.
Lemma alike_entry_nth P P' n nm x q : Forall2 alike_entry P P' -> entry P n nm x q ->
  exists q', entry P' n nm x q' /\ pl_c q' = pl_c q /\ pl_n q' = pl_n q.
Proof.
  intros H. revert n. induction H as [|a [nm' [x' c]] P P' (E1 & E2 & E3 & E4) H IH]; intros [|n] E; unfold entry in *; cbn in *; try discriminate.
  - injection E as ->. cbn in *. subst nm' x'. eauto.
  - apply IH in E. exact E.
Qed.
End Skeleton.

Lemma debye_keep x q pe E q' E' : debye_update x q pe E = Ok (q', E') -> pl_c q' = pl_c q /\ pl_n q' = pl_n q.
Proof. unfold debye_update. intros H. apply bind_ok in H. destruct H as ([a b] & _ & H). injection H as <- <-. auto. Qed.
Lemma drude_keep x q pe E q' E' : drude_update x q pe E = Ok (q', E') -> pl_c q' = pl_c q /\ pl_n q' = pl_n q.
Proof. unfold drude_update. intros H. apply bind_ok in H. destruct H as ([a b] & _ & H). injection H as <- <-. auto. Qed.

Lemma current_entry {M} (P : list (string * (M * polar))) n nm x q i j : NoDup (map fst P) -> entry P n nm x q -> current P nm i j = J_at q i j 0.
Proof.
  unfold current, entry. revert n. induction P as [|[a [b c]] P IH]; intros n Nd E; [now destruct n|]. cbn [find fst].
  destruct (String.eqb_spec a nm) as [->|Hn].
  - destruct n as [|n]; cbn in E; [now injection E as -> ->|]. exfalso. cbn in Nd. inversion Nd as [|? ? K _]; subst. apply K.
    apply nth_error_In in E. change nm with (fst (nm, (x, q))). now apply in_map.
  - destruct n as [|n]; cbn in E; [congruence|]. apply (IH n); [|exact E]. cbn in Nd. now inversion Nd.
Qed.

(** ** The state *)
Definition cell_is (g : grid) (p : phys) (mt : material) (i j : Z) : Prop :=
  absorber (m_kind mt) /\
  match m_kind mt with
  | KSimple m => simple_only p m i j
  | KDebye x => (exists n q, debye_only p n (m_name mt) x q i j) /\ ~ at_edge g i j
  | KDrude x => (exists n q, drude_only p n (m_name mt) x q i j) /\ ~ at_edge g i j
  | KLorentz _ => False
  end.
Record lossy (g : grid) (mat : Z -> Z -> material) (p : phys) : Prop := Lossy {
  lo_grid : ph_grid p = g; lo_wf : wf_phys p; lo_tame : tame p; lo_air : airy g (med p); lo_fl : flat g (med p);
  lo_nd1 : NoDup (map fst (ph_debye p)); lo_nd2 : NoDup (map fst (ph_drude p)); lo_none : ph_lorentz p = [];
  lo_srcs : ph_srcs p = []; lo_tfsf : ph_tfsf p = None; lo_e : quiet_e (e_of p); lo_h : quiet_h (h_of p);
  lo_cell : forall i j, (0 <= i < g_Nx g)%Z -> (0 <= j < g_Ny g)%Z -> cell_is g p (mat i j) i j }.

Lemma curl_free g p i j : ph_grid p = g -> flat g (med p) -> 0 < g_dx g ->
  (1 <= i < g_Nx g - 1)%Z -> (1 <= j < g_Ny g - 1)%Z ->
  quiet_e (next_e (g_Nx g) (g_Ny g) (g_pml g) (g_dx g) (med p) (hX (h_of p)) (hY (h_of p)) (e_of p)) ->
  curl_at p i j = curlH (Hx_of p) (Hy_of p) i j / g_dx g.
Proof.
  intros G Fl Hd Hi Hj Q. unfold curl_at. rewrite G. cbv zeta. set (u := next_e _ _ _ _ _ _ _ _) in *. unfold curl_h, curlH.
  destruct (Q i j) as (Q1 & _ & Q3 & _). destruct (Q (g_Nx g - 1 - i)%Z j) as (_ & Q2 & _). destruct (Q i (g_Ny g - 1 - j)%Z) as (_ & _ & _ & Q4).
  rewrite Q1, Q2, Q3, Q4. destruct (proj1 Fl i ltac:(lia)) as [-> _]. destruct (proj2 Fl j ltac:(lia)) as [-> _].
  change (hX (h_of p)) with (Hx_of p). change (hY (h_of p)) with (Hy_of p). rnum. change (@T RNum) with R.
  repeat match goal with |- context [if ?b then _ else _] => destruct b end; field; lra.
Qed.

Lemma cell_is_step g p p' mt i j : static p' = static p -> ph_lorentz p' = [] ->
  Forall2 alike_entry (ph_debye p) (ph_debye p') -> Forall2 alike_entry (ph_drude p) (ph_drude p') -> med p' = med p ->
  cell_is g p mt i j -> cell_is g p' mt i j.
Proof.
  intros S L A1 A2 Md [Ab H]. split; [exact Ab|]. apply static_eq in S. destruct S as (Gg & _).
  destruct (m_kind mt) as [m|x|x|x].
  - destruct H as (H1 & H2 & H3 & _). unfold simple_only, made_of in *. rewrite Md, Gg. eauto 10 using alike_none.
  - destruct H as ((n & q & H1 & H2 & H3 & H4 & H5 & _) & He). split; [|exact He].
    destruct (alike_entry_nth _ _ _ _ _ _ A1 H2) as (q' & E & C & Nn). exists n, q'. unfold debye_only, made_of, full_strength in *. rewrite Md, Gg, C, Nn.
    eauto 10 using alike_none, alike_alone.
  - destruct H as ((n & q & H1 & H2 & H3 & H4 & H5 & _) & He). split; [|exact He].
    destruct (alike_entry_nth _ _ _ _ _ _ A2 H2) as (q' & E & C & Nn). exists n, q'. unfold drude_only, made_of, full_strength in *. rewrite Md, Gg, C, Nn.
    eauto 10 using alike_none, alike_alone.
  - exact H.
Qed.

Lemma lossy_step g mat p p' : 0 < g_dx g -> g_dt g = g_dx g / 2 -> apart g -> (1 <= g_pml g)%Z ->
  lossy g mat p -> off_layers g p -> off_layers g p' -> phys_step p = Fine p' ->
  lossy g mat p' /\
  faraday (Z.to_nat (g_Nx g)) (Z.to_nat (g_Ny g)) (cut g (Ez_of p')) (Hx_of p) (Hy_of p) (Hx_of p') (Hy_of p') /\
  quiet_e (next_e (g_Nx g) (g_Ny g) (g_pml g) (g_dx g) (med p) (hX (h_of p)) (hY (h_of p)) (e_of p)).
Proof.
  intros Hd Ht Ha B0 L O O' Hs. destruct L.
  destruct (full_step p p') as (F0 & F1 & F2 & E3 & Ls & u & h & C); [now rewrite lo_grid0|exact lo_wf0|exact Hs|]. destruct C.
  rewrite lo_grid0 in *. rewrite lo_none0 in cw_lorentz. cbn [polar_all] in cw_lorentz. injection cw_lorentz as P3 K3.
  rewrite lo_srcs0 in *. cbn [combine] in *. rewrite lo_tfsf0 in *. cbn [line] in cw_line. injection cw_line as Tl.
  assert (Qu : quiet_e (next_e (g_Nx g) (g_Ny g) (g_pml g) (g_dx g) (med p) (hX (h_of p)) (hY (h_of p)) (e_of p))).
  { apply e_mute; auto; intros i j Hi Hj H; apply (O i j Hi Hj); exact H. }
  assert (Qu' := Qu). unfold grid_next_e in cw_u. rewrite lo_grid0 in cw_u. rewrite <- cw_u in Qu.
  destruct cw_e as (Ve & Me1 & Me2 & Me3 & Me4). destruct cw_h as (Vx & Mh1 & Mh2 & Vy & Mh3 & Mh4). cbn [eE hX hY with_xy eXl eXh eYl eYh hXl hXh hYl hYh] in *.
  rewrite <- Tl in *. cbn [tf] in *.
  unfold grid_next_h in cw_hm. rewrite lo_grid0 in cw_hm.
  destruct (h_coast g (med p) (eE (e_of p')) (with_xy (lits (ph_t p + g_dt g)%num [] Hx (hX (h_of p))) (lits (ph_t p + g_dt g)%num [] Hy (hY (h_of p))) (h_of p))) as [Qh Vh]; auto; [lra| |].
  { intros i j Hi Hj H. apply (O' i j Hi Hj). exact H. }
  rewrite <- cw_hm in Qh, Vh. cbn [with_xy hX hY] in Vh. unfold lits, lit in Vh. cbn [fold_left] in Vh.
  assert (S' := cw_static). apply static_eq in S'. destruct S' as (G' & C' & _ & _ & _ & Co' & Sc').
  assert (Md : med p' = med p) by (unfold med; now rewrite C', Co', Sc').
  assert (A1 := polar_all_alike debye_update debye_keep _ _ _ _ _ cw_debye). assert (A2 := polar_all_alike drude_update drude_keep _ _ _ _ _ cw_drude).
  split; [|split].
  - constructor; rewrite ?Md; auto; try congruence.
    + destruct lo_tame0 as (_ & T1 & T2 & T3). unfold tame. rewrite G', lo_grid0 in *. split; [congruence|]. split; [|split].
      * eapply polar_all_entries; [exact T1|exact cw_debye|]. intros *. apply tame_debye_update.
      * eapply polar_all_entries; [exact T2|exact cw_drude|]. intros *. apply tame_drude_update.
      * rewrite <- P3. intros ? ? ? [].
    + rewrite (alike_names _ _ A1). exact lo_nd3.
    + rewrite (alike_names _ _ A2). exact lo_nd4.
    + now destruct (ph_srcs p').
    + intros i j. rewrite Me1, Me2, Me3, Me4. apply Qu.
    + intros i j. cbn [h_of hXl hXh hYl hYh] in *. rewrite Mh1, Mh2, Mh3, Mh4. apply Qh.
    + intros i j Hi Hj. apply (cell_is_step g p p'); auto.
  - apply cut_faraday; auto. intros i j. destruct (Vh i j) as [V1 V2].
    assert (X : Hx_of p' i j = hX h i j) by apply Vx. assert (Y : Hy_of p' i j = hY h i j) by apply Vy. rewrite X, Y. split; assumption.
  - exact Qu'.
Qed.

(** ** The energy balance of one cell *)
Lemma loss_simple eps s dt e e' c : 0 < dt -> conductor_law eps s dt e e' (c / (2 * dt)) ->
  (e + e') * (eps * (e' - e) - / 2 * c) = - (2 * dt) * (s * ((e + e') / 2) ^ 2).
Proof.
  unfold conductor_law. intros Hd H. assert (K : / 2 * c = eps * (e' - e) + dt * (s * (e' + e) / 2)).
  { apply Rmult_eq_reg_l with (/ dt); [|apply Rinv_neq_0_compat; lra]. transitivity (c / (2 * dt)); [field; lra|]. rewrite <- H. field. lra. }
  rewrite K. field.
Qed.
Lemma loss_debye eps deps tau dt e e' j j' c : 0 < dt -> 0 < deps -> ampere eps dt e e' (c / (2 * dt)) j j' -> debye_law deps tau dt e e' j j' ->
  (e + e') * (eps * (e' - e) - / 2 * c) + ((deps * e' - tau * j') ^ 2 / deps - (deps * e - tau * j) ^ 2 / deps)
  = - (2 * dt) * (tau / deps * ((j + j') / 2) ^ 2).
Proof.
  unfold ampere, debye_law. intros Hd Hp H1 H2.
  assert (K : / 2 * c = eps * (e' - e) + dt * ((j' + j) / 2)).
  { apply Rmult_eq_reg_l with (/ dt); [|apply Rinv_neq_0_compat; lra]. transitivity (c / (2 * dt)); [field; lra|].
    replace (c / (2 * dt)) with (eps * (e' - e) / dt + (j' + j) / 2) by lra. field. lra. }
  assert (D : tau * (j' - j) + dt * ((j' + j) / 2) = deps * (e' - e)).
  { apply Rmult_eq_reg_l with (/ dt); [|apply Rinv_neq_0_compat; lra]. transitivity (tau * (j' - j) / dt + (j' + j) / 2); [field; lra|]. rewrite H2. field. lra. }
  assert (Q : (deps * e' - tau * j') = (deps * e - tau * j) + dt * ((j' + j) / 2)) by lra.
  rewrite K.
  assert (S : deps * e + deps * e' = (deps * e' - tau * j') + (deps * e - tau * j) + tau * (j + j')) by ring.
  apply Rmult_eq_reg_l with deps; [|lra].
  replace (deps * ((e + e') * (eps * (e' - e) - (eps * (e' - e) + dt * ((j' + j) / 2))) + ((deps * e' - tau * j') ^ 2 / deps - (deps * e - tau * j) ^ 2 / deps)))
    with (- (deps * e + deps * e') * (dt * ((j' + j) / 2)) + ((deps * e' - tau * j') ^ 2 - (deps * e - tau * j) ^ 2)) by (field; lra).
  rewrite S, Q. field. lra.
Qed.
Lemma loss_drude eps om ga dt e e' j j' c : 0 < dt -> om <> 0 -> ampere eps dt e e' (c / (2 * dt)) j j' -> drude_law om ga dt e e' j j' ->
  (e + e') * (eps * (e' - e) - / 2 * c) + (j' ^ 2 / om ^ 2 - j ^ 2 / om ^ 2) = - (2 * dt) * (ga / om ^ 2 * ((j + j') / 2) ^ 2).
Proof.
  unfold ampere, drude_law. intros Hd Hp H1 H2.
  assert (K : / 2 * c = eps * (e' - e) + dt * ((j' + j) / 2)).
  { apply Rmult_eq_reg_l with (/ dt); [|apply Rinv_neq_0_compat; lra]. transitivity (c / (2 * dt)); [field; lra|].
    replace (c / (2 * dt)) with (eps * (e' - e) / dt + (j' + j) / 2) by lra. field. lra. }
  assert (D : om ^ 2 * (e + e') = 2 * (j' - j) / dt + ga * (j' + j)).
  { replace (om ^ 2 * (e + e')) with (2 * (om ^ 2 * (e' + e) / 2)) by field. rewrite <- H2. field. lra. }
  rewrite K. assert (Ho : om ^ 2 <> 0) by (now apply pow_nonzero).
  apply Rmult_eq_reg_l with (om ^ 2); [|exact Ho].
  transitivity (- (om ^ 2 * (e + e')) * (dt * ((j' + j) / 2)) + (j' ^ 2 - j ^ 2)); [field; exact Hp|]. rewrite D. field. split; [exact Hp|lra].
Qed.

Lemma cell_balance g mat p p' i j : 0 < g_dx g -> g_dt g = g_dx g / 2 -> apart g -> (1 <= g_pml g)%Z ->
  lossy g mat p -> off_layers g p -> off_layers g p' -> phys_step p = Fine p' -> (0 <= i < g_Nx g)%Z -> (0 <= j < g_Ny g)%Z ->
  (Ez_of p i j + Ez_of p' i j) * (eps_map mat i j * (Ez_of p' i j - Ez_of p i j) - / 2 * curlH (Hx_of p) (Hy_of p) i j)
  + (held p' (mat i j) i j - held p (mat i j) i j) = - (2 * g_dt g) * heat p p' (mat i j) i j.
Proof.
  intros Hd Ht Ha B0 L O O' Hs Hi Hj. destruct (lossy_step g mat p p') as (L' & _ & Qu); auto.
  assert (Dt : 0 < g_dt g) by lra.
  assert (Law : ~ at_edge g i j -> forall C : Prop, ((1 <= i < g_Nx g - 1)%Z -> (1 <= j < g_Ny g - 1)%Z -> apart (ph_grid p) -> off_E (ph_tfsf p) i j ->
     undriven (ph_t p + g_dt (ph_grid p)) (ph_grid p) (ph_srcs p) Ez i j -> curl_at p i j = curlH (Hx_of p) (Hy_of p) i j / (2 * g_dt g) -> C) -> C).
  { intros He C K. unfold at_edge in He. apply K; try lia.
    - now rewrite (lo_grid _ _ _ L).
    - rewrite (lo_tfsf _ _ _ L). exact Logic.I.
    - rewrite (lo_srcs _ _ _ L). intros ? ? [].
    - rewrite (curl_free g p i j); [|exact (lo_grid _ _ _ L)|exact (lo_fl _ _ _ L)|exact Hd|lia|lia|exact Qu]. f_equal. lra. }
  destruct (lo_cell _ _ _ L i j Hi Hj) as [Ab Cl]. destruct (lo_cell _ _ _ L' i j Hi Hj) as [_ Cl'].
  unfold held, heat, J_of, eps_map. destruct (m_kind (mat i j)) as [m|x|x|x] eqn:Km; cbn [eps_of] in *.
  - destruct Ab as [H1 H2]. destruct (Z.eq_dec i 0) as [Ei|Ei]; [|destruct (Z.eq_dec i (g_Nx g - 1)) as [Ei'|Ei']; [|destruct (Z.eq_dec j 0) as [Ej|Ej]; [|destruct (Z.eq_dec j (g_Ny g - 1)) as [Ej'|Ej']]]].
    5:{ apply Law; [unfold at_edge; lia|]. intros K1 K2 K3 K4 K5 Kc.
        assert (W := simple_law p p' i j K3 (lo_wf _ _ _ L) (lo_tame _ _ _ L) K4 Hs ltac:(rewrite (lo_grid _ _ _ L); exact K1) ltac:(rewrite (lo_grid _ _ _ L); exact K2) ltac:(rewrite (lo_grid _ _ _ L); exact Dt) K5 m ltac:(lra) H2 Cl).
        rewrite Kc, (lo_grid _ _ _ L) in W. change (Ez_at p i j) with (Ez_of p i j) in W. change (Ez_at p' i j) with (Ez_of p' i j) in W.
        rewrite (loss_simple _ _ _ _ _ _ Dt W). ring. }
    all: assert (Z1 : Ez_of p i j = 0) by (apply (O i j Hi Hj); lia); assert (Z2 : Ez_of p' i j = 0) by (apply (O' i j Hi Hj); lia); rewrite Z1, Z2; field.
  - destruct Ab as (H1 & d & Hp & H2 & H3). destruct Cl as ((n & q & Cl) & He). apply (Law He). intros K1 K2 K3 K4 K5 Kc.
    destruct (debye_solves p p' i j K3 (lo_wf _ _ _ L) (lo_tame _ _ _ L) K4 Hs ltac:(rewrite (lo_grid _ _ _ L); exact K1) ltac:(rewrite (lo_grid _ _ _ L); exact K2) ltac:(rewrite (lo_grid _ _ _ L); exact Dt) K5 n (m_name (mat i j)) x q) as (q' & Jx & En & Lw & Am & Jv);
      [lra|rewrite Hp; constructor; [split; lra|constructor]|exact Cl|].
    rewrite Hp in *. cbn [Datatypes.length rsum] in *. specialize (Lw 0%nat d eq_refl). specialize (Jv 0%nat d eq_refl). change (Z.of_nat 0) with 0%Z in *. cbn [Nat.sub rsum] in *.
    rewrite Kc, (lo_grid _ _ _ L) in *. change (Ez_at p i j) with (Ez_of p i j) in *. change (Ez_at p' i j) with (Ez_of p' i j) in *.
    assert (E1 := current_entry _ _ _ _ _ i j (lo_nd1 _ _ _ L) (proj1 (proj2 Cl))). assert (E2 := current_entry _ _ _ _ _ i j (lo_nd1 _ _ _ L') En).
    assert (JJ : J_at q' i j 0 = Jx 0%nat) by (rewrite Jv; rnumg; ring). rewrite E1, E2, JJ. rewrite !Rplus_0_l in Am.
    exact (loss_debye _ _ _ _ _ _ _ _ _ Dt H3 Am Lw).
  - destruct Ab as (H1 & d & Hp & H2 & H3). destruct Cl as ((n & q & Cl) & He). apply (Law He). intros K1 K2 K3 K4 K5 Kc.
    destruct (drude_solves p p' i j K3 (lo_wf _ _ _ L) (lo_tame _ _ _ L) K4 Hs ltac:(rewrite (lo_grid _ _ _ L); exact K1) ltac:(rewrite (lo_grid _ _ _ L); exact K2) ltac:(rewrite (lo_grid _ _ _ L); exact Dt) K5 n (m_name (mat i j)) x q) as (q' & Jx & En & Lw & Am & Jv);
      [lra|rewrite Hp; constructor; [unfold upos; lra|constructor]|exact Cl|].
    rewrite Hp in *. cbn [Datatypes.length rsum] in *. specialize (Lw 0%nat d eq_refl). specialize (Jv 0%nat d eq_refl). change (Z.of_nat 0) with 0%Z in *. cbn [Nat.sub rsum] in *.
    rewrite Kc, (lo_grid _ _ _ L) in *. change (Ez_at p i j) with (Ez_of p i j) in *. change (Ez_at p' i j) with (Ez_of p' i j) in *.
    assert (E1 := current_entry _ _ _ _ _ i j (lo_nd2 _ _ _ L) (proj1 (proj2 Cl))). assert (E2 := current_entry _ _ _ _ _ i j (lo_nd2 _ _ _ L') En).
    assert (JJ : J_at q' i j 0 = Jx 0%nat) by (rewrite Jv; rnumg; ring). rewrite E1, E2, JJ. rewrite !Rplus_0_l in Am.
    exact (loss_drude _ _ _ _ _ _ _ _ _ Dt H2 Am Lw).
  - destruct Cl.
Qed.

(** ** The whole grid *)
Lemma loss_step g mat p q r : 0 < g_dx g -> g_dt g = g_dx g / 2 -> apart g -> (1 <= g_pml g)%Z ->
  lossy g mat p -> off_layers g p -> off_layers g q -> off_layers g r -> phys_step p = Fine q -> phys_step q = Fine r ->
  whole g mat q r = whole g mat p q - 2 * g_dt g * heating g mat q r.
Proof.
  intros Hd Ht Ha H1 L Op Oq Or Sp Sq. destruct (lossy_step g mat p q) as (Lq & Fq & _); auto.
  destruct (lossy_step g mat q r) as (Lr & Fr & _); auto. assert (A := Ha). destruct A as (A0 & A1 & A2).
  unfold whole, heating. rewrite !energy_leap by lia.
  rewrite (leap_gain _ _ (eps_map mat) (cut g (Ez_of q)) (cut g (Ez_of r)) (Hx_of p) (Hy_of p)); auto using off_framed.
  set (G := sumup _ _). 
  assert (B : G = - (2 * g_dt g) * total g (fun i j => heat q r (mat i j) i j) + (-1 * total g (fun i j => held r (mat i j) i j) + total g (fun i j => held q (mat i j) i j))).
  { unfold G, total. rewrite <- !(sum2_scal (Z.to_nat (g_Nx g)) (Z.to_nat (g_Ny g))), <- !(sum2_add (Z.to_nat (g_Nx g)) (Z.to_nat (g_Ny g))). apply sum2_ext.
    intros i j Hi Hj. assert (K := cell_balance g mat q r i j Hd Ht Ha H1 Lq Oq Or Sq ltac:(lia) ltac:(lia)).
    unfold cut. replace (_ && _ && _ && _) with true by lia. lra. }
  rewrite B. ring.
Qed.

Lemma heating_nonneg g mat p p' : (forall i j, in_grid (g_Nx g) (g_Ny g) (i, j) -> absorber (m_kind (mat i j))) -> 0 <= heating g mat p p'.
Proof.
  intros H. unfold heating, total. rewrite <- (sum2_zero (Z.to_nat (g_Nx g)) (Z.to_nat (g_Ny g))). apply sum2_le. intros i j Hi Hj.
  assert (A := H i j ltac:(split; cbn; lia)). unfold heat. destruct (m_kind (mat i j)) as [m|x|x|x]; cbn in A.
  - apply Rmult_le_pos; [tauto|apply pow2_ge_0].
  - destruct A as (_ & d & -> & H1 & H2). apply Rmult_le_pos; [|apply pow2_ge_0]. apply Rlt_le, Rdiv_lt_0_compat; assumption.
  - destruct A as (_ & d & -> & H1 & H2). apply Rmult_le_pos; [|apply pow2_ge_0]. apply Rmult_le_pos; [exact H2|]. apply Rlt_le, Rinv_0_lt_compat.
    assert (0 <= up_omega d ^ 2) by apply pow2_ge_0. assert (up_omega d ^ 2 <> 0) by (now apply pow_nonzero). lra.
  - destruct A.
Qed.
Lemma held_nonneg g mat p : (forall i j, in_grid (g_Nx g) (g_Ny g) (i, j) -> absorber (m_kind (mat i j))) -> 0 <= total g (fun i j => held p (mat i j) i j).
Proof.
  intros H. unfold total. rewrite <- (sum2_zero (Z.to_nat (g_Nx g)) (Z.to_nat (g_Ny g))). apply sum2_le. intros i j Hi Hj.
  assert (A := H i j ltac:(split; cbn; lia)). unfold held. destruct (m_kind (mat i j)) as [m|x|x|x]; cbn in A; try lra.
  - destruct A as (_ & d & -> & H1 & H2). apply Rmult_le_pos; [apply pow2_ge_0|]. apply Rlt_le, Rinv_0_lt_compat; assumption.
  - destruct A as (_ & d & -> & H1 & H2). apply Rmult_le_pos; [apply pow2_ge_0|]. apply Rlt_le, Rinv_0_lt_compat.
    assert (0 <= up_omega d ^ 2) by apply pow2_ge_0. assert (up_omega d ^ 2 <> 0) by (now apply pow_nonzero). lra.
Qed.
Lemma lossy_absorbs g mat p : lossy g mat p -> forall i j, in_grid (g_Nx g) (g_Ny g) (i, j) -> absorber (m_kind (mat i j)).
Proof. intros L i j [Hi Hj]. apply (lo_cell _ _ _ L i j Hi Hj). Qed.

Lemma loss_bounds g mat p q : 0 < g_dx g -> g_dt g = g_dx g / 2 -> apart g -> (1 <= g_pml g)%Z ->
  lossy g mat p -> off_layers g p -> off_layers g q -> phys_step p = Fine q ->
  electric g (eps_map mat) q <= 2 * whole g mat p q /\ magnetic g q <= 2 * whole g mat p q.
Proof.
  intros Hd Ht Ha H1 L Op Oq Sp. destruct (lossy_step g mat p q) as (Lq & Fq & _); auto. destruct Ha as (A0 & A1 & A2).
  assert (Hn := held_nonneg g mat q (lossy_absorbs g mat q Lq)). unfold whole.
  rewrite energy_leap by lia. destruct (leap_bounds _ _ (eps_map mat) (cut g (Ez_of q)) _ _ _ _ (off_framed g q H1 Oq) Fq) as [B1 B2].
  { intros i j Hi Hj. assert (A := lossy_absorbs g mat q Lq i j ltac:(split; cbn; lia)). unfold eps_map. destruct (m_kind (mat i j)); cbn [absorber eps_of] in *; [exact (proj1 A)|exact (proj1 A)|exact (proj1 A)|destruct A]. }
  split; [|eapply Rle_trans; [exact B2|lra]]. assert (E : electric g (eps_map mat) q = sumup (Z.to_nat (g_Nx g)) (fun i => sumup (Z.to_nat (g_Ny g)) (fun j => eps_map mat i j * cut g (Ez_of q) i j * cut g (Ez_of q) i j))).
  { unfold electric, total. apply sum2_ext. intros i j Hi Hj. unfold cut. replace (_ && _ && _ && _) with true by lia. reflexivity. }
  rewrite E. eapply Rle_trans; [exact B1|lra].
Qed.
