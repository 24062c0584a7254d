(** Finite speed: update() carries agreement of two states one cell inwards. *)
From Coq Require Import ZArith String List Bool Lia.
From Verif Require Import Scalar Base BaseFacts VecM GridM GeometryM MaterialM PmlM DftM TfsfM PolarM InterpM H5M ClockM
  MonitorM FieldM OutFacts PhysFacts PaintFacts WfFacts ReachFacts SpecStep StepFacts EngineFacts YeeFacts PolarFacts SpecSource SourceFacts
  FullStep SpecCone PolarPair.
Import ListNotations.
Local Open Scope Z_scope.

Section Cone.
Context {N : Num}.

(** ** The two half steps *)
Section Half.
Variables (n m th : Z) (dx : T) (md md' : medium) (a b : Z).
Hypothesis Hlines : sEx md = sEx md' /\ sEy md = sEy md' /\ sHx md = sHx md' /\ sHy md = sHy md' /\
  bEx md = bEx md' /\ cEx md = cEx md' /\ bEy md = bEy md' /\ cEy md = cEy md' /\
  bHx md = bHx md' /\ cHx md = cHx md' /\ bHy md = bHy md' /\ cHy md = cHy md'.
Hypothesis Hcell : mCa md a b = mCa md' a b /\ mCb md a b = mCb md' a b /\ mDa md a b = mDa md' a b /\ mDb md a b = mDb md' a b.
Hypothesis Hth : 0 <= th /\ 2 * th < n - 1 /\ 2 * th < m - 1.

Definition mem_e (u v : emag) : Prop :=
  (1 <= a <= th -> eXl u a b = eXl v a b) /\ (1 <= n - 1 - a <= th -> eXh u (n - 1 - a) b = eXh v (n - 1 - a) b) /\
  (1 <= b <= th -> eYl u a b = eYl v a b) /\ (1 <= m - 1 - b <= th -> eYh u a (m - 1 - b) = eYh v a (m - 1 - b)).
Definition mem_h (u v : hmag) : Prop :=
  (1 <= b < th -> hXl u a b = hXl v a b) /\ (1 <= m - 2 - b < th -> hXh u a (m - 2 - b) = hXh v a (m - 2 - b)) /\
  (1 <= a < th -> hYl u a b = hYl v a b) /\ (1 <= n - 2 - a < th -> hYh u (n - 2 - a) b = hYh v (n - 2 - a) b).

Ltac branch c := let E := fresh "Eg" in destruct c eqn:E.

Lemma cone_e (hx hx' hy hy' : cells) (u v : emag) : mem_e u v -> eE u a b = eE v a b ->
  (core n m a b = true -> hx a b = hx' a b /\ hy a b = hy' a b /\ hy (a - 1) b = hy' (a - 1) b /\ hx a (b - 1) = hx' a (b - 1)) ->
  let u' := next_e n m th dx md hx hy u in let v' := next_e n m th dx md' hx' hy' v in
  mem_e u' v' /\ eE u' a b = eE v' a b.
Proof.
  intros (M1 & M2 & M3 & M4) He Hc. destruct Hlines as (L1 & L2 & L3 & L4 & L5 & L6 & L7 & L8 & _). destruct Hcell as (C1 & C2 & _).
  assert (Q1 : 1 <= a <= th -> memXl m th dx md hy (eXl u) a b = memXl m th dx md' hy' (eXl v) a b).
  { intros Ha. unfold memXl. branch ((1 <=? a) && (a <=? th) && (1 <=? b) && (b <? m - 1)); [|auto].
    destruct Hc as (_ & K1 & K2 & _); [unfold core; lia|]. now rewrite L5, L6, K1, K2, M1. }
  assert (Q2 : 1 <= n - 1 - a <= th -> memXh n m th dx md hy (eXh u) (n - 1 - a) b = memXh n m th dx md' hy' (eXh v) (n - 1 - a) b).
  { intros Ha. unfold memXh. branch ((1 <=? n - 1 - a) && (n - 1 - a <=? th) && (1 <=? b) && (b <? m - 1)); [|auto].
    destruct Hc as (_ & K1 & K2 & _); [unfold core; lia|]. replace (n - 1 - (n - 1 - a)) with a by lia.
    now rewrite L5, L6, K1, K2, M2. }
  assert (Q3 : 1 <= b <= th -> memYl n th dx md hx (eYl u) a b = memYl n th dx md' hx' (eYl v) a b).
  { intros Ha. unfold memYl. branch ((1 <=? a) && (a <? n - 1) && (1 <=? b) && (b <=? th)); [|auto].
    destruct Hc as (K1 & _ & _ & K2); [unfold core; lia|]. now rewrite L7, L8, K1, K2, M3. }
  assert (Q4 : 1 <= m - 1 - b <= th -> memYh n m th dx md hx (eYh u) a (m - 1 - b) = memYh n m th dx md' hx' (eYh v) a (m - 1 - b)).
  { intros Ha. unfold memYh. branch ((1 <=? a) && (a <? n - 1) && (1 <=? m - 1 - b) && (m - 1 - b <=? th)); [|auto].
    destruct Hc as (K1 & _ & _ & K2); [unfold core; lia|]. replace (m - 1 - (m - 1 - b)) with b by lia.
    now rewrite L7, L8, K1, K2, M4. }
  split; [unfold mem_e; cbn [next_e eXl eXh eYl eYh]; auto|]. cbn [next_e eE].
  branch (core n m a b); [|exact He]. destruct (Hc eq_refl) as (K1 & K2 & K3 & K4).
  assert (Y : yeeE md hx hy (eE u) a b = yeeE md' hx' hy' (eE v) a b).
  { unfold yeeE. now rewrite C1, C2, L1, L2, He, K1, K2, K3, K4. }
  unfold core in Eg. unfold addX, addY. rewrite Y, C2.
  branch (b <=? th); branch (a <=? th); branch (n - 1 - th <=? a); branch (m - 1 - th <=? b);
    rewrite ?Q1, ?Q2, ?Q3, ?Q4 by lia; reflexivity.
Qed.

Lemma cone_h (e e' : cells) (u v : hmag) : mem_h u v -> hX u a b = hX v a b -> hY u a b = hY v a b ->
  (core n m a b = true -> e a b = e' a b /\ e (a + 1) b = e' (a + 1) b /\ e a (b + 1) = e' a (b + 1)) ->
  let u' := next_h n m th dx md e u in let v' := next_h n m th dx md' e' v in
  mem_h u' v' /\ hX u' a b = hX v' a b /\ hY u' a b = hY v' a b.
Proof.
  intros (M1 & M2 & M3 & M4) Hx Hy Hc. destruct Hlines as (_ & _ & L3 & L4 & _ & _ & _ & _ & L5 & L6 & L7 & L8). destruct Hcell as (_ & _ & C1 & C2).
  assert (Q1 : 1 <= b < th -> memHxl n th dx md e (hXl u) a b = memHxl n th dx md' e' (hXl v) a b).
  { intros Ha. unfold memHxl. branch ((1 <=? a) && (a <? n - 1) && (1 <=? b) && (b <? th)); [|auto].
    destruct Hc as (K1 & _ & K2); [unfold core; lia|]. now rewrite L7, L8, K1, K2, M1. }
  assert (Q2 : 1 <= m - 2 - b < th -> memHxh n m th dx md e (hXh u) a (m - 2 - b) = memHxh n m th dx md' e' (hXh v) a (m - 2 - b)).
  { intros Ha. unfold memHxh. branch ((1 <=? a) && (a <? n - 1) && (1 <=? m - 2 - b) && (m - 2 - b <? th)); [|auto].
    destruct Hc as (K1 & _ & K2); [unfold core; lia|]. replace (m - 1 - (m - 2 - b)) with (b + 1) by lia. replace (b + 1 - 1) with b by lia.
    now rewrite L7, L8, K1, K2, M2. }
  assert (Q3 : 1 <= a < th -> memHyl m th dx md e (hYl u) a b = memHyl m th dx md' e' (hYl v) a b).
  { intros Ha. unfold memHyl. branch ((1 <=? a) && (a <? th) && (1 <=? b) && (b <? m - 1)); [|auto].
    destruct Hc as (K1 & K2 & _); [unfold core; lia|]. now rewrite L5, L6, K1, K2, M3. }
  assert (Q4 : 1 <= n - 2 - a < th -> memHyh n m th dx md e (hYh u) (n - 2 - a) b = memHyh n m th dx md' e' (hYh v) (n - 2 - a) b).
  { intros Ha. unfold memHyh. branch ((1 <=? n - 2 - a) && (n - 2 - a <? th) && (1 <=? b) && (b <? m - 1)); [|auto].
    destruct Hc as (K1 & K2 & _); [unfold core; lia|]. replace (n - 1 - (n - 2 - a)) with (a + 1) by lia. replace (a + 1 - 1) with a by lia.
    now rewrite L5, L6, K1, K2, M4. }
  split; [unfold mem_h; cbn [next_h hXl hXh hYl hYh]; auto|]. cbn [next_h hX hY].
  branch (core n m a b); [|auto]. destruct (Hc eq_refl) as (K1 & K2 & K3). unfold core in Eg.
  assert (Y1 : yeeHx md e (hX u) a b = yeeHx md' e' (hX v) a b) by (unfold yeeHx; now rewrite C1, C2, L4, Hx, K1, K3).
  assert (Y2 : yeeHy md e (hY u) a b = yeeHy md' e' (hY v) a b) by (unfold yeeHy; now rewrite C1, C2, L3, Hy, K1, K2).
  split; [unfold addHx|unfold addHy]; rewrite ?Y1, ?Y2, C2.
  - branch (b <? th); [rewrite Q1 by lia; reflexivity|]. branch ((m - 1 - th <=? b) && (b <? m - 2)); [rewrite Q2 by lia|]; reflexivity.
  - branch (a <? th); [rewrite Q3 by lia; reflexivity|]. branch ((n - 1 - th <=? a) && (a <? n - 2)); [rewrite Q4 by lia|]; reflexivity.
Qed.
End Half.

(** ** Sources *)
Lemma lit_core t c i j : forall a b Ls x, map src_core a = map src_core b -> lit t (combine a Ls) c i j x = lit t (combine b Ls) c i j x.
Proof.
  induction a as [|r a IH]; intros [|s b] Ls x H; cbn [map] in H; try discriminate; [reflexivity|].
  destruct Ls as [|L Ls]; [reflexivity|]. injection H as H1 H2 H3 H4 H. cbn [combine]. unfold lit. cbn [fold_left].
  rewrite H2, H4. apply (IH b Ls _ H).
Qed.
Lemma cells_core g : forall a b Ls, map src_core a = map src_core b ->
  Forall2 (fun r L => src_cells g (sr_kind r) L) a Ls -> Forall2 (fun r L => src_cells g (sr_kind r) L) b Ls.
Proof.
  induction a as [|r a IH]; intros [|s b] Ls H F; cbn [map] in H; try discriminate; [exact F|].
  injection H as K1 K2 K3 K4 H. inversion F; subst. constructor; [now rewrite <- K3|now apply IH].
Qed.
Lemma drive_core g a a' b b' i j : map src_core a' = map src_core a -> map src_core b' = map src_core b -> same_drive g a b i j -> same_drive g a' b' i j.
Proof.
  intros Ha Hb H Ls Ls' K K' t c x. rewrite (lit_core t c i j a' a), (lit_core t c i j b' b) by assumption.
  apply H; eapply cells_core; eauto.
Qed.
Lemma cells_weaken g srcs Ls : Forall2 (fun r L => src_cells g (sr_kind r) L /\ (L <> [] -> field_comp (sr_c r))) srcs Ls ->
  Forall2 (fun r L => src_cells g (sr_kind r) L) srcs Ls.
Proof. induction 1; constructor; tauto. Qed.

Lemma alike_saved i j a b x y : alike_prev i j i j a b -> tval x i j = tval y i j -> alike_prev i j i j (saved a x) (saved b y).
Proof. destruct a, b; cbn; auto. Qed.
Lemma alike_shifted i j a b x y : alike_prev i j i j a b -> alike_prev i j i j x y -> alike_prev i j i j (shifted a x) (shifted b y).
Proof. destruct a, b; cbn; auto. contradiction. contradiction. Qed.

(** ** The incident wave *)
Lemma pulse_bare q q' : tfsf_pulse q = Ok q' -> tfsf_pulse (bare_wave q) = Ok (bare_wave q').
Proof.
  unfold tfsf_pulse. cbn [bare_wave q_vol q_ia q_ib q_ja q_jb q_tp q_dft q_N q_dt q_t q_E q_D q_H q_I q_ca q_cb q_l0 q_l1 q_r0 q_r1].
  destruct (aget (q_E q) 2) as [pe|?|?]; cbn [bind]; try discriminate.
  destruct (for_up 1 (q_N q) _ _) as [[[D E] Iz]|?|?]; cbn [bind]; try discriminate.
  unfold response at 1 2. cbn [bare_profile tp_shape tp_update tp_dft bind].
  destruct (tp_update (q_tp q) _ _) as [tp|?|?] eqn:Et; cbn [bind]; try discriminate.
  assert (St : tp_shape tp = tp_shape (q_tp q)).
  { unfold tp_update in Et. destruct (tp_dft (q_tp q)); [|now injection Et as <-]. apply bind_ok in Et. destruct Et as ([a b] & _ & Et). now injection Et as <-. }
  repeat match goal with
  | |- bind ?x _ = Ok _ -> bind ?y _ = Ok _ => constr_eq x y; destruct x; cbn [bind]; try discriminate
  end.
  destruct (match q_dft q with Some _ => _ | None => _ end) as [d|?|?]; cbn [bind]; try discriminate.
  repeat match goal with
  | |- bind ?x _ = Ok _ -> bind ?y _ = Ok _ => constr_eq x y; destruct x; cbn [bind]; try discriminate
  end.
  intros K. injection K as <-. unfold bare_wave, bare_profile. cbn [q_vol q_ia q_ib q_ja q_jb q_tp q_dft q_N q_dt q_t q_E q_D q_H q_I q_ca q_cb q_l0 q_l1 q_r0 q_r1]. now rewrite St.
Qed.
Lemma line_bare a a' : line a = Ok a' -> line (option_map bare_wave a) = Ok (option_map bare_wave a').
Proof.
  destruct a as [q|]; cbn [line option_map]; [|intros K; now injection K as <-]. intros K. apply bind_ok in K. destruct K as (q' & K & E). injection E as <-.
  rewrite (pulse_bare _ _ K). reflexivity.
Qed.
Lemma line_same a b a' b' : option_map bare_wave a = option_map bare_wave b -> line a = Ok a' -> line b = Ok b' -> option_map bare_wave a' = option_map bare_wave b'.
Proof. intros E Ha Hb. apply line_bare in Ha, Hb. rewrite E, Hb in Ha. now injection Ha. Qed.
Lemma tf_bare a i j x : tf tfD1 (option_map bare_wave a) x i j = tf tfD1 a x i j /\ tf tfHx1 (option_map bare_wave a) x i j = tf tfHx1 a x i j /\
  tf tfHy1 (option_map bare_wave a) x i j = tf tfHy1 a x i j.
Proof. destruct a; repeat split. Qed.
Lemma tf_same a b i j x : option_map bare_wave a = option_map bare_wave b -> tf tfD1 a x i j = tf tfD1 b x i j /\ tf tfHx1 a x i j = tf tfHx1 b x i j /\
  tf tfHy1 a x i j = tf tfHy1 b x i j.
Proof. intros E. destruct (tf_bare a i j x) as (<- & <- & <-), (tf_bare b i j x) as (<- & <- & <-). rewrite E. repeat split. Qed.

(** ** One step *)
Lemma cone_step p q p' q' i j : apart (ph_grid p) -> wf_phys p -> wf_phys q -> same_frame p q ->
  phys_step p = Fine p' -> phys_step q = Fine q' ->
  0 <= i < g_Nx (ph_grid p) -> 0 <= j < g_Ny (ph_grid p) ->
  agree_near p q 1 i j -> agree_cell p' q' i j.
Proof.
  intros Ha Hw Hv (Fg & Ft & Fs & Fc & Fq) Hp Hq Hi Hj Hn.
  destruct (full_step p p' Ha Hw Hp) as (E0 & E1 & E2 & E3 & Ls & u & h & [A1 A2 A3 A4 A5 A6 A7 A8 A9 A10 A11 A12 A13 A14 A15 A16]).
  assert (Ha' : apart (ph_grid q)) by (rewrite <- Fg; exact Ha).
  destruct (full_step q q' Ha' Hv Hq) as (E0' & E1' & E2' & E3' & Ls' & v & k & [B1 B2 B3 B4 B5 B6 B7 B8 B9 B10 B11 B12 B13 B14 B15 B16]).
  set (g := ph_grid p) in *.
  assert (Gp' : ph_grid p' = g /\ ph_C p' = ph_C p /\ p_coef (ph_pml p') = p_coef (ph_pml p) /\ ph_sc p' = ph_sc p) by (apply static_eq in A13; tauto).
  assert (Gq' : ph_grid q' = g /\ ph_C q' = ph_C q /\ p_coef (ph_pml q') = p_coef (ph_pml q) /\ ph_sc q' = ph_sc q) by (apply static_eq in B13; rewrite Fg; tauto).
  rewrite <- Fg in B9, B11, B7, Ha'. fold g in B9, B11, B7. rewrite <- Ft in B9, B11.
  assert (Fq' := line_same _ _ _ _ Fq A10 B10).
  assert (Hl : sEx (med p) = sEx (med q) /\ sEy (med p) = sEy (med q) /\ sHx (med p) = sHx (med q) /\ sHy (med p) = sHy (med q) /\
    bEx (med p) = bEx (med q) /\ cEx (med p) = cEx (med q) /\ bEy (med p) = bEy (med q) /\ cEy (med p) = cEy (med q) /\
    bHx (med p) = bHx (med q) /\ cHx (med p) = cHx (med q) /\ bHy (med p) = bHy (med q) /\ cHy (med p) = cHy (med q)).
  { unfold med, med_of. cbn [sEx sEy sHx sHy bEx cEx bEy cEy bHx cHx bHy cHy]. rewrite Fs, Fc. repeat split. }
  destruct (Ha) as (T1 & T2 & T3).
  (* the electric half at a cell whose left and lower neighbours agree *)
  assert (KE : forall a b, 0 <= a < g_Nx g -> 0 <= b < g_Ny g -> agree_cell p q a b ->
    (core (g_Nx g) (g_Ny g) a b = true -> agree_cell p q (a - 1) b /\ agree_cell p q a (b - 1)) ->
    mem_e (g_Nx g) (g_Ny g) (g_pml g) a b u v /\ eE (e_of p') a b = eE (e_of q') a b /\
    alike_all a b a b (ph_debye p') (ph_debye q') /\ alike_all a b a b (ph_drude p') (ph_drude q') /\ alike_all a b a b (ph_lorentz p') (ph_lorentz q')).
  { intros a b Hab Hbb Hc Hnb. destruct Hc as [Cf Cc Cm C1 C2 C3 C4 C5 C6].
    destruct (cone_e (g_Nx g) (g_Ny g) (g_pml g) (g_dx g) (med p) (med q) a b Hl Cc ltac:(auto)
       (hX (h_of p)) (hX (h_of q)) (hY (h_of p)) (hY (h_of q)) (e_of p) (e_of q)) as [R1 R2].
    { destruct Cm as [Cm _]. exact Cm. } { apply Cf. }
    { intros Hcore. destruct (Hnb Hcore) as [[D _ _ _ _ _ _ _ _] [D' _ _ _ _ _ _ _ _]].
      destruct Cf as (? & ? & ?), D as (? & ? & ?), D' as (? & ? & ?). auto. }
    assert (Eu : u = next_e (g_Nx g) (g_Ny g) (g_pml g) (g_dx g) (med p) (hX (h_of p)) (hY (h_of p)) (e_of p)) by exact A1.
    assert (Ev : v = next_e (g_Nx g) (g_Ny g) (g_pml g) (g_dx g) (med q) (hX (h_of q)) (hY (h_of q)) (e_of q)) by (rewrite B1; unfold grid_next_e; now rewrite <- Fg).
    rewrite <- Eu, <- Ev in R1, R2. split; [exact R1|].
    destruct Hw, Hv. rewrite <- Fg in wf_debye0, wf_drude0, wf_lorentz0. fold g in wf_debye, wf_drude, wf_lorentz, wf_debye0, wf_drude0, wf_lorentz0.
    assert (Gc : cell_of_grids a b a b (g_Nx g) (g_Ny g) (g_Nx g) (g_Ny g)) by (unfold cell_of_grids; auto).
    assert (S1 : alike_prev a b a b (saved (ph_prevE p) (fEz (ph_F p))) (saved (ph_prevE q) (fEz (ph_F q)))) by (apply alike_saved; [exact C4|apply Cf]).
    assert (S2 : alike_prev a b a b (shifted (ph_prev2E p) (ph_prevE p)) (shifted (ph_prev2E q) (ph_prevE q))) by (apply alike_shifted; assumption).
    destruct (polar_all_pairs a b a b debye_update np_debye _ _ _ _ _ _ (debye_pairs a b a b) Gc _ _ C1 _ _ _ _ _ _ wf_debye wf_debye0 S1 A3 B3) as [P1 V1].
    { rewrite A2, B2. exact R2. }
    destruct (polar_all_pairs a b a b drude_update np_drude _ _ _ _ _ _ (drude_pairs a b a b) Gc _ _ C2 _ _ _ _ _ _ wf_drude wf_drude0 S1 A4 B4 V1) as [P2 V2].
    destruct (polar_all_pairs a b a b lorentz_update np_lorentz _ _ _ _ _ _ (lorentz_pairs a b a b) Gc _ _ C3 _ _ _ _ _ _ wf_lorentz wf_lorentz0 S2 A5 B5 V2) as [P3 V3].
    split; [|auto]. destruct A9 as (A9 & _). destruct B9 as (B9 & _). rewrite A9, B9. cbn [eE]. unfold lits.
    replace (tf tfD1 (ph_tfsf q) (tval E3') a b) with (tf tfD1 (ph_tfsf p) (tval E3) a b).
    2:{ rewrite (proj1 (tf_same _ _ a b (tval E3) Fq)). unfold tf; destruct (ph_tfsf q); rewrite V3; reflexivity. }
    apply C6; now apply cells_weaken. }
  assert (Hij : agree_cell p q i j) by (apply Hn; fold g; lia).
  assert (Nb : forall a b, i <= a <= i + 1 -> j <= b <= j + 1 -> (a = i \/ b = j) -> 0 <= a < g_Nx g -> 0 <= b < g_Ny g -> agree_cell p q a b /\
     (core (g_Nx g) (g_Ny g) a b = true -> agree_cell p q (a - 1) b /\ agree_cell p q a (b - 1))).
  { intros a b Hab Hbb _ Gab Gbb. split; [apply Hn; fold g; lia|]. unfold core. intros K. split; apply Hn; fold g; lia. }
  destruct (Nb i j) as [_ Nij]; try (fold g; lia).
  destruct (KE i j Hi Hj Hij Nij) as (ME & VE & P1 & P2 & P3).
  destruct Hij as [Cf Cc Cm C1 C2 C3 C4 C5 C6].
  set (hp := with_xy (lits (ph_t p + g_dt g)%num (combine (ph_srcs p) Ls) Hx (hX (h_of p)))
                     (lits (ph_t p + g_dt g)%num (combine (ph_srcs p) Ls) Hy (hY (h_of p))) (h_of p)) in *.
  set (hq := with_xy (lits (ph_t p + g_dt g)%num (combine (ph_srcs q) Ls') Hx (hX (h_of q)))
                     (lits (ph_t p + g_dt g)%num (combine (ph_srcs q) Ls') Hy (hY (h_of q))) (h_of q)) in *.
  destruct (cone_h (g_Nx g) (g_Ny g) (g_pml g) (g_dx g) (med p) (med q) i j Hl Cc ltac:(auto) (eE (e_of p')) (eE (e_of q')) hp hq) as (MH & VX & VY).
  { destruct Cm as [_ Cm]. exact Cm. }
  { cbn [hX hp hq with_xy]. unfold lits. destruct Cf as (_ & K1 & K2). cbn [hX h_of]. rewrite K1. apply C6; now apply cells_weaken. }
  { cbn [hY hp hq with_xy]. unfold lits. destruct Cf as (_ & K1 & K2). cbn [hY h_of]. rewrite K2. apply C6; now apply cells_weaken. }
  { intros Hcore. split; [exact VE|]. unfold core in Hcore.
    destruct (Nb (i + 1) j) as [X1 X2]; try lia. destruct (Nb i (j + 1)) as [Y1 Y2]; try lia.
    split; [apply (KE (i + 1) j); auto; lia|apply (KE i (j + 1)); auto; lia]. }
  assert (Eh : h = next_h (g_Nx g) (g_Ny g) (g_pml g) (g_dx g) (med p) (eE (e_of p')) hp) by exact A11.
  assert (Ek : k = next_h (g_Nx g) (g_Ny g) (g_pml g) (g_dx g) (med q) (eE (e_of q')) hq) by (rewrite B11; unfold grid_next_h; now rewrite <- Fg).
  rewrite <- Eh, <- Ek in MH, VX, VY.
  destruct A9 as (AE & AX1 & AX2 & AY1 & AY2). destruct B9 as (BE & BX1 & BX2 & BY1 & BY2).
  destruct A12 as (AX & AXl & AXh & AY & AYl & AYh). destruct B12 as (BX & BXl & BXh & BY & BYl & BYh).
  destruct Gp' as (G1 & G2 & G3 & G4), Gq' as (G1' & G2' & G3' & G4'). destruct A6 as [A6 A6'], B6 as [B6 B6'].
  constructor.
  - unfold agree_field. split; [exact VE|]. change (tval (fHx (ph_F p'))) with (hX (h_of p')). change (tval (fHx (ph_F q'))) with (hX (h_of q')).
    change (tval (fHy (ph_F p'))) with (hY (h_of p')). change (tval (fHy (ph_F q'))) with (hY (h_of q')).
    rewrite AX, BX, AY, BY. cbn [hX hY with_xy].
    rewrite (proj1 (proj2 (tf_same _ _ i j (hX h) Fq'))), (proj2 (proj2 (tf_same _ _ i j (hY h) Fq'))). unfold tf. destruct (ph_tfsf q'); rewrite VX, VY; auto.
  - unfold agree_coefs. rewrite G2, G2'. exact Cc.
  - unfold agree_memory. rewrite G1. destruct ME as (M1 & M2 & M3 & M4), MH as (M5 & M6 & M7 & M8).
    cbn [eXl eXh eYl eYh e_of] in AX1, AX2, AY1, AY2, BX1, BX2, BY1, BY2. cbn [hXl hXh hYl hYh h_of with_xy] in AXl, AXh, AYl, AYh, BXl, BXh, BYl, BYh.
    split; [split; [|split; [|split]]|split; [|split; [|split]]]; intros K.
    + rewrite (AX1 _ _), (BX1 _ _). auto.
    + rewrite (AX2 _ _), (BX2 _ _). auto.
    + rewrite (AY1 _ _), (BY1 _ _). auto.
    + rewrite (AY2 _ _), (BY2 _ _). auto.
    + rewrite (AXl _ _), (BXl _ _). auto.
    + rewrite (AXh _ _), (BXh _ _). auto.
    + rewrite (AYl _ _), (BYl _ _). auto.
    + rewrite (AYh _ _), (BYh _ _). auto.
  - exact P1. - exact P2. - exact P3.
  - rewrite A6, B6. apply alike_saved; [exact C4|apply Cf].
  - rewrite A6', B6'. now apply alike_shifted.
  - rewrite G1. eapply drive_core; eauto.
Qed.

Lemma frame_step p q p' q' : apart (ph_grid p) -> wf_phys p -> wf_phys q -> same_frame p q ->
  phys_step p = Fine p' -> phys_step q = Fine q' -> wf_phys p' /\ wf_phys q' /\ ph_grid p' = ph_grid p /\ same_frame p' q'.
Proof.
  intros Ha Hw Hv (Fg & Ft & Fs & Fc & Fq) Hp Hq.
  destruct (full_step p p' Ha Hw Hp) as (E0 & E1 & E2 & E3 & Ls & u & h & []).
  assert (Ha' : apart (ph_grid q)) by (rewrite <- Fg; exact Ha).
  destruct (full_step q q' Ha' Hv Hq) as (E0' & E1' & E2' & E3' & Ls' & v & k & []).
  apply static_eq in cw_static, cw_static0. destruct cw_static as (S1 & _ & _ & _ & _ & S2 & S3), cw_static0 as (R1 & _ & _ & _ & _ & R2 & R3).
  split; [assumption|]. split; [assumption|]. split; [assumption|]. unfold same_frame.
  rewrite S1, R1, S2, R2, S3, R3, cw_t, cw_t0, Fg, Ft. repeat split; auto. exact (line_same _ _ _ _ Fq cw_line cw_line0).
Qed.

Lemma cone_run n : forall p q p' q' d i j, apart (ph_grid p) -> wf_phys p -> wf_phys q -> same_frame p q ->
  phys_run (repeat Update n) p = Fine p' -> phys_run (repeat Update n) q = Fine q' -> 0 <= d ->
  agree_near p q (d + Z.of_nat n) i j -> agree_near p' q' d i j.
Proof.
  induction n as [|n IH]; intros p q p' q' d i j Ha Hw Hv Hf Hp Hq Hd Hn; cbn [repeat phys_run] in Hp, Hq.
  - injection Hp as <-. injection Hq as <-. replace (d + Z.of_nat 0) with d in Hn by lia. exact Hn.
  - apply obind_fine in Hp. destruct Hp as (p1 & Hp1 & Hp). apply obind_fine in Hq. destruct Hq as (q1 & Hq1 & Hq). cbn [phys_exec] in Hp1, Hq1.
    destruct (frame_step p q p1 q1 Ha Hw Hv Hf Hp1 Hq1) as (W1 & V1 & G1 & F1).
    apply (IH p1 q1); try assumption; [now rewrite G1|]. rewrite Nat2Z.inj_succ in Hn.
    intros a b Hab Hbb Da Db. rewrite G1 in Hab, Hbb.
    apply (cone_step p q); try assumption. intros a' b' Ga Gb D1 D2. apply Hn; try assumption; lia.
Qed.

Lemma cone n s1 s2 s1' s2' i j : let g := ph_grid (f_ph s1) in apart g -> wf_phys (f_ph s1) -> wf_phys (f_ph s2) -> same_frame (f_ph s1) (f_ph s2) ->
  run (repeat Update n) s1 = Fine s1' -> run (repeat Update n) s2 = Fine s2' ->
  0 <= i < g_Nx g -> 0 <= j < g_Ny g -> agree_near (f_ph s1) (f_ph s2) (Z.of_nat n) i j -> agree_cell (f_ph s1') (f_ph s2') i j.
Proof.
  intros g Ha Hw Hv Hf H1 H2 Hi Hj Hn. apply run_phys in H1, H2.
  assert (K := cone_run n (f_ph s1) (f_ph s2) (f_ph s1') (f_ph s2') 0 i j Ha Hw Hv Hf H1 H2 ltac:(lia) Hn).
  apply K; try lia; clear K.
  all: assert (G : ph_grid (f_ph s1') = g) by (eapply phys_run_grid; exact H1); rewrite G; assumption.
Qed.
End Cone.
