(** Updates with sources in doubles against as many exact steps (C88). *)
From Coq Require Import ZArith Reals List String Bool Lia Psatz.
From Flocq Require Import Core.Core IEEE754.BinarySingleNaN.
From Verif Require Import Scalar Base BaseFacts VecM GridM GeometryM MaterialM PmlM DftM TfsfM PolarM InterpM H5M ClockM
  MonitorM FieldM OutFacts PhysFacts WfFacts ReachFacts SpecStep StepFacts YeeFacts TextbookFacts SpecSource SourceFacts SnapFacts FullStep
  Float FloatFacts SpecRound RoundFacts RoundStep RoundRun SpecDriven.
Import ListNotations.
Local Open Scope Z_scope.

(** ** programs in any arithmetic *)
Section Run.
Context {N : Num}.
Lemma add_at_none v L i j x : ~ In (i, j) L -> add_at v L i j x = x.
Proof.
  unfold add_at. revert x. induction L as [|q L IH]; intros x H; [reflexivity|]. cbn [fold_left].
  destruct ((fst q =? i) && (snd q =? j)) eqn:E; [exfalso; apply H; left; destruct q; cbn in E; f_equal; lia|]. apply IH. intros K. apply H. now right.
Qed.
Lemma listed_In c L : listed c L = true <-> In c L.
Proof.
  unfold listed. rewrite existsb_exists. split.
  - intros (q & Hq & E). replace c with q; [exact Hq|]. destruct q, c. cbn in E. f_equal; lia.
  - intros H. exists c. split; [exact H|]. rewrite !Z.eqb_refl. reflexivity.
Qed.
Lemma add_at_once v L i j x : NoDup L -> add_at v L i j x = if listed (i, j) L then (x + v)%num else x.
Proof.
  intros H. destruct (listed (i, j) L) eqn:E.
  - apply listed_In in E. revert x. induction L as [|q L IH]; intros x; [destruct E|]. apply NoDup_cons_iff in H. destruct H as [H1 H2].
    unfold add_at. cbn [fold_left]. fold (add_at v L i j). destruct E as [->|E].
    + cbn [fst snd]. rewrite !Z.eqb_refl. cbn [andb]. now apply add_at_none.
    + destruct ((fst q =? i) && (snd q =? j)) eqn:B; [|now apply IH].
      exfalso. apply H1. replace q with (i, j); [exact E|]. destruct q. cbn in B. f_equal; lia.
  - apply add_at_none. intros K. apply listed_In in K. congruence.
Qed.
Lemma src_nodup g k Lc : src_cells g k Lc -> NoDup Lc.
Proof.
  destruct k; cbn [src_cells].
  - intros (q & _ & ->). constructor; [intros []|constructor].
  - intros (a & b & _ & _ & ->). apply walk_nodup. intros k Hk E. cbn [fst snd] in E. injection E as E1 E2. nia.
Qed.
Lemma comp_same a b : field_comp b -> comp_eqb a b = same_comp a b.
Proof. intros [->|[->| ->]]; destruct a; reflexivity. Qed.

Lemma lits_kicked g t srcs Ls c (a : cells) : field_comp c -> Forall2 (fun r L => src_cells g (sr_kind r) L) srcs Ls ->
  same (lits t (combine srcs Ls) c a) (kicked (map (fun x => (sr_c (fst x), snd x, waveform (tp_shape (sr_tp (fst x))) t)) (combine srcs Ls)) c a).
Proof.
  intros Hc H i j. unfold lits, lit, kicked. generalize (a i j). induction H as [|r Lc srcs Ls Hr H IH]; intros x; [reflexivity|].
  cbn [combine map fold_left fst snd]. rewrite IH. f_equal. rewrite (comp_same _ _ Hc), (add_at_once _ _ _ _ _ (src_nodup _ _ _ Hr)).
  destruct (same_comp (sr_c r) c), (listed (i, j) Lc); reflexivity.
Qed.
Lemma kicked_same l c a b : same a b -> same (kicked l c a) (kicked l c b).
Proof. intros H i j. unfold kicked. now rewrite H. Qed.

Lemma driven_same n m th dx md l u v : same_e (fst u) (fst v) -> same_h (snd u) (snd v) ->
  same_e (fst (driven_step n m th dx md l u)) (fst (driven_step n m th dx md l v)) /\ same_h (snd (driven_step n m th dx md l u)) (snd (driven_step n m th dx md l v)).
Proof.
  intros A B. unfold driven_step. cbv zeta. cbn [fst snd].
  assert (E : same_e (next_e n m th dx md (hX (snd u)) (hY (snd u)) (fst u)) (next_e n m th dx md (hX (snd v)) (hY (snd v)) (fst v)))
    by (apply next_e_same; [apply B|apply B|exact A]).
  destruct E as (E1 & E2 & E3 & E4 & E5). destruct B as (B1 & B2 & B3 & B4 & B5 & B6). split.
  - refine (conj _ (conj _ (conj _ (conj _ _)))); cbn [eE eXl eXh eYl eYh]; auto. now apply kicked_same.
  - apply next_h_same; [cbn [eE]; now apply kicked_same|].
    refine (conj _ (conj _ (conj _ (conj _ (conj _ _))))); cbn [hX hXl hXh hY hYl hYh]; auto; now apply kicked_same.
Qed.
Lemma driven_steps_same n m th dx md dr k u v : same_e (fst u) (fst v) -> same_h (snd u) (snd v) ->
  same_e (fst (driven_steps n m th dx md dr k u)) (fst (driven_steps n m th dx md dr k v)) /\
  same_h (snd (driven_steps n m th dx md dr k u)) (snd (driven_steps n m th dx md dr k v)).
Proof. intros A B. induction k as [|k [IH1 IH2]]; [auto|]. cbn [driven_steps]. now apply driven_same. Qed.
Lemma driven_front n m th dx md dr k u :
  driven_steps n m th dx md dr (S k) u = driven_steps n m th dx md (fun i => dr (S i)) k (driven_step n m th dx md (dr O) u).
Proof. induction k as [|k IH]; [reflexivity|]. cbn [driven_steps] in *. now rewrite IH. Qed.
Lemma driven_ext n m th dx md dr dr' k u : (forall i, dr i = dr' i) -> driven_steps n m th dx md dr k u = driven_steps n m th dx md dr' k u.
Proof. intros H. induction k as [|k IH]; [reflexivity|]. cbn [driven_steps]. now rewrite IH, H. Qed.

Lemma moment_front t dt i : moment (t + dt)%num dt i = moment t dt (S i).
Proof. induction i as [|i IH]; [reflexivity|]. cbn [moment] in *. now rewrite IH. Qed.
Lemma drive_front a b Ls t dt i : map src_core a = map src_core b -> drive a Ls (t + dt)%num dt i = drive b Ls t dt (S i).
Proof.
  unfold drive. rewrite moment_front. generalize (moment t dt (S (S i))). intros tm. revert b Ls. induction a as [|r a IH]; intros [|r' b] Ls H; try discriminate; [reflexivity|].
  cbn [map] in H. injection H as H1 H2 H3 H4 H. destruct Ls as [|Lc Ls]; [reflexivity|]. cbn [combine map fst snd]. rewrite H2, H4. f_equal. now apply IH.
Qed.
Lemma cells_core g a b Ls : map src_core a = map src_core b -> Forall2 (fun r L => src_cells g (sr_kind r) L) b Ls -> Forall2 (fun r L => src_cells g (sr_kind r) L) a Ls.
Proof.
  intros H F. revert a H. induction F as [|r Lc b Ls Hr F IH]; intros [|r' a] H; try discriminate; constructor.
  - cbn [map] in H. injection H as H1 H2 H3 H4 H. now rewrite H3.
  - apply IH. now injection H.
Qed.

Lemma src_cells_fun g k L L' : src_cells g k L -> src_cells g k L' -> L = L'.
Proof.
  destruct k; cbn [src_cells].
  - intros (q & E & ->) (q' & E' & ->). rewrite E in E'. now injection E' as ->.
  - intros (a & b & A & B & ->) (a' & b' & A' & B' & ->). rewrite A in A'. rewrite B in B'. injection A' as ->. injection B' as ->. reflexivity.
Qed.
Lemma src_cells_list g l Ls Ls' : Forall2 (fun r L => src_cells g (sr_kind r) L) l Ls -> Forall2 (fun r L => src_cells g (sr_kind r) L) l Ls' -> Ls = Ls'.
Proof. intros H. revert Ls'. induction H as [|r Lc l Ls Hr H IH]; intros Ls' H'; inversion H'; subst; f_equal; [eapply src_cells_fun; eassumption|now apply IH]. Qed.

Lemma sources_step p p' : apart (ph_grid p) -> wf_phys p -> only_sources p -> phys_step p = Fine p' ->
  exists Ls, Forall2 (fun r L => src_cells (ph_grid p) (sr_kind r) L) (ph_srcs p) Ls /\
  let g := ph_grid p in let u := driven_step (g_Nx g) (g_Ny g) (g_pml g) (g_dx g) (med p) (drive (ph_srcs p) Ls (ph_t p) (g_dt g) 0) (e_of p, h_of p) in
  same_e (e_of p') (fst u) /\ same_h (h_of p') (snd u) /\ only_sources p' /\ wf_phys p' /\ ph_grid p' = g /\ med p' = med p /\
  map src_core (ph_srcs p') = map src_core (ph_srcs p) /\ ph_t p' = (ph_t p + g_dt g)%num.
Proof.
  intros Ha Hw (P1 & P2 & P3 & P4) Hs.
  destruct (full_step p p' Ha Hw Hs) as (E0 & E1 & E2 & E3 & Ls & u & h & [A1 A2 A3 A4 A5 A6 A7 A8 A9 A10 A11 A12 A13 A14 A15 A16]).
  rewrite P1 in A3. cbn in A3. injection A3 as A3 A3'. rewrite P2 in A4. cbn in A4. injection A4 as A4 A4'. rewrite P3 in A5. cbn in A5. injection A5 as A5 A5'.
  subst E1 E2 E3. rewrite P4 in A10. cbn in A10. injection A10 as A10. rewrite P4 in A9. rewrite <- A10 in A12. cbn [tf] in A9, A12.
  assert (F : Forall2 (fun r L => src_cells (ph_grid p) (sr_kind r) L) (ph_srcs p) Ls) by (clear - A7; induction A7; constructor; tauto).
  exists Ls. split; [exact F|]. cbv zeta.
  assert (Fe : field_comp Ez) by (unfold field_comp; auto). assert (Fx : field_comp Hx) by (unfold field_comp; auto). assert (Fy : field_comp Hy) by (unfold field_comp; auto).
  set (g := ph_grid p) in *. set (t' := (ph_t p + g_dt g)%num) in *.
  set (dr := drive (ph_srcs p) Ls (ph_t p) (g_dt g) 0).
  assert (K : forall c (a : cells), field_comp c -> same (lits t' (combine (ph_srcs p) Ls) c a) (kicked dr c a)) by (intros c a Hc; exact (lits_kicked g t' (ph_srcs p) Ls c a Hc F)).
  assert (SE : same_e (e_of p') (fst (driven_step (g_Nx g) (g_Ny g) (g_pml g) (g_dx g) (med p) dr (e_of p, h_of p)))).
  { unfold driven_step. cbv zeta. cbn [fst snd]. destruct A9 as (B1 & B2 & B3 & B4 & B5). subst u. cbn [eE eXl eXh eYl eYh] in *.
    refine (conj _ (conj _ (conj _ (conj _ _)))); cbn [eE eXl eXh eYl eYh]; try assumption.
    intros i j. rewrite B1, (K Ez _ Fe). apply kicked_same. intros i' j'. apply A2. }
  split; [exact SE|]. split.
  { unfold driven_step. cbv zeta. cbn [snd].
    eapply same_h_trans; [exact A12|]. assert (W : same_h (with_xy (hX h) (hY h) h) h) by (destruct h; apply same_h_refl).
    eapply same_h_trans; [exact W|]. subst h. unfold grid_next_h. apply next_h_same; [apply SE|].
    unfold with_xy. refine (conj _ (conj _ (conj _ (conj _ (conj _ _))))); cbn [hX hXl hXh hY hYl hYh]; try apply same_refl; now apply K. }
  split; [unfold only_sources; rewrite <- A3, <- A4, <- A5, <- A10; auto|].
  split; [exact A14|]. split; [exact (proj1 (proj1 (static_eq _ _) A13))|]. split; [now apply med_static|]. split; [exact A8|exact A15].
Qed.

Lemma sources_run k : forall p p', apart (ph_grid p) -> wf_phys p -> only_sources p -> phys_run (repeat Update (S k)) p = Fine p' ->
  exists Ls, Forall2 (fun r L => src_cells (ph_grid p) (sr_kind r) L) (ph_srcs p) Ls /\
  let g := ph_grid p in let u := driven_steps (g_Nx g) (g_Ny g) (g_pml g) (g_dx g) (med p) (drive (ph_srcs p) Ls (ph_t p) (g_dt g)) (S k) (e_of p, h_of p) in
  same_e (e_of p') (fst u) /\ same_h (h_of p') (snd u).
Proof.
  induction k as [|k IH]; intros p p' Ha Hw Hp H; change (repeat Update (S ?n)) with (Update :: repeat Update n) in H; cbn [phys_run] in H;
    apply obind_fine in H; destruct H as (p1 & H1 & H); cbn [phys_exec] in H1;
    destruct (sources_step p p1 Ha Hw Hp H1) as (Ls & F & X1 & X2 & Hp1 & Hw1 & G & M & Sc & Tm); exists Ls; (split; [exact F|]); cbv zeta.
  - cbn [repeat phys_run] in H. injection H as <-. cbn [driven_steps]. auto.
  - destruct (IH p1 p') as (Ls' & F' & Y1 & Y2); try assumption; [now rewrite G|]. rewrite G in F'.
    apply (cells_core _ _ _ _ (eq_sym Sc)) in F'. rewrite <- (src_cells_list _ _ _ _ F F') in Y1, Y2. cbv zeta in Y1, Y2. rewrite G, M, Tm in Y1, Y2.
    rewrite driven_front.
    rewrite (driven_ext _ _ _ _ _ _ (drive (ph_srcs p1) Ls (ph_t p + g_dt (ph_grid p))%num (g_dt (ph_grid p)))) by (intros i; symmetry; now apply drive_front).
    destruct (driven_steps_same (g_Nx (ph_grid p)) (g_Ny (ph_grid p)) (g_pml (ph_grid p)) (g_dx (ph_grid p)) (med p)
      (drive (ph_srcs p1) Ls (ph_t p + g_dt (ph_grid p))%num (g_dt (ph_grid p))) (S k) (e_of p1, h_of p1) _ X1 X2) as [Z1 Z2].
    split; [eapply same_e_trans; [exact Y1|exact Z1]|eapply same_h_trans; [exact Y2|exact Z2]].
Qed.
End Run.

(** ** doubles *)
Section Steps.
Variable L : libm.
Variables (a n m th : Z) (dx : @T (B64 L)) (md : @medium (B64 L)) (e0 : Z) (q : nat) (dr : nat -> list (@kick (B64 L))).
Hypothesis a0 : 0 <= a.
Hypothesis e00 : 0 <= e0.
Hypothesis fit : moderate_med a n m th dx md.

Lemma kicked_close k e (l : list (@kick (B64 L))) c x y z : (e0 <= e) -> Forall (fun i => moderate e0 (snd i)) l -> cclose L k e x y z ->
  cclose L (k + List.length l) (e + 2 * Z.of_nat (List.length l)) (kicked l c x)
    (kicked (map (fun i => (fst i, value L (snd i))) l) c y) (kicked (map (fun i => (fst i, size L (snd i))) l) c z).
Proof.
  intros He Hl H i j. unfold kicked. specialize (H i j). revert k e He H. generalize (x i j) (y i j) (z i j). clear x y z.
  induction Hl as [|it l Hi Hl IH]; intros x y z k e He H.
  - cbn. apply close_le with (3 := H); lia.
  - cbn [List.length map fold_left fst snd]. destruct (same_comp _ _ && _).
    + assert (V : close 0 e0 (snd it) (value L (snd it)) (size L (snd it))).
      { split; [exact e00|]. intros _ _. split; [apply Hi|]. unfold value, size. destruct Hi as [_ Hi]. replace (B2R (snd it) - B2R (snd it))%R with 0%R by ring.
        rewrite Rabs_R0. cbn. split; [lra|]. split; [lra|exact Hi]. }
      assert (X := add_close L k 0 e e0 _ _ _ _ _ _ H V). apply (close_le _ (S k) _ (e + 2)) in X; [|lia|lia].
      eapply close_le; [| |apply (IH _ _ _ (S k) (e + 2)); [lia|exact X]]; lia.
    + eapply close_le; [| |apply (IH _ _ _ k e); [lia|exact H]]; lia.
Qed.

Lemma driven_close k e (l : list (@kick (B64 L))) u v c : (e0 <= e) -> (List.length l <= q)%nat -> Forall (fun i => moderate e0 (snd i)) l -> sclose L k e u v c ->
  sclose L (k + (13 + q)) (e + (6 * a + 21 + 2 * Z.of_nat q)) (driven_step n m th dx md l u)
    (driven_step n m th (value L dx) (image_med (value L) md) (map (fun i => (fst i, value L (snd i))) l) v)
    (driven_step n m th (size L dx) (image_med (size L) md) (map (fun i => (fst i, size L (snd i))) l) c).
Proof.
  intros He Hq Hl [A B]. assert (He' : 0 <= e) by lia. unfold driven_step. cbv zeta.
  assert (Ec := next_e_close L a n m th dx md a0 fit k e _ _ _ _ _ _ _ _ _ He' A (proj1 B) (proj1 (proj2 (proj2 (proj2 B))))).
  destruct Ec as (C1 & C2 & C3 & C4 & C5).
  assert (He2 : e0 <= e + (3 * a + 12)) by lia. assert (Kz := kicked_close _ _ l Ez _ _ _ He2 Hl C1).
  apply (cclose_le L _ (k + 7 + q) _ (e + (3 * a + 12 + 2 * Z.of_nat q))) in Kz; [|lia|lia].
  destruct B as (B1 & B2 & B3 & B4 & B5 & B6).
  assert (Kx := kicked_close _ _ l Hx _ _ _ He Hl B1). apply (cclose_le L _ (k + q) _ (e + 2 * Z.of_nat q)) in Kx; [|lia|lia].
  assert (Ky := kicked_close _ _ l Hy _ _ _ He Hl B4). apply (cclose_le L _ (k + q) _ (e + 2 * Z.of_nat q)) in Ky; [|lia|lia].
  split; cbn [fst snd].
  - refine (conj _ (conj _ (conj _ (conj _ _)))); cbn [eE eXl eXh eYl eYh]; (eapply cclose_le; [| |eassumption]; lia).
  - assert (HH : hclose L (k + q) (e + 2 * Z.of_nat q)
      (Hmag (kicked l Hx (hX (snd u))) (hXl (snd u)) (hXh (snd u)) (kicked l Hy (hY (snd u))) (hYl (snd u)) (hYh (snd u)))
      (Hmag (kicked (map (fun i => (fst i, value L (snd i))) l) Hx (hX (snd v))) (hXl (snd v)) (hXh (snd v)) (kicked (map (fun i => (fst i, value L (snd i))) l) Hy (hY (snd v))) (hYl (snd v)) (hYh (snd v)))
      (Hmag (kicked (map (fun i => (fst i, size L (snd i))) l) Hx (hX (snd c))) (hXl (snd c)) (hXh (snd c)) (kicked (map (fun i => (fst i, size L (snd i))) l) Hy (hY (snd c))) (hYl (snd c)) (hYh (snd c)))).
    { refine (conj _ (conj _ (conj _ (conj _ (conj _ _))))); cbn [hX hXl hXh hY hYl hYh]; try assumption; (eapply cclose_le; [| |eassumption]; lia). }
    assert (D := next_h_close L a n m th dx md a0 fit (k + q) (e + 2 * Z.of_nat q) (k + 7 + q) (e + (3 * a + 12 + 2 * Z.of_nat q)) _ _ _ _ _ _ ltac:(lia) ltac:(lia) HH Kz).
    destruct D as (D1 & D2 & D3 & D4 & D5 & D6). cbn [eE].
    refine (conj _ (conj _ (conj _ (conj _ (conj _ _))))); (eapply cclose_le; [| |eassumption]; lia).
Qed.

Hypothesis few : forall i, (List.length (dr i) <= q)%nat.
Let drR := image_drive (value L) dr.
Let drM := image_drive (size L) dr.

Lemma driven_raw e u K : e0 <= e -> e + (6 * a + 21 + 2 * Z.of_nat q) <= 1000 -> Z.of_nat ((13 + q) * K) <= 2 ^ 53 ->
  (forall i, (i < K)%nat -> Forall (fun x => moderate e0 (snd x)) (dr i)) ->
  every_cell (fun x : @T (B64 L) => is_finite (x : f64) = true) u ->
  (forall k, (k < K)%nat -> every_cell (below e) (driven_steps n m th (size L dx) (image_med (size L) md) drM k (image (size L) u))) ->
  sraw L ((13 + q) * K) (driven_steps n m th dx md dr K u) (driven_steps n m th (value L dx) (image_med (value L) md) drR K (image (value L) u))
    (driven_steps n m th (size L dx) (image_med (size L) md) drM K (image (size L) u)).
Proof.
  intros He Ha. induction K as [|K IH]; intros HN Hd F M; [rewrite Nat.mul_0_r; apply raw_start, F|].
  cbn [driven_steps].
  assert (H : sraw L ((13 + q) * K) (driven_steps n m th dx md dr K u) (driven_steps n m th (value L dx) (image_med (value L) md) drR K (image (value L) u))
    (driven_steps n m th (size L dx) (image_med (size L) md) drM K (image (size L) u))) by (apply IH; [nia|intros i Hi; apply Hd; lia|exact F|intros k Hk; apply M; lia]).
  apply (to_close L _ e) in H; [|lia|apply M; lia].
  apply (driven_close _ _ (dr K)) in H; [|exact He|apply few|apply Hd; lia].
  replace ((13 + q) * S K)%nat with ((13 + q) * K + (13 + q))%nat by lia.
  apply of_close with (2 := Ha) in H; [apply H|]. apply w_bound. nia.
Qed.

Lemma driven_magnitudes e u K : e0 <= e -> e + Z.of_nat K * (6 * a + 21 + 2 * Z.of_nat q) <= 1000 -> Z.of_nat ((13 + q) * K) <= 2 ^ 53 ->
  (forall i, (i < K)%nat -> Forall (fun x => moderate e0 (snd x)) (dr i)) ->
  every_cell (fun x : @T (B64 L) => is_finite (x : f64) = true) u -> every_cell (below e) (image (size L) u) ->
  forall k, (k <= K)%nat -> every_cell (below (e + Z.of_nat k * (6 * a + 21 + 2 * Z.of_nat q))) (driven_steps n m th (size L dx) (image_med (size L) md) drM k (image (size L) u)) /\
    sraw L ((13 + q) * k) (driven_steps n m th dx md dr k u) (driven_steps n m th (value L dx) (image_med (value L) md) drR k (image (value L) u))
      (driven_steps n m th (size L dx) (image_med (size L) md) drM k (image (size L) u)).
Proof.
  intros He HE HN Hd F B. induction k as [|k IH]; intros Hk.
  - cbn [driven_steps]. rewrite Nat.mul_0_r. split; [replace (e + Z.of_nat 0 * (6 * a + 21 + 2 * Z.of_nat q)) with e by lia; exact B|apply raw_start, F].
  - destruct IH as [I1 I2]; [lia|]. cbn [driven_steps].
    apply (to_close L _ (e + Z.of_nat k * (6 * a + 21 + 2 * Z.of_nat q))) in I2; [|nia|exact I1].
    apply (driven_close _ _ (dr k)) in I2; [|nia|apply few|apply Hd; lia].
    replace ((13 + q) * S k)%nat with ((13 + q) * k + (13 + q))%nat by lia.
    replace (e + Z.of_nat (S k) * (6 * a + 21 + 2 * Z.of_nat q)) with (e + Z.of_nat k * (6 * a + 21 + 2 * Z.of_nat q) + (6 * a + 21 + 2 * Z.of_nat q)) by lia.
    apply of_close in I2; [destruct I2; auto| |nia]. apply w_bound. nia.
Qed.
End Steps.

(** ** programs in doubles *)
Section Program.
Variable L : libm.
Lemma sources_run' {N : Num} k p p' Ls : apart (ph_grid p) -> wf_phys p -> only_sources p -> phys_run (repeat Update k) p = Fine p' ->
  Forall2 (fun r l => src_cells (ph_grid p) (sr_kind r) l) (ph_srcs p) Ls ->
  let g := ph_grid p in let u := driven_steps (g_Nx g) (g_Ny g) (g_pml g) (g_dx g) (med p) (drive (ph_srcs p) Ls (ph_t p) (g_dt g)) k (e_of p, h_of p) in
  same_e (e_of p') (fst u) /\ same_h (h_of p') (snd u).
Proof.
  intros Ha Hw Hp H F. destruct k as [|k].
  - cbn in H. injection H as <-. cbn. split; [apply same_e_refl|apply same_h_refl].
  - destruct (sources_run k p p' Ha Hw Hp H) as (Ls' & F' & X). rewrite (src_cells_list _ _ _ _ F F'). exact X.
Qed.
Lemma drive_moderate e0 (srcs : list (@source (B64 L))) Ls t dt i :
  Forall (fun r : @source (B64 L) => moderate e0 (waveform (tp_shape (sr_tp r)) (moment t dt (S i)))) srcs ->
  Forall (fun x : @kick (B64 L) => moderate e0 (snd x)) (drive srcs Ls t dt i).
Proof.
  intros H. unfold drive. revert Ls. induction H as [|r srcs Hr H IH]; intros [|l Ls]; cbn [combine map]; constructor; [exact Hr|apply IH].
Qed.
Lemma drive_few (srcs : list (@source (B64 L))) Ls t dt i : (List.length (drive srcs Ls t dt i) <= List.length srcs)%nat.
Proof. unfold drive. rewrite map_length, combine_length. lia. Qed.

Lemma driven_within a e0 e k (s s' : @field (B64 L)) Ls : let p := f_ph s in let g := ph_grid p in
  let u := (e_of p, h_of p) in let md := med p in let q := List.length (ph_srcs p) in let dr := drive (ph_srcs p) Ls (ph_t p) (g_dt g) in
  0 <= a -> 0 <= e0 <= e -> e + (6 * a + 21 + 2 * Z.of_nat q) <= 1000 -> Z.of_nat ((13 + q) * k) <= 2 ^ 53 ->
  apart g -> wf_phys p -> only_sources p -> Forall2 (fun r l => src_cells g (sr_kind r) l) (ph_srcs p) Ls ->
  moderate_med a (g_Nx g) (g_Ny g) (g_pml g) (g_dx g) md ->
  (forall i, (i < k)%nat -> Forall (fun r : @source (B64 L) => moderate e0 (waveform (tp_shape (sr_tp r)) (moment (ph_t p) (g_dt g) (S i)))) (ph_srcs p)) ->
  every_cell (fun x : @T (B64 L) => is_finite (x : f64) = true) u ->
  (forall i, (i < k)%nat -> every_cell (fun x : @T Magnitude => ((x : R) <= bpow radix2 e)%R)
     (driven_steps (g_Nx g) (g_Ny g) (g_pml g) (size L (g_dx g)) (image_med (size L) md) (image_drive (size L) dr) i (image (size L) u))) ->
  run (repeat Update k) s = Fine s' ->
  within_cells ((1 + unit_error) ^ ((13 + q) * k) - 1)%R (e_of (f_ph s'), h_of (f_ph s'))
    (driven_steps (g_Nx g) (g_Ny g) (g_pml g) (value L (g_dx g)) (image_med (value L) md) (image_drive (value L) dr) k (image (value L) u))
    (driven_steps (g_Nx g) (g_Ny g) (g_pml g) (size L (g_dx g)) (image_med (size L) md) (image_drive (size L) dr) k (image (size L) u)).
Proof.
  intros p g u md q dr Ha He HE Hk Hap Hw Hp HL Hm Hs Hf Hb H. apply run_phys in H.
  destruct (sources_run' k (f_ph s) (f_ph s') Ls Hap Hw Hp H HL) as [X Y].
  apply (within_of L _ (driven_steps (g_Nx g) (g_Ny g) (g_pml g) (g_dx g) md dr k u) _ _ _ ((13 + q) * k)); [exact X|exact Y|reflexivity|].
  apply (driven_raw L a _ _ _ _ _ e0 q dr Ha (proj1 He) Hm (drive_few _ _ _ _) e); try assumption; [apply He|].
  intros i Hi. apply drive_moderate, Hs, Hi.
Qed.

Lemma driven_short a e0 e k (s s' : @field (B64 L)) Ls : let p := f_ph s in let g := ph_grid p in
  let u := (e_of p, h_of p) in let md := med p in let q := List.length (ph_srcs p) in let dr := drive (ph_srcs p) Ls (ph_t p) (g_dt g) in
  0 <= a -> 0 <= e0 <= e -> e + Z.of_nat k * (6 * a + 21 + 2 * Z.of_nat q) <= 1000 ->
  apart g -> wf_phys p -> only_sources p -> Forall2 (fun r l => src_cells g (sr_kind r) l) (ph_srcs p) Ls ->
  moderate_med a (g_Nx g) (g_Ny g) (g_pml g) (g_dx g) md ->
  (forall i, (i < k)%nat -> Forall (fun r : @source (B64 L) => moderate e0 (waveform (tp_shape (sr_tp r)) (moment (ph_t p) (g_dt g) (S i)))) (ph_srcs p)) ->
  every_cell (fun x : @T (B64 L) => is_finite (x : f64) = true /\ (Rabs (B2R (x : f64)) <= bpow radix2 e)%R) u ->
  run (repeat Update k) s = Fine s' ->
  within_cells ((1 + unit_error) ^ ((13 + q) * k) - 1)%R (e_of (f_ph s'), h_of (f_ph s'))
    (driven_steps (g_Nx g) (g_Ny g) (g_pml g) (value L (g_dx g)) (image_med (value L) md) (image_drive (value L) dr) k (image (value L) u))
    (driven_steps (g_Nx g) (g_Ny g) (g_pml g) (size L (g_dx g)) (image_med (size L) md) (image_drive (size L) dr) k (image (size L) u)).
Proof.
  intros p g u md q dr Ha He HE Hap Hw Hp HL Hm Hs Hf H. apply run_phys in H.
  destruct (sources_run' k (f_ph s) (f_ph s') Ls Hap Hw Hp H HL) as [X Y].
  apply (within_of L _ (driven_steps (g_Nx g) (g_Ny g) (g_pml g) (g_dx g) md dr k u) _ _ _ ((13 + q) * k)); [exact X|exact Y|reflexivity|].
  destruct Hf as [Hf1 Hf2].
  refine (proj2 (driven_magnitudes L a _ _ _ _ _ e0 q dr Ha (proj1 He) Hm (drive_few _ _ _ _) e u k (proj2 He) HE _ _ _ _ k (Nat.le_refl k))).
  - change (2 ^ 53) with 9007199254740992. nia.
  - intros i Hi. apply drive_moderate, Hs, Hi.
  - split; intros i j; [destruct (Hf1 i j) as ((F1 & _) & (F2 & _) & (F3 & _) & (F4 & _) & (F5 & _)); auto|
      destruct (Hf2 i j) as ((F1 & _) & (F2 & _) & (F3 & _) & (F4 & _) & (F5 & _) & (F6 & _)); auto 10].
  - split; intros i j; unfold below, image, image_e, image_h, size; cbn [fst snd eE eXl eXh eYl eYh hX hXl hXh hY hYl hYh];
      [destruct (Hf1 i j) as ((_ & F1) & (_ & F2) & (_ & F3) & (_ & F4) & (_ & F5)); auto|
      destruct (Hf2 i j) as ((_ & F1) & (_ & F2) & (_ & F3) & (_ & F4) & (_ & F5) & (_ & F6)); auto 10].
Qed.
End Program.
