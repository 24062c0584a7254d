(** update() of the transpose is the transpose of update(). *)
From Coq Require Import ZArith Reals String List Bool Lia Lra.
From Verif Require Import Scalar Base BaseFacts VecM GridM GeometryM MaterialM PmlM DftM TfsfM PolarM InterpM H5M ClockM
  MonitorM FieldM SpecGrid GridFacts OutFacts PhysFacts PaintFacts WfFacts ReachFacts SpecStep StepFacts EngineFacts YeeFacts TextbookFacts PolarFacts SpecSource SourceFacts
  FullStep SpecCone PolarPair ConeFacts SpecFlip.
Import ListNotations.
Local Open Scope Z_scope.
#[local] Existing Instance RNum.

(** the one-dimensional coefficients of the two axes *)
Definition flip_lines (n m th : Z) (md md' : medium) : Prop :=
  (forall d, 0 <= d <= th -> bEx md' d = bEy md d /\ cEx md' d = cEy md d /\ bEy md' d = bEx md d /\ cEy md' d = cEx md d /\
     bHx md' d = bHy md d /\ cHx md' d = cHy md d /\ bHy md' d = bHx md d /\ cHy md' d = cHx md d) /\
  (forall i, 0 <= i < n -> sEy md' i = sEx md i /\ sHy md' i = sHx md i) /\
  (forall j, 0 <= j < m -> sEx md' j = sEy md j /\ sHx md' j = sHy md j).

Lemma cpml_flip (g g' : grid) md md' : flip_grid g g' -> apart g -> cpml_coefs g md -> cpml_coefs g' md' -> flip_lines (g_Nx g) (g_Ny g) (g_pml g) md md'.
Proof.
  intros (F1 & F2 & F3 & F4 & F5) (P1 & P2 & P3) (A1 & A2 & A3 & A4) (B1 & B2 & B3 & B4). rewrite F3, F4, F5 in *. rewrite F1, F2 in *.
  split; [|split].
  - intros d Hd. destruct (A1 d Hd) as ((-> & -> & -> & ->) & (-> & -> & -> & ->)). destruct (B1 d Hd) as ((-> & -> & -> & ->) & (-> & -> & -> & ->)). repeat split.
  - intros i Hi. destruct (Z.lt_ge_cases i (g_pml g)) as [L|L].
    { destruct (A2 i ltac:(lia)) as ((-> & _) & (-> & _)). destruct (B2 i ltac:(lia)) as ((_ & -> & _) & (_ & -> & _)). auto. }
    destruct (Z.le_gt_cases i (g_Nx g - 1 - g_pml g)) as [M|M].
    { destruct (A3 i ltac:(lia)) as [-> ->]. destruct (B4 i ltac:(lia)) as [-> ->]. auto. }
    destruct (A2 (g_Nx g - 1 - i) ltac:(lia)) as ((_ & _ & X1 & _) & (_ & _ & X2 & _)). destruct (B2 (g_Nx g - 1 - i) ltac:(lia)) as ((_ & _ & _ & X3) & (_ & _ & _ & X4)).
    replace (g_Nx g - 1 - (g_Nx g - 1 - i)) with i in * by lia. rewrite X1, X2, X3, X4. auto.
  - intros i Hi. destruct (Z.lt_ge_cases i (g_pml g)) as [L|L].
    { destruct (A2 i ltac:(lia)) as ((_ & -> & _) & (_ & -> & _)). destruct (B2 i ltac:(lia)) as ((-> & _) & (-> & _)). auto. }
    destruct (Z.le_gt_cases i (g_Ny g - 1 - g_pml g)) as [M|M].
    { destruct (A4 i ltac:(lia)) as [-> ->]. destruct (B3 i ltac:(lia)) as [-> ->]. auto. }
    destruct (A2 (g_Ny g - 1 - i) ltac:(lia)) as ((_ & _ & _ & X1) & (_ & _ & _ & X2)). destruct (B2 (g_Ny g - 1 - i) ltac:(lia)) as ((_ & _ & X3 & _) & (_ & _ & X4 & _)).
    replace (g_Ny g - 1 - (g_Ny g - 1 - i)) with i in * by lia. rewrite X1, X2, X3, X4. auto.
Qed.

Section Half.
Variables (n m th : Z) (dx : R) (md md' : @medium RNum) (a b : Z).
Hypothesis Hlines : flip_lines n m th md md'.
Hypothesis Hcell : mCa md' b a = mCa md a b /\ mCb md' b a = mCb md a b /\ mDa md' b a = mDa md a b /\ mDb md' b a = mDb md a b.
Hypothesis Hth : 0 <= th /\ 2 * th < n - 1 /\ 2 * th < m - 1.

Definition minus2 (x y : R) : Prop := y = (- x)%R.
Definition fmem_e (u v : @emag RNum) : Prop :=
  (1 <= a <= th -> minus2 (eXl u a b) (eYl v b a)) /\ (1 <= n - 1 - a <= th -> minus2 (eXh u (n - 1 - a) b) (eYh v b (n - 1 - a))) /\
  (1 <= b <= th -> minus2 (eYl u a b) (eXl v b a)) /\ (1 <= m - 1 - b <= th -> minus2 (eYh u a (m - 1 - b)) (eXh v (m - 1 - b) a)).
Definition fmem_h (u v : @hmag RNum) : Prop :=
  (1 <= b < th -> hYl v b a = hXl u a b) /\ (1 <= m - 2 - b < th -> hYh v (m - 2 - b) a = hXh u a (m - 2 - b)) /\
  (1 <= a < th -> hXl v b a = hYl u a b) /\ (1 <= n - 2 - a < th -> hXh v b (n - 2 - a) = hYh u (n - 2 - a) b).

Ltac branch c := let E := fresh "Eg" in destruct c eqn:E.
Ltac lin := unfold recur, minus2 in *; rnum; change (@T RNum) with R in *; unfold Rdiv; ring.

Lemma core_flip : core m n b a = core n m a b.
Proof. unfold core. lia. Qed.

Lemma flip_e (hx hx' hy hy' : cells) (u v : emag) : fmem_e u v -> eE v b a = eE u a b ->
  (core n m a b = true -> minus2 (hy a b) (hx' b a) /\ minus2 (hx a b) (hy' b a) /\ minus2 (hy (a - 1) b) (hx' b (a - 1)) /\ minus2 (hx a (b - 1)) (hy' (b - 1) a)) ->
  let u' := next_e n m th dx md hx hy u in let v' := next_e m n th dx md' hx' hy' v in
  fmem_e u' v' /\ eE v' b a = eE u' a b.
Proof.
  intros (M1 & M2 & M3 & M4) He Hc. destruct Hlines as (L1 & L2 & L3). destruct Hcell as (C1 & C2 & _).
  assert (Q1 : 1 <= a <= th -> minus2 (memXl m th dx md hy (eXl u) a b) (memYl m th dx md' hx' (eYl v) b a)).
  { intros Ha. unfold memXl, memYl. replace ((1 <=? b) && (b <? m - 1) && (1 <=? a) && (a <=? th)) with ((1 <=? a) && (a <=? th) && (1 <=? b) && (b <? m - 1)) by lia.
    branch ((1 <=? a) && (a <=? th) && (1 <=? b) && (b <? m - 1)); [|auto].
    destruct Hc as (K1 & _ & K2 & _); [unfold core; lia|]. destruct (L1 a ltac:(lia)) as (_ & _ & -> & -> & _). specialize (M1 ltac:(lia)). unfold minus2 in *. change (@T RNum) with R in *. rewrite K1, K2, M1. lin. }
  assert (Q2 : 1 <= n - 1 - a <= th -> minus2 (memXh n m th dx md hy (eXh u) (n - 1 - a) b) (memYh m n th dx md' hx' (eYh v) b (n - 1 - a))).
  { intros Ha. unfold memXh, memYh. replace ((1 <=? b) && (b <? m - 1) && (1 <=? n - 1 - a) && (n - 1 - a <=? th)) with ((1 <=? n - 1 - a) && (n - 1 - a <=? th) && (1 <=? b) && (b <? m - 1)) by lia.
    branch ((1 <=? n - 1 - a) && (n - 1 - a <=? th) && (1 <=? b) && (b <? m - 1)); [|auto].
    destruct Hc as (K1 & _ & K2 & _); [unfold core; lia|]. replace (n - 1 - (n - 1 - a)) with a by lia.
    destruct (L1 (n - 1 - a) ltac:(lia)) as (_ & _ & -> & -> & _). specialize (M2 ltac:(lia)). unfold minus2 in *. change (@T RNum) with R in *. rewrite K1, K2, M2. lin. }
  assert (Q3 : 1 <= b <= th -> minus2 (memYl n th dx md hx (eYl u) a b) (memXl n th dx md' hy' (eXl v) b a)).
  { intros Ha. unfold memXl, memYl. replace ((1 <=? b) && (b <=? th) && (1 <=? a) && (a <? n - 1)) with ((1 <=? a) && (a <? n - 1) && (1 <=? b) && (b <=? th)) by lia.
    branch ((1 <=? a) && (a <? n - 1) && (1 <=? b) && (b <=? th)); [|auto].
    destruct Hc as (_ & K1 & _ & K2); [unfold core; lia|]. destruct (L1 b ltac:(lia)) as (-> & -> & _). specialize (M3 ltac:(lia)). unfold minus2 in *. change (@T RNum) with R in *. rewrite K1, K2, M3. lin. }
  assert (Q4 : 1 <= m - 1 - b <= th -> minus2 (memYh n m th dx md hx (eYh u) a (m - 1 - b)) (memXh m n th dx md' hy' (eXh v) (m - 1 - b) a)).
  { intros Ha. unfold memXh, memYh. replace ((1 <=? m - 1 - b) && (m - 1 - b <=? th) && (1 <=? a) && (a <? n - 1)) with ((1 <=? a) && (a <? n - 1) && (1 <=? m - 1 - b) && (m - 1 - b <=? th)) by lia.
    branch ((1 <=? a) && (a <? n - 1) && (1 <=? m - 1 - b) && (m - 1 - b <=? th)); [|auto].
    destruct Hc as (_ & K1 & _ & K2); [unfold core; lia|]. replace (m - 1 - (m - 1 - b)) with b by lia.
    destruct (L1 (m - 1 - b) ltac:(lia)) as (-> & -> & _). specialize (M4 ltac:(lia)). unfold minus2 in *. change (@T RNum) with R in *. rewrite K1, K2, M4. lin. }
  split; [unfold fmem_e; cbn [next_e eXl eXh eYl eYh]; auto|]. cbn [next_e eE]. rewrite core_flip.
  branch (core n m a b); [|exact He]. destruct (Hc eq_refl) as (K1 & K2 & K3 & K4). unfold core in Eg.
  assert (Y : yeeE md' hx' hy' (eE v) b a = yeeE md hx hy (eE u) a b).
  { unfold yeeE. destruct (L2 a ltac:(lia)) as [-> _]. destruct (L3 b ltac:(lia)) as [-> _]. unfold minus2 in *. change (@T RNum) with R in *. rewrite C1, C2, He, K1, K2, K3, K4. lin. }
  unfold addX, addY. change (@T RNum) with R in *. rewrite Y, C2. unfold minus2 in *.
  branch (b <=? th); branch (a <=? th); branch (n - 1 - th <=? a); branch (m - 1 - th <=? b);
    change (@T RNum) with R in *; rewrite ?Q1, ?Q2, ?Q3, ?Q4 by lia; rnum; change (@T RNum) with R in *; try ring; reflexivity.
Qed.

Lemma flip_h (e e' : cells) (u v : hmag) : fmem_h u v -> minus2 (hY u a b) (hX v b a) -> minus2 (hX u a b) (hY v b a) ->
  (core n m a b = true -> e' b a = e a b /\ e' b (a + 1) = e (a + 1) b /\ e' (b + 1) a = e a (b + 1)) ->
  let u' := next_h n m th dx md e u in let v' := next_h m n th dx md' e' v in
  fmem_h u' v' /\ minus2 (hY u' a b) (hX v' b a) /\ minus2 (hX u' a b) (hY v' b a).
Proof.
  intros (M1 & M2 & M3 & M4) Hx Hy Hc. destruct Hlines as (L1 & L2 & L3). destruct Hcell as (_ & _ & C1 & C2).
  assert (Q1 : 1 <= b < th -> memHyl n th dx md' e' (hYl v) b a = memHxl n th dx md e (hXl u) a b).
  { intros Ha. unfold memHxl, memHyl. replace ((1 <=? b) && (b <? th) && (1 <=? a) && (a <? n - 1)) with ((1 <=? a) && (a <? n - 1) && (1 <=? b) && (b <? th)) by lia.
    branch ((1 <=? a) && (a <? n - 1) && (1 <=? b) && (b <? th)); [|auto].
    destruct Hc as (K1 & _ & K2); [unfold core; lia|]. destruct (L1 b ltac:(lia)) as (_ & _ & _ & _ & -> & -> & _). now rewrite K1, K2, M1. }
  assert (Q2 : 1 <= m - 2 - b < th -> memHyh m n th dx md' e' (hYh v) (m - 2 - b) a = memHxh n m th dx md e (hXh u) a (m - 2 - b)).
  { intros Ha. unfold memHxh, memHyh. replace ((1 <=? m - 2 - b) && (m - 2 - b <? th) && (1 <=? a) && (a <? n - 1)) with ((1 <=? a) && (a <? n - 1) && (1 <=? m - 2 - b) && (m - 2 - b <? th)) by lia.
    branch ((1 <=? a) && (a <? n - 1) && (1 <=? m - 2 - b) && (m - 2 - b <? th)); [|auto].
    destruct Hc as (K1 & _ & K2); [unfold core; lia|]. replace (m - 1 - (m - 2 - b)) with (b + 1) by lia. replace (b + 1 - 1) with b by lia.
    destruct (L1 (m - 2 - b) ltac:(lia)) as (_ & _ & _ & _ & -> & -> & _). now rewrite K1, K2, M2. }
  assert (Q3 : 1 <= a < th -> memHxl m th dx md' e' (hXl v) b a = memHyl m th dx md e (hYl u) a b).
  { intros Ha. unfold memHxl, memHyl. replace ((1 <=? b) && (b <? m - 1) && (1 <=? a) && (a <? th)) with ((1 <=? a) && (a <? th) && (1 <=? b) && (b <? m - 1)) by lia.
    branch ((1 <=? a) && (a <? th) && (1 <=? b) && (b <? m - 1)); [|auto].
    destruct Hc as (K1 & K2 & _); [unfold core; lia|]. destruct (L1 a ltac:(lia)) as (_ & _ & _ & _ & _ & _ & -> & ->). now rewrite K1, K2, M3. }
  assert (Q4 : 1 <= n - 2 - a < th -> memHxh m n th dx md' e' (hXh v) b (n - 2 - a) = memHyh n m th dx md e (hYh u) (n - 2 - a) b).
  { intros Ha. unfold memHxh, memHyh. replace ((1 <=? b) && (b <? m - 1) && (1 <=? n - 2 - a) && (n - 2 - a <? th)) with ((1 <=? n - 2 - a) && (n - 2 - a <? th) && (1 <=? b) && (b <? m - 1)) by lia.
    branch ((1 <=? n - 2 - a) && (n - 2 - a <? th) && (1 <=? b) && (b <? m - 1)); [|auto].
    destruct Hc as (K1 & K2 & _); [unfold core; lia|]. replace (n - 1 - (n - 2 - a)) with (a + 1) by lia. replace (a + 1 - 1) with a by lia.
    destruct (L1 (n - 2 - a) ltac:(lia)) as (_ & _ & _ & _ & _ & _ & -> & ->). now rewrite K1, K2, M4. }
  split; [unfold fmem_h; cbn [next_h hXl hXh hYl hYh]; auto|]. cbn [next_h hX hY]. rewrite core_flip.
  branch (core n m a b); [|auto]. destruct (Hc eq_refl) as (K1 & K2 & K3). unfold core in Eg.
  assert (Y1 : minus2 (yeeHy md e (hY u) a b) (yeeHx md' e' (hX v) b a)) by (unfold yeeHx, yeeHy; destruct (L2 a ltac:(lia)) as [_ ->]; unfold minus2 in *; change (@T RNum) with R in *; rewrite C1, C2, Hx, K1, K2; lin).
  assert (Y2 : minus2 (yeeHx md e (hX u) a b) (yeeHy md' e' (hY v) b a)) by (unfold yeeHx, yeeHy; destruct (L3 b ltac:(lia)) as [_ ->]; unfold minus2 in *; change (@T RNum) with R in *; rewrite C1, C2, Hy, K1, K3; lin).
  unfold minus2 in *. change (@T RNum) with R in *.
  split; unfold addHx, addHy; rewrite ?Y1, ?Y2, C2.
  - branch (a <? th); [rewrite Q3 by lia; lin|]. branch ((n - 1 - th <=? a) && (a <? n - 2)); [rewrite Q4 by lia; lin|]. reflexivity.
  - branch (b <? th); [rewrite Q1 by lia; lin|]. branch ((m - 1 - th <=? b) && (b <? m - 2)); [rewrite Q2 by lia; lin|]. reflexivity.
Qed.
End Half.

Lemma flip_saved a b o o' x y : alike_prev a b b a o o' -> tval x a b = tval y b a -> alike_prev a b b a (saved o x) (saved o' y).
Proof. destruct o, o'; cbn; auto. Qed.
Lemma flip_shifted a b o o' x y : alike_prev a b b a o o' -> alike_prev a b b a x y -> alike_prev a b b a (shifted o x) (shifted o' y).
Proof. destruct o, o'; cbn; auto; contradiction. Qed.
Lemma flip_core g g' s s1 r r1 a b : map src_core s1 = map src_core s -> map src_core r1 = map src_core r -> flip_drive g g' s r a b -> flip_drive g g' s1 r1 a b.
Proof.
  intros Hs Hr H Ls Ls' K K' t x.
  destruct (H Ls Ls' (cells_core g s1 s Ls Hs K) (cells_core g' r1 r Ls' Hr K') t x) as (X1 & X2 & X3).
  rewrite !(lit_core t _ _ _ s1 s _ _ Hs), !(lit_core t _ _ _ r1 r _ _ Hr). auto.
Qed.

Lemma flip_step p q p' q' : apart (ph_grid p) -> wf_phys p -> wf_phys q ->
  cpml_coefs (ph_grid p) (med p) -> cpml_coefs (ph_grid q) (med q) -> flip_state p q ->
  phys_step p = Fine p' -> phys_step q = Fine q' -> flip_state p' q'.
Proof.
  intros Ha Hw Hv Cp Cq [Fg Ft (Tp & Tq) SC] Hp Hq.
  assert (Hl := cpml_flip _ _ _ _ Fg Ha Cp Cq).
  assert (Fg' := Fg). destruct Fg' as (G1 & G2 & G3 & G4 & G5).
  destruct (full_step p p' Ha Hw Hp) as (E0 & E1 & E2 & E3 & Ls & u & h & [A1 A2 A3 A4 A5 A6 A7 A8 A9 A10 A11 A12 A13 A14 A15 A16]).
  assert (Ha' : apart (ph_grid q)) by (unfold apart in *; rewrite G1, G2, G3; lia).
  destruct (full_step q q' Ha' Hv Hq) as (E0' & E1' & E2' & E3' & Ls' & v & k & [B1 B2 B3 B4 B5 B6 B7 B8 B9 B10 B11 B12 B13 B14 B15 B16]).
  apply static_eq in A13, B13. apply cells_weaken in A7, B7.
  unfold grid_next_e in A1, B1. unfold grid_next_h in A11, B11. rewrite Ft in *. rewrite G1, G2, G3, G4, G5 in *. rewrite Tp in *. rewrite Tq in *.
  cbn [line] in A10, B10. injection A10 as A10. injection B10 as B10. rewrite <- A10, <- B10 in *. unfold tf in *. 
  set (g := ph_grid p) in *. set (md := med p) in *. set (md' := med q) in *.
  assert (KE : forall a b, 0 <= a < g_Nx g -> 0 <= b < g_Ny g ->
    fmem_e (g_Nx g) (g_Ny g) (g_pml g) a b u v /\ eE (e_of q') b a = eE (e_of p') a b /\
    alike_all a b b a (ph_debye p') (ph_debye q') /\ alike_all a b b a (ph_drude p') (ph_drude q') /\ alike_all a b b a (ph_lorentz p') (ph_lorentz q')).
  { intros a b Hab Hbb. destruct (SC a b Hab Hbb) as [Cf Cc Cm C1 C2 C3 C4 C5 C6].
    destruct (flip_e (g_Nx g) (g_Ny g) (g_pml g) (g_dx g) md md' a b Hl Cc ltac:(exact Ha)
       (hX (h_of p)) (hX (h_of q)) (hY (h_of p)) (hY (h_of q)) (e_of p) (e_of q)) as [R1 R2].
    { destruct Cm as [Cm _]. exact Cm. } { apply Cf. }
    { unfold core. intros Hcore. destruct (SC (a - 1) b) as [(_ & X1 & _) _ _ _ _ _ _ _ _]; [fold g; lia..|].
      destruct (SC a (b - 1)) as [(_ & _ & X2) _ _ _ _ _ _ _ _]; [fold g; lia..|]. destruct Cf as (_ & X3 & X4). unfold minus2. auto. }
    rewrite <- A1, <- B1 in R1, R2. split; [exact R1|].
    destruct Hw, Hv. rewrite G1, G2 in wf_debye0, wf_drude0, wf_lorentz0. fold g in wf_debye, wf_drude, wf_lorentz.
    assert (Gc : cell_of_grids a b b a (g_Nx g) (g_Ny g) (g_Ny g) (g_Nx g)) by (unfold cell_of_grids; auto).
    assert (S1 : alike_prev a b b a (saved (ph_prevE p) (fEz (ph_F p))) (saved (ph_prevE q) (fEz (ph_F q)))) by (apply flip_saved; [exact C4|symmetry; apply Cf]).
    assert (S2 : alike_prev a b b a (shifted (ph_prev2E p) (ph_prevE p)) (shifted (ph_prev2E q) (ph_prevE q))) by (apply flip_shifted; assumption).
    destruct (polar_all_pairs a b b a debye_update np_debye _ _ _ _ _ _ (debye_pairs a b b a) Gc _ _ C1 _ _ _ _ _ _ wf_debye wf_debye0 S1 A3 B3) as [P1 V1].
    { rewrite A2, B2. symmetry. exact R2. }
    destruct (polar_all_pairs a b b a drude_update np_drude _ _ _ _ _ _ (drude_pairs a b b a) Gc _ _ C2 _ _ _ _ _ _ wf_drude wf_drude0 S1 A4 B4 V1) as [P2 V2].
    destruct (polar_all_pairs a b b a lorentz_update np_lorentz _ _ _ _ _ _ (lorentz_pairs a b b a) Gc _ _ C3 _ _ _ _ _ _ wf_lorentz wf_lorentz0 S2 A5 B5 V2) as [P3 V3].
    split; [|auto]. destruct A9 as (A9 & _). destruct B9 as (B9 & _). rewrite (A9 a b), (B9 b a). cbn [eE]. unfold lits. rewrite V3.
    destruct (C6 Ls Ls' A7 B7 (ph_t p + g_dt g)%num (tval E3' b a)) as (X1 & _ & _). exact X1. }
  assert (HC : forall a b, 0 <= a < g_Nx g -> 0 <= b < g_Ny g -> flip_cell p' q' a b).
  { intros a b Hab Hbb. destruct (SC a b Hab Hbb) as [Cf Cc Cm C1 C2 C3 C4 C5 C6]. destruct (KE a b Hab Hbb) as (ME & VE & P1 & P2 & P3).
    match type of A11 with h = next_h _ _ _ _ _ _ ?x => set (hp := x) in * end.
    match type of B11 with k = next_h _ _ _ _ _ _ ?x => set (hq := x) in * end.
    destruct (flip_h (g_Nx g) (g_Ny g) (g_pml g) (g_dx g) md md' a b Hl Cc ltac:(exact Ha) (eE (e_of p')) (eE (e_of q')) hp hq) as (MH & VX & VY).
    { destruct Cm as [_ Cm]. exact Cm. }
    { cbn [hX hY hp hq with_xy]. unfold minus2, lits. destruct Cf as (_ & K1 & K2). cbn [hX hY h_of]. change (@T RNum) with R in *. rewrite K1.
      apply (C6 Ls Ls' A7 B7). }
    { cbn [hX hY hp hq with_xy]. unfold minus2, lits. destruct Cf as (_ & K1 & K2). cbn [hX hY h_of]. change (@T RNum) with R in *. rewrite K2.
      apply (C6 Ls Ls' A7 B7). }
    { unfold core. intros Hcore. split; [exact VE|]. split; [apply (KE (a + 1) b)|apply (KE a (b + 1))]; lia. }
    rewrite <- A11, <- B11 in MH, VX, VY.
    destruct A9 as (AE & AX1 & AX2 & AY1 & AY2), B9 as (BE & BX1 & BX2 & BY1 & BY2).
    destruct A12 as (AX & AXl & AXh & AY & AYl & AYh), B12 as (BX & BXl & BXh & BY & BYl & BYh).
    destruct A6 as [A6 A6'], B6 as [B6 B6']. destruct A13 as (S1 & S2 & _), B13 as (T1 & T2 & _).
    constructor.
    - split; [exact VE|]. split.
      + change (tval (fHx (ph_F q'))) with (hX (h_of q')). change (tval (fHy (ph_F p'))) with (hY (h_of p')). change (@T RNum) with R in *.
        rewrite (AY a b), (BX b a). cbn [hX hY with_xy]. exact VX.
      + change (tval (fHy (ph_F q'))) with (hY (h_of q')). change (tval (fHx (ph_F p'))) with (hX (h_of p')). change (@T RNum) with R in *.
        rewrite (AX a b), (BY b a). cbn [hX hY with_xy]. exact VY.
    - unfold flip_coefs. rewrite S2, T2. exact Cc.
    - rewrite S1. fold g. destruct ME as (M1 & M2 & M3 & M4), MH as (M5 & M6 & M7 & M8).
      cbn [eXl eXh eYl eYh e_of] in AX1, AX2, AY1, AY2, BX1, BX2, BY1, BY2.
      cbn [hXl hXh hYl hYh h_of with_xy] in AXl, AXh, AYl, AYh, BXl, BXh, BYl, BYh.
      unfold flip_memory. unfold same in *. change (@T RNum) with R in *.
      split; [split; [|split; [|split]]|split; [|split; [|split]]]; intros K.
      + rewrite AX1, BY1. exact (M1 K).
      + rewrite AX2, BY2. exact (M2 K).
      + rewrite AY1, BX1. exact (M3 K).
      + rewrite AY2, BX2. exact (M4 K).
      + rewrite AXl, BYl. exact (M5 K).
      + rewrite AXh, BYh. exact (M6 K).
      + rewrite AYl, BXl. exact (M7 K).
      + rewrite AYh, BXh. exact (M8 K).
    - exact P1. - exact P2. - exact P3.
    - rewrite A6, B6. apply flip_saved; [exact C4|symmetry; apply Cf].
    - rewrite A6', B6'. now apply flip_shifted.
    - rewrite S1, T1. eapply flip_core; [exact A8|exact B8|exact C6]. }
  destruct A13 as (S1 & S2 & _), B13 as (T1 & T2 & _).
  constructor.
  - rewrite S1, T1. exact Fg.
  - rewrite A15, B15. reflexivity.
  - auto.
  - rewrite S1. exact HC.
Qed.
