(** update() of the mirror image is the mirror image of update(), but for Hy at the two sides. *)
From Coq Require Import ZArith Reals String List Bool Lia Lra.
From Verif Require Import Scalar Base BaseFacts VecM GridM GeometryM MaterialM PmlM DftM TfsfM PolarM InterpM H5M ClockM
  MonitorM FieldM SpecGrid GridFacts OutFacts PhysFacts PaintFacts WfFacts ReachFacts SpecStep StepFacts EngineFacts YeeFacts TextbookFacts PolarFacts SpecSource SourceFacts
  FullStep SpecTfsf TfsfFacts SpecCone PolarPair ConeFacts MagnetFacts SpecMirror.
Import ListNotations.
Local Open Scope Z_scope.
#[local] Existing Instance RNum.

(** the one-dimensional coefficients depend on the grid alone *)
Definition same_lines (th : Z) (md md' : @medium RNum) : Prop :=
  forall d, 0 <= d <= th -> bEx md' d = bEx md d /\ cEx md' d = cEx md d /\ bEy md' d = bEy md d /\ cEy md' d = cEy md d /\
     bHx md' d = bHx md d /\ cHx md' d = cHx md d /\ bHy md' d = bHy md d /\ cHy md' d = cHy md d.
Lemma cpml_same (g : grid) md md' : cpml_coefs g md -> cpml_coefs g md' -> same_lines (g_pml g) md md'.
Proof.
  intros (A1 & _) (B1 & _) d Hd. destruct (A1 d Hd) as ((-> & -> & -> & ->) & (-> & -> & -> & ->)). destruct (B1 d Hd) as ((-> & -> & -> & ->) & (-> & -> & -> & ->)). repeat split.
Qed.
Definition even (n m : Z) (dx : R) (md : @medium RNum) : Prop :=
  (forall i, 0 <= i < n -> sEx md i = dx /\ sHx md i = dx) /\ (forall j, 0 <= j < m -> sEy md j = dx /\ sHy md j = dx).
Definition unmagnetic (n m : Z) (dt : R) (md : @medium RNum) : Prop :=
  forall i j, 0 <= i < n -> 0 <= j < m -> mDa md i j = 1%R /\ mDb md i j = dt.

Section Half.
Variables (n m th : Z) (dx dt : R) (md md' : @medium RNum) (a b : Z).
Notation na := (n - 1 - a).
Hypothesis Hlines : same_lines th md md'.
Hypothesis Hev : even n m dx md /\ even n m dx md'.
Hypothesis Hum : unmagnetic n m dt md /\ unmagnetic n m dt md'.
Hypothesis Hcell : mCa md' na b = mCa md a b /\ mCb md' na b = mCb md a b.
Hypothesis Hth : 0 <= th /\ 2 * th < n - 1 /\ 2 * th < m - 1.

Definition minus2 (x y : R) : Prop := y = (- x)%R.
Definition mmem_e (u v : @emag RNum) : Prop :=
  (1 <= a <= th -> eXh v a b = eXl u a b) /\ (1 <= na <= th -> eXl v na b = eXh u na b) /\
  (1 <= b <= th -> eYl v na b = eYl u a b) /\ (1 <= m - 1 - b <= th -> eYh v na (m - 1 - b) = eYh u a (m - 1 - b)).
Definition mmem_h (u v : @hmag RNum) : Prop :=
  (1 <= b < th -> hXl v na b = hXl u a b) /\ (1 <= m - 2 - b < th -> hXh v na (m - 2 - b) = hXh u a (m - 2 - b)) /\
  (1 <= a < th -> minus2 (hYl u a b) (hYh v a b)) /\ (1 <= n - 2 - a < th -> minus2 (hYh u (n - 2 - a) b) (hYl v (n - 2 - a) b)).

Ltac branch c := let E := fresh "Eg" in destruct c eqn:E.
Ltac lin := unfold recur, minus2 in *; rnum; change (@T RNum) with R in *; unfold Rdiv; ring.

Lemma core_mirror : core n m na b = core n m a b.
Proof. unfold core. lia. Qed.

Lemma mirror_e (hx hx' hy hy' : cells) (u v : emag) : mmem_e u v -> eE v na b = eE u a b ->
  (core n m a b = true -> minus2 (hy a b) (hy' (n - 2 - a) b) /\ minus2 (hy (a - 1) b) (hy' na b) /\ hx' na b = hx a b /\ hx' na (b - 1) = hx a (b - 1)) ->
  let u' := next_e n m th dx md hx hy u in let v' := next_e n m th dx md' hx' hy' v in
  mmem_e u' v' /\ eE v' na b = eE u' a b.
Proof.
  intros (M1 & M2 & M3 & M4) He Hc. destruct Hev as [[V1 V2] [V1' V2']]. destruct Hcell as (C1 & C2).
  assert (Q1 : 1 <= a <= th -> memXh n m th dx md' hy' (eXh v) a b = memXl m th dx md hy (eXl u) a b).
  { intros Ha. unfold memXl, memXh. branch ((1 <=? a) && (a <=? th) && (1 <=? b) && (b <? m - 1)); [|auto].
    destruct Hc as (K1 & K2 & _); [unfold core; lia|]. destruct (Hlines a ltac:(lia)) as (-> & -> & _). specialize (M1 ltac:(lia)).
    replace (n - 1 - a - 1) with (n - 2 - a) by lia. unfold minus2 in *. change (@T RNum) with R in *. rewrite K1, K2, M1. lin. }
  assert (Q2 : 1 <= na <= th -> memXl m th dx md' hy' (eXl v) na b = memXh n m th dx md hy (eXh u) na b).
  { intros Ha. unfold memXl, memXh. branch ((1 <=? na) && (na <=? th) && (1 <=? b) && (b <? m - 1)); [|auto].
    destruct Hc as (K1 & K2 & _); [unfold core; lia|]. destruct (Hlines na ltac:(lia)) as (-> & -> & _). specialize (M2 ltac:(lia)).
    replace (n - 1 - (n - 1 - a)) with a by lia. replace (n - 1 - a - 1) with (n - 2 - a) by lia. unfold minus2 in *. change (@T RNum) with R in *. rewrite K1, K2, M2. lin. }
  assert (Q3 : 1 <= b <= th -> memYl n th dx md' hx' (eYl v) na b = memYl n th dx md hx (eYl u) a b).
  { intros Ha. unfold memYl. replace ((1 <=? na) && (na <? n - 1) && (1 <=? b) && (b <=? th)) with ((1 <=? a) && (a <? n - 1) && (1 <=? b) && (b <=? th)) by lia.
    branch ((1 <=? a) && (a <? n - 1) && (1 <=? b) && (b <=? th)); [|auto].
    destruct Hc as (_ & _ & K1 & K2); [unfold core; lia|]. destruct (Hlines b ltac:(lia)) as (_ & _ & -> & -> & _). now rewrite K1, K2, M3 by lia. }
  assert (Q4 : 1 <= m - 1 - b <= th -> memYh n m th dx md' hx' (eYh v) na (m - 1 - b) = memYh n m th dx md hx (eYh u) a (m - 1 - b)).
  { intros Ha. unfold memYh. replace ((1 <=? na) && (na <? n - 1) && (1 <=? m - 1 - b) && (m - 1 - b <=? th)) with ((1 <=? a) && (a <? n - 1) && (1 <=? m - 1 - b) && (m - 1 - b <=? th)) by lia.
    branch ((1 <=? a) && (a <? n - 1) && (1 <=? m - 1 - b) && (m - 1 - b <=? th)); [|auto].
    destruct Hc as (_ & _ & K1 & K2); [unfold core; lia|]. replace (m - 1 - (m - 1 - b)) with b by lia. destruct (Hlines (m - 1 - b) ltac:(lia)) as (_ & _ & -> & -> & _). now rewrite K1, K2, M4 by lia. }
  split; [unfold mmem_e; cbn [next_e eXl eXh eYl eYh]; auto|]. cbn [next_e eE]. rewrite core_mirror.
  branch (core n m a b); [|exact He]. destruct (Hc eq_refl) as (K1 & K2 & K3 & K4). unfold core in Eg.
  assert (Y : yeeE md' hx' hy' (eE v) na b = yeeE md hx hy (eE u) a b).
  { unfold yeeE. destruct (V1 a ltac:(lia)) as [-> _]. destruct (V2 b ltac:(lia)) as [-> _]. destruct (V1' na ltac:(lia)) as [-> _]. destruct (V2' b ltac:(lia)) as [-> _].
    replace (n - 1 - a - 1) with (n - 2 - a) by lia. unfold minus2 in *. change (@T RNum) with R in *. rewrite C1, C2, He, K1, K2, K3, K4. lin. }
  unfold addX, addY. change (@T RNum) with R in *. rewrite Y, C2. replace (n - 1 - (n - 1 - a)) with a by lia.
  replace (na <=? th) with (n - 1 - th <=? a) by lia. replace (n - 1 - th <=? na) with (a <=? th) by lia.
  branch (b <=? th); branch (a <=? th); branch (n - 1 - th <=? a); branch (m - 1 - th <=? b); try lia;
    change (@T RNum) with R in *; rewrite ?Q1, ?Q2, ?Q3, ?Q4 by lia; reflexivity.
Qed.

Lemma mirror_h (e e' : cells) (u v : hmag) : mmem_h u v -> hX v na b = hX u a b -> (1 <= a <= n - 3 -> minus2 (hY u a b) (hY v (n - 2 - a) b)) ->
  (core n m a b = true -> e' na b = e a b /\ e' na (b + 1) = e a (b + 1) /\ e' (n - 2 - a) b = e (a + 1) b) ->
  let u' := next_h n m th dx md e u in let v' := next_h n m th dx md' e' v in
  mmem_h u' v' /\ hX v' na b = hX u' a b /\ (1 <= a <= n - 3 -> minus2 (hY u' a b) (hY v' (n - 2 - a) b)).
Proof.
  intros (M1 & M2 & M3 & M4) Hx Hy Hc. destruct Hev as [[V1 V2] [V1' V2']]. destruct Hum as [U U'].
  assert (Q1 : 1 <= b < th -> memHxl n th dx md' e' (hXl v) na b = memHxl n th dx md e (hXl u) a b).
  { intros Ha. unfold memHxl. replace ((1 <=? na) && (na <? n - 1) && (1 <=? b) && (b <? th)) with ((1 <=? a) && (a <? n - 1) && (1 <=? b) && (b <? th)) by lia.
    branch ((1 <=? a) && (a <? n - 1) && (1 <=? b) && (b <? th)); [|auto].
    destruct Hc as (K1 & K2 & _); [unfold core; lia|]. destruct (Hlines b ltac:(lia)) as (_ & _ & _ & _ & _ & _ & -> & ->). now rewrite K1, K2, M1. }
  assert (Q2 : 1 <= m - 2 - b < th -> memHxh n m th dx md' e' (hXh v) na (m - 2 - b) = memHxh n m th dx md e (hXh u) a (m - 2 - b)).
  { intros Ha. unfold memHxh. replace ((1 <=? na) && (na <? n - 1) && (1 <=? m - 2 - b) && (m - 2 - b <? th)) with ((1 <=? a) && (a <? n - 1) && (1 <=? m - 2 - b) && (m - 2 - b <? th)) by lia.
    branch ((1 <=? a) && (a <? n - 1) && (1 <=? m - 2 - b) && (m - 2 - b <? th)); [|auto].
    destruct Hc as (K1 & K2 & _); [unfold core; lia|]. replace (m - 1 - (m - 2 - b)) with (b + 1) by lia. replace (b + 1 - 1) with b by lia.
    destruct (Hlines (m - 2 - b) ltac:(lia)) as (_ & _ & _ & _ & _ & _ & -> & ->). now rewrite K1, K2, M2. }
  assert (Q3 : 1 <= a < th -> minus2 (memHyl m th dx md e (hYl u) a b) (memHyh n m th dx md' e' (hYh v) a b)).
  { intros Ha. unfold memHyh, memHyl. branch ((1 <=? a) && (a <? th) && (1 <=? b) && (b <? m - 1)); [|auto].
    destruct Hc as (K1 & _ & K2); [unfold core; lia|]. replace (n - 1 - a - 1) with (n - 2 - a) by lia.
    destruct (Hlines a ltac:(lia)) as (_ & _ & _ & _ & -> & -> & _). specialize (M3 ltac:(lia)). unfold minus2 in *. change (@T RNum) with R in *. rewrite K1, K2, M3. lin. }
  assert (Q4 : 1 <= n - 2 - a < th -> minus2 (memHyh n m th dx md e (hYh u) (n - 2 - a) b) (memHyl m th dx md' e' (hYl v) (n - 2 - a) b)).
  { intros Ha. unfold memHyh, memHyl. branch ((1 <=? n - 2 - a) && (n - 2 - a <? th) && (1 <=? b) && (b <? m - 1)); [|auto].
    destruct Hc as (K1 & _ & K2); [unfold core; lia|]. replace (n - 2 - a + 1) with na by lia. replace (n - 1 - (n - 2 - a)) with (a + 1) by lia. replace (a + 1 - 1) with a by lia.
    destruct (Hlines (n - 2 - a) ltac:(lia)) as (_ & _ & _ & _ & -> & -> & _). specialize (M4 ltac:(lia)). unfold minus2 in *. change (@T RNum) with R in *. rewrite K1, K2, M4. lin. }
  split; [unfold mmem_h; cbn [next_h hXl hXh hYl hYh]; auto|]. cbn [next_h hX hY]. rewrite core_mirror. split.
  - branch (core n m a b); [|auto]. destruct (Hc eq_refl) as (K1 & K2 & K3). unfold core in Eg.
    destruct (U a b ltac:(lia) ltac:(lia)) as [D1 D2]. destruct (U' na b ltac:(lia) ltac:(lia)) as [D1' D2'].
    assert (Y1 : yeeHx md' e' (hX v) na b = yeeHx md e (hX u) a b) by (unfold yeeHx; destruct (V2 b ltac:(lia)) as [_ ->]; destruct (V2' b ltac:(lia)) as [_ ->]; now rewrite D1, D2, D1', D2', Hx, K1, K2).
    unfold addHx. rewrite Y1, D2, D2'. branch (b <? th); [now rewrite Q1 by lia|]. branch ((m - 1 - th <=? b) && (b <? m - 2)); [now rewrite Q2 by lia|]. reflexivity.
  - intros Ha. replace (core n m (n - 2 - a) b) with (core n m a b) by (unfold core; lia). specialize (Hy Ha).
    branch (core n m a b); [|exact Hy]. destruct (Hc eq_refl) as (K1 & K2 & K3). unfold core in Eg.
    destruct (U a b ltac:(lia) ltac:(lia)) as [D1 D2]. destruct (U' (n - 2 - a) b ltac:(lia) ltac:(lia)) as [D1' D2'].
    assert (Y2 : minus2 (yeeHy md e (hY u) a b) (yeeHy md' e' (hY v) (n - 2 - a) b)).
    { unfold yeeHy. destruct (V1 a ltac:(lia)) as [_ ->]. destruct (V1' (n - 2 - a) ltac:(lia)) as [_ ->]. replace (n - 2 - a + 1) with na by lia.
      unfold minus2 in *. change (@T RNum) with R in *. rewrite D1, D2, D1', D2', Hy, K1, K3. lin. }
    unfold minus2 in *. change (@T RNum) with R in *. unfold addHy. change (@T RNum) with R in *. rewrite Y2, D2, D2'. replace (n - 2 - (n - 2 - a)) with a by lia.
    replace (n - 2 - a <? th) with (n - 1 - th <=? a) by lia.
    branch (a <? th).
    + replace (n - 1 - th <=? a) with false by lia. replace ((n - 1 - th <=? n - 2 - a) && (n - 2 - a <? n - 2)) with true by lia. rewrite Q3 by lia. lin.
    + replace ((n - 1 - th <=? n - 2 - a) && (n - 2 - a <? n - 2)) with false by lia. replace (a <? n - 2) with true by lia. rewrite andb_true_r.
      branch (n - 1 - th <=? a); [rewrite Q4 by lia; lin|reflexivity].
Qed.

End Half.

(** the two sides: the left column of Hy is never updated; the right one sees the last two columns of Ez *)
Section Sides.
Variables (n m th : Z) (dx dt : R) (md : @medium RNum).
Lemma hy_left (e : cells) (u : hmag) b : hY (next_h n m th dx md e u) 0 b = hY u 0 b.
Proof. cbn [next_h hY]. replace (core n m 0 b) with false by (unfold core; lia). reflexivity. Qed.
Lemma hy_right (e : cells) (u : hmag) b : even n m dx md -> unmagnetic n m dt md -> 0 <= th /\ 2 * th < n - 1 -> 3 <= n -> 1 <= b < m - 1 ->
  hY (next_h n m th dx md e u) (n - 2) b = (hY u (n - 2)%Z b + dt * (e (n - 1)%Z b - e (n - 2)%Z b) / dx)%R.
Proof.
  intros [V1 V2] U (T0 & T1) Hn Hb. cbn [next_h hY].
  replace (core n m (n - 2) b) with true by (unfold core; lia). unfold addHy. replace (n - 2 <? th) with false by lia. rewrite Z.ltb_irrefl, andb_false_r.
  unfold yeeHy. replace (n - 2 + 1) with (n - 1) by lia. destruct (U (n - 2) b ltac:(lia) ltac:(lia)) as [-> ->]. destruct (V1 (n - 2) ltac:(lia)) as [_ ->].
  rnum. change (@T RNum) with R. unfold Rdiv. ring.
Qed.
Lemma hy_edge (e : cells) (u : hmag) b : ~ 1 <= b < m - 1 -> hY (next_h n m th dx md e u) (n - 2) b = hY u (n - 2) b.
Proof. intros H. cbn [next_h hY]. replace (core n m (n - 2) b) with false by (unfold core; lia). reflexivity. Qed.
End Sides.

Lemma mirror_saved a b c o o' x y : alike_prev a b c b o o' -> tval x a b = tval y c b -> alike_prev a b c b (saved o x) (saved o' y).
Proof. destruct o, o'; cbn; auto. Qed.
Lemma mirror_shifted a b c o o' x y : alike_prev a b c b o o' -> alike_prev a b c b x y -> alike_prev a b c b (shifted o x) (shifted o' y).
Proof. destruct o, o'; cbn; auto; contradiction. Qed.
Lemma mirror_core g s s1 r r1 a b : map src_core s1 = map src_core s -> map src_core r1 = map src_core r -> mirror_drive g s r a b -> mirror_drive g s1 r1 a b.
Proof.
  intros Hs Hr H Ls Ls' K K' t x.
  destruct (H Ls Ls' (cells_core g s1 s Ls Hs K) (cells_core g r1 r Ls' Hr K') t x) as (X1 & X2 & X3).
  rewrite !(lit_core t _ _ _ s1 s _ _ Hs), !(lit_core t _ _ _ r1 r _ _ Hr). auto.
Qed.

Definition rim_hy (p q : phys) (a b : Z) : Prop :=
  let n := g_Nx (ph_grid p) in tval (fHy (ph_F q)) (n - 2 - a) b = (- tval (fHy (ph_F p)) a b)%R.
(** what a step does to Hy at the sides *)
Definition side_hy (p p' : phys) (b : Z) : Prop :=
  let g := ph_grid p in let n := g_Nx g in
  exists Ls, Forall2 (fun r L => src_cells g (sr_kind r) L) (ph_srcs p) Ls /\
  let put i := lit (ph_t p + g_dt g)%num (combine (ph_srcs p) Ls) Hy i b (tval (fHy (ph_F p)) i b) in
  tval (fHy (ph_F p')) 0 b = put 0 /\
  tval (fHy (ph_F p')) (n - 2) b = (put (n - 2)%Z + if ((1 <=? b) && (b <? g_Ny g - 1))%Z
     then g_dt g * (tval (fEz (ph_F p')) (n - 1)%Z b - tval (fEz (ph_F p')) (n - 2)%Z b) / g_dx g else 0)%R.

Lemma plain_side p p' b : apart (ph_grid p) -> wf_phys p -> 3 <= g_Nx (ph_grid p) ->
  cpml_coefs (ph_grid p) (med p) -> nonmag (ph_grid p) p -> ph_tfsf p = None -> phys_step p = Fine p' -> side_hy p p' b.
Proof.
  intros Ha Hw Hn Cp Np Tp Hp.
  destruct (full_step p p' Ha Hw Hp) as (E0 & E1 & E2 & E3 & Ls & u & h & [A1 A2 A3 A4 A5 A6 A7 A8 A9 A10 A11 A12 A13 A14 A15 A16]).
  apply cells_weaken in A7. unfold grid_next_h in A11. rewrite Tp in *. cbn [line] in A10. injection A10 as A10. rewrite <- A10 in *. unfold tf in *.
  destruct A12 as (_ & _ & _ & AY & _). cbn [with_xy hY] in AY. exists Ls. split; [exact A7|]. cbv zeta.
  change (tval (fHy (ph_F p'))) with (hY (h_of p')). rewrite (AY 0 b), (AY (g_Nx (ph_grid p) - 2) b), A11. split; [now rewrite hy_left|].
  destruct ((1 <=? b) && (b <? g_Ny (ph_grid p) - 1))%Z eqn:B.
  - rewrite (hy_right _ _ _ _ (g_dt (ph_grid p))); [reflexivity| | | | |]; try lia.
    + apply coefs_flat in Cp; [|exact Ha]. exact Cp.
    + intros i j Hi Hj. destruct Np as [_ Np]. exact (Np i j Hi Hj).
    + unfold apart in Ha. lia.
  - rewrite hy_edge by lia. cbn [with_xy hY]. unfold lits. change (@T RNum) with R. rewrite Rplus_0_r. reflexivity.
Qed.

Lemma mirror_half p q p' q' : apart (ph_grid p) -> wf_phys p -> wf_phys q -> 3 <= g_Nx (ph_grid p) ->
  cpml_coefs (ph_grid p) (med p) -> cpml_coefs (ph_grid q) (med q) -> nonmag (ph_grid p) p -> nonmag (ph_grid q) q -> mirror_state p q ->
  phys_step p = Fine p' -> phys_step q = Fine q' ->
  ph_grid p' = ph_grid p /\ ph_grid q' = ph_grid p /\ ph_t q' = ph_t p' /\ (ph_tfsf p' = None /\ ph_tfsf q' = None) /\
  (forall a b, 0 <= a < g_Nx (ph_grid p) -> 0 <= b < g_Ny (ph_grid p) -> tval (fEz (ph_F q')) (g_Nx (ph_grid p) - 1 - a) b = tval (fEz (ph_F p')) a b) /\
  forall a b, 0 <= a < g_Nx (ph_grid p) -> 0 <= b < g_Ny (ph_grid p) -> (a = 0 \/ a = g_Nx (ph_grid p) - 2 -> rim_hy p' q' a b) -> mirror_cell p' q' a b.
Proof.
  intros Ha Hw Hv Hn Cp Cq Np Nq [Fg Ft (Tp & Tq) SC] Hp Hq.
  destruct (full_step p p' Ha Hw Hp) as (E0 & E1 & E2 & E3 & Ls & u & h & [A1 A2 A3 A4 A5 A6 A7 A8 A9 A10 A11 A12 A13 A14 A15 A16]).
  assert (Ha' : apart (ph_grid q)) by now rewrite Fg.
  destruct (full_step q q' Ha' Hv Hq) as (E0' & E1' & E2' & E3' & Ls' & v & k & [B1 B2 B3 B4 B5 B6 B7 B8 B9 B10 B11 B12 B13 B14 B15 B16]).
  apply static_eq in A13, B13. apply cells_weaken in A7, B7.
  unfold grid_next_e in A1, B1. unfold grid_next_h in A11, B11. rewrite Ft in *. rewrite Fg in *. rewrite Tp in *. rewrite Tq in *.
  assert (Hl := cpml_same _ _ _ Cp Cq).
  cbn [line] in A10, B10. injection A10 as A10. injection B10 as B10. rewrite <- A10, <- B10 in *. unfold tf in *.
  set (g := ph_grid p) in *. set (md := med p) in *. set (md' := med q) in *.
  assert (Ev : even (g_Nx g) (g_Ny g) (g_dx g) md /\ even (g_Nx g) (g_Ny g) (g_dx g) md') by (split; apply coefs_flat; assumption).
  assert (Um : unmagnetic (g_Nx g) (g_Ny g) (g_dt g) md /\ unmagnetic (g_Nx g) (g_Ny g) (g_dt g) md').
  { split; intros i j Hi Hj; [destruct Np as [_ Np]; exact (Np i j Hi Hj)|destruct Nq as [_ Nq]; exact (Nq i j Hi Hj)]. }
  assert (KE : forall a b, 0 <= a < g_Nx g -> 0 <= b < g_Ny g -> let na := g_Nx g - 1 - a in
    mmem_e (g_Nx g) (g_Ny g) (g_pml g) a b u v /\ eE (e_of q') na b = eE (e_of p') a b /\
    alike_all a b na b (ph_debye p') (ph_debye q') /\ alike_all a b na b (ph_drude p') (ph_drude q') /\ alike_all a b na b (ph_lorentz p') (ph_lorentz q')).
  { intros a b Hab Hbb na. destruct (SC a b Hab Hbb) as [Cf Cc Cm C1 C2 C3 C4 C5 C6]. fold g in Cf, Cc, Cm, C1, C2, C3, C4, C5, C6.
    destruct (mirror_e (g_Nx g) (g_Ny g) (g_pml g) (g_dx g) md md' a b Hl Ev Cc ltac:(exact Ha)
       (hX (h_of p)) (hX (h_of q)) (hY (h_of p)) (hY (h_of q)) (e_of p) (e_of q)) as [R1 R2].
    { destruct Cm as [Cm _]. exact Cm. } { apply Cf. }
    { unfold core. intros Hcore. destruct (SC (a - 1) b) as [(_ & _ & X1) _ _ _ _ _ _ _ _]; [fold g; lia..|].
      destruct (SC a (b - 1)) as [(_ & X2 & _) _ _ _ _ _ _ _ _]; [fold g; lia..|]. destruct Cf as (_ & X3 & X4). unfold minus2.
      fold g in X1, X2. replace (g_Nx g - 2 - (a - 1)) with (g_Nx g - 1 - a) in X1 by lia.
      split; [exact (X4 ltac:(lia))|]. split; [exact (X1 ltac:(lia))|]. split; [exact X3|exact X2]. }
    rewrite <- A1, <- B1 in R1, R2. split; [exact R1|].
    destruct Hw, Hv. rewrite Fg in wf_debye0, wf_drude0, wf_lorentz0. fold g in wf_debye, wf_drude, wf_lorentz, wf_debye0, wf_drude0, wf_lorentz0.
    assert (Gc : cell_of_grids a b na b (g_Nx g) (g_Ny g) (g_Nx g) (g_Ny g)) by (unfold cell_of_grids, na; lia).
    assert (S1 : alike_prev a b na b (saved (ph_prevE p) (fEz (ph_F p))) (saved (ph_prevE q) (fEz (ph_F q)))) by (apply mirror_saved; [exact C4|symmetry; apply Cf]).
    assert (S2 : alike_prev a b na b (shifted (ph_prev2E p) (ph_prevE p)) (shifted (ph_prev2E q) (ph_prevE q))) by (apply mirror_shifted; assumption).
    destruct (polar_all_pairs a b na b debye_update np_debye _ _ _ _ _ _ (debye_pairs a b na b) Gc _ _ C1 _ _ _ _ _ _ wf_debye wf_debye0 S1 A3 B3) as [P1 V1].
    { rewrite A2, B2. symmetry. exact R2. }
    destruct (polar_all_pairs a b na b drude_update np_drude _ _ _ _ _ _ (drude_pairs a b na b) Gc _ _ C2 _ _ _ _ _ _ wf_drude wf_drude0 S1 A4 B4 V1) as [P2 V2].
    destruct (polar_all_pairs a b na b lorentz_update np_lorentz _ _ _ _ _ _ (lorentz_pairs a b na b) Gc _ _ C3 _ _ _ _ _ _ wf_lorentz wf_lorentz0 S2 A5 B5 V2) as [P3 V3].
    split; [|auto]. destruct A9 as (A9 & _). destruct B9 as (B9 & _). rewrite (A9 a b), (B9 na b). cbn [eE]. unfold lits. rewrite V3.
    destruct (C6 Ls Ls' A7 B7 (ph_t p + g_dt g)%num (tval E3' na b)) as (X1 & _ & _). exact X1. }
  destruct A13 as (S1 & S2 & _), B13 as (T1 & T2 & _).
  split; [exact S1|]. split; [congruence|]. split; [rewrite A15, B15; reflexivity|]. split; [auto|].
  split; [intros a b Hab Hbb; exact (proj1 (proj2 (KE a b Hab Hbb)))|].
  intros a b Hab Hbb Hr. destruct (SC a b Hab Hbb) as [Cf Cc Cm C1 C2 C3 C4 C5 C6]. destruct (KE a b Hab Hbb) as (ME & VE & P1 & P2 & P3).
  fold g in Cf, Cc, Cm, C1, C2, C3, C4, C5, C6. set (na := g_Nx g - 1 - a) in *.
  match type of A11 with h = next_h _ _ _ _ _ _ ?x => set (hp := x) in * end.
  match type of B11 with k = next_h _ _ _ _ _ _ ?x => set (hq := x) in * end.
  destruct (mirror_h (g_Nx g) (g_Ny g) (g_pml g) (g_dx g) (g_dt g) md md' a b Hl Ev Um ltac:(exact Ha) (eE (e_of p')) (eE (e_of q')) hp hq) as (MH & VX & VY).
  { destruct Cm as [_ Cm]. exact Cm. }
  { cbn [hX hY hp hq with_xy]. unfold lits. destruct Cf as (_ & K1 & _). cbn [hX hY h_of]. change (@T RNum) with R in *. rewrite K1.
    apply (C6 Ls Ls' A7 B7). }
  { intros Hb2. cbn [hX hY hp hq with_xy]. unfold minus2, lits. destruct Cf as (_ & _ & K2). cbn [hX hY h_of]. change (@T RNum) with R in *. rewrite K2 by lia.
    apply (C6 Ls Ls' A7 B7). lia. }
  { unfold core. intros Hcore. split; [exact VE|]. split; [apply (KE a (b + 1)); lia|].
    assert (X := proj1 (proj2 (KE (a + 1) b ltac:(lia) ltac:(lia)))). replace (g_Nx g - 1 - (a + 1)) with (g_Nx g - 2 - a) in X by lia. exact X. }
  rewrite <- A11, <- B11 in MH, VX, VY.
  destruct A9 as (AE & AX1 & AX2 & AY1 & AY2), B9 as (BE & BX1 & BX2 & BY1 & BY2).
  destruct A12 as (AX & AXl & AXh & AY & AYl & AYh), B12 as (BX & BXl & BXh & BY & BYl & BYh).
  destruct A6 as [A6 A6'], B6 as [B6 B6'].
  constructor; rewrite ?S1; fold g na; try assumption.
  - split; [exact VE|]. split.
    + change (tval (fHx (ph_F q'))) with (hX (h_of q')). change (tval (fHx (ph_F p'))) with (hX (h_of p')). change (@T RNum) with R in *.
      fold na. rewrite (AX a b), (BX na b). cbn [hX hY with_xy]. exact VX.
    + intros Hb2. destruct (Z.eq_dec a 0) as [Z0|Z0]; [|destruct (Z.eq_dec a (g_Nx g - 2)) as [Z1|Z1]].
      1-2: specialize (Hr ltac:(lia)); unfold rim_hy in Hr; rewrite S1 in Hr; exact Hr.
      change (tval (fHy (ph_F q'))) with (hY (h_of q')). change (tval (fHy (ph_F p'))) with (hY (h_of p')). change (@T RNum) with R in *.
      rewrite (AY a b), (BY (g_Nx g - 2 - a) b). cbn [hX hY with_xy]. exact (VY ltac:(lia)).
  - unfold mirror_coefs. rewrite S2, T2. exact Cc.
  - destruct ME as (M1 & M2 & M3 & M4), MH as (M5 & M6 & M7 & M8).
    cbn [eXl eXh eYl eYh e_of] in AX1, AX2, AY1, AY2, BX1, BX2, BY1, BY2.
    cbn [hXl hXh hYl hYh h_of with_xy] in AXl, AXh, AYl, AYh, BXl, BXh, BYl, BYh.
    unfold mirror_memory, minus2 in *. unfold same in *. change (@T RNum) with R in *.
    split; [split; [|split; [|split]]|split; [|split; [|split]]]; intros K.
    + rewrite AX1, BX2. exact (M1 K).
    + rewrite AX2, BX1. exact (M2 K).
    + rewrite AY1, BY1. exact (M3 K).
    + rewrite AY2, BY2. exact (M4 K).
    + rewrite AXl, BXl. exact (M5 K).
    + rewrite AXh, BXh. exact (M6 K).
    + rewrite AYl, BYh. exact (M7 K).
    + rewrite AYh, BYl. exact (M8 K).
  - rewrite A6, B6. apply mirror_saved; [exact C4|symmetry; apply Cf].
  - rewrite A6', B6'. now apply mirror_shifted.
  - rewrite ?T1, ?Fg. eapply mirror_core; [exact A8|exact B8|exact C6].
Qed.
