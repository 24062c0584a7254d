(** Superposition: one update() and whole runs. *)
From Coq Require Import ZArith Reals String List Bool Lia Lra.
From Verif Require Import Scalar Base BaseFacts VecM GridM GeometryM MaterialM PmlM DftM TfsfM PolarM InterpM H5M ClockM
  MonitorM FieldM SpecGrid GridFacts OutFacts PhysFacts PaintFacts WfFacts ReachFacts SpecStep StepFacts EngineFacts YeeFacts PolarFacts SpecSource SourceFacts
  FullStep SpecCone ConeFacts ConeRun SpecSum SumFacts SpecWave DarkFacts MemoryFacts.
Import ListNotations.
Local Open Scope Z_scope.
#[local] Existing Instance RNum.

Section Half.
Variables (n m th : Z) (dx : R) (md : @medium RNum) (a b : Z).
Hypothesis Hth : 0 <= th /\ 2 * th < n - 1 /\ 2 * th < m - 1.

Definition plus3 (f g h : cells) (i j : Z) : Prop := (h i j = f i j + g i j)%R.
Definition mem3_e (u v w : emag) : Prop :=
  (1 <= a <= th -> plus3 (eXl u) (eXl v) (eXl w) a b) /\ (1 <= n - 1 - a <= th -> plus3 (eXh u) (eXh v) (eXh w) (n - 1 - a) b) /\
  (1 <= b <= th -> plus3 (eYl u) (eYl v) (eYl w) a b) /\ (1 <= m - 1 - b <= th -> plus3 (eYh u) (eYh v) (eYh w) a (m - 1 - b)).
Definition mem3_h (u v w : hmag) : Prop :=
  (1 <= b < th -> plus3 (hXl u) (hXl v) (hXl w) a b) /\ (1 <= m - 2 - b < th -> plus3 (hXh u) (hXh v) (hXh w) a (m - 2 - b)) /\
  (1 <= a < th -> plus3 (hYl u) (hYl v) (hYl w) a b) /\ (1 <= n - 2 - a < th -> plus3 (hYh u) (hYh v) (hYh w) (n - 2 - a) b).

Ltac branch c := let E := fresh "Eg" in destruct c eqn:E.
Ltac lin := unfold recur, plus3 in *; rnum; change (@T RNum) with R in *; unfold Rdiv; ring.

Lemma sum_e (hx1 hx2 hx3 hy1 hy2 hy3 : cells) (u v w : emag) : mem3_e u v w -> plus3 (eE u) (eE v) (eE w) a b ->
  (core n m a b = true -> plus3 hx1 hx2 hx3 a b /\ plus3 hy1 hy2 hy3 a b /\ plus3 hy1 hy2 hy3 (a - 1) b /\ plus3 hx1 hx2 hx3 a (b - 1)) ->
  let u' := next_e n m th dx md hx1 hy1 u in let v' := next_e n m th dx md hx2 hy2 v in let w' := next_e n m th dx md hx3 hy3 w in
  mem3_e u' v' w' /\ plus3 (eE u') (eE v') (eE w') a b.
Proof.
  intros (M1 & M2 & M3 & M4) He Hc. unfold plus3 in *.
  assert (Q1 : 1 <= a <= th -> (memXl m th dx md hy3 (eXl w) a b = memXl m th dx md hy1 (eXl u) a b + memXl m th dx md hy2 (eXl v) a b)%R).
  { intros Ha. unfold memXl. branch ((1 <=? a) && (a <=? th) && (1 <=? b) && (b <? m - 1)); [|auto].
    destruct Hc as (_ & K1 & K2 & _); [unfold core; lia|]. change (@T RNum) with R in *. rewrite K1, K2, M1 by lia. lin. }
  assert (Q2 : 1 <= n - 1 - a <= th -> (memXh n m th dx md hy3 (eXh w) (n - 1 - a)%Z b = memXh n m th dx md hy1 (eXh u) (n - 1 - a)%Z b + memXh n m th dx md hy2 (eXh v) (n - 1 - a)%Z b)%R).
  { intros Ha. unfold memXh. branch ((1 <=? n - 1 - a) && (n - 1 - a <=? th) && (1 <=? b) && (b <? m - 1)); [|auto].
    destruct Hc as (_ & K1 & K2 & _); [unfold core; lia|]. replace (n - 1 - (n - 1 - a)) with a by lia.
    change (@T RNum) with R in *. rewrite K1, K2, M2 by lia. lin. }
  assert (Q3 : 1 <= b <= th -> (memYl n th dx md hx3 (eYl w) a b = memYl n th dx md hx1 (eYl u) a b + memYl n th dx md hx2 (eYl v) a b)%R).
  { intros Ha. unfold memYl. branch ((1 <=? a) && (a <? n - 1) && (1 <=? b) && (b <=? th)); [|auto].
    destruct Hc as (K1 & _ & _ & K2); [unfold core; lia|]. change (@T RNum) with R in *. rewrite K1, K2, M3 by lia. lin. }
  assert (Q4 : 1 <= m - 1 - b <= th -> (memYh n m th dx md hx3 (eYh w) a (m - 1 - b)%Z = memYh n m th dx md hx1 (eYh u) a (m - 1 - b)%Z + memYh n m th dx md hx2 (eYh v) a (m - 1 - b)%Z)%R).
  { intros Ha. unfold memYh. branch ((1 <=? a) && (a <? n - 1) && (1 <=? m - 1 - b) && (m - 1 - b <=? th)); [|auto].
    destruct Hc as (K1 & _ & _ & K2); [unfold core; lia|]. replace (m - 1 - (m - 1 - b)) with b by lia.
    change (@T RNum) with R in *. rewrite K1, K2, M4 by lia. lin. }
  split; [unfold mem3_e, plus3; cbn [next_e eXl eXh eYl eYh]; auto|]. cbn [next_e eE].
  branch (core n m a b); [|exact He]. destruct (Hc eq_refl) as (K1 & K2 & K3 & K4).
  assert (Y : (yeeE md hx3 hy3 (eE w) a b = yeeE md hx1 hy1 (eE u) a b + yeeE md hx2 hy2 (eE v) a b)%R).
  { unfold yeeE. change (@T RNum) with R in *. rewrite He, K1, K2, K3, K4. lin. }
  unfold core in Eg. unfold addX, addY. change (@T RNum) with R in *. rewrite Y.
  branch (b <=? th); branch (a <=? th); branch (n - 1 - th <=? a); branch (m - 1 - th <=? b);
    change (@T RNum) with R in *; rewrite ?Q1, ?Q2, ?Q3, ?Q4 by lia; rnum; change (@T RNum) with R in *; try ring; reflexivity.
Qed.

Lemma sum_h (e1 e2 e3 : cells) (u v w : hmag) : mem3_h u v w -> plus3 (hX u) (hX v) (hX w) a b -> plus3 (hY u) (hY v) (hY w) a b ->
  (core n m a b = true -> plus3 e1 e2 e3 a b /\ plus3 e1 e2 e3 (a + 1) b /\ plus3 e1 e2 e3 a (b + 1)) ->
  let u' := next_h n m th dx md e1 u in let v' := next_h n m th dx md e2 v in let w' := next_h n m th dx md e3 w in
  mem3_h u' v' w' /\ plus3 (hX u') (hX v') (hX w') a b /\ plus3 (hY u') (hY v') (hY w') a b.
Proof.
  intros (M1 & M2 & M3 & M4) Hx Hy Hc. unfold plus3 in *.
  assert (Q1 : 1 <= b < th -> (memHxl n th dx md e3 (hXl w) a b = memHxl n th dx md e1 (hXl u) a b + memHxl n th dx md e2 (hXl v) a b)%R).
  { intros Ha. unfold memHxl. branch ((1 <=? a) && (a <? n - 1) && (1 <=? b) && (b <? th)); [|auto].
    destruct Hc as (K1 & _ & K2); [unfold core; lia|]. change (@T RNum) with R in *. rewrite K1, K2, M1 by lia. lin. }
  assert (Q2 : 1 <= m - 2 - b < th -> (memHxh n m th dx md e3 (hXh w) a (m - 2 - b)%Z = memHxh n m th dx md e1 (hXh u) a (m - 2 - b)%Z + memHxh n m th dx md e2 (hXh v) a (m - 2 - b)%Z)%R).
  { intros Ha. unfold memHxh. branch ((1 <=? a) && (a <? n - 1) && (1 <=? m - 2 - b) && (m - 2 - b <? th)); [|auto].
    destruct Hc as (K1 & _ & K2); [unfold core; lia|]. replace (m - 1 - (m - 2 - b)) with (b + 1) by lia. replace (b + 1 - 1) with b by lia.
    change (@T RNum) with R in *. rewrite K1, K2, M2 by lia. lin. }
  assert (Q3 : 1 <= a < th -> (memHyl m th dx md e3 (hYl w) a b = memHyl m th dx md e1 (hYl u) a b + memHyl m th dx md e2 (hYl v) a b)%R).
  { intros Ha. unfold memHyl. branch ((1 <=? a) && (a <? th) && (1 <=? b) && (b <? m - 1)); [|auto].
    destruct Hc as (K1 & K2 & _); [unfold core; lia|]. change (@T RNum) with R in *. rewrite K1, K2, M3 by lia. lin. }
  assert (Q4 : 1 <= n - 2 - a < th -> (memHyh n m th dx md e3 (hYh w) (n - 2 - a)%Z b = memHyh n m th dx md e1 (hYh u) (n - 2 - a)%Z b + memHyh n m th dx md e2 (hYh v) (n - 2 - a)%Z b)%R).
  { intros Ha. unfold memHyh. branch ((1 <=? n - 2 - a) && (n - 2 - a <? th) && (1 <=? b) && (b <? m - 1)); [|auto].
    destruct Hc as (K1 & K2 & _); [unfold core; lia|]. replace (n - 1 - (n - 2 - a)) with (a + 1) by lia. replace (a + 1 - 1) with a by lia.
    change (@T RNum) with R in *. rewrite K1, K2, M4 by lia. lin. }
  split; [unfold mem3_h, plus3; cbn [next_h hXl hXh hYl hYh]; auto|]. cbn [next_h hX hY].
  branch (core n m a b); [|auto]. destruct (Hc eq_refl) as (K1 & K2 & K3). unfold core in Eg.
  assert (Y1 : (yeeHx md e3 (hX w) a b = yeeHx md e1 (hX u) a b + yeeHx md e2 (hX v) a b)%R) by (unfold yeeHx; change (@T RNum) with R in *; rewrite Hx, K1, K3; lin).
  assert (Y2 : (yeeHy md e3 (hY w) a b = yeeHy md e1 (hY u) a b + yeeHy md e2 (hY v) a b)%R) by (unfold yeeHy; change (@T RNum) with R in *; rewrite Hy, K1, K2; lin).
  change (@T RNum) with R in *.
  split; [unfold addHx|unfold addHy]; rewrite ?Y1, ?Y2.
  - branch (b <? th); [rewrite Q1 by lia; lin|]. branch ((m - 1 - th <=? b) && (b <? m - 2)); [rewrite Q2 by lia; lin|]. reflexivity.
  - branch (a <? th); [rewrite Q3 by lia; lin|]. branch ((n - 1 - th <=? a) && (a <? n - 2)); [rewrite Q4 by lia; lin|]. reflexivity.
Qed.
End Half.

Lemma sum_saved i j a b c x y z : sum_prev i j a b c -> sums x y z i j -> sum_prev i j (saved a x) (saved b y) (saved c z).
Proof. destruct a, b, c; cbn; auto. Qed.
Lemma sum_shifted i j a b c x y z : sum_prev i j a b c -> sum_prev i j x y z -> sum_prev i j (shifted a x) (shifted b y) (shifted c z).
Proof. destruct a, b, c; cbn; auto; contradiction. Qed.

Lemma tf_sum (f : @tfsf RNum -> Z -> Z -> R -> R) o (x y z : cells) i j : (forall q i j (u v : R), (f q i j (u + v) = f q i j u + v)%R) ->
  plus3 x y z i j -> (tf f o z i j = tf f o x i j + tf f None y i j)%R.
Proof. intros Hf H. unfold tf, plus3 in *. destruct o; change (@T RNum) with R in *; rewrite H; [apply Hf|reflexivity]. Qed.
Lemma tfD1_sum (q : tfsf) i j (u v : R) : (tfD1 q i j (u + v) = tfD1 q i j u + v)%R.
Proof. unfold tfD1. destruct (band _ _ i); [|reflexivity]. rnum. destruct (j =? q_ja q), (j =? q_jb q); change (@T RNum) with R; ring. Qed.
Lemma tfHx1_sum (q : tfsf) i j (u v : R) : (tfHx1 q i j (u + v) = tfHx1 q i j u + v)%R.
Proof. unfold tfHx1. destruct (band _ _ i); [|reflexivity]. rnum. destruct (j =? q_ja q - 1), (j =? q_jb q); change (@T RNum) with R; ring. Qed.
Lemma tfHy1_sum (q : tfsf) i j (u v : R) : (tfHy1 q i j (u + v) = tfHy1 q i j u + v)%R.
Proof. unfold tfHy1. destruct (band _ _ j); [|reflexivity]. rnum. destruct (i =? q_ia q - 1), (i =? q_ib q); change (@T RNum) with R; ring. Qed.

Lemma same_med p r : same_setting p r -> med p = med r.
Proof. intros (_ & _ & A & B & C). unfold med. now rewrite A, B, C. Qed.

Lemma sum_step p q r p' q' r' : apart (ph_grid r) -> wf_phys p -> wf_phys q -> wf_phys r ->
  sum_state p q r -> phys_step p = Fine p' -> phys_step q = Fine q' -> phys_step r = Fine r' -> sum_state p' q' r'.
Proof.
  intros Ha Wp Wq Wr [SL SR (Dc & Dt & Dn) SC] Hp Hq Hr.
  assert (Mp := same_med _ _ SL). assert (Mq := same_med _ _ SR).
  destruct SL as (L1 & L2 & L3 & L4 & L5), SR as (R1 & R2 & R3 & R4 & R5).
  destruct (full_step p p' ltac:(rewrite L1; exact Ha) Wp Hp) as (E0 & E1 & E2 & E3 & Ls & u & h & [A1 A2 A3 A4 A5 A6 A7 A8 A9 A10 A11 A12 A13 A14 A15 A16]).
  destruct (full_step q q' ltac:(rewrite R1; exact Ha) Wq Hq) as (F0 & F1 & F2 & F3 & Ms & v & k & [B1 B2 B3 B4 B5 B6 B7 B8 B9 B10 B11 B12 B13 B14 B15 B16]).
  destruct (full_step r r' Ha Wr Hr) as (G0 & G1 & G2 & G3 & Ns & w & l & [C1 C2 C3 C4 C5 C6 C7 C8 C9 C10 C11 C12 C13 C14 C15 C16]).
  unfold grid_next_e in A1, B1, C1. unfold grid_next_h in A11, B11, C11. rewrite Mp, L1 in *. rewrite Mq, R1 in *. rewrite L2 in *. rewrite R2 in *.
  set (g := ph_grid r) in *. set (md := med r) in *. rewrite <- Dt in A9, A10. rewrite Dn in B9, B10. cbn in B10. injection B10 as B10. rewrite A10 in C10. injection C10 as C10.
  apply cells_weaken in A7, B7, C7. apply static_eq in A13, B13, C13.
  destruct Wp, Wq, Wr. rewrite L1 in wf_debye, wf_drude, wf_lorentz. rewrite R1 in wf_debye0, wf_drude0, wf_lorentz0. fold g in wf_debye1, wf_drude1, wf_lorentz1.
  assert (KE : forall a b, 0 <= a < g_Nx g -> 0 <= b < g_Ny g ->
    mem3_e (g_Nx g) (g_Ny g) (g_pml g) a b u v w /\ plus3 (eE (e_of p')) (eE (e_of q')) (eE (e_of r')) a b /\
    sum_media a b (ph_debye p') (ph_debye q') (ph_debye r') /\ sum_media a b (ph_drude p') (ph_drude q') (ph_drude r') /\ sum_media a b (ph_lorentz p') (ph_lorentz q') (ph_lorentz r')).
  { intros a b Hab Hbb. destruct (SC a b Hab Hbb) as [Cf Cm D1 D2 D3 D4 D5].
    destruct (sum_e (g_Nx g) (g_Ny g) (g_pml g) (g_dx g) md a b ltac:(exact Ha)
       (hX (h_of p)) (hX (h_of q)) (hX (h_of r)) (hY (h_of p)) (hY (h_of q)) (hY (h_of r)) (e_of p) (e_of q) (e_of r)) as [Q1 Q2].
    { destruct Cm as [Cm _]. exact Cm. } { apply Cf. }
    { unfold core. intros Hcore. destruct (SC (a - 1) b) as [(_ & _ & X1) _ _ _ _ _ _]; [fold g; lia..|].
      destruct (SC a (b - 1)) as [(_ & X2 & _) _ _ _ _ _ _]; [fold g; lia..|]. destruct Cf as (_ & X3 & X4). auto. }
    rewrite <- A1, <- B1, <- C1 in Q1, Q2. split; [exact Q1|].
    assert (S1 : sum_prev a b (saved (ph_prevE p) (fEz (ph_F p))) (saved (ph_prevE q) (fEz (ph_F q))) (saved (ph_prevE r) (fEz (ph_F r)))) by (apply sum_saved; [exact D4|apply Cf]).
    assert (S2 : sum_prev a b (shifted (ph_prev2E p) (ph_prevE p)) (shifted (ph_prev2E q) (ph_prevE q)) (shifted (ph_prev2E r) (ph_prevE r))) by (apply sum_shifted; assumption).
    destruct (polar_all_adds a b (g_Nx g) (g_Ny g) debye_update np_debye _ _ _ (debye_adds a b _ _ Hab Hbb) S1 _ _ _ D1 _ _ _ _ _ _ _ _ _ wf_debye wf_debye0 wf_debye1 A3 B3 C3) as [P1 V1].
    { unfold sums. rewrite A2, B2, C2. exact Q2. }
    destruct (polar_all_adds a b (g_Nx g) (g_Ny g) drude_update np_drude _ _ _ (drude_adds a b _ _ Hab Hbb) S1 _ _ _ D2 _ _ _ _ _ _ _ _ _ wf_drude wf_drude0 wf_drude1 A4 B4 C4 V1) as [P2 V2].
    destruct (polar_all_adds a b (g_Nx g) (g_Ny g) lorentz_update np_lorentz _ _ _ (lorentz_adds a b _ _ Hab Hbb) S2 _ _ _ D3 _ _ _ _ _ _ _ _ _ wf_lorentz wf_lorentz0 wf_lorentz1 A5 B5 C5 V2) as [P3 V3].
    split; [|auto]. destruct A9 as (A9 & _), B9 as (B9 & _), C9 as (C9 & _). unfold plus3. change (@T RNum) with R in *. rewrite (A9 a b), (B9 a b), (C9 a b). cbn [eE]. unfold lits.
    rewrite (tf_sum tfD1 (ph_tfsf r) (tval E3) (tval F3) (tval G3) a b tfD1_sum V3). apply (lit_united _ _ _ _ g); assumption. }
  assert (HP : forall a b, 0 <= a < g_Nx g -> 0 <= b < g_Ny g -> sum_cell p' q' r' a b).
  { intros a b Hab Hbb. destruct (SC a b Hab Hbb) as [Cf Cm D1 D2 D3 D4 D5]. destruct (KE a b Hab Hbb) as (ME & VE & P1 & P2 & P3).
    match type of A11 with h = next_h _ _ _ _ _ _ ?x => set (hp := x) in * end.
    match type of B11 with k = next_h _ _ _ _ _ _ ?x => set (hq := x) in * end.
    match type of C11 with l = next_h _ _ _ _ _ _ ?x => set (hr := x) in * end.
    destruct (sum_h (g_Nx g) (g_Ny g) (g_pml g) (g_dx g) md a b ltac:(exact Ha) (eE (e_of p')) (eE (e_of q')) (eE (e_of r')) hp hq hr) as (MH & VX & VY).
    { destruct Cm as [_ Cm]. exact Cm. }
    { cbn [hX hp hq hr with_xy]. unfold plus3, lits. destruct Cf as (_ & K1 & K2). cbn [hX h_of]. unfold sums in K1. change (@T RNum) with R in *. rewrite K1. apply (lit_united _ _ _ _ g); assumption. }
    { cbn [hY hp hq hr with_xy]. unfold plus3, lits. destruct Cf as (_ & K1 & K2). cbn [hY h_of]. unfold sums in K2. change (@T RNum) with R in *. rewrite K2. apply (lit_united _ _ _ _ g); assumption. }
    { unfold core. intros Hcore. split; [exact VE|]. split; [apply (KE (a + 1) b)|apply (KE a (b + 1))]; lia. }
    rewrite <- A11, <- B11, <- C11 in MH, VX, VY.
    destruct A9 as (AE & AX1 & AX2 & AY1 & AY2), B9 as (BE & BX1 & BX2 & BY1 & BY2), C9 as (CE & CX1 & CX2 & CY1 & CY2).
    destruct A12 as (AX & AXl & AXh & AY & AYl & AYh), B12 as (BX & BXl & BXh & BY & BYl & BYh), C12 as (CX & CXl & CXh & CY & CYl & CYh).
    rewrite <- C10 in CX, CY. rewrite <- B10 in BX, BY. destruct A6 as [A6 A6'], B6 as [B6 B6'], C6 as [C6 C6'].
    constructor.
    - split; [exact VE|]. split.
      + unfold sums. change (tval (fHx (ph_F p'))) with (hX (h_of p')). change (tval (fHx (ph_F q'))) with (hX (h_of q')). change (tval (fHx (ph_F r'))) with (hX (h_of r')).
        change (@T RNum) with R in *. rewrite (AX a b), (BX a b), (CX a b). cbn [hX with_xy]. apply tf_sum; [apply tfHx1_sum|exact VX].
      + unfold sums. change (tval (fHy (ph_F p'))) with (hY (h_of p')). change (tval (fHy (ph_F q'))) with (hY (h_of q')). change (tval (fHy (ph_F r'))) with (hY (h_of r')).
        change (@T RNum) with R in *. rewrite (AY a b), (BY a b), (CY a b). cbn [hY with_xy]. apply tf_sum; [apply tfHy1_sum|exact VY].
    - destruct C13 as (-> & _). fold g. destruct ME as (M1 & M2 & M3 & M4), MH as (M5 & M6 & M7 & M8).
      cbn [eXl eXh eYl eYh e_of] in AX1, AX2, AY1, AY2, BX1, BX2, BY1, BY2, CX1, CX2, CY1, CY2.
      cbn [hXl hXh hYl hYh h_of with_xy] in AXl, AXh, AYl, AYh, BXl, BXh, BYl, BYh, CXl, CXh, CYl, CYh.
      unfold sum_memory, sums. unfold same in *. change (@T RNum) with R in *.
      split; [split; [|split; [|split]]|split; [|split; [|split]]]; intros K.
      + rewrite AX1, BX1, CX1. exact (M1 K).
      + idtac. rewrite AX2, BX2, CX2. exact (M2 K).
      + idtac. rewrite AY1, BY1, CY1. exact (M3 K).
      + idtac. rewrite AY2, BY2, CY2. exact (M4 K).
      + idtac. rewrite AXl, BXl, CXl. exact (M5 K).
      + rewrite AXh, BXh, CXh. exact (M6 K).
      + rewrite AYl, BYl, CYl. exact (M7 K).
      + rewrite AYh, BYh, CYh. exact (M8 K).
    - exact P1. - exact P2. - exact P3.
    - rewrite A6, B6, C6. apply sum_saved; [exact D4|apply Cf].
    - rewrite A6', B6', C6'. now apply sum_shifted. }
  destruct A13 as (S1 & S2 & _ & _ & _ & S3 & S4), B13 as (T1 & T2 & _ & _ & _ & T3 & T4), C13 as (U1 & U2 & _ & _ & _ & U3 & U4).
  constructor.
  - unfold same_setting. rewrite S1, S2, S3, S4, U1, U2, U3, U4, A15, C15. repeat split; auto.
  - unfold same_setting. rewrite T1, T2, T3, T4, U1, U2, U3, U4, B15, C15. repeat split; auto.
  - unfold sum_drive. rewrite A8, B8, C8. repeat split; auto.
  - rewrite U1. exact HP.
Qed.

Lemma wf_run n : forall p p', apart (ph_grid p) -> wf_phys p -> phys_run (repeat Update n) p = Fine p' -> wf_phys p' /\ ph_grid p' = ph_grid p.
Proof.
  induction n as [|n IH]; intros p p' Ha Hw H; cbn [repeat phys_run] in H; [injection H as <-; auto|].
  apply obind_fine in H. destruct H as (p1 & H1 & H). cbn [phys_exec] in H1.
  destruct (full_step p p1 Ha Hw H1) as (E0 & E1 & E2 & E3 & Ls & u & h & []). apply static_eq in cw_static. destruct cw_static as (G & _).
  destruct (IH p1 p') as [A B]; auto; [now rewrite G|]. split; [exact A|congruence].
Qed.
Lemma sum_run n : forall p q r p' q' r', apart (ph_grid r) -> wf_phys p -> wf_phys q -> wf_phys r -> sum_state p q r ->
  phys_run (repeat Update n) p = Fine p' -> phys_run (repeat Update n) q = Fine q' -> phys_run (repeat Update n) r = Fine r' -> sum_state p' q' r'.
Proof.
  induction n as [|n IH]; intros p q r p' q' r' Ha Wp Wq Wr HS Hp Hq Hr; cbn [repeat phys_run] in *.
  - injection Hp as <-. injection Hq as <-. injection Hr as <-. exact HS.
  - apply obind_fine in Hp. destruct Hp as (p1 & Hp1 & Hp). apply obind_fine in Hq. destruct Hq as (q1 & Hq1 & Hq). apply obind_fine in Hr. destruct Hr as (r1 & Hr1 & Hr).
    cbn [phys_exec] in *. assert (HS' := sum_step _ _ _ _ _ _ Ha Wp Wq Wr HS Hp1 Hq1 Hr1).
    destruct HS as [(L & _) (R & _) _ _].
    destruct (wf_run 1 p p1) as [A1 B1]; [now rewrite L|exact Wp|cbn; now rewrite Hp1|].
    destruct (wf_run 1 q q1) as [A2 B2]; [now rewrite R|exact Wq|cbn; now rewrite Hq1|].
    destruct (wf_run 1 r r1) as [A3 B3]; [exact Ha|exact Wr|cbn; now rewrite Hr1|].
    apply (IH p1 q1 r1); auto. now rewrite B3.
Qed.

(** ** Command level *)
Lemma add_sources l : forall p p', phys_run (map AddSource l) p = Fine p' -> p' = set_ph_srcs (ph_srcs p ++ l) p.
Proof.
  induction l as [|r l IH]; intros p p' H; cbn [map phys_run] in H.
  - injection H as <-. rewrite app_nil_r. now destruct p.
  - apply obind_fine in H. destruct H as (p1 & H1 & H). cbn [phys_exec] in H1. injection H1 as <-. apply IH in H. rewrite H. cbn. now rewrite <- app_assoc.
Qed.
Lemma wf_srcs l p : wf_phys p -> wf_phys (set_ph_srcs l p).
Proof. intros []. constructor; cbn; assumption. Qed.

Lemma dark_media {M} i j (P : list (string * (M * polar))) : zP P -> sum_media i j P P P.
Proof.
  induction P as [|[nm [x q]] P IH]; intros H; constructor.
  - destruct (H nm x q (or_introl eq_refl)) as [H1 H2]. repeat split; change (@T RNum) with R; rewrite ?(H1 i j k), ?(H2 i j k); lra.
  - apply IH. intros nm' x' q' Hin. apply (H nm' x' q'). now right.
Qed.
Lemma dark_prev i j o : zo o -> sum_prev i j o o o.
Proof. destruct o as [a|]; cbn; [|auto]. intros H. unfold sums. change (@T RNum) with R. rewrite (H a eq_refl i j). lra. Qed.
Lemma dark_sum p S1 S2 : dark p -> ph_tfsf p = None -> sum_state (set_ph_srcs S1 p) (set_ph_srcs S2 p) (set_ph_srcs (S1 ++ S2) p).
Proof.
  intros [] Ht. assert (Z : forall a, z2 a -> forall i j, sums a a a i j) by (intros a H i j; unfold sums; change (@T RNum) with R; rewrite (H i j); lra).
  constructor.
  - repeat split. - repeat split.
  - unfold sum_drive. cbn. rewrite map_app. auto.
  - intros i j _ _. constructor; cbn.
    + unfold sum_fields. auto.
    + unfold sum_memory. repeat split; intros _; auto.
    + now apply dark_media. + now apply dark_media. + now apply dark_media. + now apply dark_prev. + now apply dark_prev.
Qed.

Lemma superposition g s S1 S2 n s1 s2 s3 : apart g -> reachable g s -> ph_srcs (f_ph s) = [] -> ph_tfsf (f_ph s) = None ->
  run (map AddSource S1 ++ repeat Update n) s = Fine s1 ->
  run (map AddSource S2 ++ repeat Update n) s = Fine s2 ->
  run (map AddSource (S1 ++ S2) ++ repeat Update n) s = Fine s3 ->
  sum_state (f_ph s1) (f_ph s2) (f_ph s3).
Proof.
  intros Ha Hr Hs Ht H1 H2 H3. destruct (reachable_good g s (apart_roomy _ Ha) Hr) as [Hw Eg].
  assert (D := stays_dark g s Hr Hs Ht).
  assert (K : forall l s', run (map AddSource l ++ repeat Update n) s = Fine s' -> phys_run (repeat Update n) (set_ph_srcs l (f_ph s)) = Fine (f_ph s')).
  { intros l s' H. apply run_phys in H. rewrite phys_run_app in H. apply obind_fine in H. destruct H as (p1 & P1 & H). apply add_sources in P1. rewrite Hs in P1. cbn [app] in P1. now subst p1. }
  apply (sum_run n (set_ph_srcs S1 (f_ph s)) (set_ph_srcs S2 (f_ph s)) (set_ph_srcs (S1 ++ S2) (f_ph s))); auto using wf_srcs.
  - cbn. now rewrite Eg.
  - now apply dark_sum.
Qed.
Lemma superposition_states n s1 s2 s3 s1' s2' s3' : apart (ph_grid (f_ph s3)) -> wf_phys (f_ph s1) -> wf_phys (f_ph s2) -> wf_phys (f_ph s3) ->
  sum_state (f_ph s1) (f_ph s2) (f_ph s3) ->
  run (repeat Update n) s1 = Fine s1' -> run (repeat Update n) s2 = Fine s2' -> run (repeat Update n) s3 = Fine s3' ->
  sum_state (f_ph s1') (f_ph s2') (f_ph s3').
Proof. intros Ha W1 W2 W3 HS H1 H2 H3. apply run_phys in H1, H2, H3. exact (sum_run n _ _ _ _ _ _ Ha W1 W2 W3 HS H1 H2 H3). Qed.
