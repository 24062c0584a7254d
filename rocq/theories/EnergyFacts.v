(** The leap-frog energy. *)
From Coq Require Import ZArith Reals String List Bool Lia Lra Psatz.
From Verif Require Import Scalar Base BaseFacts VecM GridM GeometryM MaterialM PmlM DftM TfsfM PolarM
  InterpM H5M ClockM MonitorM FieldM SpecGrid GridFacts OutFacts PhysFacts SpecPaint PaintFacts WfFacts ReachFacts InvFacts
  SpecStep StepFacts EngineFacts YeeFacts SpecSource SourceFacts PolarFacts FullStep TextbookFacts SpecWave DarkFacts
  SafeFacts SpecTfsf TfsfFacts TfsfRun SpecEnergy.
Import ListNotations.
Local Open Scope Z_scope.
#[local] Existing Instance RNum.

(** ** Sums *)
Lemma sumup_ext n f h : (forall k, 0 <= k < Z.of_nat n -> f k = h k) -> sumup n f = sumup n h.
Proof. induction n; intros H; cbn [sumup]; [reflexivity|]. rewrite IHn by (intros; apply H; lia). rewrite H by lia. reflexivity. Qed.
Lemma sumup_add n f h : sumup n (fun k => f k + h k)%R = (sumup n f + sumup n h)%R.
Proof. induction n; cbn [sumup]; [|rewrite IHn]; lra. Qed.
Lemma sumup_scal n c f : sumup n (fun k => c * f k)%R = (c * sumup n f)%R.
Proof. induction n; cbn [sumup]; [|rewrite IHn]; lra. Qed.
Lemma sumup_opp n f : sumup n (fun k => - f k)%R = (- sumup n f)%R.
Proof. induction n; cbn [sumup]; [|rewrite IHn]; lra. Qed.
Lemma sumup_le n f h : (forall k, 0 <= k < Z.of_nat n -> (f k <= h k)%R) -> (sumup n f <= sumup n h)%R.
Proof. induction n; intros H; cbn [sumup]; [lra|]. assert (sumup n f <= sumup n h)%R by (apply IHn; intros; apply H; lia). assert (G := H (Z.of_nat n) ltac:(lia)). lra. Qed.
Lemma sumup_zero n : sumup n (fun _ => 0%R) = 0%R.
Proof. induction n; cbn [sumup]; lra. Qed.
Lemma sumup_swap n m f : sumup n (fun i => sumup m (f i)) = sumup m (fun j => sumup n (fun i => f i j)).
Proof. induction n; cbn [sumup]; [now rewrite sumup_zero|]. now rewrite IHn, sumup_add. Qed.
Lemma sumup_shift n f : sumup n (fun i => f (i + 1)) = (sumup n f - f 0%Z + f (Z.of_nat n))%R.
Proof. induction n; cbn [sumup]; [change (Z.of_nat 0) with 0; lra|]. rewrite IHn. replace (Z.of_nat (S n)) with (Z.of_nat n + 1) by lia. lra. Qed.
Lemma abel n (h e : Z -> R) : e 0 = 0%R -> e (Z.of_nat n) = 0%R ->
  sumup n (fun i => (h i - h (i - 1)%Z) * e i)%R = (- sumup n (fun i => h i * (e (i + 1)%Z - e i)))%R.
Proof.
  intros E0 En. assert (G : forall k, (sumup k (fun i => (h i - h (i - 1)%Z) * e i) + sumup k (fun i => h i * (e (i + 1)%Z - e i)) = h (Z.of_nat k - 1)%Z * e (Z.of_nat k) - h (-1)%Z * e 0%Z)%R).
  { induction k; cbn [sumup]; [change (Z.of_nat 0) with 0; change (0 - 1) with (-1); lra|].
    replace (Z.of_nat (S k)) with (Z.of_nat k + 1) by lia. replace (Z.of_nat k + 1 - 1) with (Z.of_nat k) by lia. lra. }
  specialize (G n). rewrite E0, En in G. lra.
Qed.

Section Leapfrog.
Variables (n m : nat) (eps : Z -> Z -> R).
Let sum2 (f : Z -> Z -> R) := sumup n (fun i => sumup m (f i)).
Lemma sum2_ext f h : (forall i j, 0 <= i < Z.of_nat n -> 0 <= j < Z.of_nat m -> f i j = h i j) -> sum2 f = sum2 h.
Proof. intros H. apply sumup_ext. intros i Hi. apply sumup_ext. auto. Qed.
Lemma sum2_le f h : (forall i j, 0 <= i < Z.of_nat n -> 0 <= j < Z.of_nat m -> (f i j <= h i j)%R) -> (sum2 f <= sum2 h)%R.
Proof. intros H. apply sumup_le. intros i Hi. apply sumup_le. auto. Qed.
Lemma sum2_add f h : sum2 (fun i j => f i j + h i j)%R = (sum2 f + sum2 h)%R.
Proof. unfold sum2. rewrite <- sumup_add. apply sumup_ext. intros. apply sumup_add. Qed.
Lemma sum2_scal c f : sum2 (fun i j => c * f i j)%R = (c * sum2 f)%R.
Proof. unfold sum2. rewrite <- sumup_scal. apply sumup_ext. intros. apply sumup_scal. Qed.
Lemma sum2_zero : sum2 (fun _ _ => 0%R) = 0%R.
Proof. unfold sum2. rewrite (sumup_ext n _ (fun _ => 0%R)); [apply sumup_zero|]. intros. apply sumup_zero. Qed.

Definition framed (w : Z -> Z -> R) : Prop := forall i j, i <= 0 \/ Z.of_nat n <= i \/ j <= 0 \/ Z.of_nat m <= j -> w i j = 0%R.
Definition curlH (x y : Z -> Z -> R) i j : R := (y i j - y (i - 1)%Z j + (x i (j - 1)%Z - x i j))%R.

Lemma by_parts x y w : framed w ->
  sum2 (fun i j => curlH x y i j * w i j)%R = (- sum2 (fun i j => y i j * (w (i + 1)%Z j - w i j) - x i j * (w i (j + 1)%Z - w i j)))%R.
Proof.
  intros F. unfold curlH.
  rewrite (sum2_ext _ (fun i j => (y i j - y (i - 1)%Z j) * w i j + -1 * ((x i j - x i (j - 1)%Z) * w i j))%R) by (intros; ring).
  rewrite (sum2_ext (fun i j => y i j * _ - _)%R (fun i j => y i j * (w (i + 1)%Z j - w i j) + -1 * (x i j * (w i (j + 1)%Z - w i j)))%R) by (intros; ring).
  rewrite !sum2_add, !sum2_scal.
  replace (sum2 (fun i j => (y i j - y (i - 1)%Z j) * w i j)%R) with (- sum2 (fun i j => y i j * (w (i + 1)%Z j - w i j)))%R.
  2:{ unfold sum2. rewrite sumup_swap. rewrite (sumup_swap n m (fun i j => (y i j - y (i - 1)%Z j) * w i j)%R).
      rewrite <- sumup_opp. apply sumup_ext. intros j Hj.
      rewrite (abel n (fun i => y i j) (fun i => w i j)); [ring|apply F; lia|apply F; lia]. }
  replace (sum2 (fun i j => (x i j - x i (j - 1)%Z) * w i j)%R) with (- sum2 (fun i j => x i j * (w i (j + 1)%Z - w i j)))%R.
  2:{ unfold sum2. rewrite <- sumup_opp. apply sumup_ext. intros i Hi.
      rewrite (abel m (fun j => x i j) (fun j => w i j)); [ring|apply F; lia|apply F; lia]. }
  ring.
Qed.

Definition faraday (e x0 y0 x1 y1 : Z -> Z -> R) : Prop := forall i j, 0 <= i < Z.of_nat n -> 0 <= j < Z.of_nat m ->
  x1 i j = (x0 i j - / 2 * (e i (j + 1)%Z - e i j))%R /\ y1 i j = (y0 i j + / 2 * (e (i + 1)%Z j - e i j))%R.
Definition leap (e x0 y0 x1 y1 : Z -> Z -> R) : R := sum2 (fun i j => eps i j * e i j * e i j + x1 i j * x0 i j + y1 i j * y0 i j)%R.

(** what the leap-frog energy gains in one step *)
Lemma leap_gain e1 e2 x0 y0 x1 y1 x2 y2 : framed e1 -> framed e2 -> faraday e1 x0 y0 x1 y1 -> faraday e2 x1 y1 x2 y2 ->
  leap e2 x1 y1 x2 y2 = (leap e1 x0 y0 x1 y1 + sum2 (fun i j => (e1 i j + e2 i j) * (eps i j * (e2 i j - e1 i j) - / 2 * curlH x1 y1 i j)))%R.
Proof.
  intros F1 F2 H1 H2. unfold leap.
  assert (B := by_parts x1 y1 (fun i j => e1 i j + e2 i j)%R). cbv beta in B. specialize (B ltac:(intros i j Hij; rewrite F1, F2 by assumption; ring)).
  set (S1 := sum2 (fun i j => curlH x1 y1 i j * (e1 i j + e2 i j))%R) in B.
  set (S2 := sum2 (fun i j => y1 i j * _ - _)%R) in B.
  set (L1 := sum2 (fun i j => eps i j * e1 i j * e1 i j + x1 i j * x0 i j + y1 i j * y0 i j)%R).
  set (L3 := sum2 (fun i j => (e1 i j + e2 i j) * _)%R).
  transitivity (L1 + (L3 + (/ 2 * S1 + / 2 * S2)))%R; [|rewrite B; ring].
  unfold L1, L3, S1, S2. rewrite <- !sum2_scal, <- !sum2_add. apply sum2_ext.
  intros i j Hi Hj. destruct (H1 i j Hi Hj) as [A1 A2]. destruct (H2 i j Hi Hj) as [B1 B2].
    replace (x0 i j) with (x1 i j + / 2 * (e1 i (j + 1)%Z - e1 i j))%R by lra. replace (y0 i j) with (y1 i j - / 2 * (e1 (i + 1)%Z j - e1 i j))%R by lra.
    rewrite B1, B2. ring.
Qed.
Lemma leap_const e1 e2 x0 y0 x1 y1 x2 y2 : framed e1 -> framed e2 -> faraday e1 x0 y0 x1 y1 -> faraday e2 x1 y1 x2 y2 ->
  (forall i j, 0 <= i < Z.of_nat n -> 0 <= j < Z.of_nat m -> (eps i j * (e2 i j - e1 i j) * (e1 i j + e2 i j) = / 2 * curlH x1 y1 i j * (e1 i j + e2 i j))%R) ->
  leap e2 x1 y1 x2 y2 = leap e1 x0 y0 x1 y1.
Proof.
  intros F1 F2 H1 H2 HE. rewrite (leap_gain e1 e2 x0 y0 x1 y1 x2 y2 F1 F2 H1 H2). rewrite (sum2_ext _ (fun _ _ => 0%R)); [rewrite sum2_zero; lra|].
  intros i j Hi Hj. specialize (HE i j Hi Hj). lra.
Qed.

Lemma slopes_small e : framed e ->
  (sum2 (fun i j => (e i (j + 1)%Z - e i j) * (e i (j + 1)%Z - e i j) + (e (i + 1)%Z j - e i j) * (e (i + 1)%Z j - e i j)) <= 8 * sum2 (fun i j => e i j * e i j))%R.
Proof.
  intros F.
  assert (X : sum2 (fun i j => e (i + 1)%Z j * e (i + 1)%Z j)%R = sum2 (fun i j => e i j * e i j)%R).
  { unfold sum2. rewrite sumup_swap. rewrite (sumup_swap n m (fun i j => e i j * e i j)%R). apply sumup_ext. intros j Hj.
    rewrite (sumup_shift n (fun i => e i j * e i j)%R). rewrite !F by lia. ring. }
  assert (Y : sum2 (fun i j => e i (j + 1)%Z * e i (j + 1)%Z)%R = sum2 (fun i j => e i j * e i j)%R).
  { unfold sum2. apply sumup_ext. intros i Hi. rewrite (sumup_shift m (fun j => e i j * e i j)%R). rewrite !F by lia. ring. }
  apply Rle_trans with (sum2 (fun i j => 2 * (e i (j + 1)%Z * e i (j + 1)%Z) + (2 * (e (i + 1)%Z j * e (i + 1)%Z j) + 4 * (e i j * e i j)))%R).
  - apply sum2_le. intros i j _ _. assert (P := Rle_0_sqr (e i (j + 1)%Z + e i j)). assert (P' := Rle_0_sqr (e (i + 1)%Z j + e i j)). unfold Rsqr in *. lra.
  - set (q := sum2 (fun i j => e i j * e i j)%R) in *. apply Req_le. transitivity (2 * q + (2 * q + 4 * q))%R; [|ring].
    rewrite <- X at 2. rewrite <- Y at 1. unfold q. rewrite <- !sum2_scal, <- !sum2_add. reflexivity.
Qed.

Lemma leap_bounds e x0 y0 x1 y1 : framed e -> faraday e x0 y0 x1 y1 ->
  (forall i j, 0 <= i < Z.of_nat n -> 0 <= j < Z.of_nat m -> (1 <= eps i j)%R) ->
  (sum2 (fun i j => eps i j * e i j * e i j) <= 2 * leap e x0 y0 x1 y1)%R /\
  (sum2 (fun i j => x1 i j * x1 i j + y1 i j * y1 i j) <= 2 * leap e x0 y0 x1 y1)%R.
Proof.
  intros F H He. assert (B := slopes_small e F). set (Q := sum2 (fun i j => e i j * e i j)%R) in *.
  set (C := sum2 _) in B. set (U := sum2 (fun i j => eps i j * e i j * e i j)%R).
  set (A := sum2 (fun i j => (x1 i j + x0 i j) / 2 * ((x1 i j + x0 i j) / 2) + (y1 i j + y0 i j) / 2 * ((y1 i j + y0 i j) / 2))%R).
  assert (QU : (Q <= U)%R). { apply sum2_le. intros i j Hi Hj. specialize (He i j Hi Hj). assert (0 <= e i j * e i j)%R by apply Rle_0_sqr. nra. }
  assert (A0 : (0 <= A)%R). { rewrite <- sum2_zero. apply sum2_le. intros i j _ _. assert (P := Rle_0_sqr ((x1 i j + x0 i j) / 2)). assert (P' := Rle_0_sqr ((y1 i j + y0 i j) / 2)). unfold Rsqr in *. lra. }
  assert (L : leap e x0 y0 x1 y1 = (U + (A + - / 16 * C))%R).
  { unfold leap, U, A, C. rewrite <- sum2_scal, <- !sum2_add. apply sum2_ext. intros i j Hi Hj. destruct (H i j Hi Hj) as [-> ->]. field. }
  assert (M : (sum2 (fun i j => x1 i j * x1 i j + y1 i j * y1 i j) <= 2 * A + / 8 * C)%R).
  { unfold A, C. rewrite <- !sum2_scal, <- sum2_add. apply sum2_le. intros i j Hi Hj. destruct (H i j Hi Hj) as [E1 E2].
    set (a := (e i (j + 1)%Z - e i j)%R) in *. set (b := (e (i + 1)%Z j - e i j)%R) in *. rewrite E1, E2.
    assert (P := Rle_0_sqr (x0 i j - / 2 * a)). assert (P1 := Rle_0_sqr (x0 i j)). assert (P2 := Rle_0_sqr (y0 i j)). unfold Rsqr in *. nra. }
  rewrite L. split; lra.
Qed.
End Leapfrog.

(** ** The step *)
Definition glassy (g : grid) (eps : Z -> Z -> R) (md : medium) : Prop :=
  forall i j, 0 <= i < g_Nx g -> 0 <= j < g_Ny g ->
    mCa md i j = 1%R /\ mCb md i j = (g_dt g / eps i j)%R /\ mDa md i j = 1%R /\ mDb md i j = g_dt g /\ (1 <= eps i j)%R.

(** magnetic side: every material has the permeability of vacuum *)
Definition airy (g : grid) (md : medium) : Prop :=
  forall i j, 0 <= i < g_Nx g -> 0 <= j < g_Ny g -> mDa md i j = 1%R /\ mDb md i j = g_dt g.
Lemma glassy_airy g eps md : glassy g eps md -> airy g md.
Proof. intros H i j Hi Hj. destruct (H i j Hi Hj) as (_ & _ & A & B & _). auto. Qed.

Lemma e_mute g md hx hy u : apart g -> quiet_e u ->
  (forall i j, 0 <= i < g_Nx g -> 0 <= j < g_Ny g -> i <= g_pml g \/ g_Nx g - 2 - g_pml g <= i -> hy i j = 0%R) ->
  (forall i j, 0 <= i < g_Nx g -> 0 <= j < g_Ny g -> j <= g_pml g \/ g_Ny g - 2 - g_pml g <= j -> hx i j = 0%R) ->
  quiet_e (next_e (g_Nx g) (g_Ny g) (g_pml g) (g_dx g) md hx hy u).
Proof.
  intros (A0 & A1 & A2) Q Hy Hx i j. destruct (Q i j) as (Q1 & Q2 & Q3 & Q4). unfold next_e. cbn [eXl eXh eYl eYh]. unfold memXl, memXh, memYl, memYh.
  repeat split; match goal with |- (if ?b then _ else _) = _ => destruct b eqn:B; [|assumption] end; apply recur0; try assumption; rnum.
  - rewrite !Hy by lia. change (@T RNum) with R. ring.
  - rewrite !Hy by lia. change (@T RNum) with R. ring.
  - rewrite !Hx by lia. change (@T RNum) with R. ring.
  - rewrite !Hx by lia. change (@T RNum) with R. ring.
Qed.

Lemma e_coast g eps md hx hy u : apart g -> quiet_e u -> glassy g eps md -> flat g md -> g_dx g <> 0%R -> g_dt g = (g_dx g / 2)%R ->
  (forall i j, 0 <= i < g_Nx g -> 0 <= j < g_Ny g -> i <= g_pml g \/ g_Nx g - 2 - g_pml g <= i -> hy i j = 0%R) ->
  (forall i j, 0 <= i < g_Nx g -> 0 <= j < g_Ny g -> j <= g_pml g \/ g_Ny g - 2 - g_pml g <= j -> hx i j = 0%R) ->
  let v := next_e (g_Nx g) (g_Ny g) (g_pml g) (g_dx g) md hx hy u in
  quiet_e v /\ forall i j, eE v i j = if core (g_Nx g) (g_Ny g) i j
    then (eE u i j + / (2 * eps i j) * curlH hx hy i j)%R else eE u i j.
Proof.
  intros Ha Q Em Fl Hd Ht Hy Hx v. assert (Qv : quiet_e v) by (apply e_mute; assumption). destruct Ha as (A0 & A1 & A2).
  split; [exact Qv|]. intros i j. unfold v, next_e. cbn [eE]. destruct (core (g_Nx g) (g_Ny g) i j) eqn:C; [|reflexivity].
  unfold core in C. destruct (Em i j ltac:(lia) ltac:(lia)) as (C1 & C2 & _ & _ & C5).
  destruct (proj1 Fl i ltac:(lia)) as [S1 _]. destruct (proj2 Fl j ltac:(lia)) as [S2 _].
  assert (X0 : yeeE md hx hy (eE u) i j = (eE u i j + / (2 * eps i j) * curlH hx hy i j)%R).
  { unfold yeeE, curlH. rewrite C1, C2, S1, S2, Ht. rnum. change (@T RNum) with R. field. split; [lra|exact Hd]. }
  destruct (Qv i j) as (Q1 & _ & Q3 & _). destruct (Qv (g_Nx g - 1 - i)%Z j) as (_ & Q2 & _). destruct (Qv i (g_Ny g - 1 - j)%Z) as (_ & _ & _ & Q4).
  unfold v, next_e in Q1, Q2, Q3, Q4. cbn [eXl eXh eYl eYh] in Q1, Q2, Q3, Q4.
  assert (Y0 : forall e, addY (g_Ny g) (g_pml g) md (memYl (g_Nx g) (g_pml g) (g_dx g) md hx (eYl u)) (memYh (g_Nx g) (g_Ny g) (g_pml g) (g_dx g) md hx (eYh u)) e i j = e i j).
  { intros e. unfold addY. rewrite Q3, Q4. rnum. repeat match goal with |- context [if ?b then _ else _] => destruct b end; first [reflexivity|change (@T RNum) with R; ring]. }
  unfold addX. rewrite Q1, Q2, Y0, X0. rnum. repeat match goal with |- context [if ?b then _ else _] => destruct b end; first [reflexivity|change (@T RNum) with R; ring].
Qed.

Lemma h_coast g md e u : apart g -> quiet_h u -> airy g md -> flat g md -> g_dx g <> 0%R -> g_dt g = (g_dx g / 2)%R ->
  (forall i j, 0 <= i < g_Nx g -> 0 <= j < g_Ny g -> i <= g_pml g \/ g_Nx g - 1 - g_pml g <= i \/ j <= g_pml g \/ g_Ny g - 1 - g_pml g <= j -> e i j = 0%R) ->
  let v := next_h (g_Nx g) (g_Ny g) (g_pml g) (g_dx g) md e u in
  quiet_h v /\ forall i j,
    hX v i j = (if core (g_Nx g) (g_Ny g) i j then (hX u i j - / 2 * (e i (j + 1)%Z - e i j))%R else hX u i j) /\
    hY v i j = (if core (g_Nx g) (g_Ny g) i j then (hY u i j + / 2 * (e (i + 1)%Z j - e i j))%R else hY u i j).
Proof.
  intros (A0 & A1 & A2) Q Em Fl Hd Ht He v.
  assert (Qv : quiet_h v).
  { intros i j. destruct (Q i j) as (Q1 & Q2 & Q3 & Q4). unfold v, next_h. cbn [hXl hXh hYl hYh]. unfold memHxl, memHxh, memHyl, memHyh.
    repeat split; match goal with |- (if ?b then _ else _) = _ => destruct b eqn:B; [|assumption] end; apply recur0; try assumption; rnum;
      rewrite !He by lia; change (@T RNum) with R; ring. }
  split; [exact Qv|]. intros i j. unfold v, next_h. cbn [hX hY]. destruct (core (g_Nx g) (g_Ny g) i j) eqn:C; [|split; reflexivity].
  unfold core in C. destruct (Em i j ltac:(lia) ltac:(lia)) as (C1 & C2).
  destruct (proj1 Fl i ltac:(lia)) as [_ S1]. destruct (proj2 Fl j ltac:(lia)) as [_ S2].
  destruct (Qv i j) as (Q1 & _ & Q3 & _). destruct (Qv i (g_Ny g - 2 - j)%Z) as (_ & Q2 & _). destruct (Qv (g_Nx g - 2 - i)%Z j) as (_ & _ & _ & Q4).
  unfold v, next_h in Q1, Q2, Q3, Q4. cbn [hXl hXh hYl hYh] in Q1, Q2, Q3, Q4.
  unfold addHx, addHy, yeeHx, yeeHy. rewrite Q1, Q2, Q3, Q4, C1, C2, S1, S2, Ht. rnum. change (@T RNum) with R in *.
  split; repeat match goal with |- context [if ?b then _ else _] => destruct b end; field; exact Hd.
Qed.

Record coasting (g : grid) (eps : Z -> Z -> R) (p : phys) : Prop := Coasting {
  co_grid : ph_grid p = g; co_wf : wf_phys p; co_gl : glassy g eps (med p); co_fl : flat g (med p);
  co_bare : ph_debye p = [] /\ ph_drude p = [] /\ ph_lorentz p = []; co_srcs : ph_srcs p = []; co_tfsf : ph_tfsf p = None;
  co_e : quiet_e (e_of p); co_h : quiet_h (h_of p) }.

Definition cut (g : grid) (f : Z -> Z -> R) : Z -> Z -> R := fun i j =>
  if (0 <=? i) && (i <? g_Nx g) && (0 <=? j) && (j <? g_Ny g) then f i j else 0%R.

Lemma cut_faraday g p p' : apart g -> 1 <= g_pml g -> off_layers g p' ->
  (forall i j, Hx_of p' i j = (if core (g_Nx g) (g_Ny g) i j then (Hx_of p i j - / 2 * (Ez_of p' i (j + 1)%Z - Ez_of p' i j))%R else Hx_of p i j) /\
               Hy_of p' i j = (if core (g_Nx g) (g_Ny g) i j then (Hy_of p i j + / 2 * (Ez_of p' (i + 1)%Z j - Ez_of p' i j))%R else Hy_of p i j)) ->
  faraday (Z.to_nat (g_Nx g)) (Z.to_nat (g_Ny g)) (cut g (Ez_of p')) (Hx_of p) (Hy_of p) (Hx_of p') (Hy_of p').
Proof.
  intros Ha B0 O' V i j Hi Hj. destruct Ha as (A0 & A1 & A2). destruct (V i j) as [V1 V2]. rewrite V1, V2. clear V V1 V2.
  unfold cut. destruct (core (g_Nx g) (g_Ny g) i j) eqn:Co; unfold core in Co.
  - do 3 (rewrite (proj2 (Z.leb_le 0 _)) by lia).
    replace (i <? g_Nx g) with true by lia. replace (i + 1 <? g_Nx g) with true by lia. replace (j <? g_Ny g) with true by lia. replace (j + 1 <? g_Ny g) with true by lia.
    replace (0 <=? i + 1) with true by lia. replace (0 <=? j + 1) with true by lia. replace (0 <=? i) with true by lia. replace (0 <=? j) with true by lia. cbn [andb]. auto.
  - assert (Z0 : Ez_of p' i j = 0%R) by (apply (O' i j); lia).
    assert (Z1 : 0 <= i + 1 < g_Nx g -> Ez_of p' (i + 1) j = 0%R) by (intros H1; apply (O' (i + 1) j); lia).
    assert (Z2 : 0 <= j + 1 < g_Ny g -> Ez_of p' i (j + 1) = 0%R) by (intros H1; apply (O' i (j + 1)); lia).
    repeat match goal with |- context [if ?b then _ else _] => destruct b eqn:? end; rewrite ?Z0, ?Z1, ?Z2 by lia; split; lra.
Qed.

Lemma coast_step g eps p p' : (0 < g_dx g)%R -> g_dt g = (g_dx g / 2)%R -> apart g -> 1 <= g_pml g ->
  coasting g eps p -> off_layers g p -> off_layers g p' -> phys_step p = Fine p' ->
  coasting g eps p' /\
  (forall i j, Ez_of p' i j = if core (g_Nx g) (g_Ny g) i j then (Ez_of p i j + / (2 * eps i j) * curlH (Hx_of p) (Hy_of p) i j)%R else Ez_of p i j) /\
  (forall i j, 0 <= i < g_Nx g -> 0 <= j < g_Ny g ->
    (eps i j * (Ez_of p' i j - Ez_of p i j) * (Ez_of p i j + Ez_of p' i j) = / 2 * curlH (Hx_of p) (Hy_of p) i j * (Ez_of p i j + Ez_of p' i j))%R) /\
  faraday (Z.to_nat (g_Nx g)) (Z.to_nat (g_Ny g)) (cut g (Ez_of p')) (Hx_of p) (Hy_of p) (Hx_of p') (Hy_of p').
Proof.
  intros Hd Ht Ha B0 L O O' Hs. destruct L.
  destruct (full_step p p') as (F0 & F1 & F2 & E3 & Ls & u & h & C); [now rewrite co_grid0|exact co_wf0|exact Hs|]. destruct C.
  rewrite co_grid0 in *. destruct co_bare0 as (D1 & D2 & D3). rewrite D1 in cw_debye. rewrite D2 in cw_drude. rewrite D3 in cw_lorentz.
  cbn [polar_all] in *. injection cw_debye as P1 K1. injection cw_drude as P2 K2. injection cw_lorentz as P3 K3.
  assert (EE : forall i j, tval E3 i j = eE u i j) by (intros; rewrite <- K3, <- K2, <- K1; apply cw_E0).
  rewrite co_srcs0 in *. cbn [combine] in *. rewrite co_tfsf0 in *. cbn [line] in cw_line. injection cw_line as Tl.
  destruct (e_coast g eps (med p) (hX (h_of p)) (hY (h_of p)) (e_of p)) as [Qu Vu]; auto; [lra| | |].
  { intros i j Hi Hj H. apply (O i j Hi Hj). exact H. }
  { intros i j Hi Hj H. apply (O i j Hi Hj). exact H. }
  unfold grid_next_e in cw_u. rewrite co_grid0 in cw_u. rewrite <- cw_u in Qu, Vu.
  destruct cw_e as (Ve & Me1 & Me2 & Me3 & Me4). destruct cw_h as (Vx & Mh1 & Mh2 & Vy & Mh3 & Mh4). cbn [eE hX hY with_xy eXl eXh eYl eYh hXl hXh hYl hYh] in *.
  rewrite <- Tl in *. cbn [tf] in *.
  assert (AE : forall i j, Ez_of p' i j = eE u i j). { intros i j. unfold Ez_of. change (tval (fEz (ph_F p')) i j) with (eE (e_of p') i j). rewrite (Ve i j). unfold lits, lit. cbn [fold_left tf]. apply EE. }
  unfold grid_next_h in cw_hm. rewrite co_grid0 in cw_hm.
  destruct (h_coast g (med p) (eE (e_of p')) (with_xy (lits (ph_t p + g_dt g)%num [] Hx (hX (h_of p))) (lits (ph_t p + g_dt g)%num [] Hy (hY (h_of p))) (h_of p))) as [Qh Vh]; auto; [eapply glassy_airy; eassumption|lra| |].
  { intros i j Hi Hj H. apply (O' i j Hi Hj). exact H. }
  rewrite <- cw_hm in Qh, Vh. cbn [with_xy hX hY] in Vh. unfold lits, lit in Vh. cbn [fold_left] in Vh.
  assert (S' := cw_static). apply static_eq in S'. destruct S' as (G' & C' & _ & _ & _ & Co' & Sc').
  assert (Md : med p' = med p) by (unfold med; now rewrite C', Co', Sc').
  split; [|split; [|split]].
  - constructor; rewrite ?Md; auto; try congruence.
    + now destruct (ph_srcs p').
    + intros i j. rewrite Me1, Me2, Me3, Me4. apply Qu.
    + intros i j. cbn [h_of hXl hXh hYl hYh] in *. rewrite Mh1, Mh2, Mh3, Mh4. apply Qh.
  - intros i j. rewrite AE. apply Vu.
  - intros i j Hi Hj. destruct (core (g_Nx g) (g_Ny g) i j) eqn:Co.
    + rewrite (AE i j), (Vu i j), Co. destruct (co_gl0 i j Hi Hj) as (_ & _ & _ & _ & He). change (hX (h_of p)) with (Hx_of p). change (hY (h_of p)) with (Hy_of p).
      change (eE (e_of p) i j) with (Ez_of p i j). field. lra.
    + unfold core in Co. destruct (O i j Hi Hj) as (Z1 & _). destruct (O' i j Hi Hj) as (Z2 & _). rewrite Z1, Z2 by lia. ring.
  - apply cut_faraday; auto. intros i j. destruct (Vh i j) as [V1 V2].
    assert (X : Hx_of p' i j = hX h i j) by apply Vx. assert (Y : Hy_of p' i j = hY h i j) by apply Vy. rewrite X, Y. split; assumption.
Qed.

Lemma energy_leap g eps p p' : 0 <= g_Nx g -> 0 <= g_Ny g ->
  energy g eps p p' = leap (Z.to_nat (g_Nx g)) (Z.to_nat (g_Ny g)) eps (cut g (Ez_of p')) (Hx_of p) (Hy_of p) (Hx_of p') (Hy_of p').
Proof.
  intros Hx Hy. unfold energy, total, leap. apply sum2_ext. intros i j Hi Hj. unfold cut. replace (_ && _ && _ && _) with true by lia. reflexivity.
Qed.
Lemma off_framed g p : 1 <= g_pml g -> off_layers g p -> framed (Z.to_nat (g_Nx g)) (Z.to_nat (g_Ny g)) (cut g (Ez_of p)).
Proof. intros Hp O i j H. unfold cut. destruct (_ && _ && _ && _) eqn:E; [|reflexivity]. apply (O i j); lia. Qed.

Lemma energy_step g eps p q r : (0 < g_dx g)%R -> g_dt g = (g_dx g / 2)%R -> apart g -> 1 <= g_pml g ->
  coasting g eps p -> off_layers g p -> off_layers g q -> off_layers g r -> phys_step p = Fine q -> phys_step q = Fine r ->
  energy g eps q r = energy g eps p q.
Proof.
  intros Hd Ht Ha H1 Co Op Oq Or Sp Sq. destruct (coast_step g eps p q) as (Cq & _ & _ & Fq); auto.
  destruct (coast_step g eps q r) as (_ & _ & Er & Fr); auto. destruct Ha as (A0 & A1 & A2).
  rewrite !energy_leap by lia. apply leap_const; auto using off_framed. intros i j Hi Hj.
  unfold cut. replace (_ && _ && _ && _) with true by lia. apply Er; lia.
Qed.
Lemma energy_bounds g eps p q : (0 < g_dx g)%R -> g_dt g = (g_dx g / 2)%R -> apart g -> 1 <= g_pml g ->
  coasting g eps p -> off_layers g p -> off_layers g q -> phys_step p = Fine q ->
  (electric g eps q <= 2 * energy g eps p q)%R /\ (magnetic g q <= 2 * energy g eps p q)%R.
Proof.
  intros Hd Ht Ha H1 Co Op Oq Sp. destruct (coast_step g eps p q) as (Cq & _ & _ & Fq); auto. destruct Ha as (A0 & A1 & A2).
  rewrite energy_leap by lia. destruct (leap_bounds _ _ eps (cut g (Ez_of q)) _ _ _ _ (off_framed g q H1 Oq) Fq) as [B1 B2].
  { intros i j Hi Hj. apply (co_gl _ _ _ Co); lia. }
  split; [|exact B2]. eapply Rle_trans; [|exact B1]. apply Req_le. unfold electric, total. apply sum2_ext. intros i j Hi Hj.
  unfold cut. replace (_ && _ && _ && _) with true by lia. reflexivity.
Qed.
