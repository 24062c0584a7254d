(** One step of the textbook in doubles against the exact step (C88). *)
From Coq Require Import ZArith Reals Bool Lia Psatz.
From Flocq Require Import Core.Core IEEE754.BinarySingleNaN.
From Verif Require Import Scalar Base BaseFacts Float FloatFacts SpecStep SpecRound RoundFacts.
Local Open Scope Z_scope.

Section Step.
Variable L : libm.
Variables (a n m th : Z) (dx : @T (B64 L)) (md : @medium (B64 L)).
Hypothesis a0 : 0 <= a.
Hypothesis fit : moderate_med a n m th dx md.
Let mdR : @medium RNum := image_med (value L) md.
Let mdM : @medium Magnitude := image_med (size L) md.
Let dxR : @T RNum := value L dx.
Let dxM : @T Magnitude := size L dx.

(** closeness of every cell *)
Definition cclose k e (x : @cells (B64 L)) (y : @cells RNum) (z : @cells Magnitude) : Prop := forall i j, close k e (x i j) (y i j) (z i j).

Lemma recur_close k1 k2 e1 e2 (b c q d : @T (B64 L)) (q1 d1 : @T RNum) (q2 d2 : @T Magnitude) : moderate a b -> moderate a c ->
  close k1 e1 q q1 q2 -> close k2 e2 d d1 d2 ->
  close (S (Nat.max (S k1) (S (S k2)))) (Z.max (e1 + (a + 1)) (e2 + (a + 1) + (a + 1)) + 2)
    (recur dx b c q d) (recur dxR (value L b) (value L c) q1 d1) (recur dxM (size L b) (size L c) q2 d2).
Proof.
  intros Hb Hc Hq Hd. unfold recur. apply add_close; [apply mul_close; try assumption|].
  apply div_close; [exact a0|apply fit|]. apply mul_close; try assumption.
Qed.

Ltac cond X := rewrite ?andb_true_iff, ?Z.leb_le, ?Z.ltb_lt in X.
Lemma layer d : 1 <= d <= th -> moderate a (bEx md d) /\ moderate a (cEx md d) /\ moderate a (bEy md d) /\ moderate a (cEy md d).
Proof. apply fit. Qed.
Lemma layerH d : 1 <= d < th -> moderate a (bHx md d) /\ moderate a (cHx md d) /\ moderate a (bHy md d) /\ moderate a (cHy md d).
Proof. apply fit. Qed.
Lemma inner i j : 1 <= i < n - 1 -> 1 <= j < m - 1 ->
  moderate a (mCa md i j) /\ moderate a (mCb md i j) /\ moderate a (mDa md i j) /\ moderate a (mDb md i j).
Proof. intros. apply fit; assumption. Qed.
Lemma xsize i : 1 <= i < n - 1 -> divisor a (sEx md i) /\ divisor a (sHx md i).
Proof. apply fit. Qed.
Lemma ysize i : 1 <= i < m - 1 -> divisor a (sEy md i) /\ divisor a (sHy md i).
Proof. apply fit. Qed.

Ltac mem k1 k2 e1 e2 :=
  let i := fresh "i" in let j := fresh "j" in intros i j;
  match goal with |- close _ _ (if ?c then _ else _) _ _ => let B := fresh "B" in destruct c eqn:B; [cond B|] end;
  [ apply recur_close; [first [apply layer; lia|apply layerH; lia]|first [apply layer; lia|apply layerH; lia]|auto|apply sub_close; auto]
  |apply close_le with k1 e1; [lia|lia|auto]].

Section E.
Variables (k k2 : nat) (e e2 : Z) (hx hy q : @cells (B64 L)) (hxR hyR qR : @cells RNum) (hxM hyM qM : @cells Magnitude).
Hypotheses (Px : cclose k2 e2 hx hxR hxM) (Py : cclose k2 e2 hy hyR hyM) (Pq : cclose k e q qR qM).
Let K := S (Nat.max (S k) (S (S (S (Nat.max k2 k2))))).
Let E := Z.max (e + (a + 1)) (Z.max e2 e2 + 2 + (a + 1) + (a + 1)) + 2.
Lemma memXl_close : cclose K E (memXl m th dx md hy q) (memXl m th dxR mdR hyR qR) (memXl m th dxM mdM hyM qM).
Proof. unfold K, E, memXl, mdR, mdM. cbn [image_med bEx cEx]. mem k k2 e e2. Qed.
Lemma memXh_close : cclose K E (memXh n m th dx md hy q) (memXh n m th dxR mdR hyR qR) (memXh n m th dxM mdM hyM qM).
Proof. unfold K, E, memXh, mdR, mdM. cbn [image_med bEx cEx]. mem k k2 e e2. Qed.
Lemma memYl_close : cclose K E (memYl n th dx md hx q) (memYl n th dxR mdR hxR qR) (memYl n th dxM mdM hxM qM).
Proof. unfold K, E, memYl, mdR, mdM. cbn [image_med bEy cEy]. mem k k2 e e2. Qed.
Lemma memYh_close : cclose K E (memYh n m th dx md hx q) (memYh n m th dxR mdR hxR qR) (memYh n m th dxM mdM hxM qM).
Proof. unfold K, E, memYh, mdR, mdM. cbn [image_med bEy cEy]. mem k k2 e e2. Qed.

Lemma yeeE_close i j : 1 <= i < n - 1 -> 1 <= j < m - 1 ->
  close (S (Nat.max (S k) (4 + k2))) (Z.max (e + (a + 1)) (e2 + 2 + (a + 1) + 2 + (a + 1)) + 2)
    (yeeE md hx hy q i j) (yeeE mdR hxR hyR qR i j) (yeeE mdM hxM hyM qM i j).
Proof.
  intros Hi Hj. unfold yeeE, mdR, mdM. cbn [image_med mCa mCb sEx sEy].
  apply add_close; [apply mul_close; [exact a0|apply inner; assumption|auto]|].
  apply close_le with (S (S (Nat.max (S (S (Nat.max k2 k2))) (S (S (Nat.max k2 k2)))))) (Z.max (Z.max e2 e2 + 2 + (a + 1)) (Z.max e2 e2 + 2 + (a + 1)) + 2 + (a + 1)); [lia|lia|].
  apply mul_close; [exact a0|apply inner; assumption|]. apply add_close; (apply div_close; [exact a0| |]).
  - apply xsize; assumption.
  - apply sub_close; auto.
  - apply ysize; assumption.
  - apply sub_close; auto.
Qed.
End E.

Section H.
Variables (k k2 : nat) (e e2 : Z) (z q : @cells (B64 L)) (zR qR : @cells RNum) (zM qM : @cells Magnitude).
Hypotheses (Pz : cclose k2 e2 z zR zM) (Pq : cclose k e q qR qM).
Let K := S (Nat.max (S k) (S (S (S (Nat.max k2 k2))))).
Let E := Z.max (e + (a + 1)) (Z.max e2 e2 + 2 + (a + 1) + (a + 1)) + 2.
Lemma memHxl_close : cclose K E (memHxl n th dx md z q) (memHxl n th dxR mdR zR qR) (memHxl n th dxM mdM zM qM).
Proof. unfold K, E, memHxl, mdR, mdM. cbn [image_med bHy cHy]. mem k k2 e e2. Qed.
Lemma memHxh_close : cclose K E (memHxh n m th dx md z q) (memHxh n m th dxR mdR zR qR) (memHxh n m th dxM mdM zM qM).
Proof. unfold K, E, memHxh, mdR, mdM. cbn [image_med bHy cHy]. mem k k2 e e2. Qed.
Lemma memHyl_close : cclose K E (memHyl m th dx md z q) (memHyl m th dxR mdR zR qR) (memHyl m th dxM mdM zM qM).
Proof. unfold K, E, memHyl, mdR, mdM. cbn [image_med bHx cHx]. mem k k2 e e2. Qed.
Lemma memHyh_close : cclose K E (memHyh n m th dx md z q) (memHyh n m th dxR mdR zR qR) (memHyh n m th dxM mdM zM qM).
Proof. unfold K, E, memHyh, mdR, mdM. cbn [image_med bHx cHx]. mem k k2 e e2. Qed.

Lemma yeeHx_close i j : 1 <= i < n - 1 -> 1 <= j < m - 1 ->
  close (S (Nat.max (S k) (3 + k2))) (Z.max (e + (a + 1)) (e2 + 2 + (a + 1) + (a + 1)) + 2)
    (yeeHx md z q i j) (yeeHx mdR zR qR i j) (yeeHx mdM zM qM i j).
Proof.
  intros Hi Hj. unfold yeeHx, mdR, mdM. cbn [image_med mDa mDb sHy].
  apply sub_close; [apply mul_close; [exact a0|apply inner; assumption|auto]|].
  apply close_le with (S (S (S (Nat.max k2 k2)))) (Z.max e2 e2 + 2 + (a + 1) + (a + 1)); [lia|lia|].
  apply div_close; [exact a0|apply ysize; assumption|]. apply mul_close; [exact a0|apply inner; assumption|]. apply sub_close; auto.
Qed.
Lemma yeeHy_close i j : 1 <= i < n - 1 -> 1 <= j < m - 1 ->
  close (S (Nat.max (S k) (3 + k2))) (Z.max (e + (a + 1)) (e2 + 2 + (a + 1) + (a + 1)) + 2)
    (yeeHy md z q i j) (yeeHy mdR zR qR i j) (yeeHy mdM zM qM i j).
Proof.
  intros Hi Hj. unfold yeeHy, mdR, mdM. cbn [image_med mDa mDb sHx].
  apply add_close; [apply mul_close; [exact a0|apply inner; assumption|auto]|].
  apply close_le with (S (S (S (Nat.max k2 k2)))) (Z.max e2 e2 + 2 + (a + 1) + (a + 1)); [lia|lia|].
  apply div_close; [exact a0|apply xsize; assumption|]. apply mul_close; [exact a0|apply inner; assumption|]. apply sub_close; auto.
Qed.
End H.

(** the electric half-step *)
Definition eclose k e (x : @emag (B64 L)) (y : @emag RNum) (z : @emag Magnitude) : Prop :=
  cclose k e (eE x) (eE y) (eE z) /\ cclose k e (eXl x) (eXl y) (eXl z) /\ cclose k e (eXh x) (eXh y) (eXh z) /\
  cclose k e (eYl x) (eYl y) (eYl z) /\ cclose k e (eYh x) (eYh y) (eYh z).
Definition hclose k e (x : @hmag (B64 L)) (y : @hmag RNum) (z : @hmag Magnitude) : Prop :=
  cclose k e (hX x) (hX y) (hX z) /\ cclose k e (hXl x) (hXl y) (hXl z) /\ cclose k e (hXh x) (hXh y) (hXh z) /\
  cclose k e (hY x) (hY y) (hY z) /\ cclose k e (hYl x) (hYl y) (hYl z) /\ cclose k e (hYh x) (hYh y) (hYh z).

Lemma cclose_le k k' e e' x y z : (k <= k')%nat -> (e <= e')%Z -> cclose k e x y z -> cclose k' e' x y z.
Proof. intros H1 H2 H i j. apply close_le with k e; [exact H1|exact H2|apply H]. Qed.

Lemma next_e_close k e u uR uM hx hy hxR hyR hxM hyM : (0 <= e)%Z -> eclose k e u uR uM ->
  cclose k e hx hxR hxM -> cclose k e hy hyR hyM ->
  eclose (k + 7) (e + (3 * a + 12)) (next_e n m th dx md hx hy u) (next_e n m th dxR mdR hxR hyR uR) (next_e n m th dxM mdM hxM hyM uM).
Proof.
  intros He (A1 & A2 & A3 & A4 & A5) Hx Hy.
  assert (B2 := memXl_close k k e e hy (eXl u) hyR (eXl uR) hyM (eXl uM) Hy A2).
  assert (B3 := memXh_close k k e e hy (eXh u) hyR (eXh uR) hyM (eXh uM) Hy A3).
  assert (B4 := memYl_close k k e e hx (eYl u) hxR (eYl uR) hxM (eYl uM) Hx A4).
  assert (B5 := memYh_close k k e e hx (eYh u) hxR (eYh uR) hxM (eYh uM) Hx A5).
  apply (cclose_le _ (k + 4) _ (e + (2 * a + 6))) in B2; [|lia|lia]. apply (cclose_le _ (k + 4) _ (e + (2 * a + 6))) in B3; [|lia|lia].
  apply (cclose_le _ (k + 4) _ (e + (2 * a + 6))) in B4; [|lia|lia]. apply (cclose_le _ (k + 4) _ (e + (2 * a + 6))) in B5; [|lia|lia].
  unfold eclose, next_e. cbv zeta. cbn [eE eXl eXh eYl eYh]. split.
  2: { split; [apply cclose_le with (3 := B2); lia|]. split; [apply cclose_le with (3 := B3); lia|].
       split; [apply cclose_le with (3 := B4); lia|]. apply cclose_le with (3 := B5); lia. }
  intros i j. destruct (core n m i j) eqn:C; [|apply close_le with (3 := A1 i j); lia].
  unfold core in C. cond C. assert (Hi : 1 <= i < n - 1) by lia. assert (Hj : 1 <= j < m - 1) by lia.
  assert (Y := yeeE_close k k e e hx hy (eE u) hxR hyR (eE uR) hxM hyM (eE uM) Hx Hy A1 i j Hi Hj).
  apply (close_le _ (k + 5) _ (e + (2 * a + 8))) in Y; [|lia|lia].
  assert (Z1 : close (k + 6) (e + (3 * a + 10))
     (addY m th md (memYl n th dx md hx (eYl u)) (memYh n m th dx md hx (eYh u)) (yeeE md hx hy (eE u)) i j)
     (addY m th mdR (memYl n th dxR mdR hxR (eYl uR)) (memYh n m th dxR mdR hxR (eYh uR)) (yeeE mdR hxR hyR (eE uR)) i j)
     (addY m th mdM (memYl n th dxM mdM hxM (eYl uM)) (memYh n m th dxM mdM hxM (eYh uM)) (yeeE mdM hxM hyM (eE uM)) i j)).
  { unfold addY. destruct (j <=? th) eqn:D1; [|destruct (m - 1 - th <=? j) eqn:D2].
    - apply close_le with (S (Nat.max (k + 5) (S (k + 4)))) (Z.max (e + (2 * a + 8)) (e + (2 * a + 6) + (a + 1)) + 2); [lia|lia|].
      apply sub_close; [exact Y|]. unfold mdR, mdM. cbn [image_med mCb]. apply mul_close; [exact a0|apply inner; assumption|apply B4].
    - apply close_le with (S (Nat.max (k + 5) (S (k + 4)))) (Z.max (e + (2 * a + 8)) (e + (2 * a + 6) + (a + 1)) + 2); [lia|lia|].
      apply sub_close; [exact Y|]. unfold mdR, mdM. cbn [image_med mCb]. apply mul_close; [exact a0|apply inner; assumption|apply B5].
    - apply close_le with (3 := Y); lia. }
  unfold addX at 1 2 3. destruct (i <=? th) eqn:D1; [|destruct (n - 1 - th <=? i) eqn:D2].
  - apply close_le with (S (Nat.max (k + 6) (S (k + 4)))) (Z.max (e + (3 * a + 10)) (e + (2 * a + 6) + (a + 1)) + 2); [lia|lia|].
    apply add_close; [exact Z1|]. unfold mdR, mdM. cbn [image_med mCb]. apply mul_close; [exact a0|apply inner; assumption|apply B2].
  - apply close_le with (S (Nat.max (k + 6) (S (k + 4)))) (Z.max (e + (3 * a + 10)) (e + (2 * a + 6) + (a + 1)) + 2); [lia|lia|].
    apply add_close; [exact Z1|]. unfold mdR, mdM. cbn [image_med mCb]. apply mul_close; [exact a0|apply inner; assumption|apply B3].
  - apply close_le with (3 := Z1); lia.
Qed.

Lemma next_h_close k e k2 e2 z zR zM h hR hM : (0 <= e <= e2)%Z -> (k <= k2)%nat -> hclose k e h hR hM -> cclose k2 e2 z zR zM ->
  hclose (k2 + 6) (e2 + (3 * a + 9)) (next_h n m th dx md z h) (next_h n m th dxR mdR zR hR) (next_h n m th dxM mdM zM hM).
Proof.
  intros He Hk (A1 & A2 & A3 & A4 & A5 & A6) Hz.
  assert (B2 := memHxl_close k k2 e e2 z (hXl h) zR (hXl hR) zM (hXl hM) Hz A2).
  assert (B3 := memHxh_close k k2 e e2 z (hXh h) zR (hXh hR) zM (hXh hM) Hz A3).
  assert (B5 := memHyl_close k k2 e e2 z (hYl h) zR (hYl hR) zM (hYl hM) Hz A5).
  assert (B6 := memHyh_close k k2 e e2 z (hYh h) zR (hYh hR) zM (hYh hM) Hz A6).
  apply (cclose_le _ (k2 + 4) _ (e2 + (2 * a + 6))) in B2; [|lia|lia]. apply (cclose_le _ (k2 + 4) _ (e2 + (2 * a + 6))) in B3; [|lia|lia].
  apply (cclose_le _ (k2 + 4) _ (e2 + (2 * a + 6))) in B5; [|lia|lia]. apply (cclose_le _ (k2 + 4) _ (e2 + (2 * a + 6))) in B6; [|lia|lia].
  unfold hclose, next_h. cbv zeta. cbn [hX hXl hXh hY hYl hYh].
  split; [|split; [apply cclose_le with (3 := B2); lia|split; [apply cclose_le with (3 := B3); lia|]]].
  2: split; [|split; [apply cclose_le with (3 := B5); lia|apply cclose_le with (3 := B6); lia]].
  - intros i j. destruct (core n m i j) eqn:C; [|apply close_le with (3 := A1 i j); lia].
    unfold core in C. cond C. assert (Hi : 1 <= i < n - 1) by lia. assert (Hj : 1 <= j < m - 1) by lia.
    assert (Y := yeeHx_close k k2 e e2 z (hX h) zR (hX hR) zM (hX hM) Hz A1 i j Hi Hj).
    apply (close_le _ (k2 + 4) _ (e2 + (2 * a + 6))) in Y; [|lia|lia].
    unfold addHx. destruct (j <? th) eqn:D1; [|destruct ((m - 1 - th <=? j) && (j <? m - 2)) eqn:D2].
    + apply close_le with (S (Nat.max (k2 + 4) (S (k2 + 4)))) (Z.max (e2 + (2 * a + 6)) (e2 + (2 * a + 6) + (a + 1)) + 2); [lia|lia|].
      apply sub_close; [exact Y|]. unfold mdR, mdM. cbn [image_med mDb]. apply mul_close; [exact a0|apply inner; assumption|apply B2].
    + apply close_le with (S (Nat.max (k2 + 4) (S (k2 + 4)))) (Z.max (e2 + (2 * a + 6)) (e2 + (2 * a + 6) + (a + 1)) + 2); [lia|lia|].
      apply sub_close; [exact Y|]. unfold mdR, mdM. cbn [image_med mDb]. apply mul_close; [exact a0|apply inner; assumption|apply B3].
    + apply close_le with (3 := Y); lia.
  - intros i j. destruct (core n m i j) eqn:C; [|apply close_le with (3 := A4 i j); lia].
    unfold core in C. cond C. assert (Hi : 1 <= i < n - 1) by lia. assert (Hj : 1 <= j < m - 1) by lia.
    assert (Y := yeeHy_close k k2 e e2 z (hY h) zR (hY hR) zM (hY hM) Hz A4 i j Hi Hj).
    apply (close_le _ (k2 + 4) _ (e2 + (2 * a + 6))) in Y; [|lia|lia].
    unfold addHy. destruct (i <? th) eqn:D1; [|destruct ((n - 1 - th <=? i) && (i <? n - 2)) eqn:D2].
    + apply close_le with (S (Nat.max (k2 + 4) (S (k2 + 4)))) (Z.max (e2 + (2 * a + 6)) (e2 + (2 * a + 6) + (a + 1)) + 2); [lia|lia|].
      apply add_close; [exact Y|]. unfold mdR, mdM. cbn [image_med mDb]. apply mul_close; [exact a0|apply inner; assumption|apply B5].
    + apply close_le with (S (Nat.max (k2 + 4) (S (k2 + 4)))) (Z.max (e2 + (2 * a + 6)) (e2 + (2 * a + 6) + (a + 1)) + 2); [lia|lia|].
      apply add_close; [exact Y|]. unfold mdR, mdM. cbn [image_med mDb]. apply mul_close; [exact a0|apply inner; assumption|apply B6].
    + apply close_le with (3 := Y); lia.
Qed.

(** the whole step *)
Definition sclose k e (u : @emag (B64 L) * @hmag (B64 L)) (v : @emag RNum * @hmag RNum) (c : @emag Magnitude * @hmag Magnitude) : Prop :=
  eclose k e (fst u) (fst v) (fst c) /\ hclose k e (snd u) (snd v) (snd c).

Lemma step_close k e u v c : (0 <= e)%Z -> sclose k e u v c ->
  sclose (k + 13) (e + (6 * a + 21)) (yee_step n m th dx md u) (yee_step n m th dxR mdR v) (yee_step n m th dxM mdM c).
Proof.
  intros He [A B]. unfold yee_step. cbv zeta. 
  assert (C := next_e_close k e _ _ _ _ _ _ _ _ _ He A (proj1 B) (proj1 (proj2 (proj2 (proj2 B))))).
  split; cbn [fst snd].
  - destruct C as (C1 & C2 & C3 & C4 & C5). refine (conj _ (conj _ (conj _ (conj _ _)))); (eapply cclose_le; [| |eassumption]; lia).
  - assert (D := next_h_close k e (k + 7) (e + (3 * a + 12)) _ _ _ _ _ _ ltac:(lia) ltac:(lia) B (proj1 C)).
    destruct D as (D1 & D2 & D3 & D4 & D5 & D6). refine (conj _ (conj _ (conj _ (conj _ (conj _ _))))); (eapply cclose_le; [| |eassumption]; lia).
Qed.
End Step.
