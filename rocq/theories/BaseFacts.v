(** Facts about outcomes, arrays and loops. *)
From Coq Require Import ZArith String List Bool Lia.
From Coq Require Import ZifyBool.
From Verif Require Import Scalar Base.
Import ListNotations.
Local Open Scope Z_scope.

Lemma bind_ok {A B} (m : res A) (k : A -> res B) b :
  bind m k = Ok b -> exists a, m = Ok a /\ k a = Ok b.
Proof. destruct m; simpl; intros H; try discriminate; eauto. Qed.

Lemma ofOption_ok {A} u (o : option A) a : ofOption u o = Ok a -> o = Some a.
Proof. destruct o; simpl; congruence. Qed.

(** invert hypotheses [... = Ok _] made of binds *)
Ltac inv_ok :=
  repeat match goal with
  | H : bind ?m ?k = Ok ?b |- _ =>
      let a := fresh "r" in let H1 := fresh "Hr" in
      apply bind_ok in H; destruct H as [a [H1 H]]
  | H : Ok ?a = Ok ?b |- _ => injection H as H; try subst
  | H : Throw _ = Ok _ |- _ => discriminate H
  | H : UB _ = Ok _ |- _ => discriminate H
  end.

Lemma in_i32_spec z : in_i32 z = true <-> INT_MIN <= z <= INT_MAX.
Proof. unfold in_i32, INT_MIN, INT_MAX. lia. Qed.

Lemma i32_ok z : INT_MIN <= z <= INT_MAX -> i32 z = Ok z.
Proof. intros H. unfold i32. apply in_i32_spec in H. now rewrite H. Qed.

Lemma cast_i32_ok z : INT_MIN <= z <= INT_MAX -> cast_i32 z = Some z.
Proof. intros H. unfold cast_i32. apply in_i32_spec in H. now rewrite H. Qed.

Lemma cast_i32_some z w : cast_i32 z = Some w -> w = z /\ INT_MIN <= z <= INT_MAX.
Proof.
  unfold cast_i32. destruct (in_i32 z) eqn:E; [|discriminate].
  intros H. injection H as <-. split; [reflexivity|]. now apply in_i32_spec.
Qed.

Lemma inr_true n i : inr n i = true <-> 0 <= i < n.
Proof. unfold inr. lia. Qed.
Lemma inr_false n i : inr n i = false <-> ~ (0 <= i < n).
Proof. unfold inr. lia. Qed.

(** ** Loops *)

Lemma for_n_inv {A} (P : Z -> A -> Prop) (body : Z -> A -> res A) n : forall lo a,
  P lo a ->
  (forall i a, lo <= i < lo + Z.of_nat n -> P i a -> exists a', body i a = Ok a' /\ P (i + 1) a') ->
  exists a', for_n lo n body a = Ok a' /\ P (lo + Z.of_nat n) a'.
Proof.
  induction n as [|n IH]; intros lo a H0 Hs.
  - exists a. simpl. rewrite Z.add_0_r. auto.
  - destruct (Hs lo a) as [a' [Ha Hp]]; [lia|exact H0|].
    destruct (IH (lo + 1) a' Hp) as [a'' [Hb Hq]].
    { intros i b Hi Hpi. apply Hs; [lia|exact Hpi]. }
    exists a''. cbn [for_n]. rewrite Ha. cbn [bind]. split; [exact Hb|].
    replace (lo + Z.of_nat (S n)) with (lo + 1 + Z.of_nat n) by lia. exact Hq.
Qed.

Lemma for_up_inv {A} (P : Z -> A -> Prop) (body : Z -> A -> res A) lo hi a :
  lo <= hi -> P lo a ->
  (forall i a, lo <= i < hi -> P i a -> exists a', body i a = Ok a' /\ P (i + 1) a') ->
  exists a', for_up lo hi body a = Ok a' /\ P hi a'.
Proof.
  intros Hle H0 Hs. unfold for_up.
  destruct (for_n_inv P body (Z.to_nat (hi - lo)) lo a H0) as [a' [Ha Hp]].
  { intros i b Hi. apply Hs. lia. }
  exists a'. split; [exact Ha|]. replace hi with (lo + Z.of_nat (Z.to_nat (hi - lo))) by lia. exact Hp.
Qed.

Lemma for_up_empty {A} (body : Z -> A -> res A) lo hi a : hi <= lo -> for_up lo hi body a = Ok a.
Proof. intros H. unfold for_up. replace (Z.to_nat (hi - lo)) with O by lia. reflexivity. Qed.

Lemma for_n_ext {A} (b1 b2 : Z -> A -> res A) n : forall lo a,
  (forall i a, lo <= i < lo + Z.of_nat n -> b1 i a = b2 i a) -> for_n lo n b1 a = for_n lo n b2 a.
Proof.
  induction n as [|n IH]; intros lo a H; [reflexivity|].
  cbn [for_n]. rewrite (H lo a) by lia. destruct (b2 lo a); cbn [bind]; try reflexivity.
  apply IH. intros i b Hi. apply H. lia.
Qed.

Lemma for_up_ext {A} (b1 b2 : Z -> A -> res A) lo hi a :
  (forall i a, lo <= i < hi -> b1 i a = b2 i a) -> for_up lo hi b1 a = for_up lo hi b2 a.
Proof. intros H. apply for_n_ext. intros i b Hi. apply H. lia. Qed.

(** what a finished loop satisfies, without knowing in advance that it finishes *)
Lemma for_n_post {A} (P : Z -> A -> Prop) (body : Z -> A -> res A) n : forall lo a a',
  P lo a ->
  (forall i a b, lo <= i < lo + Z.of_nat n -> P i a -> body i a = Ok b -> P (i + 1) b) ->
  for_n lo n body a = Ok a' -> P (lo + Z.of_nat n) a'.
Proof.
  induction n as [|n IH]; intros lo a a' H0 Hs Hr.
  - cbn [for_n] in Hr. injection Hr as <-. simpl. rewrite Z.add_0_r. exact H0.
  - cbn [for_n] in Hr. apply bind_ok in Hr. destruct Hr as [b [Hb Hr]].
    replace (lo + Z.of_nat (S n)) with (lo + 1 + Z.of_nat n) by lia.
    apply (IH (lo + 1) b a'); [apply (Hs lo a b); [lia|exact H0|exact Hb]| |exact Hr].
    intros i x y Hi. apply Hs. lia.
Qed.

Lemma for_up_post {A} (P : Z -> A -> Prop) (body : Z -> A -> res A) lo hi a a' :
  lo <= hi -> P lo a ->
  (forall i a b, lo <= i < hi -> P i a -> body i a = Ok b -> P (i + 1) b) ->
  for_up lo hi body a = Ok a' -> P hi a'.
Proof.
  intros Hle H0 Hs Hr. replace hi with (lo + Z.of_nat (Z.to_nat (hi - lo))) by lia.
  eapply for_n_post; [exact H0| |exact Hr]. intros i x y Hi. apply Hs. lia.
Qed.

(** an invariant that does not depend on the index *)
Lemma for_up_pres {A} (P : A -> Prop) (body : Z -> A -> res A) lo hi a a' :
  P a -> (forall i a b, lo <= i < hi -> P a -> body i a = Ok b -> P b) ->
  for_up lo hi body a = Ok a' -> P a'.
Proof.
  intros H0 Hs Hr. destruct (Z.le_gt_cases lo hi) as [Hle|Hgt].
  - apply (for_up_post (fun _ => P) body lo hi a a' Hle H0); [|exact Hr].
    intros i x y Hi. now apply Hs.
  - rewrite for_up_empty in Hr by lia. injection Hr as <-. exact H0.
Qed.

(** ** One-dimensional in-place update: each index rewrites only its own cell *)
Lemma for1_cells {S C} (get : S -> Z -> C) (Fr : S -> Prop) (g : Z -> C)
    (body : Z -> S -> res S) lo hi s0 :
  Fr s0 ->
  (forall i s, lo <= i < hi -> Fr s -> get s i = get s0 i ->
     exists s', body i s = Ok s' /\ Fr s' /\ get s' i = g i /\
                (forall i', i' <> i -> get s' i' = get s i')) ->
  exists s', for_up lo hi body s0 = Ok s' /\ Fr s' /\
    (forall i, lo <= i < hi -> get s' i = g i) /\
    (forall i, ~ (lo <= i < hi) -> get s' i = get s0 i).
Proof.
  intros H0 Hs. destruct (Z.le_gt_cases lo hi) as [Hle|Hgt].
  2:{ exists s0. rewrite for_up_empty by lia. repeat split; auto. intros; lia. }
  destruct (for_up_inv (fun n s => Fr s /\ (forall i, lo <= i < n -> get s i = g i) /\
                                   (forall i, ~ (lo <= i < n) -> get s i = get s0 i))
              body lo hi s0 Hle) as [s' [Hr [Hf [Hg Hn]]]].
  - split; [exact H0|]. split; intros; [lia|reflexivity].
  - intros i s Hi [Hf [Hg Hn]].
    destruct (Hs i s Hi Hf (Hn i ltac:(lia))) as [s' [Hb [Hf' [Hgi Ho]]]].
    exists s'. split; [exact Hb|]. split; [exact Hf'|]. split.
    + intros k Hk. destruct (Z.eq_dec k i) as [->|Hne]; [exact Hgi|].
      rewrite Ho by exact Hne. apply Hg. lia.
    + intros k Hk. rewrite Ho by lia. apply Hn. lia.
  - exists s'. repeat split; auto.
Qed.

(** ** Two-dimensional loops *)
Definition for2 {A} (lo1 hi1 lo2 hi2 : Z) (body : Z -> Z -> A -> res A) (a : A) : res A :=
  for_up lo1 hi1 (fun i a => for_up lo2 hi2 (fun j a => body i j a) a) a.

Lemma for2_cells {S C} (get : S -> Z -> Z -> C) (Fr : S -> Prop) (g : Z -> Z -> C)
    (body : Z -> Z -> S -> res S) lo1 hi1 lo2 hi2 s0 :
  Fr s0 ->
  (forall i j s, lo1 <= i < hi1 -> lo2 <= j < hi2 -> Fr s -> get s i j = get s0 i j ->
     exists s', body i j s = Ok s' /\ Fr s' /\ get s' i j = g i j /\
                (forall i' j', ~ (i' = i /\ j' = j) -> get s' i' j' = get s i' j')) ->
  exists s', for_up lo1 hi1 (fun i a => for_up lo2 hi2 (fun j a => body i j a) a) s0 = Ok s' /\ Fr s' /\
    (forall i j, lo1 <= i < hi1 -> lo2 <= j < hi2 -> get s' i j = g i j) /\
    (forall i j, ~ (lo1 <= i < hi1 /\ lo2 <= j < hi2) -> get s' i j = get s0 i j).
Proof.
  intros H0 Hs. destruct (Z.le_gt_cases lo1 hi1) as [Hle|Hgt].
  2:{ exists s0. rewrite for_up_empty by lia. repeat split; auto; intros; lia. }
  destruct (for_up_inv (fun n s => Fr s /\
       (forall i j, lo1 <= i < n -> lo2 <= j < hi2 -> get s i j = g i j) /\
       (forall i j, ~ (lo1 <= i < n /\ lo2 <= j < hi2) -> get s i j = get s0 i j))
     (fun i a => for_up lo2 hi2 (fun j a => body i j a) a) lo1 hi1 s0 Hle)
    as [s' [Hr [Hf [Hg Hn]]]].
  - split; [exact H0|]. split; intros; [lia|reflexivity].
  - intros i s Hi [Hf [Hg Hn]].
    destruct (Z.le_gt_cases lo2 hi2) as [Hle2|Hgt2].
    2:{ exists s. rewrite for_up_empty by lia. split; [reflexivity|]. split; [exact Hf|].
        split; intros; [lia|apply Hn; lia]. }
    destruct (for_up_inv (fun n s' => Fr s' /\
        (forall j, lo2 <= j < n -> get s' i j = g i j) /\
        (forall i' j', ~ (i' = i /\ lo2 <= j' < n) -> get s' i' j' = get s i' j'))
        (fun j a => body i j a) lo2 hi2 s Hle2) as [s' [Hr [Hf' [Hg' Hn']]]].
    + split; [exact Hf|]. split; intros; [lia|reflexivity].
    + intros j s1 Hj [Hf1 [Hg1 Hn1]].
      destruct (Hs i j s1 Hi Hj Hf1) as [s2 [Hb [Hf2 [Hgi Ho]]]].
      { rewrite Hn1 by lia. apply Hn. lia. }
      exists s2. split; [exact Hb|]. split; [exact Hf2|]. split.
      * intros k Hk. destruct (Z.eq_dec k j) as [->|Hne]; [exact Hgi|].
        rewrite Ho by lia. apply Hg1. lia.
      * intros i' j' Hk. rewrite Ho by lia. apply Hn1. lia.
    + exists s'. split; [exact Hr|]. split; [exact Hf'|]. split.
      * intros i' j' Hi' Hj'. destruct (Z.eq_dec i' i) as [->|Hne]; [apply Hg'; lia|].
        rewrite Hn' by lia. apply Hg; lia.
      * intros i' j' Hk. rewrite Hn' by lia. apply Hn. lia.
  - exists s'. repeat split; auto.
Qed.

(** the same for a loop that is known to have finished *)
Lemma for2_cells_post {S C} (get : S -> Z -> Z -> C) (Fr : S -> Prop) (g : Z -> Z -> C)
    (body : Z -> Z -> S -> res S) lo1 hi1 lo2 hi2 s0 s1 :
  Fr s0 ->
  (forall i j s s', lo1 <= i < hi1 -> lo2 <= j < hi2 -> Fr s -> get s i j = get s0 i j ->
     body i j s = Ok s' -> Fr s' /\ get s' i j = g i j /\
                (forall i' j', ~ (i' = i /\ j' = j) -> get s' i' j' = get s i' j')) ->
  for_up lo1 hi1 (fun i a => for_up lo2 hi2 (fun j a => body i j a) a) s0 = Ok s1 ->
  Fr s1 /\
    (forall i j, lo1 <= i < hi1 -> lo2 <= j < hi2 -> get s1 i j = g i j) /\
    (forall i j, ~ (lo1 <= i < hi1 /\ lo2 <= j < hi2) -> get s1 i j = get s0 i j).
Proof.
  intros H0 Hs Hr. destruct (Z.le_gt_cases lo1 hi1) as [Hle|Hgt].
  2:{ rewrite for_up_empty in Hr by lia. injection Hr as <-. repeat split; auto; intros; lia. }
  apply (for_up_post (fun n s => Fr s /\
       (forall i j, lo1 <= i < n -> lo2 <= j < hi2 -> get s i j = g i j) /\
       (forall i j, ~ (lo1 <= i < n /\ lo2 <= j < hi2) -> get s i j = get s0 i j))
     (fun i a => for_up lo2 hi2 (fun j a => body i j a) a) lo1 hi1 s0 s1 Hle); [| |exact Hr].
  - split; [exact H0|]. split; intros; [lia|reflexivity].
  - intros i s s' Hi [Hf [Hg Hn]] Hb.
    destruct (Z.le_gt_cases lo2 hi2) as [Hle2|Hgt2].
    2:{ rewrite for_up_empty in Hb by lia. injection Hb as <-. split; [exact Hf|].
        split; intros; [lia|apply Hn; lia]. }
    assert (HP : Fr s' /\
        (forall j, lo2 <= j < hi2 -> get s' i j = g i j) /\
        (forall i' j', ~ (i' = i /\ lo2 <= j' < hi2) -> get s' i' j' = get s i' j')).
    { apply (for_up_post (fun n s' => Fr s' /\
        (forall j, lo2 <= j < n -> get s' i j = g i j) /\
        (forall i' j', ~ (i' = i /\ lo2 <= j' < n) -> get s' i' j' = get s i' j'))
        (fun j a => body i j a) lo2 hi2 s s' Hle2); [| |exact Hb].
      - split; [exact Hf|]. split; intros; [lia|reflexivity].
      - intros j s2 s3 Hj [Hf1 [Hg1 Hn1]] Hb3.
        destruct (Hs i j s2 s3 Hi Hj Hf1) as [Hf2 [Hgi Ho]]; [|exact Hb3|].
        { rewrite Hn1 by lia. apply Hn. lia. }
        split; [exact Hf2|]. split.
        + intros k Hk. destruct (Z.eq_dec k j) as [->|Hne]; [exact Hgi|].
          rewrite Ho by lia. apply Hg1. lia.
        + intros i' j' Hk. rewrite Ho by lia. apply Hn1. lia. }
    destruct HP as [Hf' [Hg' Hn']]. split; [exact Hf'|]. split.
    + intros i' j' Hi' Hj'. destruct (Z.eq_dec i' i) as [->|Hne]; [apply Hg'; lia|].
      rewrite Hn' by lia. apply Hg; lia.
    + intros i' j' Hk. rewrite Hn' by lia. apply Hn. lia.
Qed.

(** a loop that keeps an invariant finishes *)
Lemma for_up_total {A} (P : A -> Prop) (body : Z -> A -> res A) lo hi a :
  P a -> (forall i a, lo <= i < hi -> P a -> exists a', body i a = Ok a' /\ P a') ->
  exists a', for_up lo hi body a = Ok a' /\ P a'.
Proof.
  intros H0 Hs. destruct (Z.le_gt_cases lo hi) as [Hle|Hgt].
  - apply (for_up_inv (fun _ => P)); auto.
  - exists a. rewrite for_up_empty by lia. auto.
Qed.
Lemma for2_total {A} (P : A -> Prop) (body : Z -> Z -> A -> res A) lo1 hi1 lo2 hi2 a :
  P a -> (forall i j a, lo1 <= i < hi1 -> lo2 <= j < hi2 -> P a -> exists a', body i j a = Ok a' /\ P a') ->
  exists a', for_up lo1 hi1 (fun i a => for_up lo2 hi2 (fun j a => body i j a) a) a = Ok a' /\ P a'.
Proof.
  intros H0 Hs. apply for_up_total; [exact H0|]. intros i b Hi Hb. apply for_up_total; auto.
Qed.

(** in-place loops whose iteration (i, j) owns a set of keys, different for each iteration *)
Lemma for2_keys {S K C} (get : S -> K -> C) (Fr : S -> Prop) (own : Z -> Z -> K -> Prop) (g : K -> C)
    (body : Z -> Z -> S -> res S) lo1 hi1 lo2 hi2 s0 :
  Fr s0 ->
  (forall i j i' j' k, lo1 <= i < hi1 -> lo2 <= j < hi2 -> lo1 <= i' < hi1 -> lo2 <= j' < hi2 ->
     own i j k -> own i' j' k -> i = i' /\ j = j') ->
  (forall i j s, lo1 <= i < hi1 -> lo2 <= j < hi2 -> Fr s ->
     (forall k, own i j k -> get s k = get s0 k) ->
     exists s', body i j s = Ok s' /\ Fr s' /\ (forall k, own i j k -> get s' k = g k) /\
                (forall k, ~ own i j k -> get s' k = get s k)) ->
  exists s', for_up lo1 hi1 (fun i a => for_up lo2 hi2 (fun j a => body i j a) a) s0 = Ok s' /\ Fr s' /\
    (forall i j k, lo1 <= i < hi1 -> lo2 <= j < hi2 -> own i j k -> get s' k = g k) /\
    (forall k, (forall i j, lo1 <= i < hi1 -> lo2 <= j < hi2 -> ~ own i j k) -> get s' k = get s0 k).
Proof.
  intros H0 Hdis Hs. destruct (Z.le_gt_cases lo1 hi1) as [Hle|Hgt].
  2:{ exists s0. rewrite for_up_empty by lia. split; [reflexivity|]. split; [exact H0|].
      split; [intros; lia|reflexivity]. }
  destruct (for_up_inv (fun n s => Fr s /\
       (forall i j k, lo1 <= i < n -> lo2 <= j < hi2 -> own i j k -> get s k = g k) /\
       (forall k, (forall i j, lo1 <= i < n -> lo2 <= j < hi2 -> ~ own i j k) -> get s k = get s0 k))
     (fun i a => for_up lo2 hi2 (fun j a => body i j a) a) lo1 hi1 s0 Hle)
    as [s' [Hr [Hf [Hg Hn]]]].
  - split; [exact H0|]. split; [intros; lia|reflexivity].
  - intros i s Hi [Hf [Hg Hn]].
    destruct (Z.le_gt_cases lo2 hi2) as [Hle2|Hgt2].
    2:{ exists s. rewrite for_up_empty by lia. split; [reflexivity|]. split; [exact Hf|].
        split; [intros; lia|]. intros k Hk. apply Hn. intros; lia. }
    destruct (for_up_inv (fun n s' => Fr s' /\
        (forall j k, lo2 <= j < n -> own i j k -> get s' k = g k) /\
        (forall k, (forall j, lo2 <= j < n -> ~ own i j k) -> get s' k = get s k))
        (fun j a => body i j a) lo2 hi2 s Hle2) as [s' [Hr [Hf' [Hg' Hn']]]].
    + split; [exact Hf|]. split; [intros; lia|reflexivity].
    + intros j s1 Hj [Hf1 [Hg1 Hn1]].
      destruct (Hs i j s1 Hi Hj Hf1) as [s2 [Hb [Hf2 [Hgi Ho]]]].
      { intros k Hk. rewrite Hn1.
        - apply Hn. intros i' j' Hi' Hj' Hk'.
          destruct (Hdis i j i' j' k); auto; lia.
        - intros j' Hj' Hk'. destruct (Hdis i j i j' k); auto; lia. }
      exists s2. split; [exact Hb|]. split; [exact Hf2|]. split.
      * intros j' k Hj' Hk. destruct (Z.eq_dec j' j) as [->|Hne]; [now apply Hgi|].
        rewrite Ho; [apply (Hg1 j' k); [lia|exact Hk]|].
        intros Hk'. destruct (Hdis i j i j' k); auto; lia.
      * intros k Hk. rewrite Ho by (apply Hk; lia). apply Hn1. intros j' Hj'. apply Hk. lia.
    + exists s'. split; [exact Hr|]. split; [exact Hf'|]. split.
      * intros i' j' k Hi' Hj' Hk. destruct (Z.eq_dec i' i) as [->|Hne]; [now apply (Hg' j')|].
        rewrite Hn'; [apply (Hg i' j'); [lia|exact Hj'|exact Hk]|].
        intros j2 Hj2 Hk2. destruct (Hdis i j2 i' j' k); auto; lia.
      * intros k Hk. rewrite Hn'; [apply Hn; intros i' j' Hi' Hj'; apply Hk; lia|].
        intros j' Hj'. apply Hk; lia.
  - exists s'. auto.
Qed.

(** ** Arrays *)
Section Arr.
Context {N : Num}.

Lemma aget_ok a i : 0 <= i < alen a -> aget a i = Ok (aval a i).
Proof. intros H. unfold aget. apply inr_true in H. now rewrite H. Qed.
Lemma aget_inv a i v : aget a i = Ok v -> v = aval a i /\ 0 <= i < alen a.
Proof.
  unfold aget. destruct (inr (alen a) i) eqn:E; [|discriminate].
  intros H. injection H as <-. apply inr_true in E. auto.
Qed.
Lemma aset_ok a i v : 0 <= i < alen a ->
  aset a i v = Ok (Arr (alen a) (fun i' => if i' =? i then v else aval a i')).
Proof. intros H. unfold aset. apply inr_true in H. now rewrite H. Qed.

Lemma tget_ok a i j : 0 <= i < rows a -> 0 <= j < cols a -> tget a i j = Ok (tval a i j).
Proof.
  intros H1 H2. unfold tget. apply inr_true in H1, H2. now rewrite H1, H2.
Qed.
Lemma tget_inv a i j v : tget a i j = Ok v -> v = tval a i j /\ 0 <= i < rows a /\ 0 <= j < cols a.
Proof.
  unfold tget. destruct (inr (rows a) i && inr (cols a) j) eqn:E; [|discriminate].
  intros H. injection H as <-. apply andb_true_iff in E. destruct E as [E1 E2].
  apply inr_true in E1, E2. auto.
Qed.
Lemma tget_oob a i j : ~ (0 <= i < rows a /\ 0 <= j < cols a) -> tget a i j = UB OutOfBounds.
Proof.
  intros H. unfold tget. destruct (inr (rows a) i && inr (cols a) j) eqn:E; [|reflexivity].
  apply andb_true_iff in E. destruct E as [E1 E2]. apply inr_true in E1, E2. tauto.
Qed.
Lemma tset_ok a i j v : 0 <= i < rows a -> 0 <= j < cols a -> tset a i j v = Ok (tupd a i j v).
Proof.
  intros H1 H2. unfold tset. apply inr_true in H1, H2. now rewrite H1, H2.
Qed.
Lemma tset_inv a i j v b : tset a i j v = Ok b -> b = tupd a i j v /\ 0 <= i < rows a /\ 0 <= j < cols a.
Proof.
  unfold tset. destruct (inr (rows a) i && inr (cols a) j) eqn:E; [|discriminate].
  intros H. injection H as <-. apply andb_true_iff in E. destruct E as [E1 E2].
  apply inr_true in E1, E2. auto.
Qed.
Lemma tset_oob a i j v : ~ (0 <= i < rows a /\ 0 <= j < cols a) -> tset a i j v = UB OutOfBounds.
Proof.
  intros H. unfold tset. destruct (inr (rows a) i && inr (cols a) j) eqn:E; [|reflexivity].
  apply andb_true_iff in E. destruct E as [E1 E2]. apply inr_true in E1, E2. tauto.
Qed.

Lemma tupd_same a i j v : tval (tupd a i j v) i j = v.
Proof. simpl. rewrite !Z.eqb_refl. reflexivity. Qed.
Lemma tupd_other a i j v i' j' : ~ (i' = i /\ j' = j) -> tval (tupd a i j v) i' j' = tval a i' j'.
Proof.
  intros H. simpl. destruct ((i' =? i) && (j' =? j)) eqn:E; [|reflexivity].
  exfalso. apply H. lia.
Qed.
Lemma rows_tupd a i j v : rows (tupd a i j v) = rows a. Proof. reflexivity. Qed.
Lemma cols_tupd a i j v : cols (tupd a i j v) = cols a. Proof. reflexivity. Qed.

Lemma t3get_ok a i j k : 0 <= i < dim1 a -> 0 <= j < dim2 a -> 0 <= k < dim3 a ->
  t3get a i j k = Ok (t3val a i j k).
Proof.
  intros H1 H2 H3. unfold t3get, in3. apply inr_true in H1, H2, H3. now rewrite H1, H2, H3.
Qed.
Lemma t3set_ok a i j k v : 0 <= i < dim1 a -> 0 <= j < dim2 a -> 0 <= k < dim3 a ->
  t3set a i j k v = Ok (t3upd a i j k v).
Proof.
  intros H1 H2 H3. unfold t3set, in3. apply inr_true in H1, H2, H3. now rewrite H1, H2, H3.
Qed.
Lemma t3upd_same a i j k v : t3val (t3upd a i j k v) i j k = v.
Proof. simpl. rewrite !Z.eqb_refl. reflexivity. Qed.
Lemma t3upd_other a i j k v i' j' k' : ~ (i' = i /\ j' = j /\ k' = k) ->
  t3val (t3upd a i j k v) i' j' k' = t3val a i' j' k'.
Proof.
  intros H. simpl. destruct ((i' =? i) && (j' =? j) && (k' =? k)) eqn:E; [|reflexivity].
  exfalso. apply H. lia.
Qed.

End Arr.

(** ** Lists *)
Lemma mapM_length {A B} (f : A -> res B) l r : mapM f l = Ok r -> length r = length l.
Proof.
  revert r. induction l as [|x l IH]; simpl; intros r H; inv_ok; [reflexivity|].
  simpl. f_equal. now apply IH.
Qed.

Lemma mapM_ok {A B} (f : A -> res B) (g : A -> B) l :
  (forall x, In x l -> f x = Ok (g x)) -> mapM f l = Ok (map g l).
Proof.
  induction l as [|x l IH]; simpl; intros H; [reflexivity|].
  rewrite H by auto. simpl. rewrite IH by auto. reflexivity.
Qed.

Lemma mapM_inv {A B} (f : A -> res B) l r : mapM f l = Ok r ->
  forall n x, nth_error l n = Some x -> exists y, nth_error r n = Some y /\ f x = Ok y.
Proof.
  revert r. induction l as [|x l IH]; simpl; intros r H n a Hn.
  - destruct n; discriminate.
  - inv_ok. destruct n; simpl in *.
    + injection Hn as <-. eauto.
    + eapply IH; eauto.
Qed.

Lemma zseq_In lo n x : In x (zseq lo n) <-> lo <= x < lo + Z.of_nat n.
Proof.
  revert lo. induction n as [|n IH]; intros lo; cbn [zseq In]; [lia|].
  rewrite IH. lia.
Qed.
Lemma zrange_In lo hi x : In x (zrange lo hi) <-> lo <= x < hi.
Proof. unfold zrange. rewrite zseq_In. lia. Qed.
Lemma zseq_length lo n : length (zseq lo n) = n.
Proof. revert lo. induction n; simpl; auto. Qed.
Lemma zseq_nth lo n k d : (k < n)%nat -> nth k (zseq lo n) d = lo + Z.of_nat k.
Proof.
  revert lo k. induction n as [|n IH]; intros lo k H; [lia|].
  destruct k; cbn [zseq nth]; [lia|]. rewrite IH by lia. lia.
Qed.

Lemma foldM_app {A B} (f : A -> B -> res A) l1 l2 a :
  foldM f a (l1 ++ l2) = bind (foldM f a l1) (fun a => foldM f a l2).
Proof.
  revert a. induction l1 as [|x l1 IH]; intros a; cbn [app foldM bind]; [reflexivity|].
  destruct (f a x); cbn [bind]; auto.
Qed.

(** invariant of a fold, without knowing in advance that it finishes *)
Lemma foldM_post {A B} (P : A -> Prop) (f : A -> B -> res A) l : forall a a',
  P a -> (forall a x b, In x l -> P a -> f a x = Ok b -> P b) -> foldM f a l = Ok a' -> P a'.
Proof.
  induction l as [|x l IH]; cbn [foldM]; intros a a' H0 Hs Hr.
  - injection Hr as <-. exact H0.
  - apply bind_ok in Hr. destruct Hr as [b [Hb Hr]].
    apply (IH b a'); [|intros; eapply Hs; [right| |]; eauto|exact Hr].
    apply (Hs a x b); [left; reflexivity|exact H0|exact Hb].
Qed.
