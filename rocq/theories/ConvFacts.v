(** Sums over past moments: convolutions, and their symmetry. *)
From Coq Require Import ZArith Reals List Bool Lia Lra Psatz.
From Verif Require Import SpecEnergy EnergyFacts.
Local Open Scope R_scope.

Fixpoint nsum (n : nat) (f : nat -> R) : R := match n with O => 0 | S k => nsum k f + f k end.
Lemma nsum_ext n f h : (forall k, (k < n)%nat -> f k = h k) -> nsum n f = nsum n h.
Proof. induction n; intros H; cbn; [reflexivity|]. rewrite IHn by (intros; apply H; lia). rewrite H by lia. reflexivity. Qed.
Lemma nsum_add n f h : nsum n (fun k => f k + h k) = nsum n f + nsum n h.
Proof. induction n; cbn; [ring|]. rewrite IHn. ring. Qed.
Lemma nsum_scal n c f : nsum n (fun k => c * f k) = c * nsum n f.
Proof. induction n; cbn; [ring|]. rewrite IHn. ring. Qed.
Lemma nsum_zero n : nsum n (fun _ => 0) = 0.
Proof. induction n; cbn; [reflexivity|]. rewrite IHn. ring. Qed.
Lemma nsum_first n f : nsum (S n) f = f 0%nat + nsum n (fun k => f (S k)).
Proof. induction n; [cbn; ring|]. change (nsum (S (S n)) f) with (nsum (S n) f + f (S n)). rewrite IHn. cbn. ring. Qed.
Lemma nsum_rev n f : nsum n f = nsum n (fun k => f (n - 1 - k)%nat).
Proof.
  induction n; [reflexivity|]. rewrite (nsum_first n (fun k => f (S n - 1 - k)%nat)). cbn [nsum]. rewrite IHn. rewrite Rplus_comm.
  f_equal; [f_equal; lia|]. apply nsum_ext. intros k Hk. f_equal. lia.
Qed.
Lemma nsum_swap n m f : nsum n (fun a => nsum m (fun b => f a b)) = nsum m (fun b => nsum n (fun a => f a b)).
Proof. induction n; cbn; [now rewrite nsum_zero|]. rewrite IHn, <- nsum_add. reflexivity. Qed.
Lemma nsum_cut n m f : (m <= n)%nat -> nsum n (fun k => if Nat.ltb k m then f k else 0) = nsum m f.
Proof.
  induction n; intros H; [now replace m with 0%nat by lia|]. cbn [nsum]. destruct (Nat.eq_dec m (S n)) as [->|Hn].
  - cbn [nsum]. replace (Nat.ltb n (S n)) with true by (symmetry; apply Nat.ltb_lt; lia). f_equal. apply nsum_ext. intros k Hk.
    now replace (Nat.ltb k (S n)) with true by (symmetry; apply Nat.ltb_lt; lia).
  - rewrite IHn by lia. replace (Nat.ltb n m) with false by (symmetry; apply Nat.ltb_ge; lia). ring.
Qed.

(** all pairs of past moments, the one before the other's mirror image *)
Lemma triangle n F : nsum n (fun m => nsum m (fun j => F (S j) (n - m)%nat)) = nsum n (fun m => nsum m (fun j => F (n - m)%nat (S j))).
Proof.
  assert (Sq : forall F : nat -> nat -> R, nsum n (fun m => nsum m (fun j => F (S j) (n - m)%nat)) =
    nsum n (fun b => nsum n (fun j => if Nat.ltb (j + b) (n - 1) then F (S j) (S b) else 0))).
  { intros G. rewrite nsum_rev. apply nsum_ext. intros b Hb. rewrite <- (nsum_cut n (n - 1 - b)) by lia. apply nsum_ext. intros j Hj.
    replace (n - (n - 1 - b))%nat with (S b) by lia.
    replace (Nat.ltb (j + b) (n - 1)) with (Nat.ltb j (n - 1 - b)); [reflexivity|].
    destruct (Nat.ltb_spec j (n - 1 - b)); symmetry; [apply Nat.ltb_lt|apply Nat.ltb_ge]; lia. }
  rewrite Sq, (Sq (fun a b => F b a)), nsum_swap. apply nsum_ext. intros a Ha. apply nsum_ext. intros b Hb. now rewrite Nat.add_comm.
Qed.

(** ** A medium without memory *)
Lemma memoryless n P M u v :
  nsum n (fun m => (P * u (S m) - M * u m) * v (n - m)%nat) - nsum n (fun m => (P * v (S m) - M * v m) * u (n - m)%nat) = M * (v 0%nat * u n - u 0%nat * v n).
Proof.
  assert (A : nsum n (fun m => u (S m) * v (n - m)%nat) = nsum n (fun m => v (S m) * u (n - m)%nat)).
  { rewrite nsum_rev. apply nsum_ext. intros k Hk. replace (n - (n - 1 - k))%nat with (S k) by lia. replace (S (n - 1 - k)) with (n - k)%nat by lia. ring. }
  assert (B : nsum n (fun m => u m * v (n - m)%nat) + u n * v 0%nat = nsum n (fun m => v m * u (n - m)%nat) + v n * u 0%nat).
  { transitivity (nsum (S n) (fun m => u m * v (n - m)%nat)); [cbn [nsum]; now rewrite Nat.sub_diag|].
    transitivity (nsum (S n) (fun m => v m * u (n - m)%nat)); [|cbn [nsum]; now rewrite Nat.sub_diag].
    rewrite nsum_rev. apply nsum_ext. intros k Hk. replace (S n - 1 - k)%nat with (n - k)%nat by lia. replace (n - (n - k))%nat with k by lia. ring. }
  assert (E : forall a b, nsum n (fun m => (P * a (S m) - M * a m) * b (n - m)%nat) = P * nsum n (fun m => a (S m) * b (n - m)%nat) + - M * nsum n (fun m => a m * b (n - m)%nat)).
  { intros a b. rewrite <- !nsum_scal, <- nsum_add. apply nsum_ext. intros. ring. }
  rewrite !E, A. replace (nsum n (fun m => u m * v (n - m)%nat)) with (nsum n (fun m => v m * u (n - m)%nat) + v n * u 0%nat - u n * v 0%nat) by lra. ring.
Qed.

(** ** A medium with memory *)
Section Memory.
Variables (n : nat) (a b c d : R).
Hypothesis Ha : a <> 0.
Definition follows (e j : nat -> R) : Prop := e 0%nat = 0 /\ j 0%nat = 0 /\ forall m, (m < n)%nat -> a * j (S m) = b * j m + c * e (S m) + d * e m.
Let conv (f h : nat -> R) (N : nat) : R := nsum (S N) (fun m => f m * h (N - m)%nat).
Lemma conv_comm f h N : conv f h N = conv h f N.
Proof. unfold conv. rewrite nsum_rev. apply nsum_ext. intros k Hk. replace (S N - 1 - k)%nat with (N - k)%nat by lia. replace (N - (N - k))%nat with k by lia. ring. Qed.

Lemma conv_next e j h N : follows e j -> h 0%nat = 0 -> (N <= n)%nat -> a * conv j h (S N) = b * conv j h N + c * conv e h (S N) + d * conv e h N.
Proof.
  intros (E0 & J0 & K) H0 HN. unfold conv. rewrite (nsum_first (S N) (fun m => j m * _)), (nsum_first (S N) (fun m => e m * _)). rewrite E0, J0, !Rmult_0_l, !Rplus_0_l.
  rewrite <- !nsum_scal, <- !nsum_add. apply nsum_ext. intros m Hm. cbn [Nat.sub]. destruct (Nat.eq_dec m N) as [->|Hn].
  - rewrite Nat.sub_diag, H0. ring.
  - specialize (K m ltac:(lia)). replace (a * (j (S m) * h (N - m)%nat)) with ((a * j (S m)) * h (N - m)%nat) by ring. rewrite K. ring.
Qed.
Lemma conv_zero f h : f 0%nat = 0 -> conv f h 0 = 0.
Proof. intros H. unfold conv. cbn. rewrite H. ring. Qed.
Lemma conv_even e j e' j' N : follows e j -> follows e' j' -> (N <= S n)%nat -> conv j e' N = conv j' e N.
Proof.
  intros F F' H. induction N as [|N IH].
  - destruct F as (_ & J & _). destruct F' as (_ & J' & _). rewrite !conv_zero by assumption. reflexivity.
  - apply Rmult_eq_reg_l with a; [|exact Ha]. rewrite (conv_next e j e' N F), (conv_next e' j' e N F'); [|apply F|lia|apply F'|lia].
    rewrite IH by lia. now rewrite (conv_comm e e'), (conv_comm e e').
Qed.
Lemma with_memory e j e' j' : follows e j -> follows e' j' ->
  nsum n (fun m => (j (S m) + j m) * e' (n - m)%nat) = nsum n (fun m => (j' (S m) + j' m) * e (n - m)%nat).
Proof.
  intros F F'. assert (X : forall f f' h : nat -> R, f 0%nat = 0 -> h 0%nat = 0 -> nsum n (fun m => (f (S m) + f m) * h (n - m)%nat) = conv f h (S n) + conv f h n).
  { intros f _ h F0 H0. unfold conv. rewrite (nsum_first (S n)), F0, Rmult_0_l, Rplus_0_l. cbn [nsum Nat.sub]. rewrite Nat.sub_diag, H0.
    rewrite !Rmult_0_r, !Rplus_0_r, <- nsum_add. apply nsum_ext. intros. ring. }
  rewrite (X j j e'), (X j' j' e); [|apply F'|apply F|apply F|apply F']. now rewrite (conv_even e j e' j' (S n) F F'), (conv_even e j e' j' n F F') by lia.
Qed.
End Memory.
