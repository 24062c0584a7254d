(** Poles that act one after another: their total effect does not depend on their order. *)
From Coq Require Import ZArith Reals List Permutation Lia Lra.
Import ListNotations.
Local Open Scope R_scope.

Section Poles.
Context {A : Type}.
Variables (ka be : A -> R) (b : R).

(** what the poles take off the field in a step, without the factor b *)
Fixpoint drag (l : list (A * R)) : R :=
  match l with [] => 0 | (a, w) :: r => (1 + ka a) * w + drag r end.
(** the currents after a step that ends with the drive X *)
Fixpoint next (X : R) (l : list (A * R)) : list (A * R) :=
  match l with [] => [] | (a, w) :: r => (a, ka a * w + be a * (X + b * drag r)) :: next X r end.

(** the same poles in another order, with currents that act alike from now on *)
Inductive shuffled : list (A * R) -> list (A * R) -> Prop :=
| sh_same l : shuffled l l
| sh_skip a w l l' : shuffled l l' -> shuffled ((a, w) :: l) ((a, w) :: l')
| sh_swap a c u v u' v' l :
    (1 + ka a) * u + (1 + ka c) * v = (1 + ka a) * u' + (1 + ka c) * v' ->
    (ka a - ka c) * ((1 + ka a) * u - (1 + ka a) * u') = b * (1 + ka a) * (1 + ka c) * (be c * u' - be a * v) ->
    shuffled ((a, u) :: (c, v) :: l) ((c, v') :: (a, u') :: l)
| sh_trans l1 l2 l3 : shuffled l1 l2 -> shuffled l2 l3 -> shuffled l1 l3.

Lemma shuffled_drag l l' : shuffled l l' -> drag l = drag l'.
Proof. induction 1; cbn [drag]; lra. Qed.
Lemma shuffled_next X l l' : shuffled l l' -> shuffled (next X l) (next X l').
Proof.
  induction 1 as [l|a w l l' H IH|a c u v u' v' l HA HB|l1 l2 l3 H1 IH1 H2 IH2]; cbn [next].
  - constructor.
  - rewrite (shuffled_drag _ _ H). now constructor.
  - cbn [drag]. set (Y := X + b * drag l).
    replace (X + b * ((1 + ka c) * v + drag l)) with (Y + b * ((1 + ka c) * v)) by (unfold Y; ring).
    replace (X + b * ((1 + ka a) * u' + drag l)) with (Y + b * ((1 + ka a) * u')) by (unfold Y; ring).
    clearbody Y. set (D := (1 + ka a) * u - (1 + ka a) * u') in *.
    assert (EB : (1 + ka c) * v' - (1 + ka c) * v = D) by (unfold D; lra).
    apply sh_swap.
    + replace ((1 + ka a) * (ka a * u + be a * (Y + b * ((1 + ka c) * v))) + (1 + ka c) * (ka c * v + be c * Y))
        with ((1 + ka a) * (ka a * u' + be a * Y) + (1 + ka c) * (ka c * v + be c * Y) + (ka a * D + b * (1 + ka a) * (1 + ka c) * be a * v)) by (unfold D; ring).
      replace ((1 + ka a) * (ka a * u' + be a * Y) + (1 + ka c) * (ka c * v' + be c * (Y + b * ((1 + ka a) * u'))))
        with ((1 + ka a) * (ka a * u' + be a * Y) + (1 + ka c) * (ka c * v + be c * Y) + (ka c * ((1 + ka c) * v' - (1 + ka c) * v) + b * (1 + ka a) * (1 + ka c) * be c * u')) by ring.
      rewrite EB. lra.
    + replace ((1 + ka a) * (ka a * u + be a * (Y + b * ((1 + ka c) * v))) - (1 + ka a) * (ka a * u' + be a * Y))
        with (ka a * D + b * (1 + ka a) * (1 + ka c) * be a * v) by (unfold D; ring).
      replace ((ka a - ka c) * (ka a * D + b * (1 + ka a) * (1 + ka c) * be a * v))
        with (ka a * ((ka a - ka c) * D) + (ka a - ka c) * (b * (1 + ka a) * (1 + ka c) * be a * v)) by ring.
      rewrite HB. ring.
  - eapply sh_trans; eassumption.
Qed.
Lemma shuffled_zero l l' : Permutation l l' -> shuffled (map (fun a => (a, 0)) l) (map (fun a => (a, 0)) l').
Proof.
  induction 1 as [|a l l' H IH|a c l|l1 l2 l3 H1 IH1 H2 IH2]; cbn [map]; [constructor|now constructor| |eapply sh_trans; eassumption].
  apply sh_swap; ring.
Qed.

(** the poles with the currents J m, J (m+1), ... *)
Fixpoint zip (l : list A) (m : Z) (J : Z -> R) : list (A * R) :=
  match l with [] => [] | a :: r => (a, J m) :: zip r (m + 1) J end.
Lemma zip_ext J J' : forall l m, (forall k, (m <= k < m + Z.of_nat (length l))%Z -> J k = J' k) -> zip l m J = zip l m J'.
Proof. induction l as [|a l IH]; intros m H; cbn [zip]; [reflexivity|]. cbn [length] in H. f_equal; [f_equal; apply H; lia|]. apply IH. intros k Hk. apply H. lia. Qed.
Lemma zip_zero J : forall l m, (forall k, (m <= k < m + Z.of_nat (length l))%Z -> J k = 0) -> zip l m J = map (fun a => (a, 0)) l.
Proof. induction l as [|a l IH]; intros m H; cbn [zip map]; [reflexivity|]. cbn [length] in H. f_equal; [f_equal; apply H; lia|]. apply IH. intros k Hk. apply H. lia. Qed.
Lemma zip_chain (e J J' : Z -> R) h : forall l m,
  (forall n a, nth_error l n = Some a -> let k := (m + Z.of_nat n)%Z in
     e (k + 1)%Z = e k - b * (1 + ka a) * J k /\ J' k = ka a * J k + be a * (e (k + 1)%Z + h)) ->
  e (m + Z.of_nat (length l))%Z = e m - b * drag (zip l m J) /\ zip l m J' = next (e (m + Z.of_nat (length l))%Z + h) (zip l m J).
Proof.
  induction l as [|a l IH]; intros m H; cbn [zip drag next length].
  - replace (m + Z.of_nat 0)%Z with m by lia. split; [ring|reflexivity].
  - destruct (IH (m + 1)%Z) as [I1 I2].
    { intros n c Hn. specialize (H (S n) c Hn). replace (m + 1 + Z.of_nat n)%Z with (m + Z.of_nat (S n))%Z by lia. exact H. }
    replace (m + Z.of_nat (S (length l)))%Z with (m + 1 + Z.of_nat (length l))%Z by lia.
    destruct (H O a eq_refl) as [H1 H2]. replace (m + Z.of_nat 0)%Z with m in H1, H2 by lia. split.
    + rewrite I1, H1. ring.
    + rewrite H2, I2. f_equal. f_equal. replace (e (m + 1)%Z) with (e (m + 1 + Z.of_nat (length l))%Z + b * drag (zip l (m + 1) J)) by (rewrite I1; ring). ring.
Qed.
End Poles.
