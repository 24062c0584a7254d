(** The period 2^31 of a time monitor: as an int it is INT_MIN. *)
From Coq Require Import ZArith List Bool Lia.
From Verif Require Import Scalar Base ClockM SpecClock CadenceFacts.
Import ListNotations.
Local Open Scope Z_scope.

Lemma check_edge a : 1 <= a <= 2147483647 ->
  check_repeat (Every (-2147483648) a false) =
  if a =? 2147483647 then UB IntOverflow else Ok (false, Every (-2147483648) (a + 1) false).
Proof.
  intros H. unfold check_repeat. cbn [ev_never ev_rep ev_n].
  change (-2147483648 =? 0) with false. cbv iota.
  assert (E : Z.rem a (-2147483648) = a).
  { transitivity (Z.rem a 2147483648); [exact (Z.rem_opp_r a 2147483648 ltac:(lia))|apply Z.rem_small; lia]. }
  rewrite E.
  replace (a =? 0) with false by (symmetry; apply Z.eqb_neq; lia).
  unfold i32, in_i32, INT_MIN, INT_MAX. destruct (Z.eqb_spec a 2147483647) as [->|Ha]; [reflexivity|].
  replace ((-2147483648 <=? a + 1) && (a + 1 <=? 2147483647)) with true; [reflexivity|].
  symmetry. apply andb_true_iff. split; apply Z.leb_le; lia.
Qed.

Lemma checks_edge n : forall a, 1 <= a <= 2147483647 ->
  checks n (Every (-2147483648) a false) =
  if Z.of_nat n <=? 2147483647 - a then Ok (repeat false n) else UB IntOverflow.
Proof.
  induction n as [|n IH]; intros a Ha.
  - cbn [checks repeat]. replace (Z.of_nat 0 <=? 2147483647 - a) with true; [reflexivity|]. symmetry. apply Z.leb_le. lia.
  - cbn [checks]. rewrite check_edge by exact Ha. destruct (Z.eqb_spec a 2147483647) as [->|Hn].
    + replace (Z.of_nat (S n) <=? _) with false; [reflexivity|]. symmetry. apply Z.leb_gt. lia.
    + cbn [bind]. rewrite IH by lia.
      destruct (Z.leb_spec (Z.of_nat n) (2147483647 - (a + 1))); destruct (Z.leb_spec (Z.of_nat (S n)) (2147483647 - a));
        try lia; reflexivity.
Qed.
Lemma checks_int_min n : checks n (mk_every 2147483648) =
  if Z.of_nat n <? 2147483647 then Ok (repeat false n) else UB IntOverflow.
Proof.
  change (mk_every 2147483648) with (Every (-2147483648) 1 false). rewrite checks_edge by lia.
  destruct (Z.leb_spec (Z.of_nat n) (2147483647 - 1)); destruct (Z.ltb_spec (Z.of_nat n) 2147483647); try lia; reflexivity.
Qed.
