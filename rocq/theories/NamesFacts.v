(** Names given by the counters. *)
From Coq Require Import ZArith String Ascii List Lia DecimalString DecimalZ DecimalFacts.
From Verif Require Import Scalar Base BaseFacts OutFacts NamesM.
Import ListNotations.
Local Open Scope Z_scope.

Lemma to_int_digits z : Z.to_int z <> Decimal.Pos Decimal.Nil /\ Z.to_int z <> Decimal.Neg Decimal.Nil.
Proof.
  destruct z as [|p|p]; cbn; split; try discriminate; intros E; injection E as E; revert E; apply DecimalPos.Unsigned.to_uint_nonnil.
Qed.
Lemma to_string_inj a b : to_string a = to_string b -> a = b.
Proof.
  unfold to_string. intros H. apply DecimalZ.to_int_inj. destruct (to_int_digits a) as [A1 A2]. destruct (to_int_digits b) as [B1 B2].
  pose proof (NilZero.isi _ A1 A2) as Ha. pose proof (NilZero.isi _ B1 B2) as Hb. rewrite H in Ha. congruence.
Qed.
Lemma append_inj (p a b : string) : (p ++ a = p ++ b)%string -> a = b.
Proof. induction p as [|c p IH]; cbn; [auto|]. intros H. injection H as H. auto. Qed.

Lemma counter_same f v k : counter f (set_counter f v k) = v.
Proof. now destruct f. Qed.
Lemma counter_other f g v k : f <> g -> counter f (set_counter g v k) = counter f k.
Proof. destruct f, g; intros H; try reflexivity; now destruct H. Qed.

Definition family_dec (f g : family) : {f = g} + {f <> g}.
Proof. decide equality. Defined.

(** an automatic name made later uses a counter at least as big *)
Lemma creations_names l : forall k ns k' f, creations l k = Ok (ns, k') ->
  counter f k <= counter f k' /\
  forall i n, nth_error l i = Some (f, None) -> nth_error ns i = Some n ->
    exists c, counter f k <= c < counter f k' /\ n = (prefix f ++ to_string c)%string.
Proof.
  induction l as [|[g e] l IH]; intros k ns k' f H; cbn [creations] in H.
  - injection H as <- <-. split; [lia|]. intros [|i] n Hi; discriminate.
  - apply bind_ok in H. destruct H as ([n1 k1] & H1 & H). apply bind_ok in H. destruct H as ([ns1 k2] & H2 & H). injection H as <- <-.
    destruct (IH k1 ns1 k2 f H2) as [Hle Hn].
    assert (S : counter f k <= counter f k1 /\ (e = None -> g = f -> n1 = (prefix f ++ to_string (counter f k))%string /\ counter f k1 = counter f k + 1)).
    { unfold create in H1. destruct e as [nm|].
      - injection H1 as <- <-. split; [lia|discriminate].
      - apply bind_ok in H1. destruct H1 as (v & Hv & H1). injection H1 as <- <-. unfold i32 in Hv. destruct (in_i32 _); [|discriminate]. injection Hv as <-.
        destruct (family_dec f g) as [<-|Hfg].
        + rewrite counter_same. split; [lia|]. auto.
        + rewrite (counter_other _ _ _ _ Hfg). split; [lia|]. intros _ E. now destruct Hfg. }
    destruct S as [S1 S2]. split; [lia|]. intros [|i] n Hi Hns; cbn [nth_error] in Hi, Hns.
    + injection Hi as -> ->. injection Hns as <-. destruct (S2 eq_refl eq_refl) as [-> E]. exists (counter f k). split; [lia|reflexivity].
    + destruct (Hn i n Hi Hns) as (c & Hc & ->). exists c. split; [lia|reflexivity].
Qed.

Lemma auto_names_differ l k ns k' f i j ni nj : creations l k = Ok (ns, k') -> i <> j ->
  nth_error l i = Some (f, None) -> nth_error l j = Some (f, None) -> nth_error ns i = Some ni -> nth_error ns j = Some nj -> ni <> nj.
Proof.
  revert k ns k' i j ni nj.
  enough (L : forall k ns k' i j ni nj, creations l k = Ok (ns, k') -> (i < j)%nat ->
    nth_error l i = Some (f, None) -> nth_error l j = Some (f, None) -> nth_error ns i = Some ni -> nth_error ns j = Some nj -> ni <> nj).
  { intros k ns k' i j ni nj H Hij Hi Hj Ni Nj. destruct (Nat.lt_ge_cases i j) as [K|K]; [eapply L; eauto|]. intros E. refine (L k ns k' j i nj ni H _ Hj Hi Nj Ni (eq_sym E)). lia. }
  induction l as [|[g e] l IH]; intros k ns k' i j ni nj H Hij Hi Hj Ni Nj; [now destruct i|].
  cbn [creations] in H. apply bind_ok in H. destruct H as ([n1 k1] & H1 & H). apply bind_ok in H. destruct H as ([ns1 k2] & H2 & H). injection H as <- <-.
  destruct j as [|j]; [lia|]. cbn [nth_error] in Hj, Nj. destruct i as [|i]; cbn [nth_error] in Hi, Ni.
  - injection Hi as -> ->. injection Ni as <-. unfold create in H1. apply bind_ok in H1. destruct H1 as (v & Hv & H1). injection H1 as <- <-.
    unfold i32 in Hv. destruct (in_i32 _); [|discriminate]. injection Hv as <-.
    destruct (creations_names l _ _ _ f H2) as [_ Hn]. destruct (Hn j nj Hj Nj) as (c & Hc & ->). rewrite counter_same in Hc. intros E. apply append_inj, to_string_inj in E. lia.
  - refine (IH k1 ns1 k2 i j ni nj H2 _ Hi Hj Ni Nj). lia.
Qed.

Lemma creations_length l : forall k ns k', creations l k = Ok (ns, k') -> List.length ns = List.length l.
Proof.
  induction l as [|[g e] l IH]; intros k ns k' H; cbn [creations] in H; [now injection H as <- <-|].
  apply bind_ok in H. destruct H as ([n1 k1] & H1 & H). apply bind_ok in H. destruct H as ([ns1 k2] & H2 & H). injection H as <- <-. cbn. f_equal. eauto.
Qed.

(** the calls succeed while no counter reaches the largest int *)
Lemma create_ok f e k : INT_MIN <= counter f k + 1 <= INT_MAX -> exists r, create f e k = Ok r.
Proof.
  intros H. unfold create. destruct e; [eauto|]. unfold i32. replace (in_i32 (counter f k + 1)) with true; [cbn; eauto|]. symmetry. unfold in_i32, INT_MIN, INT_MAX in *.
  apply Bool.andb_true_iff. split; apply Z.leb_le; lia.
Qed.
Definition fits (k : counters) (n : Z) : Prop := forall f, INT_MIN <= counter f k /\ counter f k + n <= INT_MAX.
Lemma creations_ok l : forall k, fits k (Z.of_nat (List.length l)) -> exists ns k', creations l k = Ok (ns, k').
Proof.
  induction l as [|[f e] l IH]; intros k Hk; cbn [creations]; [eauto|]. cbn [List.length] in Hk. rewrite Nat2Z.inj_succ in Hk.
  destruct (create_ok f e k) as [[n k1] E]; [destruct (Hk f); lia|]. rewrite E. cbn [bind].
  destruct (IH k1) as (ns & k' & E'); [|rewrite E'; cbn [bind]; eauto].
  intros g. destruct (Hk g) as [K1 K2]. unfold create in E. destruct e as [nm|]; [injection E as <- <-; lia|].
  apply bind_ok in E. destruct E as (v & Hv & E). injection E as <- <-. unfold i32 in Hv. destruct (in_i32 _); [|discriminate]. injection Hv as <-.
  destruct (family_dec g f) as [->|Hgf]; [rewrite counter_same; lia|rewrite (counter_other _ _ _ _ Hgf); lia].
Qed.

(** at the top of the range one more is undefined *)
Lemma create_overflow f k : counter f k = INT_MAX -> create f None k = UB IntOverflow.
Proof. intros H. unfold create, i32. rewrite H. reflexivity. Qed.
