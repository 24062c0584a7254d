(** Running Fourier transforms. *)
From Coq Require Import ZArith Reals List Bool String Lia Lra.
From Verif Require Import Scalar Base BaseFacts DftM SpecDft WfFacts.
Import ListNotations.
Local Open Scope R_scope.
#[local] Existing Instance RNum.

(** *** Lists *)
Lemma nth_error_combine {A B} (l : list A) (l2 : list B) i a b :
  nth_error l i = Some a -> nth_error l2 i = Some b -> nth_error (combine l l2) i = Some (a, b).
Proof.
  revert l2 i. induction l as [|x l IH]; intros [|y l2] [|i]; cbn; try discriminate; auto.
  now intros [= ->] [= ->].
Qed.
Lemma nth_error_combine_none {A B} (l : list A) (l2 : list B) i :
  nth_error l i = None \/ nth_error l2 i = None -> nth_error (combine l l2) i = None.
Proof. intros H. apply nth_error_None. rewrite combine_length. destruct H as [H|H]; apply nth_error_None in H; lia. Qed.
Lemma same_len_nth {A B} (l : list A) (l2 : list B) i a : List.length l = List.length l2 -> nth_error l i = Some a -> exists b, nth_error l2 i = Some b.
Proof.
  intros Hl H. destruct (nth_error l2 i) eqn:E; eauto. apply nth_error_None in E.
  assert (i < List.length l)%nat by (apply nth_error_Some; congruence). lia.
Qed.

(** *** Keys *)
Lemma slookup_some_in {A} k (m : list (string * A)) v : slookup k m = Some v -> In (k, v) m.
Proof.
  induction m as [|[k' v'] m IH]; cbn [slookup]; [discriminate|]. destruct (String.eqb_spec k k') as [->|E].
  - intros [= ->]. now left.
  - intros H. right. now apply IH.
Qed.
Lemma slookup_none_notin {A} k (m : list (string * A)) : slookup k m = None <-> ~ In k (map fst m).
Proof.
  induction m as [|[k' v'] m IH]; cbn [slookup map fst In]; [tauto|]. destruct (String.eqb_spec k k') as [->|E].
  - split; [discriminate|]. tauto.
  - rewrite IH. intuition.
Qed.
Lemma in_slookup {A} k (m : list (string * A)) v : NoDup (map fst m) -> In (k, v) m -> slookup k m = Some v.
Proof.
  induction m as [|[k' v'] m IH]; cbn [slookup map fst In]; [intros _ []|]. intros Hn [E|H].
  - injection E as -> ->. now rewrite String.eqb_refl.
  - inversion Hn as [|? ? N1 N2]; subst. destruct (String.eqb_spec k k') as [->|E]; [|auto].
    destruct N1. apply in_map_iff. now exists (k', v).
Qed.

(** *** One update *)
(** samplers whose state is only used and changed by the component [K] *)
Definition isolated {S} (K : string) (f : sampler S) : Prop :=
  forall s key n gs s', f s key n = Ok (gs, s') -> key <> K -> s' = s /\ forall s2, f s2 key n = Ok (gs, s2).
Lemma entries_isolated {S} K (f : sampler S) ph : isolated K f -> forall m s m' s',
  NoDup (map fst m) -> dft_entries f ph s m = Ok (m', s') ->
  (forall key e, slookup key m = Some e -> exists gs, f s key (List.length e) = Ok (gs, if String.eqb key K then s' else s) /\
     slookup key m' = Some (accum ph e gs)) /\ (slookup K m = None -> s' = s).
Proof.
  intros Hf. induction m as [|[k0 e0] m IH]; cbn [dft_entries map fst]; intros s m' s' Hn H.
  - injection H as <- <-. split; [discriminate|reflexivity].
  - destruct (f s k0 (List.length e0)) as [[gs s1]| |] eqn:E0; cbn [bind] in H; try discriminate.
    destruct (dft_entries f ph s1 m) as [[r s2]| |] eqn:E1; cbn [bind] in H; try discriminate.
    injection H as <- <-. inversion Hn as [|? ? N1 N2]; subst.
    destruct (IH _ _ _ N2 E1) as [A B]. cbn [slookup].
    destruct (String.eqb_spec k0 K) as [->|Ek].
    + assert (Hm : slookup K m = None) by now apply slookup_none_notin. specialize (B Hm). subst s2.
      rewrite String.eqb_refl. split; [|discriminate]. intros key e. destruct (String.eqb_spec key K) as [->|Ek].
      * intros [= <-]. exists gs. split; [exact E0|reflexivity].
      * intros Hk. destruct (A _ _ Hk) as (gs' & F1 & F2). exists gs'. destruct (String.eqb_spec key K); [congruence|].
        split; [|exact F2]. destruct (Hf _ _ _ _ _ F1 Ek) as [_ F3]. apply F3.
    + destruct (Hf _ _ _ _ _ E0 Ek) as [-> Hs]. split.
      * intros key e. destruct (String.eqb_spec key k0) as [->|Ek2].
        -- intros [= <-]. exists gs. destruct (String.eqb_spec k0 K); [congruence|]. auto.
        -- apply A.
      * destruct (String.eqb_spec K k0); [congruence|]. exact B.
Qed.

Lemma accum_nth ph (e : dentry) gs i row g : nth_error e i = Some row -> nth_error gs i = Some g -> nth_error (accum ph e gs) i = Some (accum1 ph row g).
Proof. intros H1 H2. unfold accum. now rewrite nth_error_map, (nth_error_combine _ _ _ _ _ H1 H2). Qed.
Lemma accum1_nth freq t row g k f z : nth_error freq k = Some f -> nth_error row k = Some z ->
  nth_error (accum1 (phases freq t) row g) k = Some (plus2 z (g * cos (2 * PI * f * t), g * sin (2 * PI * f * t))).
Proof.
  intros H1 H2. unfold accum1, phases. rewrite nth_error_map, (nth_error_combine _ _ _ z (ncos (2 * npi * f * t), nsin (2 * npi * f * t))%num H2).
  - cbn [option_map]. destruct z as [a b]. reflexivity.
  - now rewrite nth_error_map, H1.
Qed.
Lemma accum_length ph (e : dentry) gs : List.length gs = List.length e -> List.length (accum ph e gs) = List.length e.
Proof. intros H. unfold accum. rewrite map_length, combine_length. lia. Qed.
Lemma accum1_length freq t row g : List.length row = List.length freq -> List.length (accum1 (phases freq t) row g) = List.length freq.
Proof. intros H. unfold accum1, phases. rewrite map_length, combine_length, map_length. lia. Qed.

Definition fills {S} (f : sampler S) : Prop := forall s key n gs s', f s key n = Ok (gs, s') -> List.length gs = n.
Lemma neqb_R (a b : R) : neqb a b = true <-> a = b.
Proof. rnumg. unfold Reqb. destruct (Req_EM_T a b); split; congruence. Qed.
Lemma neqb_R_false (a b : R) : a <> b -> neqb a b = false.
Proof. intros H. destruct (neqb a b) eqn:E; auto. now apply neqb_R in E. Qed.

(** what one recorded update does *)
Lemma update_isolated {S} K (f : sampler S) s d t d' s' : isolated K f -> fills f -> shaped d -> d_t d <> t ->
  dft_update f s d t = Ok (d', s') ->
  d_t d' = t /\ d_freq d' = d_freq d /\ shaped d' /\ map fst (d_map d') = map fst (d_map d) /\
  (forall key e, slookup key (d_map d) = Some e -> exists gs e', f s key (List.length e) = Ok (gs, if String.eqb key K then s' else s) /\
     List.length gs = List.length e /\ slookup key (d_map d') = Some e' /\ List.length e' = List.length e /\
     forall i k fr g z, nth_error (d_freq d) k = Some fr -> nth_error gs i = Some g -> coef d key i k = Some z ->
       coef d' key i k = Some (plus2 z (g * cos (2 * PI * fr * t), g * sin (2 * PI * fr * t)))) /\
  (slookup K (d_map d) = None -> s' = s).
Proof.
  intros Hi Hl [Hn Hr] Ht H. assert (Hk := dft_update_keys _ _ _ _ _ _ H). unfold dft_update in H. rewrite neqb_R_false in H by assumption.
  destruct (dft_entries f (phases (d_freq d) t) s (d_map d)) as [[m s1]| |] eqn:E; cbn [bind] in H; try discriminate.
  injection H as <- <-. cbn [d_t d_freq d_map] in *.
  destruct (entries_isolated K f _ Hi _ _ _ _ Hn E) as [A B].
  split; [reflexivity|]. split; [reflexivity|]. split; [|split; [exact Hk|split; [|exact B]]].
  - split; cbn [d_map d_freq]; [now rewrite Hk|]. intros key e' row He Hrow.
    destruct (slookup key (d_map d)) as [e|] eqn:Ee.
    + destruct (A _ _ Ee) as (gs & F1 & F2). rewrite F2 in He. injection He as <-.
      unfold accum in Hrow. apply in_map_iff in Hrow. destruct Hrow as ([r g] & <- & Hrg). apply in_combine_l in Hrg.
      apply accum1_length. eauto.
    + apply slookup_none_notin in Ee. rewrite <- Hk in Ee. apply slookup_none_notin in Ee. congruence.
  - intros key e Ee. destruct (A _ _ Ee) as (gs & F1 & F2). exists gs, (accum (phases (d_freq d) t) e gs).
    assert (L := Hl _ _ _ _ _ F1). split; [exact F1|]. split; [exact L|]. split; [exact F2|]. split; [now apply accum_length|].
    intros i k fr g z Hf Hg Hz. unfold coef in *. cbn [d_map]. rewrite F2. rewrite Ee in Hz.
    destruct (nth_error e i) as [row|] eqn:Ei; [|discriminate]. rewrite (accum_nth _ _ _ _ _ _ Ei Hg). now apply accum1_nth.
Qed.

(** *** Given samples *)
Lemma given_isolated K g : isolated K (given g).
Proof. intros [] key n gs [] H _. split; [reflexivity|]. now intros []. Qed.
Lemma given_fills g : fills (given g).
Proof. intros [] key n gs [] H. injection H as <-. now rewrite map_length, seq_length. Qed.
Lemma given_total g ph : forall m, exists m', dft_entries (given g) ph tt m = Ok (m', tt).
Proof.
  induction m as [|[k e] m [m' IH]]; cbn [dft_entries given bind]; [eauto|]. rewrite IH. cbn [bind]. eauto.
Qed.
Lemma coef_lookup d key i k z : coef d key i k = Some z -> exists e row, slookup key (d_map d) = Some e /\ nth_error e i = Some row /\ nth_error row k = Some z.
Proof.
  unfold coef. destruct (slookup key (d_map d)) as [e|] eqn:E; [|discriminate]. destruct (nth_error e i) as [row|] eqn:E2; [|discriminate]. eauto.
Qed.
Lemma coef_frequency d key i k z : shaped d -> coef d key i k = Some z -> exists f, nth_error (d_freq d) k = Some f.
Proof.
  intros [_ Hr] H. apply coef_lookup in H. destruct H as (e & row & H1 & H2 & H3).
  apply (same_len_nth row _ _ z); [|exact H3]. apply (Hr key e); [exact H1|]. now apply nth_error_In in H2.
Qed.
Lemma feed_sums : forall l d, shaped d -> later (d_t d) (map fst l) ->
  exists d', feed l d = Ok d' /\ d_freq d' = d_freq d /\ shaped d' /\ d_t d' = last (map fst l) (d_t d) /\
  forall key i k f z, nth_error (d_freq d) k = Some f -> coef d key i k = Some z ->
    coef d' key i k = Some (plus2 z (fourier f (map (fun tg => (fst tg, snd tg key i)) l))).
Proof.
  induction l as [|[t g] l IH]; intros d Hd Ht; cbn [feed map fst later] in *.
  - exists d. split; [reflexivity|]. split; [reflexivity|]. split; [exact Hd|]. split; [reflexivity|].
    intros key i k f [a b] _ Hz. rewrite Hz. unfold plus2. cbn. do 2 f_equal; ring.
  - destruct Ht as [Ht1 Ht2]. destruct (given_total g (phases (d_freq d) t) (d_map d)) as [m' Em].
    assert (E : dft_update (given g) tt d t = Ok (Dft t (d_freq d) m', tt)).
    { unfold dft_update. rewrite neqb_R_false by lra. rewrite Em. reflexivity. }
    rewrite E. destruct (update_isolated EmptyString _ _ _ _ _ _ (given_isolated _ g) (given_fills g) Hd (Rlt_not_eq _ _ Ht1) E) as (Q1 & Q2 & Q3 & _ & Q4 & _).
    destruct (IH (Dft t (d_freq d) m') Q3 Ht2) as (d' & D1 & D2 & D3 & D4 & D5). exists d'.
    split; [exact D1|]. split; [exact D2|]. split; [exact D3|]. split.
    { rewrite D4. cbn [d_t]. destruct (map fst l) eqn:El; [reflexivity|]. cbn [last]. clear. revert r. induction l0 as [|x l0 IH]; intros r; [reflexivity|]. cbn [last]. apply IH. }
    intros key i k f z Hf Hz. destruct (coef_lookup _ _ _ _ _ Hz) as (e & row & H1 & H2 & H3).
    destruct (Q4 _ _ H1) as (gs & e' & G1 & G2 & G3 & G4 & G5).
    assert (Hg : nth_error gs i = Some (g key i)).
    { injection G1 as <-. rewrite nth_error_map.
      assert (i < List.length e)%nat by (apply nth_error_Some; congruence).
      rewrite (nth_error_nth' (seq 0 (List.length e)) 0%nat) by (now rewrite seq_length). now rewrite seq_nth. }
    assert (C := G5 i k f _ z Hf Hg Hz). rewrite (D5 key i k f _ Hf C). unfold plus2. cbn. do 2 f_equal; ring.
Qed.

(** *** Idempotence *)
Lemma update_again {S S2} (f : sampler S) (f2 : sampler S2) s s2 d t d' s' : dft_update f s d t = Ok (d', s') -> dft_update f2 s2 d' t = Ok (d', s2).
Proof.
  intros H. assert (E : d_t d' = t).
  { unfold dft_update in H. destruct (neqb (d_t d) t) eqn:E.
    - injection H as <- <-. now apply neqb_R.
    - destruct (dft_entries f (phases (d_freq d) t) s (d_map d)) as [[m s1]| |]; cbn [bind] in H; try discriminate. injection H as <- <-. reflexivity. }
  unfold dft_update. now rewrite (proj2 (neqb_R (d_t d') t) E).
Qed.

(** *** Adding components *)
Lemma sinsert_lookup {A} k (v : A) m key : slookup k m = None -> slookup key (sinsert k v m) = if String.eqb key k then Some v else slookup key m.
Proof.
  induction m as [|[k' v'] m IH]; cbn [sinsert slookup]; [reflexivity|].
  destruct (String.eqb_spec k k') as [->|E]; [discriminate|]. intros H.
  destruct (String.compare k k') eqn:C.
  - apply String.compare_eq_iff in C. congruence.
  - cbn [slookup]. reflexivity.
  - cbn [slookup]. destruct (String.eqb_spec key k') as [->|E2].
    + destruct (String.eqb_spec k' k); [congruence|reflexivity].
    + now apply IH.
Qed.
Lemma sinsert_keys {A} k (v : A) m x : In x (map fst (sinsert k v m)) -> x = k \/ In x (map fst m).
Proof.
  induction m as [|[k' v'] m IH]; cbn [sinsert map fst In]; [intuition|].
  destruct (String.compare k k'); cbn [map fst In]; intuition.
Qed.
Lemma sinsert_nodup {A} k (v : A) m : slookup k m = None -> NoDup (map fst m) -> NoDup (map fst (sinsert k v m)).
Proof.
  induction m as [|[k' v'] m IH]; cbn [sinsert slookup map fst]; intros H Hn; [repeat constructor; tauto|].
  destruct (String.eqb_spec k k') as [->|E]; [discriminate|]. inversion Hn as [|? ? N1 N2]; subst.
  destruct (String.compare k k') eqn:C; cbn [map fst].
  - exact Hn.
  - constructor; [|exact Hn]. cbn. intros [X|X]; [congruence|]. now apply slookup_none_notin in H.
  - constructor; [|auto]. intros X. apply sinsert_keys in X. destruct X; [congruence|auto].
Qed.
Lemma sassign_lookup {A} k (v : A) m key : slookup key (sassign k v m) = if String.eqb key k then (match slookup k m with Some _ => Some v | None => None end) else slookup key m.
Proof.
  induction m as [|[k' v'] m IH]; cbn [sassign slookup]; [now destruct String.eqb|].
  destruct (String.eqb_spec k k') as [->|E]; cbn [slookup].
  - destruct (String.eqb key k'); reflexivity.
  - destruct (String.eqb_spec key k') as [E2|E2]; [subst key|exact IH]. destruct (String.eqb_spec k' k); [congruence|reflexivity].
Qed.
Lemma sassign_keys {A} k (v : A) m : map fst (sassign k v m) = map fst m.
Proof. induction m as [|[k' v'] m IH]; cbn [sassign map fst]; [reflexivity|]. destruct (String.eqb k k') eqn:E; cbn; [|now rewrite IH]. apply String.eqb_eq in E. reflexivity. Qed.

Definition zeros (d : dft) (n : Z) : dentry := repeat (repeat (0, 0) (List.length (d_freq d))) (Z.to_nat n).
(** a transform in which nothing has been accumulated, with n samples for each component in ks *)
Definition fresh (d : dft) (n : Z) (ks : list string) : Prop :=
  NoDup (map fst (d_map d)) /\ forall key, slookup key (d_map d) = if in_dec string_dec key ks then Some (zeros d n) else None.
Lemma fresh_shaped d n ks : fresh d n ks -> shaped d.
Proof.
  intros [Hn H]. split; [exact Hn|]. intros key e row He Hr. rewrite H in He. destruct (in_dec string_dec key ks); [|discriminate].
  injection He as <-. apply repeat_spec in Hr. subst row. now rewrite repeat_length.
Qed.
Lemma fresh_coef d n ks key i k : fresh d n ks -> In key ks -> (i < Z.to_nat n)%nat -> (k < List.length (d_freq d))%nat -> coef d key i k = Some (0, 0).
Proof.
  intros [_ H] Hk Hi Hj. unfold coef. rewrite H. destruct (in_dec string_dec key ks); [|contradiction]. unfold zeros.
  now rewrite !nth_error_repeat by assumption.
Qed.
Lemma dft_add_fresh d n ks k d' : fresh d n ks -> dft_add d k n = Ok d' -> d_t d' = d_t d /\ d_freq d' = d_freq d /\ fresh d' n (ks ++ [k]).
Proof.
  intros [Hn H] E. unfold dft_add in E. destruct (n <? 0)%Z; [discriminate|]. injection E as <-. cbn [d_t d_freq d_map].
  split; [reflexivity|]. split; [reflexivity|]. assert (Hk := H k). unfold fresh. cbn [d_map]. destruct (slookup k (d_map d)) as [e|] eqn:Ek.
  - split; [now rewrite sassign_keys|]. intros key. rewrite sassign_lookup, Ek.
    destruct (in_dec string_dec k ks) as [Ik|Nk]; [|discriminate]. injection Hk as ->.
    destruct (String.eqb_spec key k) as [->|Ne].
    + destruct (in_dec string_dec k (ks ++ [k])) as [_|X]; [|destruct X; apply in_or_app; now left].
      unfold zeros. cbn [d_freq]. now rewrite repeat_length.
    + rewrite H. destruct (in_dec string_dec key ks) as [I1|I1], (in_dec string_dec key (ks ++ [k])) as [I2|I2]; auto; exfalso.
      * apply I2, in_or_app. now left.
      * apply in_app_or in I2. destruct I2 as [I2|[I2|[]]]; congruence.
  - split; [now apply sinsert_nodup|]. intros key. rewrite sinsert_lookup by assumption.
    destruct (String.eqb_spec key k) as [->|Ne].
    + destruct (in_dec string_dec k (ks ++ [k])) as [_|X]; [reflexivity|destruct X; apply in_or_app; right; now left].
    + rewrite H. destruct (in_dec string_dec key ks) as [I1|I1], (in_dec string_dec key (ks ++ [k])) as [I2|I2]; auto; exfalso.
      * apply I2, in_or_app. now left.
      * apply in_app_or in I2. destruct I2 as [I2|[I2|[]]]; congruence.
Qed.
Lemma dft_adds_fresh n : forall ks2 ks d d', fresh d n ks -> foldM (fun d k => dft_add d k n) d ks2 = Ok d' ->
  d_t d' = d_t d /\ d_freq d' = d_freq d /\ fresh d' n (ks ++ ks2).
Proof.
  induction ks2 as [|k ks2 IH]; cbn [foldM]; intros ks d d' Hf H.
  - injection H as <-. now rewrite app_nil_r.
  - destruct (dft_add d k n) as [d1| |] eqn:E; cbn [bind] in H; try discriminate.
    destruct (dft_add_fresh _ _ _ _ _ Hf E) as (A1 & A2 & A3). destruct (IH _ _ _ A3 H) as (B1 & B2 & B3).
    rewrite <- app_assoc in B3. cbn [app] in B3. split; [congruence|]. split; [congruence|exact B3].
Qed.
Lemma mk_dft_fresh freq n : fresh (mk_dft freq) n [].
Proof. split; [constructor|]. intros key. reflexivity. Qed.

(** *** Subtraction *)
Lemma sub_row_ok (r1 r2 : list (R * R)) : List.length r1 = List.length r2 ->
  exists r, sub_row r1 r2 = Ok r /\ List.length r = List.length r1 /\
    forall k z w, nth_error r1 k = Some z -> nth_error r2 k = Some w -> nth_error r k = Some (minus2 z w).
Proof.
  intros H. unfold sub_row. match goal with |- context [if ?b then _ else _] => change b with true || (replace b with true by (symmetry; exact (proj2 (Nat.eqb_eq _ _) H))) end. eexists. split; [reflexivity|].
  change (@T RNum) with R. split; [rewrite map_length, combine_length; lia|]. intros k z w Hz Hw.
  rewrite nth_error_map, (nth_error_combine _ _ _ _ _ Hz Hw). cbn. destruct z, w. reflexivity.
Qed.
Lemma sub_entry_ok (e1 e2 : dentry) : map (@List.length (R * R)) e1 = map (@List.length (R * R)) e2 ->
  exists e, sub_entry e1 e2 = Ok e /\ map (@List.length (R * R)) e = map (@List.length (R * R)) e1 /\
    forall i k r1 r2 z w, nth_error e1 i = Some r1 -> nth_error e2 i = Some r2 -> nth_error r1 k = Some z -> nth_error r2 k = Some w ->
      exists r, nth_error e i = Some r /\ nth_error r k = Some (minus2 z w).
Proof.
  intros H. unfold sub_entry. assert (L := f_equal (@List.length nat) H). rewrite !map_length in L.
  match goal with |- context [if ?b then _ else _] => change b with true || (replace b with true by (symmetry; exact (proj2 (Nat.eqb_eq _ _) L))) end. clear L. revert e2 H. induction e1 as [|r1 e1 IH]; intros [|r2 e2]; cbn [map combine mapM]; intros H; try discriminate.
  - exists []. split; [reflexivity|]. split; [reflexivity|]. intros [|i]; discriminate.
  - injection H as H1 H2. destruct (sub_row_ok r1 r2 H1) as (r & R1 & R2 & R3). destruct (IH e2 H2) as (e & E1 & E2 & E3).
    exists (r :: e). rewrite R1. cbn [bind]. rewrite E1. cbn [bind map]. split; [reflexivity|]. split; [exact (f_equal2 cons R2 E2)|].
    intros [|i] k r1' r2' z w; cbn [nth_error].
    + intros [= <-] [= <-] Hz Hw. exists r. split; [reflexivity|]. eauto.
    + apply E3.
Qed.
Lemma dft_sub_ok d o : NoDup (map fst (d_map d)) -> same_shape d o ->
  exists d', dft_sub d o = Ok d' /\ d_t d' = d_t d /\ d_freq d' = d_freq d /\ map fst (d_map d') = map fst (d_map d) /\ same_shape d' d /\
    forall key i k z w, coef d key i k = Some z -> coef o key i k = Some w -> coef d' key i k = Some (minus2 z w).
Proof.
  intros Hn Hs. unfold dft_sub.
  assert (M : forall m : list (string * @dentry RNum), NoDup (map fst m) -> (forall key (e : @dentry RNum), slookup key m = Some e -> exists e2 : @dentry RNum, slookup key (d_map o) = Some e2 /\ map (@List.length (R * R)) e = map (@List.length (R * R)) e2) ->
    exists m', mapM (fun '(name, e) => e2 <- dft_get o name ;; e' <- sub_entry e e2 ;; Ok (name, e')) m = Ok m' /\ map fst m' = map fst m /\
      forall key (e e2 : @dentry RNum), slookup key m = Some e -> slookup key (d_map o) = Some e2 -> exists e', slookup key m' = Some e' /\ map (@List.length (R * R)) e' = map (@List.length (R * R)) e /\
        forall i k r1 r2 z w, nth_error e i = Some r1 -> nth_error e2 i = Some r2 -> nth_error r1 k = Some z -> nth_error r2 k = Some w ->
          exists r, nth_error e' i = Some r /\ nth_error r k = Some (minus2 z w)).
  { induction m as [|[k0 e0] m IH]; intros Nd Hm.
    - exists []. split; [reflexivity|]. split; [reflexivity|]. discriminate.
    - cbn [map fst] in Nd. inversion Nd as [|? ? N1 N2]; subst.
      destruct (Hm k0 e0) as (e2 & A1 & A2); [cbn [slookup]; now rewrite String.eqb_refl|].
      destruct IH as (m' & B1 & B2 & B3); [exact N2|..].
      { intros key e He. apply Hm. cbn [slookup]. destruct (String.eqb_spec key k0) as [->|]; [|exact He].
        apply slookup_some_in in He. destruct N1. apply in_map_iff. now exists (k0, e). }
      destruct (sub_entry_ok e0 e2 A2) as (e' & C1 & C2 & C3).
      cbn [mapM]. unfold dft_get at 1. rewrite A1. cbn [bind]. rewrite C1. cbn [bind]. rewrite B1. cbn [bind].
      exists ((k0, e') :: m'). split; [reflexivity|]. split; [cbn; now rewrite B2|].
      intros key e e2' He He2. cbn [slookup] in *. destruct (String.eqb_spec key k0) as [->|Ne]; [|now apply (B3 key)].
      injection He as <-. exists e'. split; [reflexivity|]. rewrite A1 in He2. injection He2 as <-. auto. }
  destruct (M (d_map d) Hn) as (m' & M1 & M2 & M3).
  { intros key e He. specialize (Hs key). rewrite He in Hs. destruct (slookup key (d_map o)) as [e2|]; [|contradiction]. eauto. }
  rewrite M1. cbn [bind]. exists (Dft (d_t d) (d_freq d) m'). split; [reflexivity|]. cbn [d_t d_freq d_map]. split; [reflexivity|]. split; [reflexivity|]. split; [exact M2|].
  split.
  - intros key. cbn [d_map]. specialize (Hs key). destruct (slookup key (d_map d)) as [e|] eqn:Ed.
    + destruct (slookup key (d_map o)) as [e2|] eqn:Eo; [|contradiction]. destruct (M3 _ _ _ Ed Eo) as (e' & P1 & P2 & _). now rewrite P1.
    + apply slookup_none_notin in Ed. rewrite <- M2 in Ed. apply slookup_none_notin in Ed. now rewrite Ed.
  - intros key i k z w Hz Hw. apply coef_lookup in Hz, Hw. destruct Hz as (e & r1 & Z1 & Z2 & Z3), Hw as (e2 & r2 & W1 & W2 & W3).
    destruct (M3 _ _ _ Z1 W1) as (e' & P1 & _ & P3). destruct (P3 _ _ _ _ _ _ Z2 W2 Z3 W3) as (r & R1 & R2).
    unfold coef. cbn [d_map]. now rewrite P1, R1.
Qed.
Lemma same_shape_refl d : same_shape d d.
Proof. intros key. now destruct (slookup key (d_map d)). Qed.
Lemma same_shape_coef d o key i k : same_shape d o -> coef d key i k = None <-> coef o key i k = None.
Proof.
  intros H. specialize (H key). unfold coef. destruct (slookup key (d_map d)) as [e|], (slookup key (d_map o)) as [e2|]; try contradiction; [|tauto].
  revert e2 H i. induction e as [|r e IH]; intros [|r2 e2] H i; try discriminate; [tauto|].
  injection H as H1 H2. destruct i; cbn [nth_error]; [|now apply IH]. rewrite !nth_error_None. lia.
Qed.
Lemma dft_sub_self d : NoDup (map fst (d_map d)) -> exists d', dft_sub d d = Ok d' /\
  forall key i k, coef d' key i k = match coef d key i k with Some _ => Some (0, 0) | None => None end.
Proof.
  intros Hn. destruct (dft_sub_ok d d Hn (same_shape_refl d)) as (d' & A & _ & _ & _ & B & C). exists d'. split; [exact A|].
  intros key i k. destruct (coef d key i k) as [z|] eqn:E.
  - rewrite (C _ _ _ _ _ E E). unfold minus2. do 2 f_equal; ring.
  - now apply (same_shape_coef d' d).
Qed.
