(** When time monitors write, and what. *)
From Coq Require Import ZArith String Ascii List Bool Lia.
From Verif Require Import Scalar Base BaseFacts VecM GridM GeometryM MaterialM PmlM DftM TfsfM PolarM
  InterpM H5M ClockM MonitorM FieldM OutFacts PhysFacts ReachFacts SafeFacts SpecClock H5Facts.
Import ListNotations.
Local Open Scope Z_scope.

Lemma str_app_inv a : forall b s t, String.length s = String.length t ->
  (a ++ s)%string = (b ++ t)%string -> a = b /\ s = t.
Proof.
  assert (L : forall x y, String.length (x ++ y)%string = (String.length x + String.length y)%nat).
  { induction x; cbn; intros; [reflexivity|]. now rewrite IHx. }
  induction a as [|x a IH]; intros [|y b] s t Hl E; cbn in E.
  - auto.
  - subst s. cbn in Hl. rewrite L in Hl. lia.
  - subst t. cbn in Hl. rewrite L in Hl. lia.
  - injection E as -> E. apply IH in E; [|exact Hl]. destruct E as [-> ->]. auto.
Qed.

(** state of [every] after n checks *)
Definition after (k n : Z) : every :=
  if k =? 0 then Every 0 1 true else Every k (n mod k + 1) false.
Lemma after_0 k : 0 <= k <= 2147483647 -> mk_every k = after k 0.
Proof.
  intros H. unfold mk_every, after, u2i. replace (k <? 2147483648) with true by (symmetry; apply Z.ltb_lt; lia).
  destruct (Z.eqb_spec k 0) as [->|Hk]; [reflexivity|]. now rewrite Z.mod_0_l.
Qed.
Lemma check_after k n : 0 <= k <= 2147483647 -> 0 <= n ->
  check_repeat (after k n) = Ok (negb (k =? 0) && ((n + 1) mod k =? 0), after k (n + 1)).
Proof.
  intros H Hn. unfold after. destruct (Z.eqb_spec k 0) as [->|Hk]; [reflexivity|]. cbn [negb andb].
  assert (Hb := Z.mod_pos_bound n k ltac:(lia)).
  assert (Em : (n + 1) mod k = (n mod k + 1) mod k) by (rewrite Z.add_mod_idemp_l; [reflexivity|lia]).
  unfold check_repeat. cbn [ev_never ev_rep ev_n]. replace (k =? 0) with false by (symmetry; apply Z.eqb_neq; lia).
  rewrite Z.rem_mod_nonneg by lia. rewrite <- Em.
  destruct (Z.eqb_spec ((n + 1) mod k) 0) as [E|E].
  - now rewrite E.
  - assert (n mod k + 1 < k).
    { destruct (Z.eq_dec (n mod k + 1) k) as [E'|]; [|lia]. rewrite Em, E', Z.mod_same in E by lia. lia. }
    rewrite Em, (Z.mod_small (n mod k + 1)) by lia. unfold i32, in_i32.
    replace ((INT_MIN <=? n mod k + 1 + 1) && (n mod k + 1 + 1 <=? INT_MAX)) with true; [reflexivity|].
    symmetry. unfold INT_MIN, INT_MAX. apply andb_true_iff. split; apply Z.leb_le; lia.
Qed.

Lemma checks_after k n : 0 <= k <= 2147483647 -> forall a, 0 <= a ->
  checks n (after k a) = Ok (map (fun i => negb (k =? 0) && ((a + Z.of_nat i) mod k =? 0)) (seq 1 n)).
Proof.
  intros H. induction n as [|n IH]; intros a Ha; [reflexivity|]. cbn [checks seq map].
  rewrite check_after by lia. cbn [bind]. rewrite IH by lia. cbn [bind]. f_equal. f_equal.
  rewrite <- (seq_shift n 1), map_map. apply map_ext. intros i. do 2 f_equal. f_equal. lia.
Qed.

Lemma checks_every k n : 1 <= k <= 2147483647 ->
  checks n (mk_every k) = Ok (map (fun i => Z.of_nat i mod k =? 0) (seq 1 n)).
Proof.
  intros H. rewrite after_0, checks_after by lia. f_equal. apply map_ext. intros i.
  replace (k =? 0) with false by (symmetry; apply Z.eqb_neq; lia). reflexivity.
Qed.
Lemma checks_never n : checks n (mk_every 0) = Ok (repeat false n).
Proof. induction n as [|n IH]; [reflexivity|]. cbn [checks repeat mk_every]. cbn in IH |- *. now rewrite IH. Qed.

(** a negative period behaves like its absolute value *)
Lemma u2i_big k : 2147483648 <= k <= 4294967295 -> u2i k = k - 4294967296.
Proof. intros H. unfold u2i. now replace (k <? 2147483648) with false by (symmetry; apply Z.ltb_ge; lia). Qed.

Definition after_big (k n : Z) : every := Every (k - 4294967296) (n mod (4294967296 - k) + 1) false.
Lemma check_big k n : 2147483648 < k <= 4294967295 -> 0 <= n ->
  check_repeat (after_big k n) = Ok ((n + 1) mod (4294967296 - k) =? 0, after_big k (n + 1)).
Proof.
  intros H Hn. set (d := 4294967296 - k). unfold after_big. replace (k - 4294967296) with (- d) by (unfold d; lia). fold d.
  assert (Hb := Z.mod_pos_bound n d ltac:(unfold d; lia)).
  assert (Em : (n + 1) mod d = (n mod d + 1) mod d) by (rewrite Z.add_mod_idemp_l; [reflexivity|unfold d; lia]).
  unfold check_repeat. cbn [ev_never ev_rep ev_n]. replace (- d =? 0) with false by (symmetry; apply Z.eqb_neq; unfold d; lia).
  rewrite Z.rem_opp_r by (unfold d; lia). rewrite Z.rem_mod_nonneg by (unfold d in *; lia). rewrite <- Em.
  destruct (Z.eqb_spec ((n + 1) mod d) 0) as [E|E].
  - now rewrite E.
  - assert (n mod d + 1 < d).
    { destruct (Z.eq_dec (n mod d + 1) d) as [E'|]; [|lia]. rewrite Em, E', Z.mod_same in E by (unfold d; lia). lia. }
    rewrite Em, (Z.mod_small (n mod d + 1)) by lia. unfold i32, in_i32.
    replace ((INT_MIN <=? n mod d + 1 + 1) && (n mod d + 1 + 1 <=? INT_MAX)) with true; [reflexivity|].
    symmetry. unfold INT_MIN, INT_MAX. apply andb_true_iff. split; apply Z.leb_le; unfold d in *; lia.
Qed.
Lemma checks_big k n : 2147483648 < k <= 4294967295 ->
  checks n (mk_every k) = Ok (map (fun i => Z.of_nat i mod (4294967296 - k) =? 0) (seq 1 n)).
Proof.
  intros H. assert (E : mk_every k = after_big k 0).
  { unfold mk_every, after_big. rewrite u2i_big, Z.mod_0_l by lia. f_equal. apply Z.eqb_neq. lia. }
  rewrite E. replace (map _ _) with (map (fun i => (0 + Z.of_nat i) mod (4294967296 - k) =? 0) (seq 1 n))
    by (apply map_ext; reflexivity).
  assert (G : forall a, 0 <= a -> checks n (after_big k a) =
    Ok (map (fun i => (a + Z.of_nat i) mod (4294967296 - k) =? 0) (seq 1 n))); [|apply G; lia].
  clear E. induction n as [|n IH]; intros a Ha; [reflexivity|]. cbn [checks seq map].
  rewrite check_big by lia. cbn [bind]. rewrite IH by lia. cbn [bind]. f_equal. f_equal.
  rewrite <- (seq_shift n 1), map_map. apply map_ext. intros i. do 2 f_equal. lia.
Qed.

Section Cad.
Context {N : Num}.

Definition dset (name : string) (c : comp) : string := (("fields" // name) // comp_str c)%string.

Lemma expand_asked f : expand f = asked f.
Proof. now destruct f. Qed.
Lemma asks_expand f c : asks f c = true -> In c (expand f).
Proof. intros H. rewrite expand_asked. apply filter_In. split; [|exact H]. destruct c, f; (discriminate || cbn; auto). Qed.
Lemma expand_len f c : In c (expand f) -> String.length (comp_str c) = 2%nat -> c = Ez \/ c = Hx \/ c = Hy.
Proof. destruct c; cbn; auto; discriminate. Qed.

Definition real_comp (c : comp) : Prop := c = Ez \/ c = Hx \/ c = Hy.
Lemma expand_real f c : In c (expand f) -> real_comp c.
Proof. unfold real_comp. destruct f; cbn; intuition subst; auto. Qed.
Lemma real_len c : real_comp c -> String.length (comp_str c) = 2%nat.
Proof. intros [-> | [-> | ->]]; reflexivity. Qed.
Lemma real_str c d : real_comp c -> real_comp d -> comp_str c = comp_str d -> c = d.
Proof. intros [-> | [-> | ->]] [-> | [-> | ->]]; cbn; intros; auto; discriminate. Qed.

Lemma dset_inj n c n' c' : real_comp c -> real_comp c' -> dset n c = dset n' c' -> n = n' /\ c = c'.
Proof.
  intros H H' E. unfold dset, path_cat in E. apply str_app_inv in E; [|cbn; now rewrite !real_len].
  destruct E as [E1 E2]. cbn in E1, E2. injection E1 as E1. injection E2 as E2. split; [exact E1|now apply real_str].
Qed.
Lemma dset_field n c c' : real_comp c -> real_comp c' -> dset n c <> ("fields" // comp_str c')%string.
Proof.
  intros H H' E. unfold dset in E. unfold path_cat at 1 3 in E. apply str_app_inv in E; [|cbn; now rewrite !real_len].
  destruct E as [E1 E2]. discriminate E1.
Qed.
Lemma dset_root n c : root (dset n c) = "fields"%string. Proof. reflexivity. Qed.

Lemma rows_dset m l vs c : (forall d, In d l -> real_comp d) -> NoDup l -> length vs = length l -> real_comp c ->
  rows_at (combine (map (fun c => (tm_path m // comp_str c)%string) l) vs) (dset (tm_name m) c) =
  match find (fun w => comp_eqb c (fst w)) (combine l vs) with Some w => [snd w] | None => [] end.
Proof.
  intros Hl Hd. revert vs. induction l as [|d l IH]; intros [|v vs] Hlen Hc; try discriminate; [reflexivity|].
  cbn [map combine find fst]. inversion Hd as [|? ? Hn Hd']; subst. unfold rows_at. cbn [filter fst].
  change (tm_path m // comp_str d)%string with (dset (tm_name m) d).
  destruct (String.eqb_spec (dset (tm_name m) c) (dset (tm_name m) d)) as [E|E].
  - apply dset_inj in E; [|exact Hc|apply Hl; now left]. destruct E as [_ ->].
    replace (comp_eqb d d) with true by (destruct d; reflexivity). cbn [map snd]. f_equal.
    apply (rows_at_not (combine (map (fun c => (tm_path m // comp_str c)%string) l) vs)).
    intros [p x] Hw Ep. cbn in Ep. subst p. apply in_combine_l in Hw. apply in_map_iff in Hw. destruct Hw as (e & Ee & He).
    change (dset (tm_name m) e = dset (tm_name m) d) in Ee. apply dset_inj in Ee; [|apply Hl; now right|exact Hc].
    destruct Ee as [_ ->]. contradiction.
  - replace (comp_eqb c d) with false.
    + apply IH; auto. intros; apply Hl; now right.
    + destruct c, d; try reflexivity; exfalso; apply E; reflexivity.
Qed.
Lemma rows_dset_other m l vs n c : (forall d, In d l -> real_comp d) -> real_comp c -> n <> tm_name m ->
  rows_at (combine (map (fun c => (tm_path m // comp_str c)%string) l) vs) (dset n c) = [].
Proof.
  intros Hl Hc Hn. apply rows_at_not. intros [p x] Hw Ep. cbn in Ep. subst p.
  apply in_combine_l in Hw. apply in_map_iff in Hw. destruct Hw as (e & Ee & He).
  change (dset (tm_name m) e = dset n c) in Ee. apply dset_inj in Ee; auto. destruct Ee as [Ee _]. congruence.
Qed.

Lemma expand_nodup f : NoDup (expand f).
Proof. destruct f; repeat constructor; cbn; intuition discriminate. Qed.

(** effect of one write on the datasets of one time monitor *)
Lemma mapM_find {A} (h : comp -> res A) l vs c : mapM h l = Ok vs -> In c l ->
  exists v, find (fun w => comp_eqb c (fst w)) (combine l vs) = Some (c, v) /\ h c = Ok v.
Proof.
  revert vs. induction l as [|d l IH]; cbn [mapM In]; intros vs H Hi; [contradiction|]. inv_ok. cbn [combine find fst].
  destruct (comp_eqb c d) eqn:E.
  - assert (c = d) by (destruct c, d; cbn in E; congruence). subst d. eauto.
  - destruct Hi as [->|Hi]; [destruct c; discriminate|]. now apply IH.
Qed.
Lemma mapM_length {A B} (h : A -> res B) l vs : mapM h l = Ok vs -> length vs = length l.
Proof. revert vs. induction l as [|d l IH]; cbn [mapM]; intros vs H; inv_ok; cbn; auto. Qed.

Lemma tm_write_rows g F f m f' m' c : tm_write g F f m = Ok (f', m') -> In c (expand (tm_fields m)) ->
  exists v, tm_sample g F (tm_shape_ m) c = Ok v /\
    data_rows f' (dset (tm_name m) c) = (data_rows f (dset (tm_name m) c) ++ [v])%list.
Proof.
  intros H Hc. apply tm_write_wrote in H. destruct H as (_ & _ & vs & E & W).
  destruct (mapM_find _ _ _ _ E Hc) as (v & Ef & Ev). exists v. split; [exact Ev|].
  rewrite W, rows_dset, Ef; auto.
  - apply expand_real.
  - apply expand_nodup.
  - eapply mapM_length; eauto.
  - eapply expand_real; eauto.
Qed.
Lemma tm_write_other g F f m f' m' n c : tm_write g F f m = Ok (f', m') -> n <> tm_name m -> real_comp c ->
  data_rows f' (dset n c) = data_rows f (dset n c).
Proof.
  intros H Hn Hc. apply tm_write_wrote in H. destruct H as (_ & _ & vs & E & W).
  rewrite W, rows_dset_other; auto; [apply app_nil_r|apply expand_real].
Qed.

Lemma upd_nth_nth {A} i (x : A) l j : (i < length l)%nat ->
  nth_error (upd_nth i x l) j = if Nat.eqb i j then Some x else nth_error l j.
Proof.
  revert i j. induction l as [|y l IH]; intros [|i] [|j] H; cbn in *; try lia; auto. apply IH. lia.
Qed.
Lemma upd_nth_map {A B} (h : A -> B) i x y l : nth_error l i = Some y -> h x = h y -> map h (upd_nth i x l) = map h l.
Proof.
  revert i. induction l as [|z l IH]; intros [|i] E H; cbn in *; try discriminate; [congruence|]. f_equal. now apply IH.
Qed.
Lemma nth_lt {A} (l : list A) i x : nth_error l i = Some x -> (i < length l)%nat.
Proof. intros H. apply nth_error_Some. congruence. Qed.

Definition names (s : field) := map tm_name (f_tmons s).

Lemma tm_ready_effect j s s' : tm_ready j s = Fine s' -> names s' = names s /\
  (forall i, i <> j -> nth_error (f_tmons s') i = nth_error (f_tmons s) i) /\
  (forall n c, real_comp c -> nth_error (names s) j <> Some n -> data_rows (f_h5 s') (dset n c) = data_rows (f_h5 s) (dset n c)) /\
  forall m, nth_error (f_tmons s) j = Some m -> exists b e m',
    check_repeat (tm_every m) = Ok (b, e) /\ nth_error (f_tmons s') j = Some m' /\ tm_same m m' /\ tm_every m' = e /\
    forall c, In c (expand (tm_fields m)) ->
      if b then exists v, tm_sample (ph_grid (f_ph s)) (ph_F (f_ph s)) (tm_shape_ m) c = Ok v /\
        data_rows (f_h5 s') (dset (tm_name m) c) = (data_rows (f_h5 s) (dset (tm_name m) c) ++ [v])%list
      else data_rows (f_h5 s') (dset (tm_name m) c) = data_rows (f_h5 s) (dset (tm_name m) c).
Proof.
  unfold tm_ready. destruct (nth_error (f_tmons s) j) as [m|] eqn:E; intros H; inv_fine.
  2:{ split; [reflexivity|]. split; [auto|]. split; [auto|]. discriminate. }
  assert (Hlt := nth_lt _ _ _ E).
  assert (En : nth_error (names s) j = Some (tm_name m)) by (unfold names; now apply map_nth_error).
  destruct r as [[|] e].
  - cbn [set_f_tmons f_ph f_h5] in H. inv_fine. destruct r as [f m']. inv_fine.
    assert (S := tm_write_wrote _ _ _ _ _ _ Hr0). destruct S as ((S1 & S2 & S3) & S4 & _). cbn in S1, S2, S3, S4.
    split; [|split; [|split]].
    + unfold names. cbn [set_f_h5 set_f_tmons f_tmons]. rewrite upd_nth_map with (y := TMon (tm_name m) (tm_shape_ m) (tm_fields m) e (tm_dsets m));
        [|now rewrite upd_nth_nth, Nat.eqb_refl by exact Hlt|exact S1]. now apply upd_nth_map with (y := m).
    + intros i Hi. cbn [set_f_h5 set_f_tmons f_tmons]. rewrite upd_nth_nth.
      * destruct (Nat.eqb_spec j i); [congruence|]. rewrite upd_nth_nth by exact Hlt. now destruct (Nat.eqb_spec j i).
      * apply (nth_lt _ _ (TMon (tm_name m) (tm_shape_ m) (tm_fields m) e (tm_dsets m))). now rewrite upd_nth_nth, Nat.eqb_refl by exact Hlt.
    + intros n c Hc Hn. cbn [set_f_h5 f_h5]. eapply tm_write_other; [exact Hr0| |exact Hc]. cbn. congruence.
    + intros m0 E0. injection E0 as <-. exists true, e, m'. split; [exact Hr|]. split; [|split; [now repeat split|split; [exact S4|]]].
      * cbn [set_f_h5 set_f_tmons f_tmons]. rewrite upd_nth_nth, Nat.eqb_refl; [reflexivity|].
        apply (nth_lt _ _ (TMon (tm_name m) (tm_shape_ m) (tm_fields m) e (tm_dsets m))). now rewrite upd_nth_nth, Nat.eqb_refl by exact Hlt.
      * intros c Hc. cbn [set_f_h5 f_h5]. eapply tm_write_rows in Hr0; [exact Hr0|exact Hc].
  - inv_fine. split; [|split; [|split]].
    + unfold names. cbn. now apply upd_nth_map with (y := m).
    + intros i Hi. cbn. rewrite upd_nth_nth by exact Hlt. destruct (Nat.eqb_spec j i); congruence.
    + reflexivity.
    + intros m0 E0. injection E0 as <-. exists false, e. eexists. split; [exact Hr|]. split; [|split; [|split]].
      * cbn. rewrite upd_nth_nth, Nat.eqb_refl by exact Hlt. reflexivity.
      * now repeat split.
      * reflexivity.
      * intros. reflexivity.
Qed.

Lemma nodup_nth {A} (l : list A) i j x : NoDup l -> nth_error l i = Some x -> nth_error l j = Some x -> i = j.
Proof.
  intros H Hi Hj. rewrite NoDup_nth_error in H. apply H; [|congruence]. eapply nth_lt; eauto.
Qed.

Lemma update_tmon i m b e s s' : update s = Fine s' -> NoDup (names s) -> nth_error (f_tmons s) i = Some m ->
  check_repeat (tm_every m) = Ok (b, e) ->
  names s' = names s /\ exists m', nth_error (f_tmons s') i = Some m' /\ tm_same m m' /\ tm_every m' = e /\
    forall c, In c (expand (tm_fields m)) ->
      if b then exists v, tm_sample (ph_grid (f_ph s')) (ph_F (f_ph s')) (tm_shape_ m) c = Ok v /\
        data_rows (f_h5 s') (dset (tm_name m) c) = (data_rows (f_h5 s) (dset (tm_name m) c) ++ [v])%list
      else data_rows (f_h5 s') (dset (tm_name m) c) = data_rows (f_h5 s) (dset (tm_name m) c).
Proof.
  intros H Hd Hm Hc. apply update_split in H. destruct H as (s1 & H & E1 & E2 & _ & E4).
  assert (En : names s1 = names s) by (unfold names; now rewrite E2).
  assert (Hm1 : nth_error (f_tmons s1) i = Some m) by now rewrite E2.
  rewrite <- E1, <- E4. unfold step_tmons in H.
  assert (Hlt := nth_lt _ _ _ Hm1). assert (Ht : (0 <= i)%nat) by lia.
  assert (Eni : nth_error (names s) i = Some (tm_name m)) by (rewrite <- En; unfold names; now apply map_nth_error).
  pose (P := fun (j : nat) (a : field) => f_ph a = f_ph s1 /\ names a = names s /\
    if (j <=? i)%nat then nth_error (f_tmons a) i = Some m /\
      forall c, In c (expand (tm_fields m)) -> data_rows (f_h5 a) (dset (tm_name m) c) = data_rows (f_h5 s1) (dset (tm_name m) c)
    else exists m', nth_error (f_tmons a) i = Some m' /\ tm_same m m' /\ tm_every m' = e /\
    forall c, In c (expand (tm_fields m)) ->
      if b then exists v, tm_sample (ph_grid (f_ph s1)) (ph_F (f_ph s1)) (tm_shape_ m) c = Ok v /\
        data_rows (f_h5 a) (dset (tm_name m) c) = (data_rows (f_h5 s1) (dset (tm_name m) c) ++ [v])%list
      else data_rows (f_h5 a) (dset (tm_name m) c) = data_rows (f_h5 s1) (dset (tm_name m) c)).
  apply (oloop_post P) in H.
  - destruct H as (_ & Hn & H). destruct (Nat.leb_spec (0 + length (f_tmons s1)) i); [lia|]. split; [exact Hn|exact H].
  - split; [reflexivity|]. split; [exact En|]. cbn. split; [exact Hm1|reflexivity].
  - intros j a a' Hj (A1 & A2 & A3) Hr. assert (A4 := tm_ready_ph _ _ _ Hr). apply tm_ready_effect in Hr.
    destruct Hr as (R1 & R2 & R3 & R4). split; [congruence|]. split; [congruence|].
    destruct (Nat.eq_dec j i) as [->|Hji].
    + replace (i <=? i)%nat with true in A3 by (symmetry; apply Nat.leb_le; lia). destruct A3 as [A3 A5].
      replace (S i <=? i)%nat with false by (symmetry; apply Nat.leb_gt; lia).
      destruct (R4 m A3) as (b' & e' & m' & Q1 & Q2 & Q3 & Q4 & Q5). rewrite Hc in Q1. injection Q1 as <- <-.
      exists m'. split; [exact Q2|]. split; [exact Q3|]. split; [exact Q4|]. intros c Hin. specialize (Q5 c Hin).
      rewrite A1, (A5 c Hin) in Q5. exact Q5.
    + assert (D : forall c, In c (expand (tm_fields m)) -> data_rows (f_h5 a') (dset (tm_name m) c) = data_rows (f_h5 a) (dset (tm_name m) c)).
      { intros c Hin. apply R3; [eapply expand_real; eauto|]. rewrite A2. intros Ej. apply Hji. eapply nodup_nth; eauto. }
      replace (S j <=? i)%nat with (j <=? i)%nat.
      2:{ destruct (Nat.leb_spec j i), (Nat.leb_spec (S j) i); lia. }
      destruct (j <=? i)%nat.
      * destruct A3 as [A3 A5]. split; [rewrite R2; auto|]. intros c Hin. rewrite D, A5; auto.
      * destruct A3 as (m' & Q1 & Q2 & Q3 & Q4). exists m'. split; [rewrite R2; auto|]. split; [exact Q2|]. split; [exact Q3|].
        intros c Hin. specialize (Q4 c Hin). rewrite (D c Hin). exact Q4.
Qed.

(** the other calls *)
Lemma exec_tmon_frame i m c s s' : exec c s = Fine s' -> c <> Update -> leaves_tmon i c -> NoDup (names s) ->
  nth_error (f_tmons s) i = Some m ->
  names s' = names s /\ nth_error (f_tmons s') i = Some m /\
  forall d, real_comp d -> data_rows (f_h5 s') (dset (tm_name m) d) = data_rows (f_h5 s) (dset (tm_name m) d).
Proof.
  intros H Hu Hl Hd Hm. assert (R := exec_rooted _ _ _ H).
  assert (F : ~ cmd_root c "fields"%string -> f_tmons s' = f_tmons s -> names s' = names s /\ nth_error (f_tmons s') i = Some m /\
    forall d, real_comp d -> data_rows (f_h5 s') (dset (tm_name m) d) = data_rows (f_h5 s) (dset (tm_name m) d)).
  { intros Hr Ht. split; [unfold names; now rewrite Ht|]. split; [now rewrite Ht|]. intros d _.
    eapply rooted_rows; [exact R|]. now rewrite dset_root. }
  assert (W : forall d a b, write_field d a = Fine b -> f_tmons b = f_tmons a /\
    forall n x, real_comp x -> data_rows (f_h5 b) (dset n x) = data_rows (f_h5 a) (dset n x)).
  { intros d a b Hw. apply write_field_wrote in Hw. destruct Hw as (t & Eg & Hw & Ht & _). split; [exact Ht|].
    intros n x Hx. rewrite Hw, rows_at_not; [apply app_nil_r|]. intros w [<-|[]] Ew. cbn [fst] in Ew. symmetry in Ew.
    revert Ew. apply dset_field; [exact Hx|]. unfold real_comp. destruct d; cbn in Eg; try discriminate; auto. }
  assert (O : forall i0 h, on_obj i0 h s = Fine s' -> f_tmons s' = f_tmons s).
  { intros i0 h. unfold on_obj. destruct (nth_error (ph_objs _) _); [destruct (o_dyn _)|]; intros Ho; inv_fine; reflexivity. }
  assert (A : forall q, add_monitor q s = Fine s' -> f_tmons s' = f_tmons s).
  { intros q Hq. unfold add_monitor in Hq. inv_fine. reflexivity. }
  destruct c; cbn [exec leaves_tmon] in *; try contradiction; try congruence;
    try (apply F; [cbn; intuition discriminate|]; try (eapply O; eassumption); try (eapply A; eassumption)).
  - apply on_ph_fine in H. destruct H as (p & _ & ->). reflexivity.
  - apply F; [cbn; unfold obj_root; destruct (o_dyn o); intuition discriminate|].
    unfold add_object, register_mat in H. apply obind_fine in H. destruct H as (s4 & H & E). injection E as <-.
    apply obind_fine in H. destruct H as (s3 & H & E3). apply obind_fine in H. destruct H as (s2 & H & E2).
    apply obind_fine in H. destruct H as (s1 & H & E1). apply on_ph_fine in E1, E2.
    destruct E1 as (p1 & _ & ->), E2 as (p2 & _ & ->). inv_fine. destruct (str_in _ _); inv_fine; reflexivity.
  - unfold add_source in H. inv_fine. reflexivity.
  - injection H as <-. reflexivity.
  - injection H as <-. reflexivity.
  - unfold clear_materials in H. apply on_ph_fine in H. destruct H as (p & _ & ->). reflexivity.
  - unfold set_tfsf in H. inv_fine. reflexivity.
  - destruct (W _ _ _ H) as [W1 W2]. split; [unfold names; now rewrite W1|]. split; [now rewrite W1|]. intros; now apply W2.
  - unfold writeE in H. destruct (W _ _ _ H) as [W1 W2]. split; [unfold names; now rewrite W1|]. split; [now rewrite W1|]. intros; now apply W2.
  - unfold writeH in H. inv_fine. destruct (W _ _ _ Hs) as [W1 W2], (W _ _ _ H) as [W3 W4].
    split; [unfold names; now rewrite W3, W1|]. split; [now rewrite W3, W1|]. intros. now rewrite W4, W2.
  - unfold write_monitor_data in H. destruct (nth_error (f_mons s) i0) as [q|]; [|inv_fine; reflexivity].
    destruct (mon_sub_name q). inv_fine. reflexivity.
  - unfold write_tmon in H. destruct (nth_error (f_tmons s) i0) as [q|] eqn:Eq; [|inv_fine; repeat split; auto].
    inv_fine. destruct r as [f m']. inv_fine. assert (S := tm_write_wrote _ _ _ _ _ _ Hr). destruct S as ((S1 & _ & _) & _).
    split; [|split].
    + unfold names. cbn. now apply upd_nth_map with (y := q).
    + cbn. rewrite upd_nth_nth by (eapply nth_lt; eauto). destruct (Nat.eqb_spec i0 i); [congruence|exact Hm].
    + intros d Hx. cbn. eapply tm_write_other; eauto. intros En. apply Hl.
      apply (nodup_nth (names s) i0 i (tm_name m)); [exact Hd|unfold names; rewrite En; now apply map_nth_error|unfold names; now apply map_nth_error].
  - unfold write_current in H. destruct (nth_error (ph_objs _) _) as [o|]; [|inv_fine; reflexivity].
    destruct (o_dyn o); inv_fine; reflexivity.
  - unfold get_box_monitor in H. destruct (nth_error (ph_objs _) _) as [o|]; [|inv_fine; reflexivity]. inv_fine. eapply A; eassumption.
Qed.

Lemma updates_app l l' : updates (l ++ l') = (updates l + updates l')%nat.
Proof. unfold updates. now rewrite filter_app, app_length. Qed.

Lemma run_snoc l c s0 s : run (l ++ [c]) s0 = Fine s -> exists s1, run l s0 = Fine s1 /\ exec c s1 = Fine s.
Proof.
  rewrite run_app. intros H. apply obind_fine in H. destruct H as (s1 & H1 & H). exists s1. split; [exact H1|].
  cbn [run] in H. apply obind_fine in H. destruct H as (s2 & H2 & H). cbn in H. congruence.
Qed.

Definition is_Update (c : cmd) : {c = Update} + {c <> Update}.
Proof. destruct c; try (right; discriminate). left; reflexivity. Defined.

Theorem cadence i m k s0 : 0 <= k <= 2147483647 -> NoDup (names s0) -> nth_error (f_tmons s0) i = Some m ->
  tm_every m = mk_every k -> forall l s, Forall (leaves_tmon i) l -> run l s0 = Fine s ->
  names s = names s0 /\
  (exists m', nth_error (f_tmons s) i = Some m' /\ tm_same m m' /\ tm_every m' = after k (Z.of_nat (updates l))) /\
  forall c, In c (expand (tm_fields m)) -> exists vs,
    data_rows (f_h5 s) (dset (tm_name m) c) = (data_rows (f_h5 s0) (dset (tm_name m) c) ++ vs)%list /\
    Z.of_nat (length vs) = (if k =? 0 then 0 else Z.of_nat (updates l) / k) /\
    forall q v, nth_error vs q = Some v -> exists l1 l2 sq, l = (l1 ++ Update :: l2)%list /\
      Z.of_nat (updates (l1 ++ [Update])) = (Z.of_nat q + 1) * k /\ run (l1 ++ [Update]) s0 = Fine sq /\
      tm_sample (ph_grid (f_ph sq)) (ph_F (f_ph sq)) (tm_shape_ m) c = Ok v.
Proof.
  intros Hk Hd Hm Ee l. induction l as [|x l IH] using rev_ind; intros s Hl H.
  - injection H as <-. split; [reflexivity|]. split.
    + exists m. split; [exact Hm|]. split; [now repeat split|]. now rewrite Ee, after_0.
    + intros c Hc. exists []. rewrite app_nil_r. split; [reflexivity|]. split.
      * destruct (Z.eqb_spec k 0); [reflexivity|]. change (Z.of_nat (updates [])) with 0. change (Z.of_nat (length [])) with 0. now rewrite Z.div_0_l.
      * intros [|q] v; discriminate.
  - apply Forall_app in Hl. destruct Hl as [Hl Hx]. inversion Hx as [|? ? Hx' _]; subst.
    assert (Hfull := H). apply run_snoc in H. destruct H as (s1 & H1 & H). destruct (IH s1 Hl H1) as (I1 & (m1 & I2 & I3 & I4) & I5).
    assert (Hd1 : NoDup (names s1)) by now rewrite I1. assert (I3' := I3). destruct I3' as (J1 & J2 & J3).
    destruct (is_Update x) as [->|Hu].
    + cbn [exec] in H. assert (Hch : check_repeat (tm_every m1) = Ok (negb (k =? 0) && ((Z.of_nat (updates l) + 1) mod k =? 0), after k (Z.of_nat (updates l) + 1))).
      { rewrite I4. apply check_after; lia. }
      destruct (update_tmon i m1 _ _ s1 s H Hd1 I2 Hch) as (U1 & m' & U2 & U3 & U4 & U5).
      assert (Eu : Z.of_nat (updates (l ++ [Update])) = Z.of_nat (updates l) + 1) by (rewrite updates_app; cbn; lia).
      split; [congruence|]. split.
      * exists m'. split; [exact U2|]. destruct U3 as (V1 & V2 & V3). split; [repeat split; congruence|]. now rewrite Eu.
      * intros c Hc. destruct (I5 c Hc) as (vs & R1 & R2 & R3). specialize (U5 c). rewrite J1, J2, J3 in U5. specialize (U5 Hc).
        assert (R3' : forall q v, nth_error vs q = Some v -> exists l1 l2 sq, (l ++ [Update] = l1 ++ Update :: l2)%list /\
          Z.of_nat (updates (l1 ++ [Update])) = (Z.of_nat q + 1) * k /\ run (l1 ++ [Update]) s0 = Fine sq /\
          tm_sample (ph_grid (f_ph sq)) (ph_F (f_ph sq)) (tm_shape_ m) c = Ok v).
        { intros q v Hq. destruct (R3 q v Hq) as (l1 & l2 & sq & -> & Q). exists l1, (l2 ++ [Update])%list, sq.
          split; [now rewrite <- app_assoc|exact Q]. }
        rewrite Eu. destruct (Z.eqb_spec k 0) as [Hk0|Hk0]; cbn [negb andb] in U5.
        -- exists vs. split; [congruence|]. split; [exact R2|exact R3'].
        -- set (n := Z.of_nat (updates l)) in *. assert (0 <= n) by (unfold n; lia).
           assert (Dm := Z.div_mod n k Hk0). assert (Dm' := Z.div_mod (n + 1) k Hk0).
           assert (B := Z.mod_pos_bound n k ltac:(lia)). assert (B' := Z.mod_pos_bound (n + 1) k ltac:(lia)).
           destruct (Z.eqb_spec ((n + 1) mod k) 0) as [E0|E0].
           ++ destruct U5 as (v & Ev & Er). exists (vs ++ [v])%list. split; [rewrite Er, R1; now rewrite app_assoc|].
              assert (Hq : (n + 1) / k = n / k + 1) by nia.
              split; [rewrite app_length; cbn; lia|].
              intros q w Hw. destruct (Nat.lt_ge_cases q (length vs)) as [Hlt|Hge].
              ** rewrite nth_error_app1 in Hw by exact Hlt. now apply R3'.
              ** rewrite nth_error_app2 in Hw by exact Hge. destruct (q - length vs)%nat as [|z] eqn:Ez; [|destruct z; discriminate].
                 injection Hw as <-. assert (q = length vs) by lia. subst q. exists l, [], s. split; [reflexivity|].
                 split; [rewrite Eu, R2; fold n; nia|]. split; [exact Hfull|exact Ev].
           ++ exists vs. split; [congruence|]. split; [rewrite R2; nia|exact R3'].
    + destruct (exec_tmon_frame i m1 x s1 s H Hu Hx' Hd1 I2) as (U1 & U2 & U3).
      assert (Eu : updates (l ++ [x]) = updates l) by (rewrite updates_app; destruct x; cbn; try lia; congruence).
      split; [congruence|]. split; [exists m1; split; [exact U2|]; split; [exact I3|]; now rewrite Eu|].
      intros c Hc. destruct (I5 c Hc) as (vs & R1 & R2 & R3). exists vs. rewrite <- J1, U3 by (eapply expand_real; eauto).
      rewrite J1. split; [exact R1|]. rewrite Eu. split; [exact R2|].
      intros q v Hq. destruct (R3 q v Hq) as (l1 & l2 & sq & -> & Q). exists l1, (l2 ++ [x])%list, sq.
      split; [now rewrite <- app_assoc|exact Q].
Qed.

End Cad.
