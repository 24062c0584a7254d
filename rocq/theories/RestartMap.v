(** The polarization maps of a field are determined by its list of objects: re-inserting the
    objects into blank maps gives the maps that adding them to an empty field gives. *)
From Coq Require Import ZArith String List Bool Lia.
From Verif Require Import Scalar Base BaseFacts VecM GridM GeometryM MaterialM PmlM DftM TfsfM PolarM InterpM H5M ClockM
  MonitorM FieldM WfFacts.
Import ListNotations.
Local Open Scope Z_scope.

Section Map.
Context {N : Num} {M : Type}.
Variables (np : M -> nat) (vals : M -> T -> list T) (g : grid) (sel : obj -> option M).

Definition key (o : obj) : string := m_name (o_mat o).
Definition toc (P : list (string * (M * polar))) : list (string * M) := map (fun e => (fst e, fst (snd e))) P.
Definition shape1 (S : list (string * M)) (o : obj) : list (string * M) :=
  match sel o with
  | None => S
  | Some m => match slookup (key o) S with None => sinsert (key o) m S | Some _ => S end
  end.
Definition shapes (O : list obj) : list (string * M) := fold_left shape1 O [].
Definition addsel (P : list (string * (M * polar))) (o : obj) :=
  match sel o with None => Ok P | Some m => add_polar np vals g P (key o) m o end.
Definition resel (P : list (string * (M * polar))) (o : obj) :=
  match sel o with None => Ok P | Some _ => reinsert_polar vals g P (key o) o end.

Lemma toc_lookup k P : slookup k (toc P) = option_map fst (slookup k P).
Proof. induction P as [|[a [m q]] P IH]; cbn; [reflexivity|]. destruct (String.eqb k a); [reflexivity|exact IH]. Qed.
Lemma toc_insert k m q P : toc (sinsert k (m, q) P) = sinsert k m (toc P).
Proof. induction P as [|[a [x y]] P IH]; cbn; [reflexivity|]. destruct (String.compare k a); cbn; [reflexivity|reflexivity|]. f_equal. exact IH. Qed.
Lemma toc_assign k m q q' P : slookup k P = Some (m, q) -> toc (sassign k (m, q') P) = toc P.
Proof.
  induction P as [|[a [x y]] P IH]; cbn; [reflexivity|]. destruct (String.eqb k a).
  - intros H. injection H as -> ->. reflexivity.
  - intros H. cbn. f_equal. now apply IH.
Qed.
Lemma toc_add P o P' : addsel P o = Ok P' -> toc P' = shape1 (toc P) o.
Proof.
  unfold addsel, shape1. destruct (sel o) as [m|]; [|intros H; now injection H as <-]. unfold add_polar. rewrite toc_lookup.
  destruct (slookup (key o) P) as [[m0 q]|] eqn:E; intros H; inv_ok; cbn [option_map].
  - now apply (toc_assign _ _ q).
  - apply toc_insert.
Qed.
Lemma toc_re P o P' : resel P o = Ok P' -> toc P' = toc P.
Proof.
  unfold resel. destruct (sel o); [|intros H; now injection H as <-]. unfold reinsert_polar.
  destruct (slookup (key o) P) as [[m0 q]|] eqn:E; intros H; inv_ok. now apply (toc_assign _ _ q).
Qed.

Definition mine (O : list obj) (k : string) : list obj :=
  filter (fun o => match sel o with Some _ => String.eqb (key o) k | None => false end) O.
Lemma mine_snoc O o k : mine (O ++ [o]) k = mine O k ++ match sel o with Some _ => if String.eqb (key o) k then [o] else [] | None => [] end.
Proof. unfold mine. rewrite filter_app. cbn. destruct (sel o); [|reflexivity]. destruct (String.eqb (key o) k); reflexivity. Qed.

Definition ins (m : M) (q : polar) (o : obj) : res polar := insert_polar q (vals m (g_dt g)) (obj_inside o).
Definition row (O : list obj) (s : string * M) (e : string * (M * polar)) : Prop :=
  fst e = fst s /\ fst (snd e) = snd s /\ exists b, mk_polar g (np (snd s)) = Ok b /\ foldM (ins (snd s)) b (mine O (fst s)) = Ok (snd (snd e)).
Definition rows_of (O : list obj) (S : list (string * M)) (Q : list (string * (M * polar))) : Prop := Forall2 (row O) S Q.

Lemma rows_unique O S Q P : rows_of O S Q -> rows_of O S P -> Q = P.
Proof.
  intros H. revert P. induction H as [|s e S Q (E1 & E2 & b & B1 & B2) H IH]; intros P K; inversion K as [|? f ? P' (F1 & F2 & c & C1 & C2) K']; subst; [reflexivity|].
  f_equal; [|now apply IH]. destruct e as [a [x y]], f as [a' [x' y']]. cbn in *. subst. rewrite B1 in C1. injection C1 as <-. rewrite B2 in C2. now injection C2 as <-.
Qed.
Lemma rows_toc O S Q : rows_of O S Q -> toc Q = S.
Proof. induction 1 as [|s e S Q (E1 & E2 & _) H IH]; [reflexivity|]. unfold toc in *. cbn [map]. rewrite IH, E1, E2. now destruct s. Qed.
Lemma foldM_snoc {A B} (f : A -> B -> res A) l x : forall a, foldM f a (l ++ [x]) = (b <- foldM f a l ;; f b x).
Proof. induction l as [|y l IH]; intros a; cbn [app foldM bind]; [destruct (f a x); reflexivity|]. destruct (f a y); cbn [bind]; [apply IH|reflexivity|reflexivity]. Qed.

Lemma slookup_none {A} k (S : list (string * A)) : slookup k S = None -> ~ In k (map fst S).
Proof.
  induction S as [|[a x] S IH]; cbn; [auto|]. destruct (String.eqb_spec k a) as [->|Hn]; [discriminate|].
  intros H [E|E]; [now subst|]. now apply IH.
Qed.
Lemma row_other O o s e : (forall m, sel o = Some m -> key o <> fst s) -> row O s e -> row (O ++ [o]) s e.
Proof.
  intros Hk (E1 & E2 & b & B1 & B2). split; [exact E1|]. split; [exact E2|]. exists b. split; [exact B1|].
  rewrite mine_snoc. destruct (sel o) as [m|]; [|now rewrite app_nil_r]. specialize (Hk m eq_refl).
  destruct (String.eqb_spec (key o) (fst s)); [contradiction|]. now rewrite app_nil_r.
Qed.
Lemma rows_other O o S Q : (forall m, sel o = Some m -> ~ In (key o) (map fst S)) -> rows_of O S Q -> rows_of (O ++ [o]) S Q.
Proof.
  intros Hk H. induction H as [|s e S Q R H IH]; constructor.
  - apply row_other; [|exact R]. intros m Hm E. apply (Hk m Hm). now left.
  - apply IH. intros m Hm Hin. apply (Hk m Hm). now right.
Qed.

Lemma rows_re O S Q o Q' : NoDup (map fst S) -> rows_of O S Q -> resel Q o = Ok Q' -> rows_of (O ++ [o]) S Q'.
Proof.
  intros Hd H. unfold resel. destruct (sel o) as [m|] eqn:Es.
  2:{ intros K. injection K as <-. apply rows_other; [|exact H]. intros m' Hm'. rewrite Es in Hm'. discriminate. }
  unfold reinsert_polar. destruct (slookup (key o) Q) as [[m0 q]|] eqn:E; intros K; inv_ok. rename Hr into Hi.
  induction H as [|s [a [x y]] S Q R H IH]; [discriminate|]. cbn [slookup sassign] in *. inversion Hd as [|? ? Hn Hd']; subst.
  destruct R as (E1 & E2 & b & B1 & B2). cbn [fst snd] in *. subst a x.
  destruct (String.eqb_spec (key o) (fst s)) as [Ek|Ek].
  - injection E as <- <-. constructor.
    + split; [reflexivity|]. split; [reflexivity|]. exists b. split; [exact B1|]. cbn [fst snd]. rewrite mine_snoc, Es.
      replace (String.eqb (key o) (fst s)) with true by (symmetry; now apply String.eqb_eq). rewrite foldM_snoc, B2. cbn [bind]. exact Hi.
    + apply rows_other; [|exact H]. intros m' _. now rewrite Ek.
  - constructor; [|now apply IH]. apply row_other; [intros; congruence|]. split; [reflexivity|]. split; [reflexivity|]. now exists b.
Qed.

Lemma sinsert_keys {A} k (v : A) S a : In a (map fst (sinsert k v S)) -> a = k \/ In a (map fst S).
Proof. induction S as [|[b x] S IH]; cbn; [intuition|]. destruct (String.compare k b); cbn; intuition. Qed.
Lemma sinsert_nodup {A} k (v : A) S : ~ In k (map fst S) -> NoDup (map fst S) -> NoDup (map fst (sinsert k v S)).
Proof.
  induction S as [|[b x] S IH]; cbn; intros Hn Hd; [constructor; auto|]. inversion Hd; subst.
  destruct (String.compare k b); cbn; [exact Hd|constructor; auto|]. constructor; [|apply IH; auto].
  intros Hin. apply sinsert_keys in Hin. intuition.
Qed.
Lemma shapes_snoc O o : shapes (O ++ [o]) = shape1 (shapes O) o.
Proof. unfold shapes. now rewrite fold_left_app. Qed.
Lemma shapes_nodup O : NoDup (map fst (shapes O)).
Proof.
  induction O as [|o O IH] using rev_ind; [constructor|]. rewrite shapes_snoc. unfold shape1. destruct (sel o); [|exact IH].
  destruct (slookup (key o) (shapes O)) eqn:E; [exact IH|]. apply sinsert_nodup; [now apply slookup_none|exact IH].
Qed.
Lemma sinsert_has {A} k (v : A) S a : In a (map fst S) \/ a = k -> In a (map fst (sinsert k v S)).
Proof.
  induction S as [|[b x] S IH]; cbn; [intuition|]. destruct (String.compare k b) eqn:E; cbn; [|intuition|intuition].
  intros [H| ->]; [exact H|]. left. symmetry. now apply String.compare_eq_iff.
Qed.
Lemma mine_known O k : mine O k <> [] -> In k (map fst (shapes O)).
Proof.
  induction O as [|o O IH] using rev_ind; [cbn; congruence|]. rewrite mine_snoc, shapes_snoc. unfold shape1.
  destruct (sel o) as [m|]; [|rewrite app_nil_r; exact IH].
  destruct (String.eqb_spec (key o) k) as [->|Hk]; intros H.
  - destruct (slookup k (shapes O)) eqn:E; [|apply sinsert_has; now right].
    clear - E. induction (shapes O) as [|[a x] S IH]; cbn in *; [discriminate|]. destruct (String.eqb_spec k a); [left; congruence|right; now apply IH].
  - rewrite app_nil_r in H. destruct (slookup (key o) (shapes O)); [now apply IH|]. apply sinsert_has. left. now apply IH.
Qed.

Lemma rows_add O P o P' : rows_of O (shapes O) P -> addsel P o = Ok P' -> rows_of (O ++ [o]) (shapes (O ++ [o])) P'.
Proof.
  intros H K. assert (Ht := rows_toc _ _ _ H). rewrite shapes_snoc. unfold addsel in K. unfold shape1. destruct (sel o) as [m|] eqn:Es.
  2:{ injection K as <-. apply rows_other; [|exact H]. intros m Hm. rewrite Es in Hm. discriminate. }
  assert (L := toc_lookup (key o) P). rewrite Ht in L. rewrite L. unfold add_polar in K. destruct (slookup (key o) P) as [[m0 q]|] eqn:E; cbn [option_map].
  - apply (rows_re O (shapes O) P o P'); [apply shapes_nodup|exact H|]. unfold resel. rewrite Es. unfold reinsert_polar. now rewrite E.
  - inv_ok. cbn [option_map] in L. apply slookup_none in L.
    assert (New : row (O ++ [o]) (key o, m) (key o, (m, r0))).
    { split; [reflexivity|]. split; [reflexivity|]. exists r. split; [assumption|]. cbn [fst snd]. rewrite mine_snoc, Es, String.eqb_refl.
      replace (mine O (key o)) with (@nil obj).
      2:{ symmetry. destruct (mine O (key o)) eqn:Em; [reflexivity|]. exfalso. apply L, mine_known. rewrite Em. discriminate. }
      cbn [app foldM]. unfold ins. rewrite Hr0. reflexivity. }
    assert (H' : rows_of (O ++ [o]) (shapes O) P) by (apply rows_other; [intros _ _; exact L|exact H]).
    clear - New H'. revert H'. generalize (shapes O) as S. intros S H'.
    induction H' as [|s [a [x y]] S P R H IH]; [constructor; [exact New|constructor]|].
    destruct R as (E1 & E2 & R). cbn [fst snd] in E1, E2. subst a x. destruct s as [k z]. cbn [sinsert fst].
    assert (Row : row (O ++ [o]) (k, z) (k, (z, y))) by (split; [reflexivity|split; [reflexivity|exact R]]).
    destruct (String.compare (key o) k); [constructor; assumption| |constructor; assumption].
    constructor; [exact New|]. constructor; assumption.
Qed.

(** every object of O re-inserted into blank maps, or added to an empty one *)
Lemma rebuild O Q0 Q P : (forall n m q, In (n, (m, q)) Q0 -> mk_polar g (np m) = Ok q) -> toc Q0 = shapes O ->
  foldM resel Q0 O = Ok Q -> foldM addsel [] O = Ok P -> Q = P.
Proof.
  intros Hb Ht HQ HP. apply (rows_unique O (shapes O)).
  - assert (R0 : rows_of [] (shapes O) Q0).
    { rewrite <- Ht. clear - Hb. induction Q0 as [|[n [m q]] Q0 IH]; constructor.
      - split; [reflexivity|]. split; [reflexivity|]. exists q. split; [|reflexivity]. apply (Hb n). now left.
      - apply IH. intros n' m' q' Hin. apply (Hb n'). now right. }
    assert (Nd := shapes_nodup O). revert R0 Nd. generalize (shapes O) as S. intros S R0 Nd. clear - HQ R0 Nd.
    change O with ([] ++ O)%list. revert R0. generalize (@nil obj) as O1. revert Q0 HQ.
    induction O as [|o O IH]; intros Q0 HQ O1 R0; cbn [foldM] in HQ; [injection HQ as <-; now rewrite app_nil_r|].
    apply bind_ok in HQ. destruct HQ as (Q1 & H1 & HQ). replace (O1 ++ o :: O) with ((O1 ++ [o]) ++ O) by now rewrite <- app_assoc.
    apply (IH Q1 HQ). eapply rows_re; eassumption.
  - assert (R0 : rows_of [] (shapes []) []) by constructor. clear - HP R0.
    change O with ([] ++ O)%list. revert R0 HP. generalize (@nil obj) as O1. generalize (@nil (string * (M * polar))) as P0.
    induction O as [|o O IH]; intros P0 O1 R0 HP; cbn [foldM] in HP; [injection HP as <-; now rewrite app_nil_r|].
    apply bind_ok in HP. destruct HP as (P1 & H1 & HP). replace (O1 ++ o :: O) with ((O1 ++ [o]) ++ O) by now rewrite <- app_assoc.
    apply (IH P1); [|exact HP]. now apply (rows_add O1 P0).
Qed.
End Map.
