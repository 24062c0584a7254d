(** Paths as lists of names, and files whose objects lie at known places. *)
From Coq Require Import ZArith String Ascii List Bool Lia.
From Verif Require Import Scalar Base DftM H5M PassiveFacts.
Import ListNotations.
Local Open Scope string_scope.

(** the names between the slashes *)
Fixpoint segs (p : string) : list string :=
  match p with
  | EmptyString => [""]
  | String c r => if Ascii.eqb c "/" then "" :: segs r
                  else match segs r with h :: t => String c h :: t | [] => [String c ""] end
  end.
Definition plain (n : string) : Prop := ~ In "/"%char (list_ascii_of_string n).
Lemma segs_not_nil p : segs p <> [].
Proof. destruct p as [|c r]; cbn [segs]; [discriminate|]. destruct (Ascii.eqb c "/"); [discriminate|]. now destruct (segs r). Qed.
Lemma segs_cat a b : segs (a // b) = (segs a ++ segs b)%list.
Proof.
  unfold path_cat. induction a as [|c a IH]; cbn [String.append segs app]; [reflexivity|].
  destruct (Ascii.eqb c "/"); [cbn [app]; now f_equal|]. cbn [String.append] in IH. rewrite IH.
  assert (X := segs_not_nil a). destruct (segs a); [now elim X|reflexivity].
Qed.
Lemma segs_plain n : plain n -> segs n = [n].
Proof.
  induction n as [|c n IH]; cbn [segs]; [reflexivity|]. unfold plain. cbn [list_ascii_of_string In]. intros H.
  destruct (Ascii.eqb_spec c "/"); [now elim H; left|]. rewrite IH; [reflexivity|]. intros X. apply H. now right.
Qed.

Section Files.
Context {N : Num}.
(** every data set lies at a place of D (given whether it can grow) and every group at a place of G *)
Definition filed (D : bool -> list string -> Prop) (G : list string -> Prop) (f : h5) : Prop :=
  forall p, match kind f p with None => True | Some None => G (segs p) | Some (Some b) => D b (segs p) end.
Definition vacant (D : bool -> list string -> Prop) (q : list string) : Prop := forall b, ~ D b q.
Lemma filed_weak (D D' : bool -> list string -> Prop) (G G' : list string -> Prop) f : filed D G f -> (forall b q, D b q -> D' b q) -> (forall q, G q -> G' q) -> filed D' G' f.
Proof. intros H HD HG p. specialize (H p). destruct (kind f p) as [[]|]; auto. Qed.
Lemma filed_same D G f f' : filed D G f -> (forall q, kind f' q = kind f q) -> filed D G f'.
Proof. intros H E p. rewrite E. apply H. Qed.
Lemma group_filed D (G : list string -> Prop) f p : filed D G f -> vacant D (segs p) -> G (segs p) ->
  exists f', h5_group f p = Ok f' /\ filed D G f' /\ kind f' p = Some None /\ sub_file f f'.
Proof.
  intros H HD HG. destruct (h5_group f p) as [f'|e|u] eqn:E.
  - destruct (group_kind _ _ _ E) as (K1 & K2 & K3). exists f'. split; [reflexivity|]. split; [|now split].
    intros q. destruct (string_dec q p) as [->|Hq]; [now rewrite K1|]. rewrite K2 by assumption. apply H.
  - exfalso. unfold h5_group in E. specialize (H p). unfold kind in H. destruct (slookup p f) as [[|b r]|]; try discriminate. now apply (HD b).
  - exfalso. unfold h5_group in E. destruct (slookup p f) as [[|b r]|]; discriminate.
Qed.
Lemma groups_filed D (G : list string -> Prop) : forall l f, filed D G f -> Forall (fun p => vacant D (segs p) /\ G (segs p)) l ->
  exists f', h5_groups f l = Ok f' /\ filed D G f' /\ Forall (fun p => kind f' p = Some None) l /\ sub_file f f'.
Proof.
  induction l as [|p l IH]; intros f H Hl; unfold h5_groups; cbn [foldM].
  - exists f. split; [reflexivity|]. split; [exact H|]. split; [constructor|apply sub_file_refl].
  - inversion Hl; subst. destruct H2 as [HD HG]. destruct (group_filed D G f p H HD HG) as (f1 & E1 & F1 & K1 & S1). rewrite E1. cbn [bind].
    destruct (IH f1 F1 H3) as (f2 & E2 & F2 & K2 & S2). fold (h5_groups f1 l). exists f2. split; [exact E2|]. split; [exact F2|]. split.
    + constructor; [|exact K2]. rewrite (S2 p), K1; [reflexivity|]. now rewrite K1.
    + now apply sub_file_trans with f1.
Qed.
Lemma create_filed D (G : list string -> Prop) f p b v : filed D G f -> vacant D (segs p) -> ~ G (segs p) ->
  exists f', h5_create f p b v = Ok f' /\ filed (fun b' q => D b' q \/ (b' = b /\ q = segs p)) G f' /\ kind f' p = Some (Some b) /\ sub_file f f'.
Proof.
  intros H HD HG. assert (K : kind f p = None) by (specialize (H p); destruct (kind f p) as [[b'|]|]; [now elim (HD b')|contradiction|reflexivity]).
  assert (K' := K). apply kind_none in K'. destruct (h5_create f p b v) as [f'|e|u] eqn:E; try (unfold h5_create in E; rewrite K' in E; discriminate).
  destruct (create_kind _ _ _ _ _ E) as (_ & K1 & K2 & K3). exists f'. split; [reflexivity|]. split; [|now split].
  intros q. destruct (string_dec q p) as [->|Hq]; [rewrite K1; now right|]. rewrite K2 by assumption. specialize (H q). destruct (kind f q) as [[]|]; auto.
Qed.
Lemma creates_filed (G : list string -> Prop) dir : forall l D f, filed D G f -> NoDup (map fst l) ->
  Forall plain (map fst l) -> (forall n, In n (map fst l) -> vacant D (segs dir ++ [n])%list /\ ~ G (segs dir ++ [n])%list) ->
  exists f', h5_creates f dir l = Ok f' /\ filed (fun b q => D b q \/ (b = false /\ exists n, In n (map fst l) /\ q = (segs dir ++ [n])%list)) G f' /\ sub_file f f'.
Proof.
  induction l as [|[n v] l IH]; intros D f H Hn Hp Hd; unfold h5_creates; cbn [foldM map fst] in *.
  - exists f. split; [reflexivity|]. split; [|apply sub_file_refl]. eapply filed_weak; [exact H|tauto|tauto].
  - inversion Hn; subst. inversion Hp; subst. assert (Es : segs (dir // n) = (segs dir ++ [n])%list) by (rewrite segs_cat, (segs_plain n) by assumption; reflexivity).
    destruct (Hd n (or_introl eq_refl)) as [D1 G1]. destruct (create_filed D G f (dir // n) false v H) as (f1 & E1 & F1 & K1 & S1); [now rewrite Es|now rewrite Es|].
    rewrite E1. cbn [bind]. rewrite Es in F1.
    destruct (IH _ f1 F1 H3 H5) as (f2 & E2 & F2 & S2).
    { intros x Hx. destruct (Hd x (or_intror Hx)) as [D2 G2]. split; [|exact G2]. intros b [X|[_ X]]; [now apply (D2 b)|]. apply app_inj_tail in X. destruct X as [_ ->]. auto. }
    exists f2. split; [exact E2|]. split; [|now apply sub_file_trans with f1].
    eapply filed_weak; [exact F2| |tauto]. cbv beta. intros b q [[X|[Hb X]]|[Hb (x & X & Y)]]; [now left|right; split; [exact Hb|]; exists n; split; [now left|exact X]|right; split; [exact Hb|]; exists x; split; [now right|exact Y]].
Qed.
Lemma append_filed D G f p v : filed D G f -> kind f p = Some (Some true) -> exists f', h5_append f p v = Ok f' /\ filed D G f' /\ sub_file f f'.
Proof.
  intros H K. destruct (append_ok f p v K) as [f' E]. destruct (append_kind _ _ _ _ E) as [_ K2]. exists f'. split; [exact E|]. split; [now apply filed_same with f|].
  intros q _. apply K2.
Qed.
Lemma kept f f' p k : sub_file f f' -> kind f p = Some k -> kind f' p = Some k.
Proof. intros H E. rewrite (H p); [exact E|]. now rewrite E. Qed.
End Files.
