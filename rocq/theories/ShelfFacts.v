(** The output file of a program that follows the rules: where everything is. *)
From Coq Require Import ZArith Reals List Bool String Ascii Lia.
From Verif Require Import Scalar Base BaseFacts VecM GridM GeometryM MaterialM PmlM DftM TfsfM PolarM
  InterpM H5M ClockM MonitorM FieldM ReportM OutFacts PhysFacts WfFacts SpecSafety SpecClock PassiveFacts
  SpecDft SpecLive LiveFacts PathFacts ExampleFacts SpecProgram SegFacts ViewFacts.
From Verif Require Import OpsFacts.
Import ListNotations.
Local Open Scope string_scope.
#[local] Existing Instance RNum.

Definition region_names := ["p1"; "p2"; "sign"; "center"; "radius"; "position"; "dft_frequency"].
Definition comp_names := ["Ez"; "Hx"; "Hy"; "Hp"; "Hr"].
Definition result_names := ["flux"; "force"; "torque"; "ntff_point"; "ntff_sphere"].
Definition shot (tms : list tmon) (n x : string) : Prop := exists m c, In m tms /\ tm_name m = n /\ In c (tm_dsets m) /\ x = comp_str c.

(** the places of data sets and groups *)
Definition data_at (L : ledger) (mats : list string) (tms : list tmon) (b : bool) (q : list string) : Prop :=
  match q with
  | [a; x] => a = "grid" \/ (a = "fields" /\ In x ["Ez"; "Hx"; "Hy"] /\ b = true)
  | [a; n; x] =>
      (a = "fields" /\ In n (map tm_name tms) /\ (In x region_names \/ shot tms n x)) \/
      (a = "materials" /\ In n mats) \/
      (a = "sources" /\ n = "tfsf" /\ l_tfsf L <> None /\ (In x region_names \/ (x = "flux" /\ l_tfsf_result L = true)))
  | [a; k; n; x] =>
      (a = "sources" /\ In (k, n) (l_srcs L)) \/
      (a = "monitors" /\ ((In (k, n) (l_dirs L) /\ In x region_names) \/ (In (k, n, transform) (l_results L) /\ In x comp_names) \/
                          (In (k, n, x) (l_results L) /\ In x result_names))) \/
      (exists o, In o (l_objs L) /\ a = obj_root o /\ k = geom_group (o_geom o) /\ n = o_name o)
  | _ => False
  end.
Definition group_at (tms : list tmon) (q : list string) : Prop :=
  match q with
  | [_] => True
  | [a; x] => In a ["materials"; "sources"; "monitors"; "objects"; "dynamic_objects"] \/ (a = "fields" /\ In x (map tm_name tms))
  | [a; k; n] => (a = "sources" /\ (k = "point" \/ k = "line")) \/ In a ["monitors"; "objects"; "dynamic_objects"]
  | _ => False
  end.

Record shelf (L : ledger) (mats : list string) (tms : list tmon) (f : h5) : Prop := Shelf {
  sh_filed : filed (data_at L mats tms) (group_at tms) f;
  sh_listed : listed f mats (l_objs L);
  sh_line : l_tfsf L <> None -> kind f ("sources" // "tfsf") = Some None;
  sh_shots : forall m c, In m tms -> In c (tm_dsets m) -> kind f (tm_path m // comp_str c) = Some (Some true) }.

Lemma shelf_same L L' mats tms f f' : shelf L mats tms f -> sub_file f f' -> filed (data_at L' mats tms) (group_at tms) f' ->
  l_objs L' = l_objs L -> l_tfsf L' = l_tfsf L -> shelf L' mats tms f'.
Proof.
  intros [A B C D] S F Eo El. constructor; [exact F|rewrite Eo; now apply listed_grow with f|rewrite El; intros H; now apply kept with f, C|].
  intros m c Hm Hc. apply kept with f; auto.
Qed.

(** a tactic for the questions that arise: unfold the places, split, compare constants *)
Ltac dig := repeat match goal with
  | H : _ /\ _ |- _ => destruct H
  | H : exists _, _ |- _ => destruct H
  | H : _ \/ _ |- _ => destruct H
  | H : False |- _ => destruct H
  | H : In _ region_names |- _ => unfold region_names in H
  | H : In _ comp_names |- _ => unfold comp_names in H
  | H : In _ result_names |- _ => unfold result_names in H
  | H : In _ (_ :: _) |- _ => cbn [In] in H
  | H : In _ [] |- _ => destruct H
  end; try discriminate; subst; try discriminate.
Lemma root_of o : In (obj_root o) ["objects"; "dynamic_objects"].
Proof. unfold obj_root. destruct (o_dyn o); cbn; auto. Qed.
Lemma root_segs o : segs (obj_root o) = [obj_root o].
Proof. unfold obj_root. destruct (o_dyn o); reflexivity. Qed.
Lemma geom_segs k : segs (geom_group k) = [geom_group k].
Proof. destruct k; reflexivity. Qed.
Lemma plain_of n : proper n -> plain n.
Proof. now intros [_ H]. Qed.

(** *** The fields *)
Lemma write_field_shelf L mats tms f c v : shelf L mats tms f -> field_comp c -> Forall (fun m => ~ In (tm_name m) ["Ez"; "Hx"; "Hy"]) tms ->
  exists f1 f2, h5_group f "fields" = Ok f1 /\ put f1 ("fields" // comp_str c) v = Ok f2 /\ shelf L mats tms f2.
Proof.
  intros Hs Hc Hn. assert (F := sh_filed _ _ _ _ Hs). destruct (group_filed _ _ f "fields" F) as (f1 & E1 & F1 & K1 & S1).
  { intros b H. exact H. }
  { exact Logic.I. }
  assert (Hs1 : shelf L mats tms f1) by now apply (shelf_same L L mats tms f).
  exists f1. assert (Es : segs ("fields" // comp_str c) = ["fields"; comp_str c]) by (destruct Hc as [-> | [-> | ->]]; reflexivity).
  assert (Hin : In (comp_str c) ["Ez"; "Hx"; "Hy"]) by (destruct Hc as [-> | [-> | ->]]; cbn; auto).
  assert (Kp := F1 ("fields" // comp_str c)). rewrite Es in Kp. unfold put, h5_exists.
  destruct (kind f1 ("fields" // comp_str c)) as [[b|]|] eqn:K.
  - cbn [data_at] in Kp. destruct Kp as [Kp|(_ & _ & ->)]; [discriminate|].
    destruct (append_filed _ _ f1 _ v F1 K) as (f2 & E2 & F2 & S2). destruct (slookup _ f1) eqn:El; [|apply kind_none in El; congruence].
    exists f2. split; [exact E1|]. split; [exact E2|]. now apply (shelf_same L L mats tms f1).
  - exfalso. cbn [group_at] in Kp. destruct Kp as [Kp|[_ Kp]]; [dig|]. apply in_map_iff in Kp. destruct Kp as (m & Em & Hm).
    rewrite Forall_forall in Hn. apply (Hn m Hm). now rewrite Em.
  - apply kind_none in K. rewrite K. destruct (h5_create f1 ("fields" // comp_str c) true v) as [f2|e|u] eqn:E2; try (unfold h5_create in E2; rewrite K in E2; discriminate).
    destruct (create_kind _ _ _ _ _ E2) as (_ & K2 & K3 & S2). exists f2. split; [exact E1|]. split; [reflexivity|]. apply (shelf_same L L mats tms f1); auto.
    intros q. destruct (string_dec q ("fields" // comp_str c)) as [->|Hq]; [|rewrite K3 by assumption; apply F1].
    rewrite K2, Es. cbn [data_at]. right. auto.
Qed.

(** *** Time monitors *)
Lemma tm_segs m : plain (tm_name m) -> segs (tm_path m) = ["fields"; tm_name m].
Proof. intros H. unfold tm_path. rewrite segs_cat, (segs_plain (tm_name m)) by assumption. reflexivity. Qed.
Lemma shot_segs m c : plain (tm_name m) -> field_comp c -> segs (tm_path m // comp_str c) = ["fields"; tm_name m; comp_str c].
Proof. intros H Hc. rewrite segs_cat, tm_segs by assumption. destruct Hc as [-> | [-> | ->]]; reflexivity. Qed.
Definition named (m : tmon) : Prop := plain (tm_name m) /\ ~ In (tm_name m) ["Ez"; "Hx"; "Hy"].
Lemma tm_write1_filed g F (G : list string -> Prop) (D : bool -> list string -> Prop) f m c : modest g -> fdims (g_Nx g) (g_Ny g) F -> viewable g (tm_shape_ m) -> named m ->
  G ["fields"] -> G ["fields"; tm_name m] -> (forall x, ~ G ["fields"; tm_name m; x]) ->
  vacant D ["fields"] -> vacant D ["fields"; tm_name m] -> (forall c, field_comp c -> vacant D ["fields"; tm_name m; comp_str c]) ->
  filed (fun b q => D b q \/ exists c, In c (tm_dsets m) /\ q = ["fields"; tm_name m; comp_str c]) G f ->
  (forall c, In c (tm_dsets m) -> field_comp c /\ kind f (tm_path m // comp_str c) = Some (Some true)) -> field_comp c ->
  exists f' m', tm_write1 g F f m c = Ok (f', m') /\ tm_name m' = tm_name m /\ tm_shape_ m' = tm_shape_ m /\ tm_fields m' = tm_fields m /\ tm_every m' = tm_every m /\
    filed (fun b q => D b q \/ exists c, In c (tm_dsets m') /\ q = ["fields"; tm_name m; comp_str c]) G f' /\ sub_file f f' /\
    (forall c, In c (tm_dsets m') -> field_comp c /\ kind f' (tm_path m // comp_str c) = Some (Some true)).
Proof.
  intros Hg HF Hv [Hp Hn] G1 G2 G3 D1 D2 D3 Hf Hk Hc. rewrite tm_write1_eq. destruct (tm_sample_ok g F (tm_shape_ m) c Hg HF Hc Hv) as [v ->]. cbn [bind].
  destruct (existsb (comp_eqb c) (tm_dsets m)) eqn:Ex.
  - assert (Hi : In c (tm_dsets m)).
    { apply existsb_exists in Ex. destruct Ex as (c' & Hc' & E). destruct (Hk c' Hc') as [[-> | [-> | ->]] _]; destruct Hc as [-> | [-> | ->]]; try discriminate; exact Hc'. }
    destruct (append_filed _ _ f _ v Hf (proj2 (Hk c Hi))) as (f' & E & F' & S'). rewrite E. cbn [bind].
    exists f', m. repeat (split; [reflexivity|]). split; [exact F'|]. split; [exact S'|]. intros c' Hc'. destruct (Hk c' Hc'). split; [assumption|now apply kept with f].
  - assert (Hi : ~ In c (tm_dsets m)).
    { intros H. assert (X : existsb (comp_eqb c) (tm_dsets m) = true); [|congruence]. apply existsb_exists. exists c. split; [exact H|]. destruct Hc as [-> | [-> | ->]]; reflexivity. }
    destruct (groups_filed _ _ ["fields"; tm_path m] f Hf) as (f1 & E1 & F1 & K1 & S1).
    { constructor; [|constructor; [|constructor]]; (split; [intros b X|]); rewrite ?(tm_segs m Hp) in *; cbn [segs] in *; auto.
      - destruct X as [X|(x & _ & X)]; [now apply (D1 b)|discriminate].
      - destruct X as [X|(x & _ & X)]; [now apply (D2 b)|discriminate]. }
    rewrite E1. cbn [bind].
    destruct (create_filed _ _ f1 (tm_path m // comp_str c) true v F1) as (f2 & E2 & F2 & K2 & S2).
    { rewrite (shot_segs m c Hp Hc). intros b [X|(x & Hx & X)]; [now apply (D3 c Hc b)|]. injection X as X.
      destruct (Hk x Hx) as [Hx' _]. apply Hi. replace c with x; [exact Hx|]. destruct Hx' as [-> | [-> | ->]], Hc as [-> | [-> | ->]]; auto; discriminate. }
    { rewrite (shot_segs m c Hp Hc). apply G3. }
    rewrite E2. cbn [bind]. do 2 eexists. split; [reflexivity|]. cbn [tm_name tm_shape_ tm_fields tm_every tm_dsets]. repeat (split; [reflexivity|]).
    split; [|split; [now apply sub_file_trans with f1|]].
    + eapply filed_weak; [exact F2| |auto]. cbv beta. intros b q [[X|(x & Hx & X)]|[_ X]]; [now left|right; exists x; split; [now right|exact X]|].
      right. exists c. split; [now left|]. rewrite X. now apply shot_segs.
    + intros c' [<-|Hc']; [split; [exact Hc|]|].
      * unfold tm_path in *. exact K2.
      * destruct (Hk c' Hc'). split; [assumption|]. unfold tm_path in *. apply kept with f1; [exact S2|]. now apply kept with f.
Qed.
Lemma expand_comps c : Forall field_comp (expand c).
Proof. apply Forall_forall. intros x. unfold field_comp. destruct c; cbn; intuition subst; auto. Qed.
Lemma tm_write_filed g F (G : list string -> Prop) (D : bool -> list string -> Prop) f m : modest g -> fdims (g_Nx g) (g_Ny g) F -> viewable g (tm_shape_ m) -> named m ->
  G ["fields"] -> G ["fields"; tm_name m] -> (forall x, ~ G ["fields"; tm_name m; x]) ->
  vacant D ["fields"] -> vacant D ["fields"; tm_name m] -> (forall c, field_comp c -> vacant D ["fields"; tm_name m; comp_str c]) ->
  filed (fun b q => D b q \/ exists c, In c (tm_dsets m) /\ q = ["fields"; tm_name m; comp_str c]) G f ->
  (forall c, In c (tm_dsets m) -> field_comp c /\ kind f (tm_path m // comp_str c) = Some (Some true)) ->
  exists f' m', tm_write g F f m = Ok (f', m') /\ tm_name m' = tm_name m /\ tm_shape_ m' = tm_shape_ m /\ tm_fields m' = tm_fields m /\ tm_every m' = tm_every m /\
    filed (fun b q => D b q \/ exists c, In c (tm_dsets m') /\ q = ["fields"; tm_name m; comp_str c]) G f' /\ sub_file f f' /\
    (forall c, In c (tm_dsets m') -> field_comp c /\ kind f' (tm_path m // comp_str c) = Some (Some true)).
Proof.
  intros Hg HF Hv Hn G1 G2 G3 D1 D2 D3. unfold tm_write. assert (Hl := expand_comps (tm_fields m)). revert Hl. generalize (expand (tm_fields m)). intros l Hl.
  revert f m Hv Hn G2 G3 D2 D3. induction Hl as [|c l Hc Hl IH]; intros f m Hv Hn G2 G3 D2 D3 Hf Hk; cbn [foldM].
  - exists f, m. repeat (split; [reflexivity|]). split; [exact Hf|]. split; [apply sub_file_refl|exact Hk].
  - destruct (tm_write1_filed g F G D f m c) as (f1 & m1 & E1 & N1 & N2 & N3 & N4 & F1 & S1 & K1); auto. rewrite E1. cbn [bind].
    assert (P1 : tm_path m1 = tm_path m) by (unfold tm_path; now rewrite N1).
    destruct (IH f1 m1) as (f2 & m2 & E2 & M1 & M2 & M3 & M4 & F2 & S2 & K2); rewrite ?N1, ?N2, ?P1; auto; [split; rewrite N1; apply Hn|].
    exists f2, m2. rewrite N1, P1 in *. split; [exact E2|]. repeat (split; [congruence|]). split; [exact F2|]. split; [now apply sub_file_trans with f1|exact K2].
Qed.

Definition emptied (m : tmon) : tmon := TMon (tm_name m) (tm_shape_ m) (tm_fields m) (tm_every m) [].
Lemma upd_map {A B} (f : A -> B) v : forall l i x, nth_error l i = Some x -> f v = f x -> map f (upd_nth i v l) = map f l.
Proof. induction l as [|y l IH]; intros [|i] x H E; cbn in *; try discriminate; [injection H as ->; now rewrite E|]. f_equal. eauto. Qed.
Lemma upd_In {A} (v : A) : forall l i x, nth_error l i = Some x -> In v (upd_nth i v l).
Proof. induction l as [|y l IH]; intros [|i] x H; cbn in *; try discriminate; [now left|right; eauto]. Qed.
Lemma upd_In_old {A} (v : A) : forall l i y, In y (upd_nth i v l) -> y = v \/ In y l.
Proof. induction l as [|z l IH]; intros [|i] y; cbn; auto; intros [->|H]; auto. destruct (IH i y H); auto. Qed.
Lemma upd_other {A} (f : A -> string) v : forall l i x y, nth_error l i = Some x -> In y l -> f y <> f x -> In y (upd_nth i v l).
Proof. induction l as [|z l IH]; intros [|i] x y H Hy Hn; cbn in *; try discriminate; [injection H as ->; destruct Hy; [congruence|now right]|]. destruct Hy as [->|Hy]; [now left|right; eauto]. Qed.
Lemma upd_unique {A} (f : A -> string) v : forall l i x y, NoDup (map f l) -> nth_error l i = Some x -> f v = f x -> In y (upd_nth i v l) -> f y = f x -> y = v.
Proof.
  induction l as [|z l IH]; intros [|i] x y Hd H E Hy Ey; cbn in *; try discriminate; inversion Hd; subst.
  - injection H as ->. destruct Hy as [<-|Hy]; [reflexivity|]. exfalso. apply H2. rewrite <- Ey. now apply in_map.
  - destruct Hy as [->|Hy]; [|eauto]. exfalso. apply H2. rewrite Ey. apply nth_error_In in H. now apply in_map.
Qed.
Lemma data_tms (L : ledger) mats tms tms' b q : (forall n, In n (map tm_name tms) -> In n (map tm_name tms')) -> (forall n x, shot tms n x -> shot tms' n x) ->
  data_at L mats tms b q -> data_at L mats tms' b q.
Proof. intros H1 H2. destruct q as [|a [|x [|n [|y [|]]]]]; cbn [data_at]; auto. intros [(-> & Hn & [H|H])|H]; [left; auto|left; auto|right; exact H]. Qed.
Lemma group_tms tms tms' q : (forall n, In n (map tm_name tms) -> In n (map tm_name tms')) -> group_at tms q -> group_at tms' q.
Proof. intros H1. destruct q as [|a [|x [|n [|y [|]]]]]; cbn [group_at]; auto. intros [H|[-> H]]; auto. Qed.
Lemma shelf_tms L mats tms i m m' f : shelf L mats tms f -> nth_error tms i = Some m -> tm_name m' = tm_name m -> tm_dsets m' = tm_dsets m -> shelf L mats (upd_nth i m' tms) f.
Proof.
  intros [A B C D] Hm En Ed. assert (Em : map tm_name (upd_nth i m' tms) = map tm_name tms) by now apply upd_map with m. constructor; auto.
  - eapply filed_weak; [exact A| |].
    + intros b q. apply data_tms; [now rewrite Em|]. intros n x (y & c & Hy & H). destruct (In_nth_error _ _ Hy) as [j Hj].
      destruct (Nat.eq_dec j i) as [->|Hne].
      * rewrite Hm in Hj. injection Hj as <-. exists m', c. rewrite En, Ed. split; [now apply upd_In with m|exact H].
      * exists y, c. split; [|exact H]. apply nth_error_In with j. rewrite nth_upd. destruct (Nat.eqb_spec i j); [congruence|exact Hj].
    + intros q. apply group_tms. now rewrite Em.
  - intros y c Hy Hc. apply upd_In_old in Hy. destruct Hy as [->|Hy]; [|auto]. unfold tm_path. rewrite En. rewrite Ed in Hc. apply D; [now apply nth_error_In with i|exact Hc].
Qed.
Definition seen (g : grid) (m : tmon) : Prop := named m /\ viewable g (tm_shape_ m) /\ paced (tm_every m) /\ Forall field_comp (tm_dsets m).
Lemma tm_write_shelf g F L mats tms i m f : modest g -> fdims (g_Nx g) (g_Ny g) F -> shelf L mats tms f -> NoDup (map tm_name tms) -> nth_error tms i = Some m -> seen g m ->
  exists f' m', tm_write g F f m = Ok (f', m') /\ shelf L mats (upd_nth i m' tms) f' /\ tm_name m' = tm_name m /\ seen g m'.
Proof.
  intros Hg HF Hs Hd Hm (Hn & Hv & Hp & Hc). set (tms0 := upd_nth i (emptied m) tms). assert (Hi := nth_error_In _ _ Hm).
  assert (En : map tm_name tms0 = map tm_name tms) by now apply upd_map with m.
  assert (Hin : In (tm_name m) (map tm_name tms)) by now apply in_map.
  destruct (tm_write_filed g F (group_at tms) (data_at L mats tms0) f m) as (f' & m' & E & N1 & N2 & N3 & N4 & F1 & S1 & K1); auto.
  - exact Logic.I.
  - cbn [group_at]. now right.
  - intros x [[H _]|H]; [discriminate|]. dig.
  - intros b H. exact H.
  - intros b [H|(_ & H & _)]; [discriminate|]. now apply (proj2 Hn).
  - intros c Hfc b. cbn [data_at]. rewrite En. intros [(_ & _ & [H|H])|[[H _]|[H _]]]; try discriminate.
    + destruct Hfc as [-> | [-> | ->]]; dig.
    + destruct H as (y & c' & Hy & Ey & Hc' & _). assert (y = emptied m) by (apply (upd_unique tm_name (emptied m) tms i m y Hd Hm eq_refl Hy Ey)). subst y. destruct Hc'.
  - eapply filed_weak; [apply (sh_filed _ _ _ _ Hs)| |auto]. intros b q Hq.
    destruct q as [|a [|n [|x [|z [|]]]]]; cbn [data_at] in Hq |- *; auto. rewrite En. destruct Hq as [(-> & Hn' & [Hx|(y & c & Hy & Ey & Hc' & ->)])|Hq]; [left; auto| |left; auto].
    destruct (string_dec n (tm_name m)) as [->|Hne].
    + right. exists c. split; [|reflexivity]. assert (y = m) as <-; [|exact Hc'].
      destruct (In_nth_error _ _ Hy) as [j Hj]. assert (j = i); [|congruence]. apply (proj1 (NoDup_nth_error (map tm_name tms)) Hd).
      * apply nth_error_Some. rewrite nth_error_map, Hj. discriminate.
      * rewrite !nth_error_map, Hj, Hm. cbn. now f_equal.
    + left. left. split; [reflexivity|]. split; [exact Hn'|]. right. exists y, c. split; [|auto]. apply (upd_other tm_name (emptied m) tms i m y Hm Hy). congruence.
  - intros c Hc'. split; [rewrite Forall_forall in Hc; now apply Hc|now apply (sh_shots _ _ _ _ Hs)].
  - exists f', m'. split; [exact E|]. assert (Em : map tm_name (upd_nth i m' tms) = map tm_name tms) by now apply upd_map with m.
    split; [|split; [exact N1|]].
    + destruct Hs as [A B C D]. constructor.
      * eapply filed_weak; [exact F1| |intros q; apply group_tms; now rewrite Em]. intros b q [Hq|(c & Hc' & ->)].
        { destruct q as [|a [|n [|x [|z [|]]]]]; cbn [data_at] in Hq |- *; auto. rewrite Em. rewrite En in Hq. destruct Hq as [(-> & Hn' & [Hx|(y' & c & Hy & Ey & Hc' & ->)])|Hq]; [left; auto| |auto].
          left. split; [reflexivity|]. split; [exact Hn'|]. right. exists y', c. split; [|auto].
          destruct (string_dec (tm_name y') (tm_name m)) as [Ee|Hne].
          { exfalso. assert (y' = emptied m) by (apply (upd_unique tm_name (emptied m) tms i m y' Hd Hm eq_refl Hy Ee)). subst y'. destruct Hc'. }
          apply upd_In_old in Hy. destruct Hy as [->|Hy]; [now elim Hne|]. now apply (upd_other tm_name m' tms i m y' Hm Hy). }
        { cbn [data_at]. left. split; [reflexivity|]. rewrite Em. split; [exact Hin|]. right. exists m', c. split; [now apply upd_In with m|]. auto. }
      * now apply listed_grow with f.
      * intros H. now apply kept with f, C.
      * intros y c Hy Hc'. destruct (string_dec (tm_name y) (tm_name m)) as [Ee|Hne].
        { assert (y = m') as -> by (apply (upd_unique tm_name m' tms i m y Hd Hm N1 Hy Ee)). unfold tm_path. rewrite N1. now apply K1. }
        { apply upd_In_old in Hy. destruct Hy as [->|Hy]; [congruence|]. apply kept with f; auto. }
    + unfold seen, named in *. rewrite N1, N2, N4. split; [exact Hn|]. split; [exact Hv|]. split; [exact Hp|]. apply Forall_forall. intros c Hc'. now apply K1.
Qed.

(** a new time monitor *)
Lemma items_region sh : incl (map fst (tm_items sh)) region_names /\ NoDup (map fst (tm_items sh)).
Proof.
  split; [intros x; destruct sh; unfold region_names; cbn; tauto|].
  destruct sh; cbn; repeat constructor; cbn; intuition discriminate.
Qed.
Lemma region_plain : Forall plain region_names.
Proof. unfold region_names, plain. repeat constructor; cbn; intuition discriminate. Qed.
Lemma incl_Forall' {A} (P : A -> Prop) l l' : incl l l' -> Forall P l' -> Forall P l.
Proof. intros H. rewrite !Forall_forall. auto. Qed.
Lemma add_tmon_shelf g L L' mats tms f m : new_view g m -> ~ In (tm_name m) (map tm_name tms) -> shelf L mats tms f ->
  L' = with_views (l_views L ++ [tm_name m]) L ->
  exists f1 f2, h5_groups f ["fields"; tm_path m] = Ok f1 /\ h5_creates f1 (tm_path m) (tm_items (tm_shape_ m)) = Ok f2 /\ shelf L' mats (tms ++ [m]) f2.
Proof.
  intros (Hp & Hn & _ & _ & Hd) Hv [A B C D] ->. apply plain_of in Hp.
  assert (Hi : In (tm_name m) (map tm_name (tms ++ [m]))) by (rewrite map_app; apply in_or_app; right; now left).
  assert (A' : filed (data_at L mats tms) (group_at (tms ++ [m])) f).
  { eapply filed_weak; [exact A|auto|]. intros q. apply group_tms. intros n H. rewrite map_app. apply in_or_app. now left. }
  destruct (groups_filed _ _ ["fields"; tm_path m] f A') as (f1 & E1 & F1 & K1 & S1).
  { constructor; [|constructor; [|constructor]]; (split; [intros b X|]); rewrite ?(tm_segs m Hp) in *; cbn [segs data_at group_at] in *; auto; try exact Logic.I.
    destruct X as [X|(_ & X & _)]; [discriminate|now apply Hn]. }
  exists f1. destruct (items_region (tm_shape_ m)) as [I1 I2].
  destruct (creates_filed _ (tm_path m) (tm_items (tm_shape_ m)) _ f1 F1 I2) as (f2 & E2 & F2 & S2).
  { eapply incl_Forall'; [exact I1|apply region_plain]. }
  { intros n H. rewrite (tm_segs m Hp). cbn [app]. split.
    - intros b [(_ & X & _)|[[X _]|[X _]]]; [now apply Hv|discriminate|discriminate].
    - cbn [group_at]. intros [[X _]|X]; [discriminate|dig]. }
  exists f2. split; [exact E1|]. split; [exact E2|]. assert (S : sub_file f f2) by now apply sub_file_trans with f1. constructor.
  - eapply filed_weak; [exact F2| |auto]. intros b q [X|[_ (n & X & ->)]].
    + change (data_at (with_views (l_views L ++ [tm_name m]) L) mats (tms ++ [m]) b q) with (data_at L mats (tms ++ [m]) b q).
      eapply data_tms; [| |exact X].
      * intros y H. rewrite map_app. apply in_or_app. now left.
      * intros y x (z & c & Hz & H). exists z, c. split; [apply in_or_app; now left|exact H].
    + rewrite (tm_segs m Hp). cbn [app data_at]. left. split; [reflexivity|]. split; [exact Hi|]. left. now apply I1.
  - now apply listed_grow with f.
  - intros H. now apply kept with f, C.
  - intros y c Hy Hc. apply in_app_or in Hy. destruct Hy as [Hy|[<-|[]]]; [apply kept with f; auto|]. rewrite Hd in Hc. destruct Hc.
Qed.

(** *** Materials and objects *)
Definition mat_names := ["material_type"; "eps"; "mu"; "conduc"; "eps_inf"; "delta_epsilon"; "tau"; "omega_0"; "gamma"].
Lemma mat_items_names k : NoDup (map fst (mat_items k)) /\ Forall plain (map fst (mat_items k)).
Proof. unfold plain. destruct k; cbn; split; repeat constructor; cbn; intuition discriminate. Qed.
Lemma write_mat_shelf L mats tms f m : plain (m_name m) -> ~ In (m_name m) mats -> shelf L mats tms f ->
  exists f', write_mat f m = Ok f' /\ shelf L (mats ++ [m_name m]) tms f'.
Proof.
  intros Hp Hn [A B C D]. rewrite write_mat_eq. assert (Es : segs (mat_path (m_name m)) = ["materials"; m_name m]) by (unfold mat_path; rewrite segs_cat, (segs_plain (m_name m) Hp); reflexivity).
  destruct (groups_filed _ _ ["materials"; mat_path (m_name m)] f A) as (f1 & E1 & F1 & K1 & S1).
  { constructor; [|constructor; [|constructor]]; (split; [intros b X|]); rewrite ?Es in *; cbn [segs data_at group_at] in *; auto; try exact Logic.I; [dig|].
    left. cbn. auto. }
  rewrite E1. cbn [bind]. destruct (mat_items_names (m_kind m)) as [I1 I2].
  destruct (creates_filed _ (mat_path (m_name m)) (mat_items (m_kind m)) _ f1 F1 I1 I2) as (f2 & E2 & F2 & S2).
  { intros n H. rewrite Es. cbn [app data_at group_at]. split; [intros b [X|[[_ X]|X]]; [dig|contradiction|dig]|]. intros X. dig. }
  exists f2. split; [exact E2|]. assert (S : sub_file f f2) by now apply sub_file_trans with f1.
  assert (Km : kind f2 (mat_path (m_name m)) = Some None). { apply kept with f1; [exact S2|]. inversion K1; subst. inversion H2; subst. assumption. }
  destruct (listed_grow _ _ _ _ S B) as [LA LB]. constructor.
  - eapply filed_weak; [exact F2| |auto]. intros b q [X|[_ (n & X & ->)]].
    + destruct q as [|a [|n [|x [|z [|]]]]]; cbn [data_at] in X |- *; auto. destruct X as [X|[[-> X]|X]]; [now left| |now right; right]. right. left. split; [reflexivity|]. apply in_or_app. now left.
    + rewrite Es. cbn [app data_at]. right. left. split; [reflexivity|]. apply in_or_app. right. now left.
  - split; [|exact LB]. intros n Hn'. apply in_app_or in Hn'. destruct Hn' as [Hn'|[<-|[]]]; [auto|congruence].
  - intros H. now apply kept with f, C.
  - intros. apply kept with f; auto.
Qed.
Lemma obj_segs o : plain (o_name o) -> segs (obj_path o) = [obj_root o; geom_group (o_geom o); o_name o].
Proof. intros H. unfold obj_path. rewrite !segs_cat, root_segs, geom_segs, (segs_plain (o_name o) H). reflexivity. Qed.
Lemma obj_groups_filed L mats tms f o : plain (o_name o) -> filed (data_at L mats tms) (group_at tms) f ->
  exists f', h5_groups f (obj_groups o) = Ok f' /\ filed (data_at L mats tms) (group_at tms) f' /\ sub_file f f'.
Proof.
  intros Hp A. destruct (groups_filed _ _ (obj_groups o) f A) as (f1 & E1 & F1 & K1 & S1); [|eauto]. assert (R := root_of o).
  unfold obj_groups. constructor; [|constructor; [|constructor; [|constructor]]]; (split; [intros b X|]); rewrite ?(obj_segs o Hp), ?segs_cat, ?root_segs, ?geom_segs in *; cbn [app data_at group_at] in *.
  - destruct X.
  - exact Logic.I.
  - destruct X as [X|[X _]]; rewrite X in R; dig.
  - left. cbn in R |- *. tauto.
  - destruct X as [[X _]|[[X _]|[X _]]]; rewrite X in R; dig.
  - right. cbn in R |- *. tauto.
Qed.
Lemma geom_items_names k : NoDup (map fst (geom_items k)) /\ Forall plain (map fst (geom_items k)) /\ ~ In "position" (map fst (geom_items k)) /\ ~ In "theta" (map fst (geom_items k)) /\ ~ In "material" (map fst (geom_items k)).
Proof. unfold plain. destruct k; cbn; repeat split; repeat constructor; cbn; intuition discriminate. Qed.
Lemma write_obj_shelf L mats tms f o : plain (o_name o) -> Forall (fun o' => ~ same_group o o') (l_objs L) -> In (m_name (o_mat o)) mats -> shelf L mats tms f ->
  exists f', write_obj f o = Ok f' /\ shelf (with_objs (l_objs L ++ [o]) L) mats tms f'.
Proof.
  intros Hp Hn Hm [A B C D]. assert (R := root_of o). destruct (obj_groups_filed L mats tms f o Hp A) as (f1 & E1 & F1 & S1).
  assert (V : forall x, vacant (data_at L mats tms) [obj_root o; geom_group (o_geom o); o_name o; x]).
  { intros x b. cbn [data_at]. intros [[X _]|[[X _]|(o' & Ho & X1 & X2 & X3)]]; [rewrite X in R; dig|rewrite X in R; dig|].
    rewrite Forall_forall in Hn. apply (Hn o' Ho). split; [|split; congruence]. unfold obj_root in X1. destruct (o_dyn o), (o_dyn o'); auto; discriminate. }
  assert (G : forall x, ~ group_at tms [obj_root o; geom_group (o_geom o); o_name o; x]) by (intros x X; exact X).
  assert (Sg : forall x, plain x -> segs (obj_path o // x) = [obj_root o; geom_group (o_geom o); o_name o; x]) by (intros x Hx; rewrite segs_cat, (obj_segs o Hp), (segs_plain x Hx); reflexivity).
  destruct (create_filed _ _ f1 (obj_path o // "position") (o_dyn o) (vec_pay (o_pos o)) F1) as (f2 & E2 & F2 & K2 & S2).
  { rewrite Sg by (unfold plain; cbn; intuition discriminate). apply V. }
  { rewrite Sg by (unfold plain; cbn; intuition discriminate). apply G. }
  rewrite Sg in F2 by (unfold plain; cbn; intuition discriminate).
  destruct (create_filed _ _ f2 (obj_path o // "theta") (o_dyn o) (PReal (o_theta o)) F2) as (f3 & E3 & F3 & K3 & S3).
  { rewrite Sg by (unfold plain; cbn; intuition discriminate). intros b [X|[_ X]]; [now apply (V "theta" b)|discriminate]. }
  { rewrite Sg by (unfold plain; cbn; intuition discriminate). apply G. }
  rewrite Sg in F3 by (unfold plain; cbn; intuition discriminate).
  destruct (geom_items_names (o_geom o)) as (I1 & I2 & I3 & I4 & I5).
  destruct (creates_filed _ (obj_path o) (geom_items (o_geom o)) _ f3 F3 I1 I2) as (f4 & E4 & F4 & S4).
  { intros n H. rewrite (obj_segs o Hp). cbn [app]. split; [|apply G]. intros b [[X|[_ X]]|[_ X]]; [now apply (V n b)| |]; injection X as ->; auto. }
  rewrite (obj_segs o Hp) in F4. cbn [app] in F4.
  destruct (create_filed _ _ f4 (obj_path o // "material") false (PRef (mat_path (m_name (o_mat o)))) F4) as (f5 & E5 & F5 & K5 & S5).
  { rewrite Sg by (unfold plain; cbn; intuition discriminate). intros b [[[X|[_ X]]|[_ X]]|[_ (n & H & X)]]; [now apply (V "material" b)|discriminate|discriminate|]. injection X as <-. auto. }
  { rewrite Sg by (unfold plain; cbn; intuition discriminate). apply G. }
  rewrite Sg in F5 by (unfold plain; cbn; intuition discriminate).
  assert (S04 : sub_file f f4) by (eauto using sub_file_trans). assert (S : sub_file f f5) by (eauto using sub_file_trans).
  assert (Ew : write_obj f o = Ok f5).
  { rewrite write_obj_eq. rewrite E1. cbn [bind]. rewrite E2. cbn [bind]. rewrite E3. cbn [bind]. rewrite E4. cbn [bind].
    assert (Km := proj1 B _ Hm). assert (Km' : kind f4 (mat_path (m_name (o_mat o))) <> None) by (rewrite (S04 _ Km); exact Km).
    unfold h5_exists. rewrite kind_none in Km'. destruct (slookup _ f4); [exact E5|congruence]. }
  exists f5. split; [exact Ew|]. destruct (write_obj_listed _ _ _ Ew) as [_ Hd]. destruct (listed_grow _ _ _ _ S B) as [LA LB]. constructor.
  - eapply filed_weak; [exact F5| |auto]. intros b q Hq.
    assert (New : forall x, data_at (with_objs (l_objs L ++ [o]) L) mats tms b [obj_root o; geom_group (o_geom o); o_name o; x]).
    { intros x. cbn [data_at]. right. right. exists o. cbn [l_objs with_objs]. split; [apply in_or_app; right; now left|auto]. }
    destruct Hq as [[[[X|[_ ->]]|[_ ->]]|[_ (n & H & ->)]]|[_ ->]]; try apply New.
    destruct q as [|a [|n [|x [|z [|]]]]]; cbn [data_at] in X |- *; auto. destruct X as [X|[X|(o' & Ho & X)]]; [now left|now right; left|]. right. right. exists o'. cbn [l_objs with_objs]. split; [apply in_or_app; now left|exact X].
  - split; [exact LA|]. cbn [l_objs with_objs]. intros o' Ho Dq. apply in_app_or in Ho. destruct Ho as [Ho|[<-|[]]]; [now apply LB|auto].
  - intros H. now apply kept with f, C.
  - intros. apply kept with f; auto.
Qed.
Lemma write_current_shelf L mats tms f o v w : plain (o_name o) -> In o (l_objs L) -> o_dyn o = true -> shelf L mats tms f ->
  exists f', (f <- h5_groups f (obj_groups o) ;; f <- h5_append f (obj_path o // "position") v ;; h5_append f (obj_path o // "theta") w) = Ok f' /\ shelf L mats tms f'.
Proof.
  intros Hp Ho Hd Hs. destruct (obj_groups_filed L mats tms f o Hp (sh_filed _ _ _ _ Hs)) as (f1 & E1 & F1 & S1). rewrite E1. cbn [bind].
  destruct (proj2 (sh_listed _ _ _ _ Hs) o Ho Hd) as [P1 P2].
  destruct (append_filed _ _ f1 (obj_path o // "position") v F1) as (f2 & E2 & F2 & S2); [now apply kept with f|]. rewrite E2. cbn [bind].
  destruct (append_filed _ _ f2 (obj_path o // "theta") w F2) as (f3 & E3 & F3 & S3); [apply kept with f1; auto; now apply kept with f|]. rewrite E3.
  exists f3. split; [reflexivity|]. apply (shelf_same L L mats tms f); eauto using sub_file_trans.
Qed.

(** *** Sources *)
Definition src_items (k : src_kind) : list (string * payload) := match k with SPoint p => [("position", vec_pay p)] | SLine s => surf_items s end.
Lemma src_sub_plain k : plain (src_sub k).
Proof. unfold plain. destruct k; cbn; intuition discriminate. Qed.
Lemma write_src_shelf L mats tms f r : plain (sr_name r) -> ~ In (src_sub (sr_kind r), sr_name r) (l_srcs L) -> shelf L mats tms f ->
  exists f', write_src f r = Ok f' /\ shelf (with_srcs ((src_sub (sr_kind r), sr_name r) :: l_srcs L) L) mats tms f'.
Proof.
  intros Hp Hn [A B C D]. assert (Sp := src_sub_plain (sr_kind r)).
  assert (Es : segs (src_path r) = ["sources"; src_sub (sr_kind r); sr_name r]) by (unfold src_path; rewrite !segs_cat, (segs_plain _ Sp), (segs_plain _ Hp); reflexivity).
  destruct (groups_filed _ _ ["sources"; "sources" // src_sub (sr_kind r); src_path r] f A) as (f1 & E1 & F1 & K1 & S1).
  { constructor; [|constructor; [|constructor; [|constructor]]]; (split; [intros b X|]); rewrite ?Es, ?segs_cat, ?(segs_plain _ Sp) in *; cbn [segs app data_at group_at Ascii.eqb Bool.eqb] in *.
    - destruct X.
    - exact Logic.I.
    - dig.
    - left. cbn. auto.
    - destruct X as [[X _]|[[X _]|(_ & X & _)]]; [discriminate|discriminate|]. destruct (sr_kind r); discriminate.
    - left. split; [reflexivity|]. destruct (sr_kind r); auto. }
  rewrite write_src_eq. rewrite E1. cbn [bind].
  assert (V : forall x, vacant (data_at L mats tms) ["sources"; src_sub (sr_kind r); sr_name r; x]).
  { intros x b. cbn [data_at]. intros [[_ X]|[[X _]|(o & _ & X & _)]]; [contradiction|discriminate|]. assert (Y := root_of o). rewrite <- X in Y. dig. }
  assert (G : forall x, ~ group_at tms ["sources"; src_sub (sr_kind r); sr_name r; x]) by (intros x X; exact X).
  assert (Nd : forall l : list (string * (@payload RNum)), l = shape_items (tp_shape (sr_tp r)) \/ l = src_items (sr_kind r) -> NoDup (map fst l) /\ Forall plain (map fst l)).
  { unfold plain. intros l [-> | ->]; [destruct (tp_shape (sr_tp r))|destruct (sr_kind r)]; cbn; split; repeat constructor; cbn; intuition discriminate. }
  destruct (Nd _ (or_introl eq_refl)) as [I1 I2]. destruct (Nd _ (or_intror eq_refl)) as [I3 I4].
  destruct (creates_filed _ (src_path r) (shape_items (tp_shape (sr_tp r))) _ f1 F1 I1 I2) as (f2 & E2 & F2 & S2).
  { intros n H. rewrite Es. cbn [app]. split; [apply V|apply G]. }
  rewrite E2. cbn [bind]. rewrite Es in F2. cbn [app] in F2.
  destruct (creates_filed _ (src_path r) (src_items (sr_kind r)) _ f2 F2 I3 I4) as (f3 & E3 & F3 & S3).
  { intros n H. rewrite Es. cbn [app]. split; [|apply G]. intros b [X|[_ (x & Hx & X)]]; [now apply (V n b)|]. injection X as <-.
    destruct (tp_shape (sr_tp r)), (sr_kind r); cbn in H, Hx; dig. }
  fold (src_items (sr_kind r)). rewrite E3. exists f3. split; [reflexivity|]. assert (S : sub_file f f3) by eauto using sub_file_trans.
  apply (shelf_same L _ mats tms f); auto; [now constructor|]. eapply filed_weak; [exact F3| |auto]. rewrite Es. cbn [app].
  assert (New : forall b x, data_at (with_srcs ((src_sub (sr_kind r), sr_name r) :: l_srcs L) L) mats tms b ["sources"; src_sub (sr_kind r); sr_name r; x]).
  { intros b x. cbn [data_at]. left. split; [reflexivity|]. now left. }
  intros b q [[X|[_ (n & _ & ->)]]|[_ (n & _ & ->)]]; try apply New.
  destruct q as [|a [|n [|x [|z [|]]]]]; cbn [data_at] in X |- *; auto. destruct X as [[-> X]|X]; [|now right]. left. split; [reflexivity|]. now right.
Qed.

(** *** The total-field source *)
Lemma write_tfsf_shelf L mats tms f q b : l_tfsf L = None -> has_dft (q_tp q) = b -> shelf L mats tms f ->
  exists f', write_tfsf f q = Ok f' /\ shelf (with_tfsf (Some b) false L) mats tms f'.
Proof.
  intros Hl Hb [A B C D].
  destruct (groups_filed _ _ ["sources"; "sources" // "tfsf"] f A) as (f1 & E1 & F1 & K1 & S1).
  { constructor; [|constructor; [|constructor]]; (split; [intros b' X|]); cbn in *; auto; dig. }
  rewrite write_tfsf_eq. rewrite E1. cbn [bind].
  assert (V : forall x, vacant (data_at L mats tms) ["sources"; "tfsf"; x]).
  { intros x b'. cbn [data_at]. intros X. dig; congruence. }
  assert (G : forall x, ~ group_at tms ["sources"; "tfsf"; x]) by (intros x X; cbn [group_at] in X; dig).
  destruct (creates_filed _ ("sources" // "tfsf") (vol_items (q_vol q)) _ f1 F1) as (f2 & E2 & F2 & S2).
  { cbn. repeat constructor; cbn; intuition discriminate. }
  { unfold plain. cbn. repeat constructor; cbn; intuition discriminate. }
  { intros n H. change (segs ("sources" // "tfsf") ++ [n])%list with ["sources"; "tfsf"; n]. split; [apply V|apply G]. }
  rewrite E2. cbn [bind].
  assert (Kg : kind f1 ("sources" // "tfsf") = Some None) by (inversion K1; subst; inversion H2; subst; assumption).
  set (L' := with_tfsf (Some b) false L).
  assert (Old : forall b' q', data_at L mats tms b' q' -> data_at L' mats tms b' q').
  { intros b' q' X. destruct q' as [|a [|n [|x [|z [|]]]]]; cbn [data_at] in X |- *; auto. destruct X as [X|[X|(_ & _ & X & _)]]; [now left|now right; left|congruence]. }
  assert (New : forall b' x, In x region_names -> data_at L' mats tms b' ["sources"; "tfsf"; x]).
  { intros b' x Hx. cbn [data_at]. right. right. split; [reflexivity|]. split; [reflexivity|]. split; [discriminate|]. now left. }
  assert (Fin : forall f', filed (data_at L' mats tms) (group_at tms) f' -> sub_file f2 f' -> shelf L' mats tms f').
  { intros f' F' S'. assert (S : sub_file f f') by eauto using sub_file_trans. constructor; [exact F'|now apply listed_grow with f| |intros; apply kept with f; auto].
    intros _. apply kept with f1; [eauto using sub_file_trans|exact Kg]. }
  change (segs ("sources" // "tfsf")) with ["sources"; "tfsf"] in F2. cbn [app] in F2. assert (F2' : filed (data_at L' mats tms) (group_at tms) f2).
  { eapply filed_weak; [exact F2| |auto]. intros b' q' [X|[_ (n & X & ->)]]; [now apply Old|]. apply New. cbn in X |- *. tauto. }
  destruct (tp_dft (q_tp q)) as [d|].
  - destruct (create_filed _ _ f2 ("sources" // "tfsf" // "dft_frequency") false (PReals (d_freq d)) F2) as (f3 & E3 & F3 & K3 & S3).
    { change (segs ("sources" // "tfsf" // "dft_frequency")) with ["sources"; "tfsf"; "dft_frequency"]. intros b' [X|[_ (n & X & Y)]]; [now apply (V _ _ X)|]. injection Y as <-. cbn in X. dig. }
    { cbn. intros X. dig. }
    rewrite E3. exists f3. split; [reflexivity|]. apply Fin; [|exact S3]. eapply filed_weak; [exact F3| |auto].
    intros b' q' [[X|[_ (n & X & ->)]]|[_ ->]]; [now apply Old| |]; apply New; cbn; [cbn in X; tauto|tauto].
  - exists f2. split; [reflexivity|]. apply Fin; [exact F2'|apply sub_file_refl].
Qed.
Lemma report_tfsf_shelf L mats tms f v : l_tfsf L <> None -> l_tfsf_result L = false -> shelf L mats tms f ->
  exists f', write_report f ("sources" // "tfsf") "flux" v = Ok f' /\ shelf (with_tfsf (l_tfsf L) true L) mats tms f'.
Proof.
  intros Hl Hr Hs. assert (Hs' := Hs). destruct Hs' as [A B C D]. unfold write_report, h5_open. assert (K := C Hl). unfold kind in K.
  destruct (slookup ("sources" // "tfsf") f) as [[|]|]; try discriminate. cbn [bind].
  destruct (create_filed _ _ f ("sources" // "tfsf" // "flux") false v A) as (f1 & E1 & F1 & K1 & S1).
  { intros b X. cbn in X. dig; congruence. }
  { cbn. intros X. dig. }
  rewrite E1. exists f1. split; [reflexivity|]. apply (shelf_same L _ mats tms f); auto. eapply filed_weak; [exact F1| |auto].
  intros b q [X|[_ ->]].
  - destruct q as [|a [|n [|x [|z [|]]]]]; cbn [data_at] in X |- *; auto. cbn [with_tfsf l_tfsf l_tfsf_result]. destruct X as [X|[X|(Xa & Xb & Xc & [Xd|[Xd Xe]])]]; auto 10; congruence.
  - cbn. right. right. split; [reflexivity|]. split; [reflexivity|]. split; [exact Hl|]. right. auto.
Qed.

(** *** Monitors *)
Definition grown (D : bool -> list string -> Prop) (dirs : list (string * string)) (b : bool) (q : list string) : Prop :=
  D b q \/ exists k n x, In (k, n) dirs /\ In x region_names /\ q = ["monitors"; k; n; x].
Lemma dir_segs k n : plain k -> plain n -> segs (mon_dir k n) = ["monitors"; k; n].
Proof. intros Hk Hn. unfold mon_dir. rewrite !segs_cat, (segs_plain k Hk), (segs_plain n Hn). reflexivity. Qed.
Lemma mon_groups_filed L mats tms dirs f k n : plain k -> plain n -> filed (grown (data_at L mats tms) dirs) (group_at tms) f ->
  exists f', h5_groups f (mon_groups k n) = Ok f' /\ filed (grown (data_at L mats tms) dirs) (group_at tms) f' /\ kind f' (mon_dir k n) = Some None /\ sub_file f f'.
Proof.
  intros Hk Hn A. destruct (groups_filed _ _ (mon_groups k n) f A) as (f1 & E1 & F1 & K1 & S1).
  { unfold mon_groups. constructor; [|constructor; [|constructor; [|constructor]]]; (split; [intros b X|]); rewrite ?segs_cat, ?(segs_plain k Hk), ?(segs_plain n Hn) in *; cbn [segs app data_at group_at Ascii.eqb Bool.eqb] in *.
    - destruct X as [X|(? & ? & ? & _ & _ & X)]; [exact X|discriminate].
    - exact Logic.I.
    - destruct X as [X|(? & ? & ? & _ & _ & X)]; [cbn in X; dig|discriminate].
    - left. cbn. auto.
    - destruct X as [X|(? & ? & ? & _ & _ & X)]; [|discriminate]. cbn [data_at] in X. destruct X as [[X _]|[[X _]|[X _]]]; discriminate.
    - right. cbn. auto. }
  exists f1. split; [exact E1|]. split; [exact F1|]. split; [|exact S1]. inversion K1; subst. inversion H2; subst. inversion H4; subst. assumption.
Qed.
Lemma write_mon1_filed L mats tms dirs f k n items freq : plain k -> plain n -> filed (grown (data_at L mats tms) dirs) (group_at tms) f ->
  ~ In (k, n) dirs -> ~ In (k, n) (l_dirs L) -> (forall x, In (k, n, x) (l_results L) -> False) ->
  incl (map fst items ++ ["dft_frequency"]) region_names -> NoDup (map fst items ++ ["dft_frequency"]) ->
  exists f', write_mon1 f k n items freq = Ok f' /\ filed (grown (data_at L mats tms) ((k, n) :: dirs)) (group_at tms) f' /\ sub_file f f'.
Proof.
  intros Hk Hn A H1 H2 H3 I1 I2. destruct (mon_groups_filed L mats tms dirs f k n Hk Hn A) as (f1 & E1 & F1 & _ & S1). rewrite write_mon1_eq. rewrite E1. cbn [bind].
  destruct (creates_filed _ (mon_dir k n) (items ++ [("dft_frequency", PReals freq)]) _ f1 F1) as (f2 & E2 & F2 & S2).
  - rewrite map_app. exact I2.
  - rewrite map_app. eapply incl_Forall'; [exact I1|apply region_plain].
  - intros x Hx. rewrite (dir_segs k n Hk Hn). cbn [app]. split; [|intros X; exact X]. intros b [X|(k' & n' & x' & X1 & X2 & X3)]; [|injection X3 as <- <- <-; contradiction].
    cbn [data_at] in X. destruct X as [[X _]|[[_ [[X _]|[[X _]|[X _]]]]|(o & _ & X & _)]]; [discriminate|contradiction|eauto|eauto|]. assert (Y := root_of o). rewrite <- X in Y. dig.
  - rewrite E2. exists f2. split; [reflexivity|]. split; [|now apply sub_file_trans with f1]. eapply filed_weak; [exact F2| |auto].
    intros b q [[X|(k' & n' & x' & X1 & X2 & X3)]|[_ (x & X & ->)]].
    + now left.
    + right. exists k', n', x'. split; [now right|auto].
    + right. exists k, n, x. split; [now left|]. rewrite (dir_segs k n Hk Hn). split; [|reflexivity]. apply I1. rewrite map_app in X. exact X.
Qed.
Lemma kinds_plain : Forall plain ["surface_monitor"; "box_monitor"; "cylinder_monitor"; "volume_monitor"; "point_monitor"].
Proof. unfold plain. repeat constructor; cbn; intuition discriminate. Qed.
Ltac kp := match goal with |- plain ?k => let H := fresh in assert (H := kinds_plain); rewrite Forall_forall in H; apply H; cbn; tauto end.
Lemma sides_filed L mats tms : forall l dirs f, Forall (fun x => plain (sm_name x)) l -> NoDup (map (fun x => ("surface_monitor", sm_name x)) l) ->
  (forall x, In x l -> ~ In ("surface_monitor", sm_name x) dirs /\ ~ In ("surface_monitor", sm_name x) (l_dirs L)) ->
  (forall k n x, In (k, n, x) (l_results L) -> In (k, n) (l_dirs L)) -> filed (grown (data_at L mats tms) dirs) (group_at tms) f ->
  exists f', foldM write_surf_mon f l = Ok f' /\ filed (grown (data_at L mats tms) (map (fun x => ("surface_monitor", sm_name x)) l ++ dirs)) (group_at tms) f' /\ sub_file f f'.
Proof.
  induction l as [|m l IH]; intros dirs f Hp Hd Hi Hr A; cbn [foldM].
  - exists f. split; [reflexivity|]. split; [exact A|apply sub_file_refl].
  - inversion Hp; subst. cbn [map] in Hd. inversion Hd; subst. destruct (Hi m (or_introl eq_refl)) as [X1 X2].
    destruct (write_mon1_filed L mats tms dirs f "surface_monitor" (sm_name m) (surf_items (sm_surf m)) (d_freq (sm_dft m))) as (f1 & E1 & F1 & S1); auto.
    { kp. }
    { intros x Hx. apply X2. eauto. }
    { intros x. cbn. unfold region_names. cbn. tauto. }
    { cbn. repeat constructor; cbn; intuition discriminate. }
    unfold write_surf_mon at 1. rewrite E1. cbn [bind].
    destruct (IH (("surface_monitor", sm_name m) :: dirs) f1) as (f2 & E2 & F2 & S2); auto.
    { intros x Hx. destruct (Hi x (or_intror Hx)) as [Y1 Y2]. split; [|exact Y2]. intros [Y|Y]; [|contradiction]. apply H3. rewrite Y. now apply (in_map (fun x => ("surface_monitor", sm_name x))). }
    exists f2. split; [exact E2|]. split; [|now apply sub_file_trans with f1]. eapply filed_weak; [exact F2| |auto].
    intros b q [X|(k & n & x & X & Y)]; [now left|]. right. exists k, n, x. split; [|exact Y]. cbn [map app]. apply in_app_or in X. destruct X as [X|[X|X]]; [right; apply in_or_app; now left|now left|right; apply in_or_app; now right].
Qed.
Lemma write_mon_filed L mats tms f m : Forall (fun d => plain (snd d)) (mon_dirs m) -> NoDup (mon_dirs m) -> (forall d, In d (mon_dirs m) -> ~ In d (l_dirs L)) ->
  (forall k n x, In (k, n, x) (l_results L) -> In (k, n) (l_dirs L)) -> shelf L mats tms f ->
  exists f', write_mon f m = Ok f' /\ shelf (with_mons (mon_dirs m ++ l_dirs L) (l_mons L ++ [m]) L) mats tms f'.
Proof.
  intros Hp Hd Hi Hr Hs. set (L' := with_mons (mon_dirs m ++ l_dirs L) (l_mons L ++ [m]) L).
  assert (A : filed (grown (data_at L mats tms) []) (group_at tms) f) by (eapply filed_weak; [apply (sh_filed _ _ _ _ Hs)|intros b q X; now left|auto]).
  assert (Fin : forall f', filed (grown (data_at L mats tms) (mon_dirs m)) (group_at tms) f' -> sub_file f f' -> shelf L' mats tms f').
  { intros f' F' S'. apply (shelf_same L L' mats tms f); auto. eapply filed_weak; [exact F'| |auto]. intros b q [X|(k & n & x & X & Hx & ->)].
    - destruct q as [|a [|n [|x [|z [|]]]]]; cbn [data_at] in X |- *; auto. destruct X as [X|[[-> X]|X]]; [now left| |now right; right]. right. left. split; [reflexivity|].
      destruct X as [[X Y]|X]; [|now right]. left. split; [|exact Y]. cbn. apply in_or_app. now right.
    - cbn [data_at]. right. left. split; [reflexivity|]. left. split; [|exact Hx]. cbn. apply in_or_app. now left. }
  assert (One : forall k n items freq, mon_dirs m = [(k, n)] -> plain k -> incl (map fst items ++ ["dft_frequency"]) region_names -> NoDup (map fst items ++ ["dft_frequency"]) ->
    exists f', write_mon1 f k n items freq = Ok f' /\ shelf L' mats tms f').
  { intros k n items freq Em Hk I1 I2. rewrite Em in *. inversion Hp; subst. cbn [snd] in *. assert (Hk' : ~ In (k, n) (l_dirs L)) by (apply Hi; now left).
    destruct (write_mon1_filed L mats tms [] f k n items freq) as (f1 & E1 & F1 & S1); auto. { intros x Hx. apply Hk'. eauto. } eauto. }
  rewrite write_mon_eq. destruct m as [x|x|x|x|x].
  - apply One; [reflexivity|kp|intros y; cbn; unfold region_names; cbn; tauto|cbn; repeat constructor; cbn; intuition discriminate].
  - cbn [mon_dirs] in *. apply Forall_app in Hp. destruct Hp as [Hp1 Hp2]. inversion Hp2; subst. cbn [snd] in *.
    assert (Nd : NoDup (map (fun x => ("surface_monitor", sm_name x)) (bm_sides x)) /\ ~ In ("box_monitor", bm_name x) (map (fun x => ("surface_monitor", sm_name x)) (bm_sides x))).
    { split; [apply NoDup_remove_1 in Hd; now rewrite app_nil_r in Hd|]. intros X. apply in_map_iff in X. destruct X as (y & X & _). discriminate. }
    destruct (sides_filed L mats tms (bm_sides x) [] f) as (f1 & E1 & F1 & S1); auto.
    { rewrite Forall_forall in *. intros y Hy. apply (Hp1 ("surface_monitor", sm_name y)). now apply (in_map (fun x => ("surface_monitor", sm_name x))). }
    { apply Nd. }
    { intros y Hy. split; [auto|]. apply Hi. apply in_or_app. left. now apply (in_map (fun x => ("surface_monitor", sm_name x))). }
    rewrite E1. cbn [bind]. assert (Hb : ~ In ("box_monitor", bm_name x) (l_dirs L)) by (apply Hi, in_or_app; right; now left).
    destruct (write_mon1_filed L mats tms (map (fun x => ("surface_monitor", sm_name x)) (bm_sides x) ++ []) f1 "box_monitor" (bm_name x) (vol_items (bm_vol x)) (bm_freq x)) as (f2 & E2 & F2 & S2); auto.
    { kp. }
    { rewrite app_nil_r. apply Nd. }
    { intros y Hy. apply Hb. eauto. }
    { intros y. cbn. unfold region_names. cbn. tauto. }
    { cbn. repeat constructor; cbn; intuition discriminate. }
    exists f2. split; [exact E2|]. apply Fin; [|now apply sub_file_trans with f1]. eapply filed_weak; [exact F2| |auto].
    intros b q [X|(k & n & y & X & Y)]; [now left|]. right. exists k, n, y. split; [|exact Y]. rewrite app_nil_r in X. apply in_or_app. destruct X as [X|X]; [right; now left|now left].
  - apply One; [reflexivity|kp|intros y; cbn; unfold region_names; cbn; tauto|cbn; repeat constructor; cbn; intuition discriminate].
  - apply One; [reflexivity|kp|intros y; cbn; unfold region_names; cbn; tauto|cbn; repeat constructor; cbn; intuition discriminate].
  - apply One; [reflexivity|kp|intros y; cbn; unfold region_names; cbn; tauto|cbn; repeat constructor; cbn; intuition discriminate].
Qed.

(** the groups of a monitor that is already there, opened again *)
Lemma mon_groups_shelf L mats tms f k n : plain k -> plain n -> shelf L mats tms f ->
  exists f', h5_groups f (mon_groups k n) = Ok f' /\ shelf L mats tms f' /\ kind f' (mon_dir k n) = Some None.
Proof.
  intros Hk Hn Hs. destruct (mon_groups_filed L mats tms [] f k n Hk Hn) as (f1 & E1 & F1 & K1 & S1).
  { eapply filed_weak; [apply (sh_filed _ _ _ _ Hs)|intros b q X; now left|auto]. }
  exists f1. split; [exact E1|]. split; [|exact K1]. apply (shelf_same L L mats tms f); auto. eapply filed_weak; [exact F1| |auto].
  intros b q [X|(? & ? & ? & [] & _)]. exact X.
Qed.
Lemma side_groups_shelf L mats tms : forall l f, Forall (fun x : surf_mon => plain (sm_name x)) l -> shelf L mats tms f ->
  exists f', foldM (fun f x => h5_groups f (mon_groups "surface_monitor" (sm_name x))) f l = Ok f' /\ shelf L mats tms f'.
Proof.
  induction l as [|x l IH]; intros f Hl Hs; cbn [foldM]; [eauto|]. inversion Hl; subst.
  destruct (mon_groups_shelf L mats tms f "surface_monitor" (sm_name x)) as (f1 & E1 & S1 & _); auto; [kp|]. rewrite E1. cbn [bind]. auto.
Qed.
Lemma write_report_shelf L mats tms f k n x v : plain k -> plain n -> In x result_names -> ~ In (k, n, x) (l_results L) -> kind f (mon_dir k n) = Some None -> shelf L mats tms f ->
  exists f', write_report f (mon_dir k n) x v = Ok f' /\ shelf (with_results ((k, n, x) :: l_results L) L) mats tms f'.
Proof.
  intros Hk Hn Hx Hr K Hs. unfold write_report, h5_open. unfold kind in K. destruct (slookup (mon_dir k n) f) as [[|]|]; try discriminate. cbn [bind].
  assert (Px : plain x) by (unfold plain; dig; cbn; intuition discriminate).
  assert (Es : segs (mon_dir k n // x) = ["monitors"; k; n; x]) by (rewrite segs_cat, (dir_segs k n Hk Hn), (segs_plain x Px); reflexivity).
  destruct (create_filed _ _ f (mon_dir k n // x) false v (sh_filed _ _ _ _ Hs)) as (f1 & E1 & F1 & K1 & S1).
  { rewrite Es. intros b X. cbn [data_at] in X. destruct X as [[X _]|[[_ [[_ X]|[[_ X]|[X _]]]]|(o & _ & X & _)]]; [discriminate|dig|dig|contradiction|]. assert (Y := root_of o). rewrite <- X in Y. dig. }
  { rewrite Es. intros X. exact X. }
  rewrite E1. exists f1. split; [reflexivity|]. apply (shelf_same L _ mats tms f); auto. eapply filed_weak; [exact F1| |auto]. rewrite Es. intros b q [X|[_ ->]].
  - destruct q as [|a [|y [|z [|w [|]]]]]; cbn [data_at] in X |- *; auto. destruct X as [X|[[-> X]|X]]; [now left| |now right; right]. right. left. split; [reflexivity|]. cbn. tauto.
  - cbn [data_at]. right. left. split; [reflexivity|]. right. right. split; [now left|exact Hx].
Qed.
Lemma write_transform_shelf L mats tms f k n items : plain k -> plain n -> incl (map fst items) comp_names -> NoDup (map fst items) -> items = [] \/ ~ In (k, n, transform) (l_results L) -> shelf L mats tms f ->
  exists f', h5_creates f (mon_dir k n) items = Ok f' /\ shelf (with_results ((k, n, transform) :: l_results L) L) mats tms f'.
Proof.
  intros Hk Hn I1 I2 Hr Hs.
  destruct (creates_filed _ (mon_dir k n) items _ f (sh_filed _ _ _ _ Hs) I2) as (f1 & E1 & F1 & S1).
  { apply Forall_forall. intros x Hx. apply I1 in Hx. unfold plain. dig; cbn; intuition discriminate. }
  { intros x Hx. rewrite (dir_segs k n Hk Hn). cbn [app]. split; [|intros X; exact X]. intros b X. cbn [data_at] in X. destruct Hr as [->|Hr]; [destruct Hx|]. apply I1 in Hx.
    destruct X as [[X _]|[[_ [[_ X]|[[X _]|[_ X]]]]|(o & _ & X & _)]]; [discriminate|dig|contradiction|dig|]. assert (Y := root_of o). rewrite <- X in Y. dig. }
  exists f1. split; [exact E1|]. apply (shelf_same L _ mats tms f); auto. eapply filed_weak; [exact F1| |auto]. rewrite (dir_segs k n Hk Hn). cbn [app]. intros b q [X|[_ (x & Hx & ->)]].
  - destruct q as [|a [|y [|z [|w [|]]]]]; cbn [data_at] in X |- *; auto. destruct X as [X|[[-> X]|X]]; [now left| |now right; right]. right. left. split; [reflexivity|]. cbn. tauto.
  - cbn [data_at]. right. left. split; [reflexivity|]. right. left. split; [now left|now apply I1].
Qed.
Lemma fresh_shelf g : shelf blank [] [] (fresh_h5 g).
Proof.
  constructor.
  - intros p. destruct (kind (fresh_h5 g) p) as [k|] eqn:K; [|exact Logic.I]. unfold kind, fresh_h5, grid_items in K. cbn [map slookup] in K.
    repeat match type of K with context[String.eqb p ?x] => destruct (String.eqb_spec p x) as [->|_]; [cbn in K; injection K as <-; cbn; auto|] end.
    discriminate.
  - split; [intros n []|intros o []].
  - intros H. now elim H.
  - intros m c [].
Qed.
