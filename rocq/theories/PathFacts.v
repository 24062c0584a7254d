(** Rows of moving objects and of materials; names of dispersive materials; line sources. *)
From Coq Require Import ZArith String Ascii List Bool Lia.
From Verif Require Import Scalar Base BaseFacts VecM GridM GeometryM MaterialM PmlM DftM TfsfM PolarM
  InterpM H5M ClockM MonitorM FieldM OutFacts PhysFacts SpecClock TimerFacts H5Facts SpecSource SourceFacts SpecOutput PassiveFacts EditFacts.
From Verif Require DftFacts.
From Verif Require Import OpsFacts.
Import ListNotations.
Local Open Scope Z_scope.

(** ** Strings *)
Fixpoint slast (d : ascii) (s : string) : ascii := match s with EmptyString => d | String c r => slast c r end.
Lemma slast_app a b d : b <> EmptyString -> slast d (a ++ b)%string = slast d b.
Proof.
  intros H. revert d. induction a as [|c a IH]; intros d; cbn; [reflexivity|]. rewrite IH. destruct b as [|x b]; [congruence|reflexivity].
Qed.
Lemma path_last g n d : n <> EmptyString -> slast d (g // n) = slast d n.
Proof. intros H. unfold path_cat. rewrite slast_app; [|discriminate]. cbn. destruct n as [|x n]; [congruence|reflexivity]. Qed.
Lemma path_neq g g' n n' : n <> EmptyString -> n' <> EmptyString -> slast "/" n <> slast "/" n' -> g // n <> g' // n'.
Proof. intros A B H E. apply H. rewrite <- (path_last g n "/" A), <- (path_last g' n' "/" B). now rewrite E. Qed.
Lemma append_cancel a b c : (a ++ c = b ++ c)%string -> a = b.
Proof.
  assert (L : forall x y : string, String.length (x ++ y) = (String.length x + String.length y)%nat) by (intros x y; induction x; cbn; congruence).
  revert b. induction a as [|x a IH]; intros [|y b] H; auto.
  - apply (f_equal String.length) in H. rewrite L in H. cbn in H. rewrite L in H. lia.
  - apply (f_equal String.length) in H. cbn in H. rewrite L in H. lia.
  - cbn in H. injection H as -> H. f_equal. auto.
Qed.
Lemma path_inj g g' n : g // n = g' // n -> g = g'.
Proof. unfold path_cat. apply append_cancel. Qed.

Section Traces.
Context {N : Num}.

(** ** Moving objects *)
Lemma write_obj_rows f o f' : write_obj f o = Ok f' ->
  (forall q, q <> obj_path o -> data_rows f' (q // "position") = data_rows f (q // "position") /\ data_rows f' (q // "theta") = data_rows f (q // "theta")) /\
  data_rows f (obj_path o // "position") = [] /\ data_rows f (obj_path o // "theta") = [] /\
  data_rows f' (obj_path o // "position") = [vec_pay (o_pos o)] /\ data_rows f' (obj_path o // "theta") = [PReal (o_theta o)].
Proof.
  rewrite write_obj_eq. intros H. apply bind_ok in H. destruct H as (a1 & H1 & H). apply bind_ok in H. destruct H as (a2 & H2 & H). apply bind_ok in H. destruct H as (a3 & H3 & H).
  apply bind_ok in H. destruct H as (a4 & H4 & H). destruct (h5_exists a4 _); [|discriminate].
  assert (E1 := h5_groups_wrote _ _ _ H1). assert (E2 := h5_create_wrote _ _ _ _ _ H2). assert (E3 := h5_create_wrote _ _ _ _ _ H3). assert (E4 := h5_creates_wrote _ _ _ _ H4). assert (E5 := h5_create_wrote _ _ _ _ _ H).
  assert (Hp : data_rows a1 (obj_path o // "position") = []) by (unfold data_rows; unfold h5_create in H2; destruct (slookup _ a1); [discriminate|reflexivity]).
  assert (Ht : data_rows a2 (obj_path o // "theta") = []) by (unfold data_rows; unfold h5_create in H3; destruct (slookup _ a2); [discriminate|reflexivity]).
  assert (Gp : forall q, rows_at (map (fun '(n, v) => (obj_path o // n, v)) (geom_items (o_geom o))) (q // "position") = []).
  { intros q. apply rows_at_not. intros w Hw. apply in_map_iff in Hw. destruct Hw as ([n v] & <- & Hn). cbn [fst]. destruct (o_geom o); cbn [geom_items In] in Hn;
    repeat (destruct Hn as [Hn|Hn]; [injection Hn as <- <-; apply path_neq; discriminate|]); destruct Hn. }
  assert (Gt : forall q, rows_at (map (fun '(n, v) => (obj_path o // n, v)) (geom_items (o_geom o))) (q // "theta") = []).
  { intros q. apply rows_at_not. intros w Hw. apply in_map_iff in Hw. destruct Hw as ([n v] & <- & Hn). cbn [fst]. destruct (o_geom o); cbn [geom_items In] in Hn;
    repeat (destruct Hn as [Hn|Hn]; [injection Hn as <- <-; apply path_neq; discriminate|]); destruct Hn. }
  assert (Np : forall p v q, p <> q -> rows_at [(p, v)] q = []).
  { intros p v q Hn. apply rows_at_not. intros w [<-|[]]. exact Hn. }
  assert (Yp : forall p v, rows_at [(p, v)] p = [v]) by (intros p v; unfold rows_at; cbn [filter fst]; now rewrite String.eqb_refl).
  split; [|split; [|split; [|split]]].
  - intros q Hq. split; rewrite E5, E4, E3, E2, E1, ?Gp, ?Gt, !Np; rewrite ?app_nil_r; auto; try (apply path_neq; discriminate); intros K; apply path_inj in K; congruence.
  - specialize (E1 (obj_path o // "position")). rewrite Hp in E1. cbn in E1. rewrite app_nil_r in E1. congruence.
  - specialize (E1 (obj_path o // "theta")). specialize (E2 (obj_path o // "theta")). rewrite Ht in E2. symmetry in E2. apply app_eq_nil in E2. destruct E2 as [E2 _]. rewrite E2 in E1. symmetry in E1. apply app_eq_nil in E1. tauto.
  - rewrite E5, E4, E3, E2, Gp, Hp, Yp, !Np; [reflexivity|apply path_neq; discriminate|apply path_neq; discriminate].
  - rewrite E5, E4, E3, Gt, Ht, Yp, !Np; [reflexivity|apply path_neq; discriminate].
Qed.

Definition traced (f : h5) (o : obj) (k : tracked) : Prop :=
  o_dyn o = k_dyn k /\ o_pos o = k_pos k /\ o_theta o = k_theta k /\ k_rows k <> [] /\
  (o_dyn o = true -> data_rows f (obj_path o // "position") = map (fun q => vec_pay (fst q)) (k_rows k) /\
                     data_rows f (obj_path o // "theta") = map (fun q => PReal (snd q)) (k_rows k)).
Definition apart (objs : list obj) : Prop :=
  forall i j a b, nth_error objs i = Some a -> nth_error objs j = Some b -> o_dyn a = true -> o_dyn b = true -> i <> j -> obj_path a <> obj_path b.
Definition trace_inv (f : h5) (objs : list obj) (ks : list tracked) : Prop := Forall2 (traced f) objs ks /\ apart objs.

Lemma traced_rows f f' o k : traced f o k -> (forall q, root q = "dynamic_objects"%string -> data_rows f' q = data_rows f q) -> traced f' o k.
Proof.
  intros (A & B & C & D & E) H. repeat (split; [assumption|]). intros Hd. destruct (E Hd) as [E1 E2]. unfold obj_path, obj_root in *. rewrite Hd in *. rewrite !H by reflexivity. auto.
Qed.
Lemma trace_rows f f' objs ks : trace_inv f objs ks -> (forall q, root q = "dynamic_objects"%string -> data_rows f' q = data_rows f q) -> trace_inv f' objs ks.
Proof.
  intros [H1 H2] H. split; [|exact H2]. clear H2. induction H1; constructor; auto. eapply traced_rows; eassumption.
Qed.
Lemma Forall2_nth {A B} (R : A -> B -> Prop) l m i a b : Forall2 R l m -> nth_error l i = Some a -> nth_error m i = Some b -> R a b.
Proof. intros H. revert i. induction H; intros [|i]; cbn; try discriminate; [congruence|eauto]. Qed.
Lemma Forall2_upd {A B} (R : A -> B -> Prop) l m i a b : Forall2 R l m -> R a b -> Forall2 R (upd_nth i a l) (upd_nth i b m).
Proof. intros H Hr. revert i. induction H; intros [|i]; cbn; constructor; auto. Qed.
Lemma Forall2_none {A B} (R : A -> B -> Prop) l m i : Forall2 R l m -> nth_error l i = None <-> nth_error m i = None.
Proof. intros H. revert i. induction H; intros [|i]; cbn; try tauto; [split; discriminate|apply IHForall2]. Qed.
Lemma nth_upd {A} (l : list A) i j x : nth_error (upd_nth i x l) j = if (Nat.eqb i j) then (match nth_error l j with Some _ => Some x | None => None end) else nth_error l j.
Proof.
  revert i j. induction l as [|a l IH]; intros [|i] [|j]; cbn; auto. destruct (Nat.eqb i j); auto.
Qed.

Lemma on_obj_trace i h hk f p ks : trace_inv f (ph_objs p) ks ->
  (forall o, o_dyn (h o) = o_dyn o /\ obj_path (h o) = obj_path o /\ (o_pos (h o), o_theta (h o)) = hk (o_pos o, o_theta o)) ->
  trace_inv f (ph_objs (phys_on_obj i h p)) (track_pose i hk ks).
Proof.
  intros [H1 H2] Hh. unfold phys_on_obj, track_pose. destruct (nth_error (ph_objs p) i) as [o|] eqn:Eo.
  2:{ assert (E := proj1 (Forall2_none _ _ _ i H1) Eo). rewrite E. now split. }
  destruct (nth_error ks i) as [k|] eqn:Ek; [|apply (Forall2_none _ _ _ i H1) in Ek; congruence].
  assert (Tk := Forall2_nth _ _ _ _ _ _ H1 Eo Ek). destruct Tk as (A & B & C & D & E). rewrite <- A. destruct (o_dyn o) eqn:Ed; [|now split].
  cbn [ph_objs set_ph_objs]. destruct (Hh o) as (G1 & G2 & G3). rewrite <- B, <- C. split.
  - apply Forall2_upd; [exact H1|]. unfold traced. cbn [k_dyn k_pos k_theta k_rows]. rewrite G1, Ed, G2, <- G3. cbn [fst snd]. repeat (split; [auto; fail|]). auto.
  - intros x y a b Hx Hy Da Db Hn. rewrite nth_upd in Hx, Hy.
    destruct (Nat.eqb_spec i x) as [<-|Nx]; destruct (Nat.eqb_spec i y) as [<-|Ny]; try rewrite Eo in Hx; try rewrite Eo in Hy; try congruence.
    + injection Hx as <-. rewrite G2. eapply H2; [exact Eo|exact Hy| | |]; assumption.
    + injection Hy as <-. rewrite G2. eapply H2; [exact Hx|exact Eo| | |]; assumption.
    + eapply H2; eassumption.
Qed.

Lemma rooted_dyn c s s' : exec c s = Fine s' -> (forall r, cmd_root c r -> r <> "dynamic_objects"%string) ->
  forall q, root q = "dynamic_objects"%string -> data_rows (f_h5 s') q = data_rows (f_h5 s) q.
Proof. intros E H q Hq. apply exec_rooted in E. eapply rooted_rows; [exact E|]. intros K. apply H in K. congruence. Qed.

Lemma exec_trace c s s' ks : trace_inv (f_h5 s) (ph_objs (f_ph s)) ks -> exec c s = Fine s' -> trace_inv (f_h5 s') (ph_objs (f_ph s')) (track c ks).
Proof.
  intros HI E. assert (Ep := exec_phys c s s' E).
  assert (Same : ph_objs (f_ph s') = ph_objs (f_ph s) -> track c ks = ks -> (forall r, cmd_root c r -> r <> "dynamic_objects"%string) -> trace_inv (f_h5 s') (ph_objs (f_ph s')) (track c ks)).
  { intros A B C. rewrite A, B. eapply trace_rows; [exact HI|]. eapply rooted_dyn; eassumption. }
  assert (Pose : forall i h hk, f_h5 s' = f_h5 s -> f_ph s' = phys_on_obj i h (f_ph s) -> track c ks = track_pose i hk ks ->
     (forall o, o_dyn (h o) = o_dyn o /\ obj_path (h o) = obj_path o /\ (o_pos (h o), o_theta (h o)) = hk (o_pos o, o_theta o)) -> trace_inv (f_h5 s') (ph_objs (f_ph s')) (track c ks)).
  { intros i h hk A B C D. rewrite A, B, C. now apply on_obj_trace. }
  destruct c; cbn [phys_exec] in Ep; try (apply Same; [injection Ep as <-; reflexivity|reflexivity|cbn [cmd_root]; intros rr Hr; try (rewrite Hr; discriminate); destruct Hr]; fail).
  - apply Same; [now apply phys_step_objs|reflexivity|]. cbn. intros r ->. discriminate.
  - apply Same; [|reflexivity|intros r []]. apply ok_out_fine in Ep. unfold update_material_grid in Ep. apply bind_ok in Ep. destruct Ep as (a & _ & Ep). apply repaint_frame in Ep. cbn in Ep. tauto.
  - (* AddObject *)
    cbn [exec] in E. unfold add_object in E. apply obind_fine in E. destruct E as (b & E & E5). apply obind_fine in E. destruct E as (b4 & E & E4). apply obind_fine in E. destruct E as (b3 & E & E3).
    apply obind_fine in E. destruct E as (b1 & E1 & E2). assert (R1 := register_mat_rooted _ _ _ E1). assert (P1 := register_mat_ph _ _ _ E1).
    apply on_ph_fine in E2, E3. destruct E2 as (p2 & Q2 & ->). destruct E3 as (p3 & Q3 & ->). apply paint_objs in Q2. apply insert_objs in Q3. cbn [f_ph set_f_ph] in *.
    apply prim_fine in E4. destruct E4 as (f & Ef & E4). injection E4 as <-. injection E5 as <-. cbn [f_h5 f_ph map_ph set_f_h5 set_f_ph ph_objs set_ph_objs] in *.
    rewrite Q3, Q2, P1. clear Ep Pose Same.
    assert (HI1 : trace_inv (f_h5 b1) (ph_objs (f_ph s)) ks).
    { eapply trace_rows; [exact HI|]. intros q Hq. eapply rooted_rows; [exact R1|]. rewrite Hq. discriminate. }
    destruct (write_obj_rows _ _ _ Ef) as (W1 & W2 & W3 & W4 & W5). destruct HI1 as [H1 H2].
    assert (New : forall i a, nth_error (ph_objs (f_ph s)) i = Some a -> o_dyn a = true -> obj_path a <> obj_path o).
    { intros i a Ha Da K. destruct (nth_error ks i) as [k|] eqn:Ek; [|apply (Forall2_none _ _ _ i H1) in Ek; congruence].
      destruct (Forall2_nth _ _ _ _ _ _ H1 Ha Ek) as (_ & _ & _ & D & E). destruct (E Da) as [Ea _]. rewrite K, W2 in Ea. destruct (k_rows k); [auto|discriminate]. }
    cbn [track]. split.
    + apply Forall2_app.
      * clear -H1 W1 New. assert (K : forall a, In a (ph_objs (f_ph s)) -> o_dyn a = true -> obj_path a <> obj_path o).
        { intros a Ha. apply In_nth_error in Ha. destruct Ha as [i Hi]. eauto. } clear New.
        induction H1 as [|a k l m Ha H IH]; constructor; [|apply IH; intros; apply K; [now right|assumption]].
        destruct Ha as (A & B & C & D & E). repeat (split; [assumption|]). intros Da. destruct (E Da) as [Ea Eb]. destruct (W1 (obj_path a)) as [X Y]; [apply K; [now left|exact Da]|]. now rewrite X, Y.
      * constructor; [|constructor]. unfold traced. cbn [k_dyn k_pos k_theta k_rows map fst snd]. repeat (split; [auto; discriminate|]). auto.
    + intros i j a b Ha Hb Da Db Hn. assert (Len : forall (n : nat) x, nth_error (ph_objs (f_ph s) ++ [o]) n = Some x -> nth_error (ph_objs (f_ph s)) n = Some x \/ (n = List.length (ph_objs (f_ph s)) /\ x = o)).
      { intros n x Hx. destruct (Nat.lt_ge_cases n (List.length (ph_objs (f_ph s)))) as [L|L]; [left; now rewrite nth_error_app1 in Hx|].
        rewrite nth_error_app2 in Hx by exact L. destruct (n - List.length (ph_objs (f_ph s)))%nat as [|z] eqn:Z; cbn in Hx; [right; split; [lia|congruence]|destruct z; discriminate]. }
      destruct (Len _ _ Ha) as [Ha'|[-> ->]]; destruct (Len _ _ Hb) as [Hb'|[-> ->]].
      * eapply H2; eassumption.
      * eapply New; eassumption.
      * intros K. symmetry in K. revert K. eapply New; eassumption.
      * congruence.
  - apply Same; [|reflexivity|intros r []]. apply ok_out_fine in Ep. unfold phys_clear_materials in Ep. inv_ok. rewrite <- Ep. reflexivity.
  - apply Same; [|reflexivity|cbn; intros rr ->; discriminate]. apply ok_out_fine in Ep. unfold phys_set_tfsf in Ep. inv_ok. rewrite <- Ep. reflexivity.
  - eapply (Pose i (obj_move dr)); [|congruence|reflexivity|intros o; repeat split; reflexivity]. cbn [exec] in E. unfold on_obj in E. destruct (nth_error _ _); [destruct (o_dyn _)|]; injection E as <-; reflexivity.
  - eapply (Pose i (obj_rotate d)); [|congruence|reflexivity|intros o; repeat split; reflexivity]. cbn [exec] in E. unfold on_obj in E. destruct (nth_error _ _); [destruct (o_dyn _)|]; injection E as <-; reflexivity.
  - eapply (Pose i (obj_set_pos p)); [|congruence|reflexivity|intros o; repeat split; reflexivity]. cbn [exec] in E. unfold on_obj in E. destruct (nth_error _ _); [destruct (o_dyn _)|]; injection E as <-; reflexivity.
  - eapply (Pose i (obj_set_theta t)); [|congruence|reflexivity|intros o; repeat split; reflexivity]. cbn [exec] in E. unfold on_obj in E. destruct (nth_error _ _); [destruct (o_dyn _)|]; injection E as <-; reflexivity.
  - (* WriteCurrent *)
    injection Ep as Ep. clear Same Pose. destruct HI as [H1 H2]. cbn [exec track] in *. unfold write_current in E. rewrite <- Ep. destruct (nth_error (ph_objs (f_ph s)) i) as [o|] eqn:Eo.
    2:{ assert (Z := proj1 (Forall2_none _ _ _ i H1) Eo). rewrite Z. injection E as <-. now split. }
    destruct (nth_error ks i) as [k|] eqn:Ek; [|apply (Forall2_none _ _ _ i H1) in Ek; congruence].
    assert (Tk := Forall2_nth _ _ _ _ _ _ H1 Eo Ek). destruct Tk as (A & B & C & D & F). rewrite <- A. destruct (o_dyn o) eqn:Ed; [|injection E as <-; now split]. cbv zeta in E.
    apply prim_fine in E. destruct E as (f & Ef & E). injection E as <-. cbn [f_h5 set_f_h5]. ops_in Ef. apply bind_ok in Ef. destruct Ef as (f1 & F1 & Ef). apply bind_ok in Ef. destruct Ef as (f2 & F2 & F3).
    apply h5_groups_wrote in F1. apply h5_append_wrote in F2, F3.
    assert (Np : forall p v q, p <> q -> rows_at [(p, v)] q = []) by (intros p v q Hn; apply rows_at_not; intros w [<-|[]]; exact Hn).
    assert (Yp : forall p v, rows_at [(p, v)] p = [v]) by (intros p v; unfold rows_at; cbn [filter fst]; now rewrite String.eqb_refl).
    assert (PT : forall g g' : string, g // "position" <> g' // "theta") by (intros; apply path_neq; discriminate).
    assert (TP : forall g g' : string, g // "theta" <> g' // "position") by (intros; apply path_neq; discriminate).
    split; [|exact H2].
    assert (K : forall j a kk, nth_error (ph_objs (f_ph s)) j = Some a -> nth_error ks j = Some kk -> j <> i -> traced f a kk).
    { intros j a kk Ha Hk Hj. destruct (Forall2_nth _ _ _ _ _ _ H1 Ha Hk) as (A' & B' & C' & D' & F'). repeat (split; [assumption|]). intros Da. destruct (F' Da) as [X Y].
      assert (Hp : obj_path o <> obj_path a) by (eapply (H2 i j); try eassumption; congruence).
      rewrite F3, F2, F1, F3, F2, F1. rewrite !Np; auto; try (intros Z; apply path_inj in Z; congruence). cbn. rewrite !app_nil_r. auto. }
    assert (Ki : traced f o (Tracked true (k_pos k) (k_theta k) (k_rows k ++ [(k_pos k, k_theta k)]))).
    { unfold traced. cbn [k_dyn k_pos k_theta k_rows]. repeat (split; [assumption|]). split; [intros Z; apply app_eq_nil in Z; destruct Z; discriminate|]. intros _. destruct (F eq_refl) as [X Y].
      rewrite !map_app. cbn [map fst snd]. rewrite F3, F2, F1, F3, F2, F1, X, Y, !Yp, !Np by auto. rewrite B, C. cbn. rewrite !app_nil_r. auto. }
    clear -H1 K Ki Eo Ek. revert i K Ki Eo Ek. induction H1 as [|a kk l m Ha H IH]; intros [|i] K Ki Eo Ek; cbn in Eo, Ek; try discriminate; cbn [upd_nth].
    + injection Eo as ->. injection Ek as ->. constructor; [exact Ki|]. clear IH Ki Ha. assert (K' : forall j a kk, nth_error l j = Some a -> nth_error m j = Some kk -> traced f a kk) by (intros j a kk X Y; apply (K (S j)); auto).
      clear K. induction H; constructor; [apply (K' 0%nat); reflexivity|]. apply IHForall2. intros j. apply (K' (S j)).
    + constructor; [apply (K 0%nat); auto|]. apply IH; auto. intros j x y X Y Z. apply (K (S j)); auto.
Qed.
Lemma run_trace l : forall s s' ks, trace_inv (f_h5 s) (ph_objs (f_ph s)) ks -> run l s = Fine s' -> trace_inv (f_h5 s') (ph_objs (f_ph s')) (fold_left (fun k c => track c k) l ks).
Proof.
  induction l as [|c l IH]; intros s s' ks H E; cbn [run fold_left] in *; [injection E as <-; exact H|]. apply obind_fine in E. destruct E as (a & Ea & E). eapply IH; [|exact E]. eapply exec_trace; eassumption.
Qed.
Lemma dynamic_trace g name l s0 s : mk_field g name = Ok s0 -> run l s0 = Fine s ->
  List.length (ph_objs (f_ph s)) = List.length (tracks l) /\
  forall i o k, nth_error (ph_objs (f_ph s)) i = Some o -> nth_error (tracks l) i = Some k -> traced (f_h5 s) o k.
Proof.
  intros H E. assert (I0 : trace_inv (f_h5 s0) (ph_objs (f_ph s0)) []).
  { unfold mk_field, mk_phys in H. inv_ok. destruct (String.eqb name ""); [discriminate|]. inv_ok. cbn. split; [constructor|]. intros [|i] j a b Ha; discriminate. }
  destruct (run_trace l s0 s [] I0 E) as [K _]. split; [clear -K; unfold tracks; induction K; cbn; congruence|].
  intros i o k Ho Hk. eapply Forall2_nth; eassumption.
Qed.
End Traces.
