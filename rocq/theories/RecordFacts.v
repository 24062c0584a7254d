(** Materials in the file and in the polarization maps, snapshots, and the walk of a line source. *)
From Coq Require Import ZArith String Ascii List Bool Lia.
From Verif Require Import Scalar Base BaseFacts VecM GridM GeometryM MaterialM PmlM DftM TfsfM PolarM
  InterpM H5M ClockM MonitorM FieldM OutFacts PhysFacts WfFacts SpecClock TimerFacts H5Facts SpecSource SourceFacts SpecOutput PassiveFacts EditFacts PathFacts.
From Verif Require DftFacts.
From Verif Require Import OpsFacts.
Import ListNotations.
Local Open Scope Z_scope.

Section Records.
Context {N : Num}.

(** ** How many rows *)
Lemma track_rows c i ks k : nth_error ks i = Some k -> exists k', nth_error (track c ks) i = Some k' /\ k_dyn k' = k_dyn k /\
  (k_dyn k = true -> List.length (k_rows k') = (List.length (k_rows k) + writes_of i [c])%nat).
Proof.
  intros H.
  assert (Pose : forall j h, exists k', nth_error (track_pose j h ks) i = Some k' /\ k_dyn k' = k_dyn k /\ List.length (k_rows k') = List.length (k_rows k)).
  { intros j h. unfold track_pose. destruct (nth_error ks j) as [q|] eqn:Ej; [|eauto]. destruct (k_dyn q) eqn:Ed; [|eauto]. rewrite nth_upd.
    destruct (Nat.eqb_spec j i) as [->|Hn]; [|eauto]. rewrite H in Ej |- *. injection Ej as <-. eexists. split; [reflexivity|]. cbn. auto. }
  assert (Pose' : forall j h, exists k', nth_error (track_pose j h ks) i = Some k' /\ k_dyn k' = k_dyn k /\ (k_dyn k = true -> List.length (k_rows k') = (List.length (k_rows k) + 0)%nat)).
  { intros j h. destruct (Pose j h) as (k' & A & B & C). exists k'. rewrite Nat.add_0_r. auto. }
  destruct c; unfold writes_of; cbn [track filter List.length]; try (exists k; rewrite Nat.add_0_r; auto; fail); auto.
  - exists k. rewrite nth_error_app1; [rewrite Nat.add_0_r; auto|]. apply nth_error_Some. congruence.
  - destruct (Nat.eqb_spec i i0) as [->|Hn]; cbn [List.length].
    + rewrite H. destruct (k_dyn k) eqn:Ed; [|exists k; rewrite Ed; repeat split; auto; discriminate]. rewrite nth_upd, Nat.eqb_refl, H. eexists. split; [reflexivity|]. cbn. rewrite app_length. auto.
    + destruct (nth_error ks i0) as [q|] eqn:Eq; [|exists k; rewrite Nat.add_0_r; auto]. destruct (k_dyn q); [|exists k; rewrite Nat.add_0_r; auto].
      rewrite nth_upd. destruct (Nat.eqb_spec i0 i) as [->|]; [congruence|]. exists k. rewrite Nat.add_0_r. auto.
Qed.
Lemma tracks_rows l : forall i ks k, nth_error ks i = Some k -> k_dyn k = true -> exists k', nth_error (fold_left (fun k c => track c k) l ks) i = Some k' /\ k_dyn k' = true /\
  List.length (k_rows k') = (List.length (k_rows k) + writes_of i l)%nat.
Proof.
  induction l as [|c l IH]; intros i ks k H Hd; cbn [fold_left]; [exists k; unfold writes_of; cbn; rewrite Nat.add_0_r; auto|].
  destruct (track_rows c i ks k H) as (k1 & A & B & C). rewrite Hd in B. destruct (IH i (track c ks) k1 A B) as (k2 & A2 & B2 & C2). exists k2. split; [exact A2|]. split; [exact B2|].
  rewrite C2, C by exact Hd. unfold writes_of. cbn [filter]. destruct c; cbn [List.length]; try lia. destruct (Nat.eqb i i0); cbn [List.length]; lia.
Qed.
Lemma upd_length {A} (l : list A) i x : List.length (upd_nth i x l) = List.length l.
Proof. revert i. induction l as [|a l IH]; intros [|i]; cbn; congruence. Qed.
Lemma tracks_length l : forall ks, List.length (fold_left (fun k c => track c k) l ks) = (List.length ks + adds l)%nat.
Proof.
  induction l as [|c l IH]; intros ks; cbn [fold_left]; [unfold adds; cbn; lia|]. rewrite IH. unfold adds. cbn [filter].
  assert (P : forall i h, List.length (track_pose i h ks) = List.length ks).
  { intros i h. unfold track_pose. destruct (nth_error ks i); [|reflexivity]. destruct (k_dyn t); [apply upd_length|reflexivity]. }
  destruct c; cbn [track List.length]; rewrite ?P; try lia.
  - rewrite app_length. cbn. lia.
  - destruct (nth_error ks i); [|lia]. destruct (k_dyn t); [rewrite upd_length|]; lia.
Qed.
Lemma trace_length g name l1 o l2 s0 s : mk_field g name = Ok s0 -> run (l1 ++ AddObject o :: l2) s0 = Fine s -> o_dyn o = true ->
  exists o', nth_error (ph_objs (f_ph s)) (adds l1) = Some o' /\
    List.length (data_rows (f_h5 s) (obj_path o' // "position")) = S (writes_of (adds l1) l2) /\
    List.length (data_rows (f_h5 s) (obj_path o' // "theta")) = S (writes_of (adds l1) l2).
Proof.
  intros H E Hd. destruct (dynamic_trace _ _ _ _ _ H E) as [Len Tr]. unfold tracks in *. rewrite fold_left_app in *. cbn [fold_left track] in *.
  set (ks := fold_left (fun k c => track c k) l1 []) in *. assert (Lk : List.length ks = adds l1) by (unfold ks; rewrite tracks_length; reflexivity).
  destruct (tracks_rows l2 (adds l1) (ks ++ [Tracked (o_dyn o) (o_pos o) (o_theta o) [(o_pos o, o_theta o)]]) (Tracked (o_dyn o) (o_pos o) (o_theta o) [(o_pos o, o_theta o)])) as (k & A & B & C).
  { rewrite nth_error_app2 by lia. rewrite Lk, Nat.sub_diag. reflexivity. }
  { exact Hd. }
  destruct (nth_error (ph_objs (f_ph s)) (adds l1)) as [o'|] eqn:Eo.
  2:{ apply nth_error_None in Eo. assert (nth_error (fold_left (fun k c => track c k) l2 (ks ++ [Tracked (o_dyn o) (o_pos o) (o_theta o) [(o_pos o, o_theta o)]])) (adds l1) <> None) as X by congruence. apply nth_error_Some in X. lia. }
  exists o'. split; [reflexivity|]. destruct (Tr _ _ _ Eo A) as (T1 & T2 & T3 & T4 & T5). rewrite B in T1. destruct (T5 T1) as [X Y]. rewrite X, Y, !map_length, C. cbn. auto.
Qed.

(** ** Materials in the file *)
Lemma exec_mats c s s' : exec c s = Fine s' -> f_mats s' = match c with AddObject o => if str_in (m_name (o_mat o)) (f_mats s) then f_mats s else f_mats s ++ [m_name (o_mat o)] | _ => f_mats s end.
Proof.
  assert (Oo : forall i h a b, on_obj i h a = Fine b -> f_mats b = f_mats a).
  { intros i h a b H. unfold on_obj in H. destruct (nth_error _ _); [destruct (o_dyn _)|]; injection H as <-; reflexivity. }
  destruct (watching c) eqn:Ew.
  { intros H. destruct (watching_frame c s s' Ew H) as (_ & A & _). destruct c; try discriminate; exact A. }
  destruct c; try discriminate; cbn [exec]; intros H; try (now apply Oo in H).
  - apply update_split in H. destruct H as (a & Ha & _ & _ & Em & _). rewrite (step_tmons_mats _ _ Ha). exact Em.
  - apply on_ph_fine in H. destruct H as (p & _ & ->). reflexivity.
  - unfold add_object in H. apply obind_fine in H. destruct H as (b & H & E5). apply obind_fine in H. destruct H as (b4 & H & E4). apply obind_fine in H. destruct H as (b3 & H & E3).
    apply obind_fine in H. destruct H as (b1 & E1 & E2). apply on_ph_fine in E2, E3. destruct E2 as (p2 & Q2 & ->). destruct E3 as (p3 & Q3 & ->). apply prim_fine in E4. destruct E4 as (f & Ef & E4). injection E4 as <-. injection E5 as <-.
    cbn [f_mats map_ph set_f_h5 set_f_ph]. unfold register_mat in E1. destruct (str_in _ _); [now injection E1 as <-|]. cbv zeta in E1. apply prim_fine in E1. destruct E1 as (h & _ & E1). injection E1 as <-. reflexivity.
  - unfold add_source in H. apply prim_fine in H. destruct H as (f & _ & H). injection H as <-. reflexivity.
  - injection H as <-. reflexivity.
  - unfold clear_materials in H. apply on_ph_fine in H. destruct H as (p & _ & ->). reflexivity.
  - unfold set_tfsf in H. apply prim_fine in H. destruct H as (q & _ & H). cbv zeta in H. apply prim_fine in H. destruct H as (f & _ & H). injection H as <-. reflexivity.
  - apply write_field_wrote in H. destruct H as (? & ? & ? & ? & ? & ?). auto.
  - apply write_field_wrote in H. destruct H as (? & ? & ? & ? & ? & ?). auto.
  - unfold writeH in H. apply obind_fine in H. destruct H as (a & Ea & H). apply write_field_wrote in Ea, H. destruct Ea as (? & ? & ? & ? & ? & ?). destruct H as (? & ? & ? & ? & ? & ?). congruence.
  - unfold write_current in H. destruct (nth_error _ _) as [o|]; [|now injection H as <-]. destruct (o_dyn o); [|now injection H as <-]. inv_fine. reflexivity.
Qed.
Lemma run_mats l : forall s s', run l s = Fine s' -> f_mats s' = (f_mats s ++ firsts (f_mats s) (object_materials l))%list.
Proof.
  induction l as [|c l IH]; intros s s' H; cbn [run] in H; [injection H as <-; cbn; now rewrite app_nil_r|].
  apply obind_fine in H. destruct H as (a & Ha & H). rewrite (IH _ _ H), (exec_mats _ _ _ Ha). unfold object_materials. cbn [flat_map]. destruct c; try reflexivity.
  cbn [app firsts]. unfold str_in. destruct (existsb _ (f_mats s)) eqn:Ein; [reflexivity|]. now rewrite <- app_assoc.
Qed.
Lemma firsts_nodup l : forall seen, NoDup seen -> NoDup (seen ++ firsts seen l).
Proof.
  induction l as [|x l IH]; intros seen H; cbn [firsts]; [now rewrite app_nil_r|]. destruct (existsb (String.eqb x) seen) eqn:E; [auto|].
  replace (seen ++ x :: firsts (seen ++ [x]) l) with ((seen ++ [x]) ++ firsts (seen ++ [x]) l) by now rewrite <- app_assoc. apply IH.
  assert (Hx : ~ In x seen). { intros K. assert (existsb (String.eqb x) seen = true); [|congruence]. apply existsb_exists. exists x. split; [exact K|apply String.eqb_refl]. }
  clear -H Hx. induction H as [|y l Hy H IH]; cbn; [repeat constructor; auto|]. constructor; [|apply IH; intros K; apply Hx; now right].
  intros K. apply in_app_or in K. destruct K as [K|[K|[]]]; [auto|]. apply Hx. left. congruence.
Qed.
Lemma firsts_In l : forall seen x, In x (firsts seen l) <-> In x l /\ ~ In x seen.
Proof.
  induction l as [|y l IH]; intros seen x; cbn [firsts In]; [tauto|].
  assert (B : existsb (String.eqb y) seen = true <-> In y seen).
  { rewrite existsb_exists. split; [intros (z & Hz & E); apply String.eqb_eq in E; congruence|intros K; exists y; split; [exact K|apply String.eqb_refl]]. }
  destruct (existsb (String.eqb y) seen) eqn:E.
  - rewrite IH. assert (In y seen) by now apply B. split; [tauto|]. intros [[->|K] K']; [contradiction|auto].
  - cbn [In]. rewrite IH, in_app_iff. cbn [In]. assert (~ In y seen) by (intros K; apply B in K; discriminate). destruct (string_dec y x) as [->|]; intuition.
Qed.

Lemma creates_fixed g l : forall f f', h5_creates f g l = Ok f' -> forall n v, In (n, v) l -> slookup (g // n) f' = Some (HData false [v]).
Proof.
  induction l as [|[m w] l IH]; intros f f' H n v Hin; cbn in H; [destruct Hin|]. apply bind_ok in H. destruct H as (a & Ha & H). destruct Hin as [K|K]; [|eapply IH; eassumption].
  injection K as -> ->. eapply edits_fixed; [eapply edits_creates; exact H|]. unfold h5_create in Ha. destruct (slookup (g // n) f) eqn:E; [discriminate|]. injection Ha as <-. rewrite slookup_app, E. cbn. now rewrite String.eqb_refl.
Qed.
Lemma material_written g name l1 o l2 s0 s : mk_field g name = Ok s0 -> run (l1 ++ AddObject o :: l2) s0 = Fine s -> ~ In (m_name (o_mat o)) (object_materials l1) ->
  forall item v, In (item, v) (mat_items (m_kind (o_mat o))) -> data_rows (f_h5 s) (mat_path (m_name (o_mat o)) // item) = [v].
Proof.
  intros H E Hn item v Hi. rewrite run_app in E. apply obind_fine in E. destruct E as (s1 & E1 & E). cbn [run] in E. apply obind_fine in E. destruct E as (s2 & E2 & E3).
  assert (M : f_mats s1 = firsts [] (object_materials l1)).
  { rewrite (run_mats _ _ _ E1). unfold mk_field in H. inv_ok. destruct (String.eqb name ""); [discriminate|]. inv_ok. reflexivity. }
  cbn [exec] in E2. unfold add_object in E2. apply obind_fine in E2. destruct E2 as (b & E2 & B5). apply obind_fine in E2. destruct E2 as (b4 & E2 & B4). apply obind_fine in E2. destruct E2 as (b3 & E2 & B3).
  apply obind_fine in E2. destruct E2 as (b1 & B1 & B2). apply on_ph_fine in B2, B3. destruct B2 as (p2 & Q2 & ->). destruct B3 as (p3 & Q3 & ->). apply prim_fine in B4. destruct B4 as (f & Ef & B4). injection B4 as <-. injection B5 as <-.
  cbn [f_h5 set_f_ph] in Ef. assert (Er := run_edits l2 (map_ph (fun p => set_ph_objs (ph_objs p ++ [o]) p) (set_f_h5 f (set_f_ph p3 (set_f_ph p2 b1))))). rewrite E3 in Er. cbn [leaves f_h5 map_ph set_f_ph set_f_h5] in Er.
  unfold register_mat in B1. destruct (str_in _ _) eqn:Es.
  - exfalso. apply Hn. apply str_in_In in Es. rewrite M in Es. apply firsts_In in Es. tauto.
  - cbv zeta in B1. apply prim_fine in B1. destruct B1 as (h & Hh & B1). injection B1 as <-. cbn [f_h5 set_f_h5 set_f_mats] in *. rewrite write_mat_eq in Hh. apply bind_ok in Hh. destruct Hh as (h1 & _ & Hh).
    unfold data_rows. erewrite edits_fixed; [reflexivity|exact Er|]. eapply edits_fixed; [eapply write_obj_edits; exact Ef|]. eapply creates_fixed; eassumption.
Qed.

(** ** Dispersive materials that share a name *)
Definition named {M} (P : list (string * (M * polar))) : list (string * M) := map (fun e => (fst e, fst (snd e))) P.
Lemma named_lookup {M} n (P : list (string * (M * polar))) : slookup n (named P) = option_map fst (slookup n P).
Proof. induction P as [|[k [m p]] P IH]; cbn; [reflexivity|]. now destruct (String.eqb n k). Qed.
Lemma named_assign {M} n m0 p0 p (P : list (string * (M * polar))) : slookup n P = Some (m0, p0) -> named (sassign n (m0, p) P) = named P.
Proof.
  induction P as [|[k [m q]] P IH]; cbn; [discriminate|]. destruct (String.eqb n k); intros H; cbn; [injection H as -> ->; reflexivity|]. f_equal. auto.
Qed.
Lemma named_polar_all {M} (f : M -> polar -> tensor -> tensor -> res (polar * tensor)) prev P : forall E P' E', polar_all f prev E P = Ok (P', E') -> named P' = named P.
Proof.
  induction P as [|[k [m q]] P IH]; intros E P' E' H; cbn [polar_all] in H; [injection H as <- <-; reflexivity|].
  apply bind_ok in H. destruct H as (pe & _ & H). apply bind_ok in H. destruct H as ([p1 E1] & _ & H). apply bind_ok in H. destruct H as ([r E2] & Hr & H). injection H as <- <-. cbn. f_equal. eauto.
Qed.
Definition medium_names (p : phys) := (named (ph_debye p), named (ph_drude p), named (ph_lorentz p)).
Lemma step_medium p p' : phys_step p = Fine p' -> medium_names p' = medium_names p.
Proof.
  intros H. unfold phys_step in H. inv_fine.
  assert (S1 : forall q q', step_clock q = Ok q' -> medium_names q' = medium_names q) by (intros q q' K; unfold step_clock in K; inv_ok; reflexivity).
  assert (S2 : forall q q', step_E q = Ok q' -> medium_names q' = medium_names q) by (intros q q' K; unfold step_E in K; inv_ok; reflexivity).
  assert (S3 : forall q q', step_pmlE q = Ok q' -> medium_names q' = medium_names q).
  { intros q q' K; unfold step_pmlE in K. apply bind_ok in K. destruct K as ([b e] & _ & K). injection K as <-. reflexivity. }
  assert (S4 : forall q q', step_polar q = Ok q' -> medium_names q' = medium_names q).
  { intros q q' K. unfold step_polar in K. apply bind_ok in K. destruct K as ([P1 E1] & K1 & K). apply bind_ok in K. destruct K as ([P2 E2] & K2 & K). apply bind_ok in K. destruct K as ([P3 E3] & K3 & K). injection K as <-.
    apply named_polar_all in K1, K2, K3. exact (f_equal2 pair (f_equal2 pair K1 K2) K3). }
  assert (S5 : forall q q', step_tfsfD q = Ok q' -> medium_names q' = medium_names q).
  { intros q q' K. unfold step_tfsfD in K. destruct (ph_tfsf q); inv_ok; reflexivity. }
  assert (S6 : forall q q', step_sources q = Fine q' -> medium_names q' = medium_names q).
  { intros q q' K. unfold step_sources in K. refine (oloop_pres (fun a => medium_names a = medium_names q) _ _ _ _ _ eq_refl _ K). intros i a b _ Ha Hb. unfold pulse_src in Hb.
    destruct (nth_error (ph_srcs a) i); [|injection Hb as <-; exact Ha]. apply prim_fine in Hb. destruct Hb as ([v tp] & _ & Hb). apply prim_fine in Hb. destruct Hb as (F & _ & Hb). injection Hb as <-. exact Ha. }
  assert (S7 : forall q q', step_tfsf_pulse q = Ok q' -> medium_names q' = medium_names q).
  { intros q q' K. unfold step_tfsf_pulse in K. destruct (ph_tfsf q); inv_ok; reflexivity. }
  assert (S8 : forall q q', step_H q = Ok q' -> medium_names q' = medium_names q).
  { intros q q' K. unfold step_H in K. apply bind_ok in K. destruct K as ([b e] & _ & K). injection K as <-. reflexivity. }
  assert (S9 : forall q q', step_pmlH q = Ok q' -> medium_names q' = medium_names q).
  { intros q q' K. unfold step_pmlH in K. apply bind_ok in K. destruct K as ([[b e] d] & _ & K). injection K as <-. reflexivity. }
  assert (S10 : forall q q', step_tfsfH q = Ok q' -> medium_names q' = medium_names q).
  { intros q q' K. unfold step_tfsfH in K. destruct (ph_tfsf q); [|inv_ok; reflexivity]. apply bind_ok in K. destruct K as ([b e] & _ & K). injection K as <-. reflexivity. }
  repeat match goal with
  | K : step_clock _ = Ok _ |- _ => apply S1 in K | K : step_E _ = Ok _ |- _ => apply S2 in K | K : step_pmlE _ = Ok _ |- _ => apply S3 in K
  | K : step_polar _ = Ok _ |- _ => apply S4 in K | K : step_tfsfD _ = Ok _ |- _ => apply S5 in K | K : step_sources _ = Fine _ |- _ => apply S6 in K
  | K : step_tfsf_pulse _ = Ok _ |- _ => apply S7 in K | K : step_H _ = Ok _ |- _ => apply S8 in K | K : step_pmlH _ = Ok _ |- _ => apply S9 in K
  | K : step_tfsfH _ = Ok _ |- _ => apply S10 in K end.
  assert (S0 : forall q, medium_names (step_prev q) = medium_names q) by (intros q; unfold step_prev; destruct (ph_prev2E q); cbv zeta; match goal with |- context [match ?x with _ => _ end] => destruct x end; reflexivity).
  rewrite S0 in Hr0. congruence.
Qed.
Lemma reinsert_medium o p p' : reinsert_material o p = Ok p' -> medium_names p' = medium_names p.
Proof.
  assert (K : forall M vals g (P P' : list (string * (M * polar))) n, reinsert_polar vals g P n o = Ok P' -> named P' = named P).
  { intros M vals g P P' n H. unfold reinsert_polar in H. destruct (slookup n P) as [[m0 q]|] eqn:E; [|discriminate]. inv_ok. now apply (named_assign n m0 q). }
  unfold reinsert_material. destruct (m_kind (o_mat o)); intros H; inv_ok; [reflexivity| | |]; apply K in Hr; unfold medium_names; cbn [ph_debye ph_drude ph_lorentz set_ph_debye set_ph_drude set_ph_lorentz]; congruence.
Qed.
Lemma add_medium M np vals g (P P' : list (string * (M * polar))) n m o : add_polar np vals g P n m o = Ok P' ->
  forall k, slookup k (named P') = match slookup k (named P) with Some x => Some x | None => if String.eqb k n then Some m else None end.
Proof.
  unfold add_polar. destruct (slookup n P) as [[m0 q]|] eqn:E; intros H k; inv_ok.
  - rewrite (named_assign n m0 q) by exact E. destruct (slookup k (named P)) eqn:Ek; [reflexivity|]. rewrite named_lookup in Ek. destruct (String.eqb_spec k n) as [->|]; [|reflexivity]. now rewrite E in Ek.
  - rewrite !named_lookup, DftFacts.sinsert_lookup by exact E. destruct (String.eqb_spec k n) as [->|]; [now rewrite E|]. now destruct (slookup k P).
Qed.
(** the material that the polarization map holds under a name, and what a call may do to it *)
Definition holds (p : phys) (n : string) (k : mat_kind) : Prop :=
  match k with
  | KSimple _ => False
  | KDebye m => slookup n (named (ph_debye p)) = Some m
  | KDrude m => slookup n (named (ph_drude p)) = Some m
  | KLorentz m => slookup n (named (ph_lorentz p)) = Some m
  end.
Definition vacant (p : phys) (n : string) (k : mat_kind) : Prop :=
  match k with
  | KSimple _ => False
  | KDebye m => slookup n (named (ph_debye p)) = None
  | KDrude m => slookup n (named (ph_drude p)) = None
  | KLorentz m => slookup n (named (ph_lorentz p)) = None
  end.
Lemma exec_medium c p p' : phys_exec c p = Fine p' -> (forall o, c <> AddObject o) -> medium_names p' = medium_names p.
Proof.
  assert (Oo : forall i h q, medium_names (phys_on_obj i h q) = medium_names q) by (intros i h q; unfold phys_on_obj; destruct (nth_error _ _); [destruct (o_dyn _)|]; reflexivity).
  intros H Hc. destruct c; cbn [phys_exec] in H; try (injection H as <-; auto; reflexivity); try (exfalso; eapply Hc; reflexivity).
  - now apply step_medium.
  - apply ok_out_fine in H. unfold update_material_grid in H. apply bind_ok in H. destruct H as (a & _ & H). change (medium_names p) with (medium_names (set_ph_C a p)). revert H. generalize (ph_objs p), (set_ph_C a p). clear.
    induction l as [|o l IH]; intros q H; cbn [foldM] in H; [now injection H as ->|]. apply bind_ok in H. destruct H as (q1 & H1 & H). rewrite (IH _ H). unfold repaint_one, paint_phys in H1. inv_ok. apply reinsert_medium in H1. exact H1.
  - injection H as <-. unfold medium_names, clear_fields_phys, named. cbn. rewrite !map_map. f_equal; [f_equal|]; apply map_ext; intros [k [m q]]; reflexivity.
  - apply ok_out_fine in H. unfold phys_clear_materials in H. inv_ok. reflexivity.
  - apply ok_out_fine in H. unfold phys_set_tfsf in H. inv_ok. reflexivity.
Qed.
Lemma add_object_medium o p p' : phys_add_object o p = Ok p' -> forall k n,
  (holds p n k -> holds p' n k) /\ (same_family k (m_kind (o_mat o)) = true -> n = m_name (o_mat o) -> vacant p n k -> holds p' n (m_kind (o_mat o))) /\
  ((same_family k (m_kind (o_mat o)) = false \/ n <> m_name (o_mat o)) -> vacant p n k -> vacant p' n k).
Proof.
  unfold phys_add_object, paint_phys. intros H k n. apply bind_ok in H. destruct H as (p1 & H1 & H). apply bind_ok in H. destruct H as (p2 & H2 & H). injection H as <-. inv_ok.
  unfold insert_material in H2. destruct (m_kind (o_mat o)) as [x|x|x|x] eqn:Ek; inv_ok; destruct k; cbn [holds vacant same_family ph_debye ph_drude ph_lorentz set_ph_objs set_ph_prevE set_ph_prev2E set_ph_debye set_ph_drude set_ph_lorentz set_ph_C] in *; try tauto.
  all: repeat split; try tauto; try discriminate; try (intros; congruence).
  all: repeat match goal with K : add_polar _ _ _ _ _ _ _ = Ok _ |- _ => let Q := fresh "Q" in pose proof (add_medium _ _ _ _ _ _ _ _ _ K n) as Q; clear K end.
  all: intros.
  all: repeat match goal with K : slookup _ _ = Some _ |- _ => rewrite K in * | K : slookup _ _ = None |- _ => rewrite K in * end; auto.
  all: subst; rewrite ?String.eqb_refl in *; auto.
  all: match goal with K : _ \/ _ |- _ => destruct K as [K|K]; [discriminate|] end; apply String.eqb_neq in H; now rewrite H in Q.
Qed.
Lemma run_holds l : forall s s' n k, run l s = Fine s' -> holds (f_ph s) n k -> holds (f_ph s') n k.
Proof.
  induction l as [|c l IH]; intros s s' n k H Hh; cbn [run] in H; [injection H as <-; exact Hh|]. apply obind_fine in H. destruct H as (a & Ha & H). eapply IH; [exact H|]. apply exec_phys in Ha.
  destruct c; try (assert (K := exec_medium _ _ _ Ha ltac:(discriminate)); unfold medium_names in K; injection K as K1 K2 K3; unfold holds in *; rewrite K1, K2, K3; exact Hh).
  cbn [phys_exec] in Ha. apply ok_out_fine in Ha. now apply (add_object_medium _ _ _ Ha k n).
Qed.
Lemma run_vacant l : forall s s' n k, run l s = Fine s' -> (forall o, In (AddObject o) l -> m_name (o_mat o) = n -> same_family k (m_kind (o_mat o)) = false) -> vacant (f_ph s) n k -> vacant (f_ph s') n k.
Proof.
  induction l as [|c l IH]; intros s s' n k H Hl Hh; cbn [run] in H; [injection H as <-; exact Hh|]. apply obind_fine in H. destruct H as (a & Ha & H). eapply IH; [exact H|intros; apply Hl; [now right|assumption]|]. apply exec_phys in Ha.
  destruct c; try (assert (K := exec_medium _ _ _ Ha ltac:(discriminate)); unfold medium_names in K; injection K as K1 K2 K3; unfold vacant in *; rewrite K1, K2, K3; exact Hh).
  cbn [phys_exec] in Ha. apply ok_out_fine in Ha. apply (add_object_medium _ _ _ Ha k n); [|exact Hh]. destruct (string_dec n (m_name (o_mat o))) as [->|Hn]; [left; apply Hl; [now left|reflexivity]|right; exact Hn].
Qed.
Lemma first_material_wins g name l1 o l2 s0 s : mk_field g name = Ok s0 -> run (l1 ++ AddObject o :: l2) s0 = Fine s ->
  same_family (m_kind (o_mat o)) vacuum = false ->
  (forall o', In (AddObject o') l1 -> m_name (o_mat o') = m_name (o_mat o) -> same_family (m_kind (o_mat o)) (m_kind (o_mat o')) = false) ->
  holds (f_ph s) (m_name (o_mat o)) (m_kind (o_mat o)).
Proof.
  intros H E Hk Hl. rewrite run_app in E. apply obind_fine in E. destruct E as (s1 & E1 & E). cbn [run] in E. apply obind_fine in E. destruct E as (s2 & E2 & E3). eapply run_holds; [exact E3|].
  apply exec_phys in E2. cbn [phys_exec] in E2. apply ok_out_fine in E2. assert (K := add_object_medium _ _ _ E2 (m_kind (o_mat o)) (m_name (o_mat o))). apply K; [destruct (m_kind (o_mat o)); reflexivity|reflexivity|].
  eapply run_vacant; [exact E1|exact Hl|]. unfold mk_field, mk_phys in H. inv_ok. destruct (String.eqb name ""); [discriminate|]. inv_ok. cbn. destruct (m_kind (o_mat o)); try reflexivity. discriminate.
Qed.
End Records.
