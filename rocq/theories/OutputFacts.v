(** Output calls, in the form used by the property statements. *)
From Coq Require Import ZArith Reals List Bool String Lia.
From Verif Require Import Scalar Base BaseFacts VecM GridM GeometryM MaterialM DftM InterpM H5M ClockM MonitorM NamesM FieldM OutFacts PhysFacts SpecClock SpecSource SourceFacts H5Facts
  SpecOutput NamesFacts PassiveFacts EditFacts PathFacts RecordFacts SnapFacts CadenceFacts.
Import ListNotations.
Local Open Scope Z_scope.

Section Output.
Context {N : Num}.

Lemma same_without_monitors (g : grid) name l l' s0 s s' : mk_field g name = Ok s0 -> without_monitors l = without_monitors l' ->
  run l s0 = Fine s -> run l' s0 = Fine s' -> f_ph s = f_ph s'.
Proof. intros H E R R'. destruct (passive _ _ _ _ _ H R) as (a & A & P). destruct (passive _ _ _ _ _ H R') as (b & B & Q). rewrite E, B in A. injection A as <-. congruence. Qed.
Lemma bare_program (g : grid) name l s0 s1 : mk_field g name = Ok s0 -> run l s0 = Fine s1 ->
  exists s2, run (without_output (without_monitors l)) s0 = Fine s2 /\ f_ph s2 = f_ph s1.
Proof. intros H E. destruct (bare_run l s0 s1 s0 E (mk_field_twin _ _ _ H)) as (s2 & E2 & T). exists s2. split; [exact E2|apply T]. Qed.

Lemma tensor_pay_values a : tensor_pay a = PReals (values a (row_major (rows a) (cols a))).
Proof. unfold tensor_pay, values, row_major. f_equal. apply map_ext. intros [i j]. reflexivity. Qed.
Lemma write_field_row c s s' : write_field c s = Fine s' ->
  exists a, get_field (ph_F (f_ph s)) c = Ok a /\ forall p, data_rows (f_h5 s') p = data_rows (f_h5 s) p ++
    if String.eqb p ("fields" // comp_str c) then [PReals (values a (row_major (rows a) (cols a)))] else [].
Proof.
  intros H. apply write_field_wrote in H. destruct H as (a & Ha & W & _). exists a. split; [exact Ha|]. intros p. rewrite (W p). unfold rows_at. cbn [filter fst].
  rewrite <- tensor_pay_values. now destruct (String.eqb p _).
Qed.
Lemma write_H_rows s s' : exec WriteH s = Fine s' -> forall p, data_rows (f_h5 s') p = data_rows (f_h5 s) p ++
    (if String.eqb p "fields/Hx" then [PReals (values (fHx (ph_F (f_ph s))) (row_major (rows (fHx (ph_F (f_ph s)))) (cols (fHx (ph_F (f_ph s))))))] else []) ++
    (if String.eqb p "fields/Hy" then [PReals (values (fHy (ph_F (f_ph s))) (row_major (rows (fHy (ph_F (f_ph s)))) (cols (fHy (ph_F (f_ph s))))))] else []).
Proof.
  cbn [exec]. unfold writeH. intros H p. apply obind_fine in H. destruct H as (a & H1 & H2). assert (P := H1). apply write_field_wrote in P. destruct P as (_ & _ & _ & _ & _ & P & _).
  destruct (write_field_row _ _ _ H1) as (x & X & Rx). destruct (write_field_row _ _ _ H2) as (y & Y & Ry). rewrite P in Y. cbn [get_field] in X, Y. injection X as <-. injection Y as <-.
  rewrite Ry, Rx, <- app_assoc. reflexivity.
Qed.
Lemma time_monitor_rows i s s' m : nth_error (f_tmons s) i = Some m -> exec (WriteTimeMonitor i) s = Fine s' ->
  exists vs, Forall2 (tm_snapshot (ph_grid (f_ph s)) (ph_F (f_ph s)) (tm_shape_ m)) (asked (tm_fields m)) vs /\
    forall p, data_rows (f_h5 s') p = data_rows (f_h5 s) p ++
      flat_map (fun cv => if String.eqb p (("fields" // tm_name m) // comp_str (fst cv)) then [snd cv] else []) (combine (asked (tm_fields m)) vs).
Proof.
  rewrite <- (expand_asked (tm_fields m)).
  intros Hm H. cbn [exec] in H. unfold write_tmon in H. rewrite Hm in H. apply prim_fine in H. destruct H as ([f m'] & Hw & H). injection H as <-.
  apply tm_write_wrote in Hw. destruct Hw as (_ & _ & vs & Hv & W). exists vs. split.
  - clear W. revert vs Hv. induction (expand (tm_fields m)) as [|c l IH]; intros vs Hv; cbn [mapM] in Hv; [injection Hv as <-; constructor|].
    apply bind_ok in Hv. destruct Hv as (v & Hv1 & Hv). apply bind_ok in Hv. destruct Hv as (vs' & Hv2 & Hv). injection Hv as <-. constructor; [|auto]. now apply tm_sample_cells.
  - intros p. cbn [f_h5 set_f_h5]. rewrite (W p). f_equal. unfold rows_at, tm_path. clear. generalize vs. clear. induction (expand (tm_fields m)) as [|c l IH]; intros [|v vs]; cbn [map combine filter flat_map fst snd]; auto.
    destruct (String.eqb p _); cbn [map snd app]; rewrite IH; reflexivity.
Qed.
Lemma cadence_rows i m k s0 : 0 <= k <= 2147483647 -> NoDup (map tm_name (f_tmons s0)) ->
  nth_error (f_tmons s0) i = Some m -> tm_every m = mk_every k ->
  forall l s, Forall (leaves_tmon i) l -> run l s0 = Fine s ->
  forall c, asks (tm_fields m) c = true -> exists vs,
    data_rows (f_h5 s) ("fields/" ++ tm_name m ++ "/" ++ comp_str c)%string =
      (data_rows (f_h5 s0) ("fields/" ++ tm_name m ++ "/" ++ comp_str c)%string ++ vs)%list /\
    Z.of_nat (List.length vs) = (if k =? 0 then 0 else Z.of_nat (updates l) / k) /\
    forall q v, nth_error vs q = Some v -> exists l1 l2 sq, l = (l1 ++ Update :: l2)%list /\
      Z.of_nat (updates (l1 ++ [Update])) = (Z.of_nat q + 1) * k /\ run (l1 ++ [Update]) s0 = Fine sq /\
      tm_snapshot (ph_grid (f_ph sq)) (ph_F (f_ph sq)) (tm_shape_ m) c v.
Proof.
  intros Hk Hd Hm He l s Hl H c Hc.
  destruct (proj2 (proj2 (cadence i m k s0 Hk Hd Hm He l s Hl H)) c (asks_expand _ _ Hc)) as (vs & A & B & C).
  exists vs. split; [exact A|]. split; [exact B|]. intros q v Hq. destruct (C q v Hq) as (l1 & l2 & sq & D1 & D2 & D3 & D4).
  exists l1, l2, sq. repeat split; auto. now apply tm_sample_cells.
Qed.
Lemma rows_kept l s :
  match run l s with Fine a | Raise _ a => forall p, exists r, data_rows (f_h5 a) p = data_rows (f_h5 s) p ++ r | Undef _ => True end /\
  match run_catch l s with Fine a | Raise _ a => forall p, exists r, data_rows (f_h5 a) p = data_rows (f_h5 s) p ++ r | Undef _ => True end.
Proof.
  assert (A := run_edits l s). assert (B := run_catch_edits l s). split.
  - destruct (run l s); cbn [leaves] in A; auto; exact (edits_grows _ _ A).
  - destruct (run_catch l s); cbn [leaves] in B; auto; exact (edits_grows _ _ B).
Qed.

Lemma material_names (g : grid) name l s0 s : mk_field g name = Ok s0 -> run l s0 = Fine s ->
  f_mats s = firsts [] (object_materials l) /\ NoDup (f_mats s) /\ forall n, In n (f_mats s) <-> In n (object_materials l).
Proof.
  intros H E. assert (M : f_mats s0 = []). { unfold mk_field in H. inv_ok. destruct (String.eqb name ""); [discriminate|]. inv_ok. reflexivity. }
  apply run_mats in E. rewrite M in E. cbn [app] in E. rewrite E. split; [reflexivity|]. split; [apply (firsts_nodup _ []); constructor|]. intros n. rewrite firsts_In. cbn. tauto.
Qed.
Lemma first_wins (g : grid) name l1 o l2 s0 s : mk_field g name = Ok s0 -> run (l1 ++ AddObject o :: l2) s0 = Fine s ->
  (forall o', In (AddObject o') l1 -> m_name (o_mat o') = m_name (o_mat o) -> same_family (m_kind (o_mat o)) (m_kind (o_mat o')) = false) ->
  match m_kind (o_mat o) with
  | KSimple _ => True
  | KDebye m => exists q, slookup (m_name (o_mat o)) (ph_debye (f_ph s)) = Some (m, q)
  | KDrude m => exists q, slookup (m_name (o_mat o)) (ph_drude (f_ph s)) = Some (m, q)
  | KLorentz m => exists q, slookup (m_name (o_mat o)) (ph_lorentz (f_ph s)) = Some (m, q)
  end.
Proof.
  intros H E Hl. destruct (same_family (m_kind (o_mat o)) vacuum) eqn:K; [destruct (m_kind (o_mat o)); try discriminate; exact Logic.I|].
  assert (W := first_material_wins g name l1 o l2 s0 s H E K Hl). destruct (m_kind (o_mat o)); cbn [holds] in W; [exact Logic.I| | |];
  rewrite named_lookup in W; destruct (slookup _ _) as [[x q]|]; cbn in W; try discriminate; injection W as ->; eauto.
Qed.
End Output.

Lemma creations_defined l : Z.of_nat (List.length l) <= INT_MAX -> exists ns k', creations l counters0 = Ok (ns, k') /\ List.length ns = List.length l.
Proof.
  intros H. destruct (creations_ok l counters0) as (ns & k' & E); [|exists ns, k'; split; [exact E|eapply creations_length; exact E]].
  intros f. destruct f; cbn; unfold INT_MIN, INT_MAX in *; lia.
Qed.
