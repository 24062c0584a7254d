(** Time monitors on cells of the grid, transforms that stay complete, and total-field sources. *)
From Coq Require Import ZArith Reals List Bool String Lia Lra.
From Verif Require Import Scalar Base BaseFacts VecM GridM GeometryM MaterialM PmlM DftM TfsfM PolarM
  InterpM H5M ClockM MonitorM FieldM ReportM SpecGrid GridFacts InterpFacts OutFacts PhysFacts PaintFacts WfFacts ReachFacts SpecSafety SafeFacts
  SpecDft DftFacts SpecSample SampleFacts MonFacts SpecLive LiveFacts SpecProgram SegFacts.
Import ListNotations.
Local Open Scope Z_scope.
#[local] Existing Instance RNum.

Definition modest (g : grid) : Prop := grid_ok g /\ g_Nx g <= 46341 /\ g_Ny g <= 46341.

(** *** Reading *)
Lemma mapM_ok {A B} (f : A -> res B) : forall l, Forall (fun a => exists b, f a = Ok b) l -> exists r, mapM f l = Ok r.
Proof. induction 1 as [|a l [b Hb] Hl [r Hr]]; cbn [mapM]; [eauto|]. rewrite Hb. cbn [bind]. rewrite Hr. cbn [bind]. eauto. Qed.
Lemma get_field_dims n m F c : fdims n m F -> field_comp c -> exists a, get_field F c = Ok a /\ tdims n m a.
Proof. intros (A & B & C) [-> | [-> | ->]]; cbn [get_field]; eauto. Qed.
Lemma tat_ok n m a p : tdims n m a -> in_grid n m p -> exists v, tat a p = Ok v.
Proof. intros [R C] [X Y]. unfold tat. rewrite tget_in; [eauto| |]; lia. Qed.
Lemma tm_sample_ok g F sh c : modest g -> fdims (g_Nx g) (g_Ny g) F -> field_comp c -> viewable g sh -> exists v, tm_sample g F sh c = Ok v.
Proof.
  intros (Hok & N1 & N2) HF Hc Hv. destruct (get_field_dims _ _ _ _ HF Hc) as (a & Ea & Da). destruct sh as [p|s|v]; cbn [viewable tm_sample] in *.
  - destruct Hv as (q & E & Hq). rewrite E, Ea. cbn [bind]. destruct (tat_ok _ _ _ _ Da Hq) as [x ->]. cbn [bind]. eauto.
  - destruct Hv as ((q & E & Hq) & (r & E' & Hr) & Hne & sg & Hs).
    assert (Hax : fst q = fst r \/ snd q = snd r).
    { destruct (to_grid_coord g _ _ _ _ E E') as [C1 C2]. assert (X : fst (s_a s) = fst (s_b s) \/ snd (s_a s) = snd (s_b s)) by (apply (mk_surface_iff _ _ sg); eauto). destruct X; auto. }
    assert (Hqr : q <> r) by (intros ->; apply Hne; congruence). destruct Hq as [Q1 Q2], Hr as [R1 R2].
    assert (HL : Z.abs (fst r - fst q) + Z.abs (snd r - snd q) <= 46340) by lia.
    destruct (to_grid_surface_ok g _ _ sg s q r Hs E E' Hqr HL) as (ic & Ec & Ia & Ib & _ & Id & _ & It).
    assert (En := edges_norm _ _ _ _ _ _ Hs Ec). rewrite Ia, Ib in En. rewrite Ec. cbn [bind]. rewrite En, Ea. cbn [bind].
    assert (L : Forall (in_cells g) (line_cells ic)).
    { apply line_cells_inside; rewrite ?Ia, ?Ib; auto; [rewrite Id; reflexivity|split; assumption|split; assumption]. }
    edestruct (mapM_ok (fun i => tat a (iadd (is_a ic) (iscale i (is_tangent ic))))) with (l := zrange 0 (edges q r)) as [l El]; [|rewrite El; cbn [bind]; eauto].
    apply Forall_forall. intros i Hi. apply (tat_ok _ _ _ _ Da). unfold line_cells in L. rewrite Id in L. cbn [fst snd] in L. fold (edges q r) in L.
    rewrite Forall_forall in L. apply (L (iadd (is_a ic) (iscale i (is_tangent ic)))). now apply (in_map (fun k => iadd (is_a ic) (iscale k (is_tangent ic)))).
  - destruct Hv as (A & B & EA & EB & H1 & H2 & GA & GB). unfold to_grid_volume. rewrite EA, EB, Ea. cbn [bind].
    edestruct (mapM_ok (fun '(i, j) => tat a (iadd (iv_a (mk_ivolume A B)) (i, j)))) as [l El]; [|rewrite El; cbn [bind]; eauto].
    apply Forall_forall. intros [i j] Hij. apply in_prod_iff in Hij. destruct Hij as [Hi Hj]. apply zrange_In in Hi, Hj. apply (tat_ok _ _ _ _ Da).
    destruct GA, GB. cbn [mk_ivolume iv_a iv_b iv_dim fst snd] in *. split; cbn [iadd fst snd]; lia.
Qed.

(** *** Counters *)
Definition paced (e : every) : Prop := ev_never e = true \/ (1 <= ev_n e <= ev_rep e /\ ev_rep e <= 2147483647).
Lemma paced_new n : 0 <= n <= 2147483647 -> paced (mk_every n).
Proof. intros H. unfold paced, mk_every, u2i. cbn [ev_never ev_n ev_rep]. destruct (Z.eqb_spec n 0); [now left|right]. replace (n <? 2147483648) with true by lia. lia. Qed.
Lemma paced_check e : paced e -> exists b e', check_repeat e = Ok (b, e') /\ paced e'.
Proof.
  intros H. unfold check_repeat. destruct (ev_never e) eqn:En; [do 2 eexists; split; [reflexivity|exact H]|].
  destruct H as [H|[H1 H2]]; [congruence|]. replace (ev_rep e =? 0) with false by lia.
  destruct (Z.eqb_spec (Z.rem (ev_n e) (ev_rep e)) 0) as [E|E].
  - do 2 eexists. split; [reflexivity|]. right. cbn [ev_n ev_rep]. lia.
  - assert (ev_n e <> ev_rep e) by (intros X; rewrite X in E; apply E; apply Z.rem_same; lia).
    rewrite i32_ok by (unfold INT_MIN, INT_MAX; lia). cbn [bind]. do 2 eexists. split; [reflexivity|]. right. cbn [ev_n ev_rep]. lia.
Qed.

(** *** Transforms keep their names *)
Definition holds (d : dft) (key : string) : Prop := In key (map fst (d_map d)).
Lemma holds_get d key : holds d key -> exists e, dft_get d key = Ok e.
Proof.
  unfold holds, dft_get. induction (d_map d) as [|[k e] m IH]; cbn [map fst slookup]; [intros []|]. intros [->|H]; [rewrite String.eqb_refl; eauto|].
  destruct (String.eqb key k); eauto.
Qed.
Lemma fresh_holds d n ks key : fresh d n ks -> In key ks -> holds d key.
Proof.
  intros [_ H] Hi. specialize (H key). destruct (in_dec string_dec key ks); [|contradiction]. unfold holds.
  induction (d_map d) as [|[k e] m IH]; cbn [slookup map fst] in *; [discriminate|]. destruct (String.eqb_spec key k); [now left|right; auto].
Qed.
Record surf_able (m0 m : surf_mon) : Prop := SurfAble {
  sb_name : sm_name m = sm_name m0; sb_surf : sm_surf m = sm_surf m0; sb_kind : sm_kind m = sm_kind m0;
  sb_uniq : NoDup (map fst (d_map (sm_dft m)));
  sb_two : sm_kind m0 = DTangent \/ sm_kind m0 = DAll -> holds (sm_dft m) "Ez" /\ holds (sm_dft m) (tang_key (sm_surf m0));
  sb_all : sm_kind m0 = DAll -> holds (sm_dft m) (norm_key (sm_surf m0)) }.
Lemma surf_able_update g F t m0 m m' : surf_able m0 m -> surf_update g F t m = Ok m' -> surf_able m0 m'.
Proof.
  intros [A B C D E G] H. unfold surf_update in H. apply bind_ok in H. destruct H as (ic & _ & H). apply bind_ok in H. destruct H as ([d pe] & H1 & H). injection H as <-. apply dft_update_keys in H1. unfold holds in *.
  constructor; cbn [sm_name sm_surf sm_kind sm_dft]; unfold holds; rewrite ?H1; assumption.
Qed.
Lemma surface_dim0 (a b : R * R) sg s : mk_surface a b sg = Ok s -> (fst (s_dim s) =? 0)%num = true <-> fst a = fst b.
Proof.
  intros H. assert (E : s_dim s = vabs (vsub a b)) by (unfold mk_surface in H; destruct (if (fst _ =? 0)%num then _ else _); cbn [bind] in H; try discriminate; now injection H as <-).
  rewrite E. unfold vabs, vsub. cbn [fst snd]. rnum. split.
  - intros X. apply Reqb_true, Rabs_zero in X. change (@T RNum) with R in *. lra.
  - intros ->. rewrite Rminus_diag_eq by reflexivity. rewrite Rabs_R0. now apply Reqb_true.
Qed.
Lemma surf_able_attach g name a b sg s k freq m : mk_surface a b sg = Ok s -> segment_inside g a b -> surf_attach g (mk_surf_mon name s k freq) = Ok m ->
  surf_able (mk_surf_mon name s k freq) m.
Proof.
  intros Hs (A & B & EA & EB & Hne & HL & _) H. destruct (to_grid_surface_ok g a b sg s A B Hs EA EB Hne HL) as (ic & Ec & Ia & Ib & _ & Id & _).
  destruct (surf_attach_fresh g (mk_surf_mon name s k freq) m eq_refl H) as (ic' & Ec' & _ & M1 & M2 & _ & _ & _ & Fr).
  cbn [mk_surf_mon sm_surf sm_kind] in *. rewrite Ec in Ec'. injection Ec' as <-.
  assert (Hk : tang_key s = (if (fst (is_dim ic) =? 0)%Z then "Hy"%string else "Hx"%string)).
  { unfold tang_key. destruct (to_grid_coord g a b A B EA EB) as [C1 C2]. assert (X := proj1 (mk_surface_iff a b sg) (ex_intro _ s Hs)).
    rewrite Id. cbn [fst]. destruct (fst (s_dim s) =? 0)%num eqn:E0.
    - apply (surface_dim0 a b sg s Hs) in E0. rewrite (C1 E0). replace (Z.abs (fst B - fst B) =? 0) with true by lia. reflexivity.
    - assert (Y : fst a <> fst b) by (intros Y; apply (surface_dim0 a b sg s Hs) in Y; congruence).
      destruct X as [X|X]; [contradiction|]. specialize (C2 X). destruct (Z.eqb_spec (Z.abs (fst B - fst A)) 0); [|reflexivity].
      exfalso. apply Hne. apply injective_projections; [lia|exact C2]. }
  assert (Nm : sm_name m = name).
  { unfold surf_attach in H. cbn [mk_surf_mon sm_surf sm_dft sm_kind sm_name] in H. apply bind_ok in H. destruct H as (? & _ & H). apply bind_ok in H. destruct H as (? & _ & H). apply bind_ok in H. destruct H as (? & _ & H). now injection H as <-. }
  constructor; cbn [mk_surf_mon sm_name sm_surf sm_kind]; auto; [apply Fr| |].
  - intros [-> | ->]; split; (eapply fresh_holds; [exact Fr|]); cbn [surf_keys].
    + destruct (fst (is_dim ic) =? 0); now left.
    + rewrite Hk. destruct (fst (is_dim ic) =? 0); right; now left.
    + now left.
    + rewrite Hk. destruct (fst (is_dim ic) =? 0); cbn; tauto.
  - intros ->. eapply fresh_holds; [exact Fr|]. cbn [surf_keys]. unfold norm_key. destruct (fst (s_dim s) =? 0)%num; cbn; tauto.
Qed.

Definition able (m0 m : monitor) : Prop :=
  match m0, m with
  | MSurf a, MSurf b => surf_able a b
  | MBox a, MBox b => bm_name b = bm_name a /\ Forall2 surf_able (bm_sides a) (bm_sides b)
  | MCyl a, MCyl b => cm_name b = cm_name a /\ NoDup (map fst (d_map (cm_dft b))) /\ holds (cm_dft b) "Ez" /\ holds (cm_dft b) "Hp" /\ (cm_all a = true -> holds (cm_dft b) "Hr")
  | MVol a, MVol b => vm_name b = vm_name a /\ NoDup (map fst (d_map (vm_dft b)))
  | _, _ => False
  end.
Lemma Forall2_mapM {A B} (R : A -> B -> Prop) (f : B -> res B) : (forall a b b', R a b -> f b = Ok b' -> R a b') -> forall l0 l l', Forall2 R l0 l -> mapM f l = Ok l' -> Forall2 R l0 l'.
Proof.
  intros H l0 l l' HR. revert l'. induction HR as [|a b l0 l Hab HR IH]; intros l' E; cbn [mapM] in E; [injection E as <-; constructor|].
  apply bind_ok in E. destruct E as (b' & Eb & E). apply bind_ok in E. destruct E as (r & Er & E). injection E as <-. constructor; eauto.
Qed.
Lemma able_update g F t m0 m m' : able m0 m -> mon_update g F t m = Ok m' -> able m0 m'.
Proof.
  intros Ha H. destruct m0 as [a|a|a|a|a], m as [b|b|b|b|b]; cbn [able] in Ha; try contradiction; cbn [mon_update] in H; apply bind_ok in H; destruct H as (x & Hx & H); injection H as <-; cbn [able].
  - eapply surf_able_update; eassumption.
  - unfold box_update in Hx. apply bind_ok in Hx. destruct Hx as (l & El & Hx). injection Hx as <-. cbn [bm_name bm_sides]. split; [apply Ha|].
    eapply Forall2_mapM; [|apply Ha|exact El]. intros. eapply surf_able_update; eassumption.
  - unfold cyl_update in Hx. apply bind_ok in Hx. destruct Hx as ([d pe] & El & Hx). injection Hx as <-. cbn [cm_name cm_dft]. apply dft_update_keys in El. unfold holds. rewrite El. exact Ha.
  - unfold vol_update in Hx. apply bind_ok in Hx. destruct Hx as (iv & Ev & Hx). apply bind_ok in Hx. destruct Hx as ([d pe] & El & Hx). injection Hx as <-. cbn [vm_name vm_dft]. apply dft_update_keys in El. rewrite El. exact Ha.
Qed.
Lemma adds_fresh n ks freq d : foldM (fun d k => dft_add d k n) (mk_dft freq) ks = Ok d -> fresh d n ks.
Proof. intros H. assert (F0 : fresh (mk_dft freq) n []) by (split; [constructor|reflexivity]). now destruct (dft_adds_fresh _ _ _ _ _ F0 H) as (_ & _ & A3). Qed.
Lemma able_attach g m m' : watches g m -> mon_attach g m = Ok m' -> able m m'.
Proof.
  intros W H. destruct W as [name a b sg s k freq Hs Hseg|name v k freq m Hm a b S1 S2 S3 S4|name cs all freq Hc|name v k freq Hb]; cbn [mon_attach] in H; apply bind_ok in H; destruct H as (x & Hx & H); injection H as <-; cbn [able].
  - eapply surf_able_attach; eassumption.
  - destruct (mk_box_sides _ _ _ _ _ Hm) as (_ & _ & s1 & s2 & s3 & s4 & E1 & E2 & E3 & E4 & Sd). unfold get_surface in *.
    unfold box_attach in Hx. apply bind_ok in Hx. destruct Hx as (l & El & Hx). injection Hx as <-. cbn [bm_name bm_sides]. split; [reflexivity|].
    rewrite Sd in *. cbn [mapM] in El.
    repeat (match type of El with bind _ _ = _ => let y := fresh "y" in let Ey := fresh "Ey" in apply bind_ok in El; destruct El as (y & Ey & El) end).
    repeat match goal with H : bind _ _ = Ok _ |- _ => let y := fresh "y" in let Ey := fresh "Ey" in apply bind_ok in H; destruct H as (y & Ey & H) end.
    repeat match goal with H : Ok _ = Ok _ |- _ => injection H as H; subst end.
    repeat (apply Forall2_cons || apply Forall2_nil); (eapply surf_able_attach; eassumption).
  - unfold cyl_attach in Hx. apply bind_ok in Hx. destruct Hx as (len & El & Hx). destruct (len <? 0); [discriminate|]. apply bind_ok in Hx. destruct Hx as (d & Ed & Hx). injection Hx as <-.
    cbn [mk_cyl_mon cm_name cm_dft cm_all] in *. assert (Fr := adds_fresh _ _ _ _ Ed). split; [reflexivity|]. split; [apply Fr|].
    split; [|split]; [| |intros ->]; (eapply fresh_holds; [exact Fr|]); try destruct all; cbn; tauto.
  - unfold vol_attach in Hx. apply bind_ok in Hx. destruct Hx as (iv & Ev & Hx). apply bind_ok in Hx. destruct Hx as (d & Ed & Hx). injection Hx as <-. cbn [mk_vol_mon vm_name vm_dft] in *.
    split; [reflexivity|]. apply (adds_fresh _ _ _ _ Ed).
Qed.

(** *** Results *)
Lemma foldM_ok {A B} (f : A -> B -> res A) : forall l, Forall (fun b => forall a, exists a', f a b = Ok a') l -> forall a, exists a', foldM f a l = Ok a'.
Proof. induction 1 as [|b l Hb Hl IH]; intros a; cbn [foldM]; [eauto|]. destruct (Hb a) as [a' ->]. cbn [bind]. apply IH. Qed.
Lemma Forall2_right {A B} (R : A -> B -> Prop) (P : A -> Prop) (Q : B -> Prop) l m : (forall a b, R a b -> P a -> Q b) -> Forall2 R l m -> Forall P l -> Forall Q m.
Proof. intros H. induction 1; intros HP; inversion HP; subst; constructor; eauto. Qed.
Ltac gets := repeat match goal with H : holds _ _ |- _ => apply holds_get in H; destruct H as [? ?] end; repeat match goal with H : dft_get _ _ = Ok _ |- _ => rewrite H; clear H; cbn [bind] end.
Lemma surf_flux_ok dx m0 m : surf_able m0 m -> sm_kind m0 = DTangent \/ sm_kind m0 = DAll -> exists v, surf_flux dx m = Ok v.
Proof. intros [A B C D E F] K. destruct (E K) as [E1 E2]. unfold surf_flux. rewrite B. gets. eauto. Qed.
Lemma surf_ntff_ok dx m0 m c p : surf_able m0 m -> sm_kind m0 = DTangent \/ sm_kind m0 = DAll -> exists v, surf_ntff dx m c p = Ok v.
Proof. intros [A B C D E F] K. destruct (E K) as [E1 E2]. unfold surf_ntff. rewrite B. gets. eauto. Qed.
Lemma surf_force_ok dx m0 m : surf_able m0 m -> sm_kind m0 = DAll -> exists v, surf_force dx m = Ok v.
Proof. intros [A B C D E F] K. destruct (E (or_intror K)) as [E1 E2]. assert (E3 := F K). unfold surf_force. rewrite B. gets. eauto. Qed.
Lemma surf_torque_ok dx c m0 m : surf_able m0 m -> sm_kind m0 = DAll -> exists v, surf_torque dx c m = Ok v.
Proof. intros [A B C D E F] K. destruct (E (or_intror K)) as [E1 E2]. assert (E3 := F K). unfold surf_torque. rewrite B. gets. eauto. Qed.
Lemma circle_ok far c r n : 0 <= n -> (forall p, exists v, far p = Ok v) -> exists v, ntff_circle far c r n = Ok v.
Proof. intros Hn H. unfold ntff_circle. replace (n <? 0) with false by lia. apply mapM_ok. apply Forall_forall. intros i _. apply H. Qed.
Lemma report_ok dx m0 m q : able m0 m -> offers m0 q -> exists v, mon_report dx m q = Ok v.
Proof.
  intros Ha Ho. destruct m0 as [a|a|a|a|a], m as [b|b|b|b|b]; cbn [able] in Ha; try contradiction; destruct q as [| |c|c p|r n]; cbn [offers] in Ho; try contradiction; cbn [mon_report].
  - destruct (surf_flux_ok dx a b Ha Ho) as [v ->]. cbn [bind]. eauto.
  - destruct (surf_force_ok dx a b Ha Ho) as [v ->]. cbn [bind]. eauto.
  - destruct (surf_torque_ok dx c a b Ha Ho) as [v ->]. cbn [bind]. eauto.
  - destruct (surf_ntff_ok dx a b c p Ha Ho) as [v ->]. cbn [bind]. eauto.
  - destruct Ha as [_ Ha]. unfold box_flux. edestruct (foldM_ok (fun S s => f <- surf_flux dx s ;; Ok (ladd S f)) (bm_sides b)) as [v ->]; [|cbn [bind]; eauto].
    eapply Forall2_right; [|exact Ha|exact Ho]. cbv beta. intros x y H1 H2 z. destruct (surf_flux_ok dx x y H1 H2) as [v ->]. cbn [bind]. eauto.
  - destruct Ha as [_ Ha]. unfold box_force. edestruct (foldM_ok (fun S s => f <- surf_force dx s ;; Ok (map (fun '(x, y) => vadd x y) (combine S f))) (bm_sides b)) as [v ->]; [|cbn [bind]; eauto].
    eapply Forall2_right; [|exact Ha|exact Ho]. cbv beta. intros x y H1 H2 z. destruct (surf_force_ok dx x y H1 H2) as [v ->]. cbn [bind]. eauto.
  - destruct Ha as [_ Ha]. unfold box_torque. edestruct (foldM_ok (fun S s => f <- surf_torque dx (vol_center (bm_vol b)) s ;; Ok (ladd S f)) (bm_sides b)) as [v ->]; [|cbn [bind]; eauto].
    eapply Forall2_right; [|exact Ha|exact Ho]. cbv beta. intros x y H1 H2 z. destruct (surf_torque_ok dx (vol_center (bm_vol b)) x y H1 H2) as [v ->]. cbn [bind]. eauto.
  - destruct Ha as [_ Ha]. unfold box_ntff. edestruct (foldM_ok (fun S s => f <- surf_ntff dx s (vol_center (bm_vol b)) p ;; Ok (map (fun '(x, y) => cadd x y) (combine S f))) (bm_sides b)) as [v ->]; [|cbn [bind]; eauto].
    eapply Forall2_right; [|exact Ha|exact Ho]. cbv beta. intros x y H1 H2 z. destruct (surf_ntff_ok dx x y (vol_center (bm_vol b)) p H1 H2) as [v ->]. cbn [bind]. eauto.
  - destruct Ha as [_ Ha]. destruct Ho as [Ho Hn]. edestruct (circle_ok (box_ntff dx b) (vol_center (bm_vol b)) r n Hn) as [v ->]; [|cbn [bind]; eauto].
    intros p. unfold box_ntff. apply (foldM_ok (fun S s => f <- surf_ntff dx s (vol_center (bm_vol b)) p ;; Ok (map (fun '(x, y) => cadd x y) (combine S f)))).
    eapply Forall2_right; [|exact Ha|exact Ho]. cbv beta. intros x y H1 H2 z. destruct (surf_ntff_ok dx x y (vol_center (bm_vol b)) p H1 H2) as [v ->]. cbn [bind]. eauto.
  - destruct Ha as (_ & _ & A1 & A2 & _). unfold cyl_flux. gets. eauto.
  - destruct Ha as (_ & _ & A1 & A2 & A3). specialize (A3 Ho). unfold cyl_force. gets. eauto.
  - destruct Ha as (_ & _ & A1 & A2 & A3). specialize (A3 Ho). unfold cyl_torque. gets. eauto.
  - destruct Ha as (_ & _ & A1 & A2 & _). unfold cyl_ntff. gets. eauto.
  - destruct Ha as (_ & _ & A1 & A2 & _). edestruct (circle_ok (cyl_ntff b) (cs_center (cm_surf b)) r n Ho) as [v ->]; [|cbn [bind]; eauto].
    intros p. unfold cyl_ntff. gets. eauto.
Qed.

(** *** The total-field source keeps its transforms *)
Section Line.
Context {N : Num}.
Definition tkeys (q : tfsf) : option (list string) := option_map (fun d => map fst (d_map d)) (q_dft q).
Lemma tfsf_pulse_tkeys q q' : tfsf_pulse q = Ok q' -> tkeys q' = tkeys q.
Proof.
  unfold tfsf_pulse. intros H. repeat match goal with
  | H : bind _ _ = Ok _ |- _ => let r := fresh "r" in let Hr := fresh "Hr" in apply bind_ok in H; destruct H as (r & Hr & H); try (destruct r as [[? ?] ?] || destruct r as [? ?])
  end. injection H as <-. unfold tkeys. cbn [q_dft].
  match goal with H : match q_dft q with None => _ | Some _ => _ end = Ok _ |- _ => rename H into Hd end.
  destruct (q_dft q) as [d0|]; [|now injection Hd as <-].
  repeat match goal with
  | H : bind _ _ = Ok _ |- _ => let r := fresh "r" in let Hr := fresh "Hr" in apply bind_ok in H; destruct H as (r & Hr & H); try (destruct r as [? ?])
  end. injection Hd as <-. cbn [option_map].
  match goal with H : dft_update _ _ _ _ = Ok _ |- _ => apply dft_update_keys in H; now rewrite H end.
Qed.
Definition line_keys (p : phys) : option (option (list string)) := option_map tkeys (ph_tfsf p).
Lemma phys_step_tkeys p p' : phys_step p = Fine p' -> line_keys p' = line_keys p.
Proof.
  unfold phys_step. intros H.
  apply prim_fine in H. destruct H as (p0 & E0 & H). apply prim_fine in H. destruct H as (p1 & E1 & H). apply prim_fine in H. destruct H as (p2 & E2 & H).
  apply prim_fine in H. destruct H as (p3 & E3 & H). apply prim_fine in H. destruct H as (p4 & E4 & H). apply obind_fine in H. destruct H as (p5 & E5 & H).
  apply prim_fine in H. destruct H as (p6 & E6 & H). apply prim_fine in H. destruct H as (p7 & E7 & H). apply prim_fine in H. destruct H as (p8 & E8 & H). apply prim_fine in H. destruct H as (p9 & E9 & H). injection H as <-.
  assert (T0 : ph_tfsf (step_prev p0) = ph_tfsf p).
  { unfold step_clock in E0. apply bind_ok in E0. destruct E0 as (n & _ & E0). injection E0 as <-. unfold step_prev. cbn [ph_prev2E ph_prevE set_ph_t set_ph_step]. destruct (ph_prev2E p); cbn; destruct (ph_prevE p); reflexivity. }
  assert (T1 : ph_tfsf p1 = ph_tfsf p). { rewrite <- T0. unfold step_E in E1. apply bind_ok in E1. destruct E1 as (n & _ & E1). now injection E1 as <-. }
  assert (T2 : ph_tfsf p2 = ph_tfsf p). { rewrite <- T1. unfold step_pmlE in E2. apply bind_ok in E2. destruct E2 as ([b e] & _ & E2). now injection E2 as <-. }
  assert (T3 : ph_tfsf p3 = ph_tfsf p).
  { rewrite <- T2. unfold step_polar in E3. apply bind_ok in E3. destruct E3 as ([b e] & _ & E3). apply bind_ok in E3. destruct E3 as ([b' e'] & _ & E3). apply bind_ok in E3. destruct E3 as ([b2 e2] & _ & E3). now injection E3 as <-. }
  assert (T4 : ph_tfsf p4 = ph_tfsf p). { rewrite <- T3. unfold step_tfsfD in E4. destruct (ph_tfsf p3) eqn:Q; [|injection E4 as <-; exact Q]. apply bind_ok in E4. destruct E4 as (n & _ & E4). injection E4 as <-. exact Q. }
  assert (T5 : ph_tfsf p5 = ph_tfsf p).
  { assert (X : post (fun a => ph_tfsf a = ph_tfsf p) (step_sources p4)).
    { unfold step_sources. apply post_oloop; [exact T4|]. intros i a Ha. unfold pulse_src. destruct (nth_error (ph_srcs a) i); [|exact Ha].
      apply post_prim; [exact Ha|]. intros [v tp] _. cbv zeta. apply post_prim; [exact Ha|]. intros F _. exact Ha. }
    rewrite E5 in X. exact X. }
  assert (T6 : line_keys p6 = line_keys p).
  { unfold line_keys. rewrite <- T5. unfold step_tfsf_pulse in E6. destruct (ph_tfsf p5) as [q|] eqn:Q; [|injection E6 as <-; now rewrite Q].
    apply bind_ok in E6. destruct E6 as (q' & Hq & E6). injection E6 as <-. cbn [ph_tfsf set_ph_tfsf option_map]. f_equal. now apply tfsf_pulse_tkeys. }
  assert (T7 : ph_tfsf p7 = ph_tfsf p6). { unfold step_H in E7. apply bind_ok in E7. destruct E7 as ([b e] & _ & E7). now injection E7 as <-. }
  assert (T8 : ph_tfsf p8 = ph_tfsf p7). { unfold step_pmlH in E8. apply bind_ok in E8. destruct E8 as ([[b e] h] & _ & E8). now injection E8 as <-. }
  assert (T9 : ph_tfsf p9 = ph_tfsf p8). { unfold step_tfsfH in E9. destruct (ph_tfsf p8) eqn:Q; [|injection E9 as <-; exact Q]. apply bind_ok in E9. destruct E9 as ([b e] & _ & E9). injection E9 as <-. exact Q. }
  rewrite <- T6. unfold line_keys. now rewrite T9, T8, T7.
Qed.
Lemma phys_step_objs' p p' : phys_step p = Fine p' -> ph_objs p' = ph_objs p.
Proof. intros H. apply phys_step_static, static_eq in H. tauto. Qed.
End Line.

(** the ledger's view of the source *)
Definition line_at (b : option bool) (p : phys) : Prop :=
  match ph_tfsf p, b with
  | None, None => True
  | Some q, Some b => b = true -> exists d, q_dft q = Some d /\ holds d "E" /\ holds d "H"
  | _, _ => False
  end.
Lemma line_at_keys b p p' : line_keys p' = line_keys p -> line_at b p -> line_at b p'.
Proof.
  unfold line_keys, line_at, tkeys, holds. destruct (ph_tfsf p) as [q|], (ph_tfsf p') as [q'|]; cbn [option_map]; try discriminate; [|auto].
  intros E. injection E as E. destruct b as [b|]; [|auto]. intros H Hb. destruct (H Hb) as (d & Ed & H1 & H2). rewrite Ed in E. cbn [option_map] in E.
  destruct (q_dft q') as [d'|]; cbn [option_map] in E; [|discriminate]. injection E as E. exists d'. rewrite E. auto.
Qed.
Lemma mk_tfsf_ok g tp v dt : modest g -> tfsf_region g v -> exists q, mk_tfsf g tp v dt = Ok q /\ tfsf_placed (g_Nx g) (g_Ny g) q /\ q_vol q = v /\ q_tp q = tp /\
  (has_dft tp = true -> exists d, q_dft q = Some d /\ holds d "E" /\ holds d "H").
Proof.
  intros (Hok & N1 & N2) (a & b & Ea & Eb & H1 & H2 & H3 & H4). unfold mk_tfsf, to_grid_volume. rewrite Ea, Eb. cbn [bind mk_ivolume iv_dim iv_a iv_b fst snd].
  rewrite i32_ok by (unfold INT_MIN, INT_MAX; lia). cbn [bind]. assert (X : (0 <=? Z.abs (snd a - snd b) + 5) = true) by lia.
  unfold has_dft. destruct (tp_dft tp) as [d0|].
  - unfold dft_add. replace (1 <? 0) with false by reflexivity. cbn [bind mk_dft d_map d_freq slookup sinsert]. cbn. unfold aconst. rewrite ?X. cbn.
    eexists. split; [reflexivity|]. split; [split; [|split; [|split]]; cbn; lia|]. split; [reflexivity|]. split; [reflexivity|]. intros _. eexists. split; [reflexivity|]. split; cbn; auto.
  - cbn. unfold aconst. rewrite ?X. cbn. eexists. split; [reflexivity|]. split; [split; [|split; [|split]]; cbn; lia|]. split; [reflexivity|]. split; [reflexivity|]. discriminate.
Qed.
