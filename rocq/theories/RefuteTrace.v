(** Cells that keep the strength of a dispersive object which no longer owns them. *)
From Coq Require Import ZArith Reals List Bool String Lia Psatz.
From Verif Require Import Scalar Base BaseFacts VecM GridM GeometryM MaterialM PmlM DftM TfsfM PolarM
  InterpM H5M ClockM MonitorM FieldM SpecGrid GridFacts SpecGeometry GeometryFacts OutFacts PhysFacts
  SpecPaint PaintFacts WfFacts ReachFacts SafetyFacts SpecSafety SafeFacts H5Facts SpecStep SpecSource SpecMedium PolarFacts MediumFacts StrengthFacts
  SpecMedia MediaRun SpecMaterial MaterialFacts ExampleFacts ExampleSrc PaintSafe ExampleMedia RefuteMedia SpecTrace TraceFacts.
Import ListNotations.
Local Open Scope R_scope.
#[local] Existing Instance RNum.

Definition metal1 : drude := Drude 1 [UPole 1 0].
(** a second block at (3, 3), without dispersion *)
Definition lid : obj := Obj "lid" false (Block (2, 2)) (Material "air" vacuum) (3, 3) 0.
Lemma lid_box : in_box (0, 0) (7, 7) (v_a (obj_box lid)) /\ in_box (0, 0) (7, 7) (v_b (obj_box lid)).
Proof. exact (brick_box (KDrude metal1)). Qed.
Lemma lid_in : in_obj lid (3, 3).
Proof. exact (brick_in (KDrude metal1)). Qed.

Lemma lid_run : exists (g : grid) s0 s, mk_grid 8 8 1 1 = Ok g /\ mk_field g "out" = Ok s0 /\
  run [AddSource (flash (/ 2)); AddObject (brick (KDrude metal1)); AddObject lid] s0 = Fine s /\ ready g (/ 2) s.
Proof.
  destruct (flash_start (/ 2)) as (g & s0 & s & f1 & Eg & E0 & W & R & Rd & D & St & Hh & Hm).
  assert (Ew : exists f5, (f1 <- write_src (fresh_h5 g) (flash (/ 2)) ;; f2 <- write_mat f1 (Material "stuff" (KDrude metal1)) ;;
    f3 <- write_obj f2 (brick (KDrude metal1)) ;; f4 <- write_mat f3 (o_mat lid) ;; write_obj f4 lid) = Ok f5) by (eexists; reflexivity).
  destruct Ew as [f5 Ew]. rewrite W in Ew. cbn [bind] in Ew. inv_ok.
  destruct (ready_object g (/ 2) s (brick (KDrude metal1)) r r0 Rd) as (s1 & E1 & Rd1 & _ & _ & Hh1 & Hm1);
    try apply brick_box; [rewrite Hm, Hh; assumption|assumption|].
  destruct (ready_object g (/ 2) s1 lid r1 f5 Rd1) as (s2 & E2 & Rd2 & _);
    try apply lid_box; [rewrite Hm1, Hh1, Hm; assumption|assumption|].
  exists g, s0, s2. split; [exact Eg|]. split; [exact E0|]. split; [|exact Rd2].
  change [AddSource (flash (/ 2)); AddObject (brick (KDrude metal1)); AddObject lid] with
    ([AddSource (flash (/ 2))] ++ [AddObject (brick (KDrude metal1)); AddObject lid]).
  rewrite run_app, R. cbn [obind run]. rewrite E1. cbn [obind]. rewrite E2. reflexivity.
Qed.

Lemma lid_owns os o : owns [brick os; lid] (3, 3) o -> o = lid.
Proof.
  intros (b & a & E & Io & Na). destruct b as [|x [|y b]]; cbn in E.
  - injection E as <- <-. exfalso. apply (Na lid); [now left|apply lid_in].
  - injection E as <- <- _. reflexivity.
  - injection E as _ _ E. destruct b; discriminate.
Qed.

Lemma beta_pos dt : 0 < dt -> nth 0 (drude_beta metal1 dt) 0 <> 0.
Proof. intros Hd. unfold drude_beta, metal1, drude_beta1. cbn [dr_poles map nth up_omega up_gamma]. rnumg. change (Z.to_nat 2) with 2%nat. 
  assert (K : 0 < 1 ^ 2 * dt / 2 / (1 + 0 * dt / 2)); [|lra]. replace (1 ^ 2 * dt / 2 / (1 + 0 * dt / 2)) with (dt / 2) by field. lra. Qed.

Lemma lid_witness : exists (g : grid) s0 s l, grid_ok g /\ mk_field g "out" = Ok s0 /\ run l s0 = Fine s /\
  forallb (fun c => negb (repositions c)) l = true /\ ~ In ClearFields l /\
  Forall (fun o => shape_ok (o_geom o)) (added l) /\ (0 <= 3 < g_Nx g)%Z /\ (0 <= 3 < g_Ny g)%Z /\ names_agree (added l) /\
  ~ traceless g (f_ph s) 3 3.
Proof.
  destruct lid_run as (g & s0 & s & Eg & E0 & R & Rd).
  exists g, s0, s, [AddSource (flash (/ 2)); AddObject (brick (KDrude metal1)); AddObject lid].
  assert (Hs : Forall (fun o => shape_ok (o_geom o)) (added [AddSource (flash (/ 2)); AddObject (brick (KDrude metal1)); AddObject lid])).
  { cbn. constructor; [exact I|]. constructor; [exact I|constructor]. }
  assert (Nx := rd_Nx _ _ _ Rd). assert (Ny := rd_Ny _ _ _ Rd). assert (Dx := rd_dx _ _ _ Rd).
  assert (Hc : ~ In ClearFields [AddSource (flash (/ 2)); AddObject (brick (KDrude metal1)); AddObject lid]).
  { intros [K|[K|[K|[]]]]; discriminate. }
  split; [apply Rd|]. split; [exact E0|]. split; [exact R|]. split; [reflexivity|]. split; [exact Hc|]. split; [exact Hs|].
  split; [lia|]. split; [lia|]. split.
  { intros o o' [<-|[<-|[]]] [<-|[<-|[]]]; try reflexivity; discriminate. }
  intros (_ & (_ & T) & _). rewrite (mid_pos g Dx) in T.
  destruct (run_str g "out" s0 s _ (rd_ok _ _ _ Rd) E0 R eq_refl Hc Hs) as (_ & _ & (ND & Keys & S) & _).
  assert (O := proj1 (painting_last_wins g "out" s0 _ s (rd_ok _ _ _ Rd) E0 R eq_refl Hs)). rewrite O in T.
  cbn [added] in *.
  assert (K := Keys (brick (KDrude metal1)) metal1 (or_introl eq_refl) eq_refl). apply in_map_iff in K. destruct K as ([nm [x q]] & Enm & Hin).
  cbn in Enm. subst nm. destruct (S _ x q Hin) as ((_ & _ & _ & _ & En) & (o & Ho & Em & Nm) & V).
  assert (x = metal1). { destruct Ho as [<-|[<-|[]]]; [injection Em as <-; reflexivity|discriminate]. } subst x.
  destruct (T _ metal1 q Hin 0%Z) as [_ T0]; [rewrite En; cbn; lia|].
  assert (Z0 : t3val (pl_c q) 3 3 0 = 0). { apply T0. intros o' Ow. apply lid_owns in Ow. subst o'. discriminate. }
  rewrite V in Z0; [|lia|lia|cbn; lia].
  assert (C : covered mat_drude g [brick (KDrude metal1); lid] (m_name (o_mat (brick (KDrude metal1)))) 3 3 = true).
  { apply (covered_iff mat_drude KDrude g mat_drude_iff). exists (brick (KDrude metal1)), metal1. split; [now left|]. split; [reflexivity|].
    rewrite (mid_pos g Dx). apply brick_in. }
  match goal with C : ?a = true, Z : (if ?b then _ else _) = _ |- _ => change b with a in Z; rewrite C in Z end. revert Z0. apply beta_pos. rewrite (ready_dt _ _ _ Rd). lra.
Qed.

(** ** A moved object *)
Definition holds_beta (g : grid) (nm : string) (x : drude) (i j k : Z) (p : phys) : Prop :=
  ph_grid p = g /\ exists q, slookup nm (ph_drude p) = Some (x, q) /\ shaped np_drude g q x /\
    t3val (pl_c q) i j k = nth (Z.to_nat k) (drude_beta x (g_dt g)) 0.
Lemma repaint_holds g nm x i j k l : (0 <= i < g_Nx g)%Z -> (0 <= j < g_Ny g)%Z -> (0 <= k < Z.of_nat (np_drude x))%Z ->
  forall p p', holds_beta g nm x i j k p -> foldM repaint_one p l = Ok p' -> holds_beta g nm x i j k p' /\ ph_objs p' = ph_objs p.
Proof.
  intros Hi Hj Hk. induction l as [|o l IH]; cbn [foldM]; intros p p' Hp H; [inv_ok; auto|].
  apply bind_ok in H. destruct H as (p1 & H1 & H). unfold repaint_one in H1. apply bind_ok in H1. destruct H1 as (p2 & H2 & H1).
  assert (S2 : holds_beta g nm x i j k p2 /\ ph_objs p2 = ph_objs p).
  { unfold paint_phys in H2. inv_ok. unfold holds_beta in *. cbn. auto. }
  destruct S2 as [S2 O2]. assert (O1 : ph_objs p1 = ph_objs p2) by (apply reinsert_material_frame in H1; tauto).
  apply IH in H; [rewrite (proj2 H), O1, O2; tauto|]. clear IH H.
  destruct S2 as (Gg & q & L & S & V). unfold reinsert_material in H1. destruct (m_kind (o_mat o)); [inv_ok; split; eauto| | |];
    apply bind_ok in H1; destruct H1 as (P & HP & H1); injection H1 as <-; (split; [exact Gg|]); cbn; [eauto| |eauto].
  unfold reinsert_polar in HP. destruct (slookup (m_name (o_mat o)) (ph_drude p2)) as [[x0 q0]|] eqn:E0; [|discriminate].
  apply bind_ok in HP. destruct HP as (q1 & Hq & HP). injection HP as <-. 
  rewrite slookup_sassign by congruence. destruct (String.eqb_spec nm (m_name (o_mat o))) as [->|Hne]; [|eauto].
  rewrite E0 in L. injection L as -> ->. exists q1. split; [reflexivity|]. destruct S as (S1 & S2 & S3 & S4 & S5). rewrite Gg in Hq.
  apply insert_polar_cells in Hq; [|lia]. destruct Hq as (A & B & C & D & E & _ & _ & W).
  split; [unfold shaped; rewrite A, B, C, D, E; auto|]. rewrite W by lia. destruct (obj_inside _ _); [reflexivity|exact V].
Qed.

Lemma chip_in : in_obj chip (3, 3) /\ ~ in_obj (obj_move (1, 0) chip) (3, 3).
Proof.
  split.
  - exists (-1, -1). unfold in_shape, chip. cbn [o_geom o_pos o_theta fst snd]. rewrite rot0. split.
    + rewrite Rabs_left by lra. rnumg. lra.
    + unfold vadd. cbn [fst snd]. rnumg. apply injective_projections; cbn [fst snd]; lra.
  - intros ([a b] & Hs & E). unfold in_shape, obj_move, chip in *. cbn [o_geom o_pos o_theta fst snd] in *. rewrite rot0 in E.
    unfold vadd in E. cbn [fst snd] in E. injection E as E1 E2. rnum. assert (a = -2) by lra. subst a.
    destruct Hs as [Hs _]. rewrite Rabs_left in Hs by lra. lra.
Qed.

Lemma moved_witness : exists (g : grid) s0 s s', grid_ok g /\ mk_field g "out" = Ok s0 /\
  run (demo_cmds ++ [Move 1 (1, 0)]) s0 = Fine s /\ exec UpdateMaterialGrid s = Fine s' /\
  ph_objs (f_ph s) = [disk; obj_move (1, 0) chip] /\
  Forall (fun o => shape_ok (o_geom o)) (ph_objs (f_ph s)) /\ names_agree (ph_objs (f_ph s)) /\
  (0 <= 3 < g_Nx g)%Z /\ (0 <= 3 < g_Ny g)%Z /\ ~ traceless g (f_ph s') 3 3.
Proof.
  destruct demo_moved_run as (g & s0 & s & s' & Eg & Hok & E0 & R & U & Hs & O).
  destruct grid8 as (g' & Eg' & _ & Nx & Ny & Hdx & HLx & HLy & Hp). rewrite Eg in Eg'. injection Eg' as <-.
  exists g, s0, s, s'. split; [exact Hok|]. split; [exact E0|]. split; [exact R|]. split; [exact U|]. split; [exact O|]. split; [exact Hs|].
  split. { rewrite O. intros o o' [<-|[<-|[]]] [<-|[<-|[]]]; try reflexivity; discriminate. }
  split; [lia|]. split; [lia|]. intros (_ & (_ & T) & _). rewrite (mid_pos g Hdx) in T.
  rewrite run_app in R. destruct (run demo_cmds s0) as [s1|e s1|u] eqn:R1; try discriminate. cbn [obind] in R.
  assert (Hc : ~ In ClearFields demo_cmds) by (intros [K|[K|[]]]; discriminate).
  assert (Hs1 : Forall (fun o => shape_ok (o_geom o)) (added demo_cmds)) by (constructor; [cbn; lra|constructor; [exact I|constructor]]).
  destruct (run_str g "out" s0 s1 _ Hok E0 R1 eq_refl Hc Hs1) as (Gg & _ & (ND & Keys & S) & _).
  change (added demo_cmds) with [disk; chip] in *.
  assert (K := Keys chip metal1 (or_intror (or_introl eq_refl)) eq_refl). apply in_map_iff in K. destruct K as ([nm [x q]] & Enm & Hin).
  cbn in Enm. subst nm. destruct (S _ x q Hin) as (Sh & (o & Ho & Em & Nm) & V).
  assert (x = metal1). { destruct Ho as [<-|[<-|[]]]; [discriminate|injection Em as <-; reflexivity]. } subst x.
  assert (Hd : 0 < g_dt g). { destruct Hok as (_ & _ & _ & _ & _ & K). rewrite Hdx in K. lra. }
  assert (H1 : holds_beta g "metal" metal1 3 3 0 (f_ph s)).
  { assert (Em' : f_ph s = set_ph_objs (ph_objs (f_ph s)) (f_ph s1)).
    { cbn [run exec] in R. unfold on_obj in R.
      assert (Id : forall p : phys, p = set_ph_objs (ph_objs p) p) by (intros []; reflexivity).
      destruct (nth_error (ph_objs (f_ph s1)) 1) as [o'|]; [|cbn [obind] in R; injection R as <-; apply Id].
      destruct (o_dyn o'); cbn [obind] in R; injection R as <-; [reflexivity|apply Id]. }
    rewrite Em'. split; [exact Gg|]. exists q. split; [|split; [exact Sh|]].
    - cbn [set_ph_objs ph_drude]. clear - ND Hin. revert ND Hin. generalize (ph_drude (f_ph s1)). intros P.
      induction P as [|[k v] P IH]; intros ND Hin; [destruct Hin|]. cbn [slookup]. inversion_clear ND as [|? ? Hk Hd].
      destruct Hin as [E|Hin]; [injection E as -> ->; reflexivity|]. destruct (String.eqb_spec "metal" k) as [<-|_]; [|now apply IH].
      exfalso. apply Hk. apply (in_map fst) in Hin. exact Hin.
    - rewrite V; [|lia|lia|cbn; lia].
      assert (C : covered mat_drude g [disk; chip] "metal" 3 3 = true).
      { apply (covered_iff mat_drude KDrude g mat_drude_iff). exists chip, metal1. split; [right; now left|]. split; [reflexivity|].
        rewrite (mid_pos g Hdx). apply chip_in. }
      match goal with C : ?a = true |- (if ?b then _ else _) = _ => change b with a; rewrite C end. reflexivity. }
  cbn [exec] in U. unfold on_ph in U. destruct (update_material_grid (f_ph s)) as [p'| |] eqn:Eu; try discriminate. injection U as <-.
  cbn [set_f_ph f_ph] in T. unfold update_material_grid in Eu. apply bind_ok in Eu. destruct Eu as (c & _ & Eu).
  assert (H2 : holds_beta g "metal" metal1 3 3 0 (set_ph_C c (f_ph s))) by exact H1.
  eapply repaint_holds in Eu; [|..|exact H2]; [|lia|lia|cbn; lia]. destruct Eu as ((_ & q' & L & Sh' & V') & O').
  rewrite O' in T. change (ph_objs (set_ph_C c (f_ph s))) with (ph_objs (f_ph s)) in T. rewrite O in T.
  destruct (T "metal"%string metal1 q' (slookup_In _ _ _ L) 0%Z) as [_ T0]. { destruct Sh' as (_ & _ & _ & _ & ->). cbn. lia. }
  assert (Z0 : t3val (pl_c q') 3 3 0 = 0).
  { apply T0. intros o' (b & a & Eo & Io & _). destruct b as [|x [|y b]]; cbn [app] in Eo.
    - injection Eo as <- _. discriminate.
    - injection Eo as _ <- _. exfalso. now apply (proj2 chip_in).
    - injection Eo as _ _ Eo. destruct b; discriminate. }
  rewrite V' in Z0. revert Z0. now apply beta_pos.
Qed.
