(** Object-level material equations, failing cases and concrete cases for PropsMaterial.v. *)
From Coq Require Import ZArith Reals List Bool String Lia Psatz.
From Verif Require Import Scalar Base BaseFacts VecM GridM GeometryM MaterialM PmlM DftM TfsfM PolarM
  InterpM H5M ClockM MonitorM FieldM SpecGrid GridFacts SpecGeometry GeometryFacts OutFacts PhysFacts
  SpecPaint PaintFacts WfFacts ReachFacts SafetyFacts SpecSafety SafeFacts SpecStep StepFacts EngineFacts YeeFacts SpecSource SpecMedium PolarFacts FullStep SpecRim MediumFacts StrengthFacts
  SpecMedia MediaRun SpecMaterial MaterialFacts OutsideFacts MagnetFacts ExampleFacts ExampleSrc PaintSafe ExampleMedia RefuteMedia
  SpecTrace TraceFacts CellFacts RefuteTrace.
Import ListNotations.
Local Open Scope R_scope.
#[local] Existing Instance RNum.

Lemma debye_objects g fname s0 s s' l i j nm x d :
  grid_ok g -> mk_field g fname = Ok s0 -> run l s0 = Fine s ->
  forallb (fun c => negb (repositions c)) l = true -> ~ In ClearFields l ->
  Forall (fun o => shape_ok (o_geom o)) (added l) -> (0 <= i < g_Nx g)%Z -> (0 <= j < g_Ny g)%Z ->
  only_in (added l) nm (KDebye x) (g_dx g * IZR i, g_dx g * IZR j) ->
  (forall o y, In o (added l) -> m_kind (o_mat o) <> KLorentz y) ->
  step_at g s s' i j -> 0 < db_eps x -> 0 < dp_tau d /\ 0 <= dp_deps d -> db_poles x = [d] ->
  exists n q q', entry (ph_debye (f_ph s)) n nm x q /\ entry (ph_debye (f_ph s')) n nm x q' /\
    ampere (db_eps x) (g_dt g) (Ez_at (f_ph s) i j) (Ez_at (f_ph s') i j) (curl_at (f_ph s) i j) (J_at q i j 0) (J_at q' i j 0) /\
    debye_law (dp_deps d) (dp_tau d) (g_dt g) (Ez_at (f_ph s) i j) (Ez_at (f_ph s') i j) (J_at q i j 0) (J_at q' i j 0).
Proof.
  intros Hg H0 Hr Hl Hc Hs Hi Hj Ho Nl H He Hd Hp.
  destruct (run_debye g fname s0 s l i j Hg H0 Hr Hl Hc Hs Hi Hj nm x Ho Nl) as (n & q & K).
  destruct (cell_debye g s s' i j H n nm x q d He Hd Hp K) as (q' & A). exists n, q, q'. split; [apply K|exact A].
Qed.
Lemma drude_objects g fname s0 s s' l i j nm x d :
  grid_ok g -> mk_field g fname = Ok s0 -> run l s0 = Fine s ->
  forallb (fun c => negb (repositions c)) l = true -> ~ In ClearFields l ->
  Forall (fun o => shape_ok (o_geom o)) (added l) -> (0 <= i < g_Nx g)%Z -> (0 <= j < g_Ny g)%Z ->
  only_in (added l) nm (KDrude x) (g_dx g * IZR i, g_dx g * IZR j) ->
  (forall o y, In o (added l) -> m_kind (o_mat o) <> KLorentz y) ->
  step_at g s s' i j -> 0 < dr_eps x -> 0 <= up_gamma d -> dr_poles x = [d] ->
  exists n q q', entry (ph_drude (f_ph s)) n nm x q /\ entry (ph_drude (f_ph s')) n nm x q' /\
    ampere (dr_eps x) (g_dt g) (Ez_at (f_ph s) i j) (Ez_at (f_ph s') i j) (curl_at (f_ph s) i j) (J_at q i j 0) (J_at q' i j 0) /\
    drude_law (up_omega d) (up_gamma d) (g_dt g) (Ez_at (f_ph s) i j) (Ez_at (f_ph s') i j) (J_at q i j 0) (J_at q' i j 0).
Proof.
  intros Hg H0 Hr Hl Hc Hs Hi Hj Ho Nl H He Hd Hp.
  destruct (run_drude g fname s0 s l i j Hg H0 Hr Hl Hc Hs Hi Hj nm x Ho Nl) as (n & q & K).
  destruct (cell_drude g s s' i j H n nm x q d He Hd Hp K) as (q' & A). exists n, q, q'. split; [apply K|exact A].
Qed.
Lemma debye_kappa_unit dt d : 0 < dt -> 0 < dp_tau d -> -1 < debye_kappa1 dt d < 1.
Proof.
  intros Hd Ht. unfold debye_kappa1. rnumg. assert (0 < dt / (2 * dp_tau d)) by (apply Rdiv_lt_0_compat; lra).
  set (x := dt / (2 * dp_tau d)) in *. split; [apply Rmult_lt_reg_r with (1 + x)|apply Rmult_lt_reg_r with (1 + x)]; try lra; 
    unfold Rdiv; rewrite Rmult_assoc, Rinv_l; lra.
Qed.

Lemma magnet_fails : ~ (forall g s s' i j m, apart g -> reachable g s -> 0 < g_dt g -> ph_tfsf (f_ph s) = None -> update s = Fine s' ->
  (g_pml g <= i < g_Nx g - 1 - g_pml g)%Z -> (g_pml g <= j < g_Ny g - 1 - g_pml g)%Z ->
  undriven (ph_t (f_ph s) + g_dt g) g (ph_srcs (f_ph s)) Hx i j -> 0 < sm_mu m -> simple_only (f_ph s) m i j ->
  faraday (sm_mu m) (g_dt g) (Hx_at (f_ph s) i j) (Hx_at (f_ph s') i j) (curl_e_x (f_ph s') i j)).
Proof.
  intros K. destruct magnet_witness as (g & s & s' & _ & A & B & C & D & E & F & G & H & J & N).
  apply N. apply (K g s s' 3%Z 3%Z magnet); try assumption. cbn. lra.
Qed.
Lemma lorentz_fails : ~ (forall g s s' i j nm x q d, step_at g s s' i j ->
  0 < lo_eps x -> 0 <= lp_gamma d /\ 0 <= lp_deps d -> lo_poles x = [d] -> lorentz_only (f_ph s) nm x q i j ->
  exists q', ph_lorentz (f_ph s') = [(nm, (x, q'))] /\
    ampere (lo_eps x) (g_dt g) (Ez_at (f_ph s) i j) (Ez_at (f_ph s') i j) (curl_at (f_ph s) i j) (J_at q i j 0) (J_at q' i j 0)).
Proof.
  intros K. destruct lorentz_witness as (g & s & q & s' & q' & _ & A & B & C & D & E & F & G & H & I & J & N).
  destruct (K g s s' 3%Z 3%Z "stuff"%string resonant q (LPole 1 1 0)) as (q2 & Q & Am); [constructor; (assumption || now apply off_none)|cbn; lra|cbn; lra|reflexivity|exact I|].
  rewrite J in Q. injection Q as <-. exact (N Am).
Qed.
Lemma poles_fail : ~ (forall g s s' i j n nm x q, step_at g s s' i j ->
  0 < db_eps x -> Forall (fun d => 0 < dp_tau d /\ 0 <= dp_deps d) (db_poles x) -> debye_only (f_ph s) n nm x q i j ->
  exists q', entry (ph_debye (f_ph s')) n nm x q' /\
    forall k d, nth_error (db_poles x) k = Some d ->
      debye_law (dp_deps d) (dp_tau d) (g_dt g) (Ez_at (f_ph s) i j) (Ez_at (f_ph s') i j) (J_at q i j (Z.of_nat k)) (J_at q' i j (Z.of_nat k))).
Proof.
  intros K. destruct poles_witness as (g & s & n & q & s' & q' & d & _ & A & B & C & D & E & F & G & H & I & J & L & N).
  destruct (K g s s' 3%Z 3%Z n "stuff"%string two_poles q) as (q2 & Q & Am); [constructor; (assumption || now apply off_none)|cbn; lra|repeat constructor; cbn; lra|exact I|].
  unfold entry in *. rewrite J in Q. injection Q as <-. exact (N (Am 0%nat d L)).
Qed.

Lemma out_iff g o i j : ~ in_obj o (to_real g (i, j)) <-> obj_inside o (to_real g (i, j)) = false.
Proof.
  split; intros H.
  - destruct (obj_inside _ _) eqn:E; [|reflexivity]. apply obj_inside_iff in E. contradiction.
  - intros K. apply obj_inside_iff in K. congruence.
Qed.
Lemma outside_local g s s1 s2 o s2' i j : apart g -> reachable g s ->
  (forall y, m_kind (o_mat o) <> KLorentz y) -> exec (AddObject o) s = Fine s2 ->
  update s = Fine s1 -> update s2 = Fine s2' ->
  (0 <= i < g_Nx g)%Z -> (0 <= j < g_Ny g)%Z -> ~ in_obj o (to_real g (i, j)) ->
  Ez_at (f_ph s2') i j = Ez_at (f_ph s1) i j.
Proof.
  intros Hg Hr Hk Ha H1 H2 Hi Hj Ho. apply out_iff in Ho. apply (outside_unchanged g s s1 s2 o s2' i j); auto.
  destruct (m_kind (o_mat o)) as [| | |y]; try reflexivity. now elim (Hk y).
Qed.
Lemma outside_fails : ~ (forall g s s1 s2 o s2' i j, apart g -> reachable g s -> ph_tfsf (f_ph s) = None ->
  exec (AddObject o) s = Fine s2 -> update s = Fine s1 -> update s2 = Fine s2' ->
  (0 <= i < g_Nx g)%Z -> (0 <= j < g_Ny g)%Z -> ~ in_obj o (to_real g (i, j)) ->
  Ez_at (f_ph s2') i j = Ez_at (f_ph s1) i j).
Proof.
  intros K. destruct outside_witness as (g & s & s1 & s2 & s2' & _ & A & B & C & D & E & F & G & H & I & N).
  apply N. apply out_iff in I. eapply K; eassumption.
Qed.
Lemma overlap_fails : ~ (forall g fname s0 s l i j, grid_ok g -> mk_field g fname = Ok s0 -> run l s0 = Fine s ->
  forallb (fun c => negb (repositions c)) l = true -> ~ In ClearFields l ->
  Forall (fun o => shape_ok (o_geom o)) (added l) -> (0 <= i < g_Nx g)%Z -> (0 <= j < g_Ny g)%Z ->
  names_agree (added l) -> traceless g (f_ph s) i j).
Proof.
  intros K. destruct lid_witness as (g & s0 & s & l & A & B & C & D & E & F & G & H & I & N). apply N. eapply K; eassumption.
Qed.
Lemma move_fails : ~ (forall g fname s0 l s s' i j, grid_ok g -> mk_field g fname = Ok s0 -> run l s0 = Fine s ->
  ~ In ClearFields l -> exec UpdateMaterialGrid s = Fine s' ->
  Forall (fun o => shape_ok (o_geom o)) (ph_objs (f_ph s)) -> names_agree (ph_objs (f_ph s)) ->
  (forall o o', In o (ph_objs (f_ph s)) -> In o' (ph_objs (f_ph s)) -> dispersive (m_kind (o_mat o)) -> dispersive (m_kind (o_mat o')) -> o = o') ->
  (0 <= i < g_Nx g)%Z -> (0 <= j < g_Ny g)%Z -> traceless g (f_ph s') i j).
Proof.
  intros K. destruct moved_witness as (g & s0 & s & s' & A & B & C & D & O & E & F & G & H & N).
  apply N. apply (K g "out"%string s0 (demo_cmds ++ [Move 1 (1, 0)]) s s'); try assumption.
  - cbn. intros [X|[X|[X|[]]]]; discriminate.
  - rewrite O. intros o o' [<-|[<-|[]]] [<-|[<-|[]]]; cbn; tauto.
Qed.

(** ** Concrete cases *)
Definition brick_cmds (k : mat_kind) : list cmd := [AddSource (flash (/ 2)); Update; AddObject (brick k)].
Lemma brick_in2 k : in_obj (brick k) (3, 2).
Proof.
  exists (0, -1). rewrite rot0. unfold in_shape, vadd, brick. cbn [o_geom o_pos fst snd]. rewrite Rabs_R0, Rabs_left by lra. rnumg.
  split; [lra|apply injective_projections; cbn [fst snd]; rnumg; ring].
Qed.
Lemma pos32 (g : grid) : g_dx g = 1 -> (g_dx g * IZR 3, g_dx g * IZR 2) = (3, 2).
Proof. intros ->. f_equal; lra. Qed.
Lemma brick_only2 (g : grid) k : g_dx g = 1 -> only_in [brick k] "stuff" k (g_dx g * IZR 3, g_dx g * IZR 2).
Proof.
  intros Hd. rewrite (pos32 g Hd). exists (brick k). split; [now left|]. split; [reflexivity|]. split; [apply brick_in2|].
  intros o' [<-|[]] _. reflexivity.
Qed.
Lemma brick_case k : exists (g : grid) s0 s s', grid_ok g /\ mk_field g "out" = Ok s0 /\ run (brick_cmds k) s0 = Fine s /\ step_at g s s' 3 2 /\
  ready g (/ 2) s /\ Forall (fun o => shape_ok (o_geom o)) (added (brick_cmds k)) /\ ~ In ClearFields (brick_cmds k).
Proof.
  destruct (late_run (/ 2) (brick k) k (or_introl eq_refl))
    as (g & s0 & s1 & s2 & Eg & E0 & R1 & E2 & R2 & Rd1 & Rd2 & Fq & St1 & St2 & _).
  destruct (ready_update g _ s2 Rd2) as (s' & E & Rd' & _); [rewrite St2; lia|].
  exists g, s0, s2, s'. split; [apply Rd2|]. split; [exact E0|]. split; [exact R2|]. split; [|split; [exact Rd2|split]].
  - assert (Hd := ready_dt _ _ _ Rd2). constructor; auto.
    + eapply ready_apart; exact Rd2.
    + apply Rd2.
    + apply off_none, Rd2.
    + rewrite (rd_Nx _ _ _ Rd2). lia.
    + rewrite (rd_Ny _ _ _ Rd2). lia.
    + rewrite Hd. lra.
    + eapply ready_undriven; [exact Rd2|]. right; left. congruence.
  - repeat constructor.
  - intros [K|[K|[K|[]]]]; discriminate.
Qed.

Lemma simple_case : exists (g : grid) s0 s s', grid_ok g /\ mk_field g "out" = Ok s0 /\
  run (brick_cmds (KSimple (Simple 2 1 1))) s0 = Fine s /\ step_at g s s' 3 2 /\
  material_at (added (brick_cmds (KSimple (Simple 2 1 1)))) vacuum (g_dx g * IZR 3, g_dx g * IZR 2) (KSimple (Simple 2 1 1)) /\
  simple_only (f_ph s) (Simple 2 1 1) 3 2.
Proof.
  destruct (brick_case (KSimple (Simple 2 1 1))) as (g & s0 & s & s' & Hg & E0 & R & St & Rd & Sh & Hc).
  assert (M : material_at (added (brick_cmds (KSimple (Simple 2 1 1)))) vacuum (g_dx g * IZR 3, g_dx g * IZR 2) (KSimple (Simple 2 1 1))).
  { apply (only_at g (brick_cmds _) 3 2 "stuff"%string). apply brick_only2, Rd. }
  exists g, s0, s, s'. split; [exact Hg|]. split; [exact E0|]. split; [exact R|]. split; [exact St|]. split; [exact M|].
  apply (run_simple g "out" s0 s (brick_cmds (KSimple (Simple 2 1 1))) 3 2 _ Hg E0 R eq_refl Hc Sh); auto.
  - rewrite (rd_Nx _ _ _ Rd). lia.
  - rewrite (rd_Ny _ _ _ Rd). lia.
  - intros o [<-|[]] _ K. exact K.
  - intros o y [<-|[]]. discriminate.
Qed.
Lemma debye_case_any x : exists (g : grid) s0 s s' n q, grid_ok g /\ mk_field g "out" = Ok s0 /\
  run (brick_cmds (KDebye x)) s0 = Fine s /\ step_at g s s' 3 2 /\
  only_in (added (brick_cmds (KDebye x))) "stuff" (KDebye x) (g_dx g * IZR 3, g_dx g * IZR 2) /\
  debye_only (f_ph s) n "stuff" x q 3 2.
Proof.
  destruct (brick_case (KDebye x)) as (g & s0 & s & s' & Hg & E0 & R & St & Rd & Sh & Hc).
  destruct (run_debye g "out" s0 s (brick_cmds (KDebye x)) 3 2 Hg E0 R eq_refl Hc Sh) with (nm := "stuff"%string) (x := x) as (n & q & K).
  - rewrite (rd_Nx _ _ _ Rd). lia.
  - rewrite (rd_Ny _ _ _ Rd). lia.
  - apply brick_only2, Rd.
  - intros o y [<-|[]]. discriminate.
  - exists g, s0, s, s', n, q. split; [exact Hg|]. split; [exact E0|]. split; [exact R|]. split; [exact St|]. split; [apply brick_only2, Rd|exact K].
Qed.
Lemma debye_case : exists (g : grid) s0 s s' n q, grid_ok g /\ mk_field g "out" = Ok s0 /\
  run (brick_cmds (KDebye (Debye 1 [DPole 1 1]))) s0 = Fine s /\ step_at g s s' 3 2 /\
  only_in (added (brick_cmds (KDebye (Debye 1 [DPole 1 1])))) "stuff" (KDebye (Debye 1 [DPole 1 1])) (g_dx g * IZR 3, g_dx g * IZR 2) /\
  debye_only (f_ph s) n "stuff" (Debye 1 [DPole 1 1]) q 3 2.
Proof. apply debye_case_any. Qed.
Lemma poles_case : exists (g : grid) s0 s s' n q, grid_ok g /\ mk_field g "out" = Ok s0 /\
  run (brick_cmds (KDebye two_poles)) s0 = Fine s /\ step_at g s s' 3 2 /\ debye_only (f_ph s) n "stuff" two_poles q 3 2.
Proof. destruct (debye_case_any two_poles) as (g & s0 & s & s' & n & q & A & B & C & D & _ & E). exists g, s0, s, s', n, q. auto. Qed.
Lemma drude_case : exists (g : grid) s0 s s' n q, grid_ok g /\ mk_field g "out" = Ok s0 /\
  run (brick_cmds (KDrude metal1)) s0 = Fine s /\ step_at g s s' 3 2 /\
  only_in (added (brick_cmds (KDrude metal1))) "stuff" (KDrude metal1) (g_dx g * IZR 3, g_dx g * IZR 2) /\
  drude_only (f_ph s) n "stuff" metal1 q 3 2.
Proof.
  destruct (brick_case (KDrude metal1)) as (g & s0 & s & s' & Hg & E0 & R & St & Rd & Sh & Hc).
  destruct (run_drude g "out" s0 s (brick_cmds (KDrude metal1)) 3 2 Hg E0 R eq_refl Hc Sh) with (nm := "stuff"%string) (x := metal1) as (n & q & K).
  - rewrite (rd_Nx _ _ _ Rd). lia.
  - rewrite (rd_Ny _ _ _ Rd). lia.
  - apply brick_only2, Rd.
  - intros o y [<-|[]]. discriminate.
  - exists g, s0, s, s', n, q. split; [exact Hg|]. split; [exact E0|]. split; [exact R|]. split; [exact St|]. split; [apply brick_only2, Rd|exact K].
Qed.
Lemma lorentz_case : exists (g : grid) s0 s s' q, grid_ok g /\ mk_field g "out" = Ok s0 /\
  run (brick_cmds (KLorentz resonant)) s0 = Fine s /\ step_at g s s' 3 2 /\ lorentz_only (f_ph s) "stuff" resonant q 3 2.
Proof.
  destruct (brick_case (KLorentz resonant)) as (g & s0 & s & s' & Hg & E0 & R & St & Rd & Sh & Hc).
  destruct (run_lorentz g "out" s0 s (brick_cmds (KLorentz resonant)) 3 2 Hg E0 R eq_refl Hc Sh) with (nm := "stuff"%string) (x := resonant) as (q & K).
  - rewrite (rd_Nx _ _ _ Rd). lia.
  - rewrite (rd_Ny _ _ _ Rd). lia.
  - apply brick_only2, Rd.
  - intros o y [<-|[]] _. reflexivity.
  - exists g, s0, s, s', q. auto.
Qed.
Lemma far_case : exists (g : grid) s s1 s2 s2', apart g /\ reachable g s /\ ph_tfsf (f_ph s) = None /\
  exec (AddObject (far (KDrude metal1))) s = Fine s2 /\ update s = Fine s1 /\ update s2 = Fine s2' /\
  ~ in_obj (far (KDrude metal1)) (to_real g (3, 3)%Z) /\ Ez_at (f_ph s) 3 3 <> 0.
Proof.
  destruct (late_run (/ 2) (far (KDrude metal1)) (KDrude metal1) (or_intror eq_refl))
    as (g & s0 & s & s2 & Eg & E0 & R1 & E2 & R2 & Rd1 & Rd2 & Fq & St1 & St2 & V & _).
  destruct (ready_update g _ s Rd1) as (s1 & U1 & Rd1' & _); [rewrite St1; lia|].
  destruct (ready_update g _ s2 Rd2) as (s2' & U2 & Rd2' & _); [rewrite St2; lia|].
  exists g, s, s1, s2, s2'. split; [eapply ready_apart; exact Rd1|]. split; [apply Rd1|]. split; [apply Rd1|].
  split; [exact E2|]. split; [exact U1|]. split; [exact U2|]. split.
  - unfold to_real. cbn [fst snd]. intros K. apply (far_out (KDrude metal1)). rewrite <- (mid_pos g (rd_dx _ _ _ Rd1)). exact K.
  - rewrite V, (proj1 pulse_half). lra.
Qed.
Lemma traceless_case : exists (g : grid) s0 s, grid_ok g /\ mk_field g "out" = Ok s0 /\ run demo_cmds s0 = Fine s /\ names_agree (added demo_cmds) /\
  one_medium (added demo_cmds) (g_dx g * IZR 3, g_dx g * IZR 3) /\ owns (added demo_cmds) (g_dx g * IZR 3, g_dx g * IZR 3) chip.
Proof.
  destruct demo_run as (g & s0 & s & Eg & Hok & Hr & Nx & Ny & Hdx & E0 & E1 & _). exists g, s0, s.
  split; [exact Hok|]. split; [exact E0|]. split; [exact E1|]. rewrite (mid_pos g Hdx). change (added demo_cmds) with [disk; chip].
  assert (Ow : owns [disk; chip] (3, 3) chip). { exists [disk], []. split; [reflexivity|]. split; [apply chip_in|intros ? []]. }
  split; [|split; [|exact Ow]].
  - intros o o' [<-|[<-|[]]] [<-|[<-|[]]]; try reflexivity; discriminate.
  - intros o o' (b & a & Eo & Io & Na) Ho' Io' Hd.
    assert (o = chip).
    { destruct b as [|x [|y b]]; cbn [app] in Eo.
      - injection Eo as <- <-. exfalso. apply (Na chip); [now left|apply chip_in].
      - injection Eo as _ <- _. reflexivity.
      - injection Eo as _ _ Eo. destruct b; discriminate. }
    subst o. destruct Ho' as [<-|[<-|[]]]; [destruct Hd|reflexivity].
Qed.
