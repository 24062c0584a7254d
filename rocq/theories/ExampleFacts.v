(** Concrete runs used by the examples: an 8 by 8 grid with PML thickness 1, a dielectric
    cylinder and a dispersive block over it. *)
From Coq Require Import ZArith Reals List Bool String Lia Psatz.
From Verif Require Import Scalar Base BaseFacts VecM GridM GeometryM MaterialM PmlM DftM TfsfM PolarM
  InterpM H5M ClockM MonitorM FieldM SpecGrid GridFacts SpecGeometry GeometryFacts OutFacts PhysFacts
  SpecPaint PaintFacts WfFacts ReachFacts.
Import ListNotations.

Section Gen.
Context {N : Num}.
Local Open Scope Z_scope.

Definition fresh_h5 (g : grid) : h5 :=
  ("grid"%string, HGroup) :: map (fun '(n, v) => (("grid" // n)%string, HData false [v])) (grid_items g).

Lemma mk_field_fresh g name : roomy g -> name <> ""%string ->
  exists p, mk_phys g = Ok p /\ mk_field g name = Ok (Field p [] [] [] (fresh_h5 g) mk_clocks).
Proof.
  intros Hg Hn. destruct (mk_phys_ok g Hg) as (p & E & _). exists p. split; [exact E|].
  unfold mk_field. rewrite E. cbn [bind].
  replace (String.eqb name "") with false by (symmetry; now apply String.eqb_neq).
  reflexivity.
Qed.

Lemma add_object_fine (o : obj) (s : field) f1 f2 c :
  (if str_in (m_name (o_mat o)) (f_mats s) then Ok (f_h5 s) else write_mat (f_h5 s) (o_mat o)) = Ok f1 ->
  write_obj f1 o = Ok f2 ->
  paint (ph_grid (f_ph s)) o (ph_C (f_ph s)) = Ok c ->
  wf_phys (f_ph s) -> 0 <= g_Nx (ph_grid (f_ph s)) -> 0 <= g_Ny (ph_grid (f_ph s)) ->
  exists s', add_object o s = Fine s' /\ f_h5 s' = f2 /\
    f_mats s' = (if str_in (m_name (o_mat o)) (f_mats s) then f_mats s else f_mats s ++ [m_name (o_mat o)]) /\
    f_mons s' = f_mons s /\ f_tmons s' = f_tmons s /\ f_clk s' = f_clk s /\
    ph_grid (f_ph s') = ph_grid (f_ph s) /\ ph_objs (f_ph s') = ph_objs (f_ph s) ++ [o] /\
    ph_srcs (f_ph s') = ph_srcs (f_ph s) /\ ph_step (f_ph s') = ph_step (f_ph s) /\
    ph_tfsf (f_ph s') = ph_tfsf (f_ph s).
Proof.
  intros H1 H2 H3 Hw Hx Hy. unfold add_object, register_mat.
  set (m := m_name (o_mat o)) in *.
  assert (Hp : exists p1, paint_phys o (f_ph s) = Ok p1).
  { unfold paint_phys. rewrite H3. eexists; reflexivity. }
  destruct Hp as [p1 Hp1].
  assert (Hw1 := paint_phys_wf _ _ _ Hp1 Hw).
  assert (G1 : ph_grid p1 = ph_grid (f_ph s) /\ ph_objs p1 = ph_objs (f_ph s) /\ ph_srcs p1 = ph_srcs (f_ph s)
     /\ ph_step p1 = ph_step (f_ph s) /\ ph_tfsf p1 = ph_tfsf (f_ph s)).
  { unfold paint_phys in Hp1. inv_ok. cbn. auto. }
  destruct G1 as (G1 & G2 & G3 & G4 & G5).
  destruct (insert_material_total o p1 Hw1) as [p2 Hp2]; [now rewrite G1|now rewrite G1|].
  assert (K : ph_grid p2 = ph_grid p1 /\ ph_objs p2 = ph_objs p1 /\ ph_srcs p2 = ph_srcs p1
     /\ ph_step p2 = ph_step p1 /\ ph_tfsf p2 = ph_tfsf p1).
  { unfold insert_material in Hp2. destruct (m_kind (o_mat o)); inv_ok; cbn; auto. }
  destruct K as (K1 & K2 & K3 & K4 & K5).
  destruct (str_in m (f_mats s)).
  - injection H1 as <-. cbn [obind]. unfold on_ph. rewrite Hp1. cbn [prim obind f_ph set_f_ph]. rewrite Hp2.
    cbn [prim obind f_ph set_f_ph f_h5]. rewrite H2. cbn [prim obind].
    eexists. split; [reflexivity|]. cbn. rewrite K1, K2, K3, K4, K5, G1, G2, G3, G4, G5. auto 12.
  - cbn [set_f_mats f_h5 f_mats prim]. rewrite H1. cbn [prim obind]. unfold on_ph. cbn [f_ph set_f_h5 set_f_mats].
    rewrite Hp1. cbn [prim obind f_ph set_f_ph]. rewrite Hp2.
    cbn [prim obind f_ph set_f_ph f_h5 set_f_h5]. rewrite H2. cbn [prim obind].
    eexists. split; [reflexivity|]. cbn. rewrite K1, K2, K3, K4, K5, G1, G2, G3, G4, G5. auto 12.
Qed.

End Gen.

Local Open Scope R_scope.
#[local] Existing Instance RNum.

(** radius 2 at (3, 3), eps = 2 *)
Definition disk : obj :=
  Obj "disk" false (Cylinder 2) (Material "glass" (KSimple (Simple 2 1 0))) (3, 3) 0.
(** a movable 2 by 2 block at (4, 4) made of a one-pole Drude metal *)
Definition chip : obj :=
  Obj "chip" true (Block (2, 2)) (Material "metal" (KDrude (Drude 1 [UPole 1 0]))) (4, 4) 0.

Lemma disk_inside : in_obj disk (3, 2) /\ in_obj disk (4, 4) /\ ~ in_obj disk (5, 5).
Proof.
  unfold in_obj, in_placed, disk. cbn [o_geom o_pos o_theta].
  assert (R0 : forall q, rot 0 q = q).
  { intros [x y]. unfold rot. rewrite cos_0, sin_0. cbn [fst snd]. apply injective_projections; cbn [fst snd]; rnumg; ring. }
  split; [|split].
  - exists (0, -1). rewrite R0. unfold in_shape, vadd. cbn [fst snd]. rnumg. split; [nra|apply injective_projections; cbn [fst snd]; rnumg; ring].
  - exists (1, 1). rewrite R0. unfold in_shape, vadd. cbn [fst snd]. rnumg. split; [nra|apply injective_projections; cbn [fst snd]; rnumg; ring].
  - intros [[x y] [H E]]. rewrite R0 in E. unfold in_shape, vadd in *. cbn [fst snd] in *. rnum.
    injection E as E1 E2. assert (x = 2) by lra. assert (y = 2) by lra. subst. lra.
Qed.

Lemma disk_box : v_a (obj_box disk) = (1, 1) /\ v_b (obj_box disk) = (5, 5).
Proof.
  unfold obj_box, place_box, disk. cbn [o_geom o_pos o_theta geom_box stored_box vol_translate mk_volume v_a v_b].
  unfold vadd. cbn [fst snd]. split; apply injective_projections; cbn [fst snd]; rnumg; lra.
Qed.
Lemma chip_box : v_a (obj_box chip) = (3, 3) /\ v_b (obj_box chip) = (5, 5).
Proof.
  unfold obj_box, place_box, chip. cbn [o_geom o_pos o_theta geom_box stored_box vol_translate mk_volume v_a v_b v_dim].
  unfold vadd, vneg, vdivs, vsub, vabs. cbn [fst snd]. rnumg. rewrite cos_0, sin_0, Ropp_0, Rabs_R1, Rabs_R0.
  split; apply injective_projections; cbn [fst snd]; unfold Rabs; repeat destruct Rcase_abs; lra.
Qed.

Definition demo_cmds : list cmd := [AddObject disk; AddObject chip].

(** a lamp at (3, 3) *)
Definition demo_lamp : source := Source "lamp" Ez (SPoint (3, 3)) (TProfile (Continuous (1 / 2)) None).
Lemma demo_full : exists (g : grid) s0 s, mk_grid 8 8 1 1 = Ok g /\ grid_ok g /\ roomy g /\
  g_Nx g = 8%Z /\ g_Ny g = 8%Z /\ g_dx g = 1 /\
  mk_field g "out" = Ok s0 /\ run demo_cmds s0 = Fine s /\ good g s /\
  f_mons s = [] /\ f_tmons s = [] /\ f_clk s = mk_clocks /\ ph_srcs (f_ph s) = [] /\
  ph_step (f_ph s) = 0%Z /\ ph_tfsf (f_ph s) = None /\ ph_objs (f_ph s) = [disk; chip] /\
  exists f, foldM write_src (f_h5 s) [demo_lamp] = Ok f.
Proof.
  destruct grid8 as (g & Eg & Hok & Nx & Ny & Hdx & HLx & HLy & Hp).
  assert (Hr : roomy g) by (unfold roomy; lia).
  destruct (mk_field_fresh g "out" Hr) as (p & Ep & E0); [discriminate|].
  assert (G0 := mk_field_good g Hr "out" _ E0).
  destruct (mk_phys_ok g Hr) as (p' & Ep' & Hw & Gp & Sp & Tp & Op & Np). rewrite Ep in Ep'. injection Ep' as <-.
  assert (Hbox : forall o c, coefs_dims (g_Nx g) (g_Ny g) c -> o = disk \/ o = chip -> exists c', paint g o c = Ok c').
  { intros o c Hc Ho. destruct disk_box as [D1 D2], chip_box as [D3 D4].
    apply (paint_in_domain g o c Hok Hc); destruct Ho as [-> | ->]; rewrite ?D1, ?D2, ?D3, ?D4;
      unfold in_box, domain; cbn [mk_volume v_a v_b fst snd]; rewrite HLx, HLy; rnumg; lra. }
  destruct (Hbox disk (ph_C p)) as [c1 Ec1]; [rewrite <- Gp; apply (wf_C p Hw)|now left|].
  destruct (add_object_fine disk (Field p [] [] [] (fresh_h5 g) mk_clocks)
     ltac:(let t := eval cbv [disk o_mat m_name m_kind write_mat h5_ops h5_op mat_ops news mat_path mat_items fresh_h5 grid_items map app h5_groups h5_creates foldM h5_group h5_create slookup path_cat String.append String.eqb Ascii.eqb Bool.eqb bind] in (write_mat (fresh_h5 g) (o_mat disk)) in
        match t with Ok ?f => exact f end)
     ltac:(let t := eval cbv [disk o_mat m_name m_kind write_mat h5_ops h5_op mat_ops news mat_path mat_items fresh_h5 grid_items map app h5_groups h5_creates foldM h5_group h5_create slookup path_cat String.append String.eqb Ascii.eqb Bool.eqb bind] in (write_mat (fresh_h5 g) (o_mat disk)) in
        match t with Ok ?f => let u := eval cbv [disk o_mat o_dyn o_geom o_name o_pos o_theta m_name m_kind write_obj h5_ops h5_op obj_ops news obj_groups obj_root obj_path geom_group geom_items h5_exists mat_path map app h5_groups h5_creates foldM h5_group h5_create slookup path_cat String.append String.eqb Ascii.eqb Bool.eqb bind] in (write_obj f disk) in
          match u with Ok ?f2 => exact f2 end end)
     c1)
    as (s1 & E1 & F1 & M1 & Mo1 & T1 & K1 & G1 & O1 & S1 & N1 & Q1).
  { reflexivity. } { reflexivity. } { cbn [f_ph]. now rewrite Gp. } { exact Hw. }
  { cbn [f_ph]. rewrite Gp. lia. } { cbn [f_ph]. rewrite Gp. lia. }
  assert (Gd1 : good g s1).
  { assert (H := exec_post g Hr (AddObject disk) _ G0). cbn [exec] in H. now rewrite E1 in H. }
  destruct (Hbox chip (ph_C (f_ph s1))) as [c2 Ec2]; [|now right|].
  { destruct Gd1 as [W1 W2]. rewrite <- W2. apply (wf_C _ W1). }
  cbn in M1.
  remember (f_h5 s1) as fh eqn:Efh.
  destruct (add_object_fine chip s1
     ltac:(match type of F1 with _ = ?f => let t := eval cbv [chip o_mat m_name m_kind write_mat h5_ops h5_op mat_ops news mat_path mat_items dr_eps dr_poles up_omega up_gamma map app h5_groups h5_creates foldM h5_group h5_create slookup path_cat String.append String.eqb Ascii.eqb Bool.eqb bind] in (write_mat f (o_mat chip)) in
        match t with Ok ?f => exact f end end)
     ltac:(match type of F1 with _ = ?f => let t := eval cbv [chip o_mat m_name m_kind write_mat h5_ops h5_op mat_ops news mat_path mat_items dr_eps dr_poles up_omega up_gamma map app h5_groups h5_creates foldM h5_group h5_create slookup path_cat String.append String.eqb Ascii.eqb Bool.eqb bind] in (write_mat f (o_mat chip)) in
        match t with Ok ?f => let u := eval cbv [chip o_mat o_dyn o_geom o_name o_pos o_theta m_name m_kind write_obj h5_ops h5_op obj_ops news obj_groups obj_root obj_path geom_group geom_items h5_exists mat_path map app h5_groups h5_creates foldM h5_group h5_create slookup path_cat String.append String.eqb Ascii.eqb Bool.eqb bind] in (write_obj f chip) in
          match u with Ok ?f2 => exact f2 end end end)
     c2)
    as (s2 & E2 & F2 & M2 & Mo2 & T2 & K2 & G2 & O2 & S2 & N2 & Q2).
  { rewrite M1, <- Efh, F1. reflexivity. } { reflexivity. }
  { destruct Gd1 as [_ W2]. now rewrite W2. } { apply Gd1. }
  { rewrite (proj2 Gd1). lia. } { rewrite (proj2 Gd1). lia. }
  assert (Gd2 : good g s2).
  { assert (H := exec_post g Hr (AddObject chip) _ Gd1). cbn [exec] in H. now rewrite E2 in H. }
  exists g, (Field p [] [] [] (fresh_h5 g) mk_clocks), s2.
  split; [exact Eg|]. split; [exact Hok|]. split; [exact Hr|]. repeat (split; [assumption|]).
  split. { cbn [run demo_cmds exec]. rewrite E1. cbn [obind]. rewrite E2. reflexivity. }
  split; [exact Gd2|]. cbn [f_ph f_mons f_tmons f_clk] in *.
  rewrite Mo2, Mo1, T2, T1, K2, K1, S2, S1, N2, N1, Q2, Q1, O2, O1. rewrite Sp, Tp, Np, Op. repeat (split; [reflexivity|]). rewrite F2. eexists. reflexivity.
Qed.
Lemma demo_run : exists (g : grid) s0 s, mk_grid 8 8 1 1 = Ok g /\ grid_ok g /\ roomy g /\
  g_Nx g = 8%Z /\ g_Ny g = 8%Z /\ g_dx g = 1 /\
  mk_field g "out" = Ok s0 /\ run demo_cmds s0 = Fine s /\ good g s /\
  f_mons s = [] /\ f_tmons s = [] /\ f_clk s = mk_clocks /\ ph_srcs (f_ph s) = [] /\
  ph_step (f_ph s) = 0%Z /\ ph_tfsf (f_ph s) = None /\ ph_objs (f_ph s) = [disk; chip].
Proof.
  destruct demo_full as (g & s0 & s & A1 & A2 & A3 & A4 & A5 & A6 & A7 & A8 & A9 & A10 & A11 & A12 & A13 & A14 & A15 & A16 & _).
  exists g, s0, s. auto 20.
Qed.
