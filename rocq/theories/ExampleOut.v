(** A concrete run with a moving dispersive object, a source, a monitor, a time monitor and output calls. *)
From Coq Require Import ZArith Reals List Bool String Lia Lra.
From Verif Require Import Scalar Base BaseFacts VecM GridM GeometryM MaterialM PmlM DftM TfsfM PolarM
  InterpM H5M ClockM MonitorM FieldM SpecGrid GridFacts GeometryFacts OutFacts PhysFacts SpecPaint PaintFacts WfFacts ReachFacts InvFacts SpecSafety SafeFacts
  SpecClock TimerFacts H5Facts PassiveFacts SpecLive LiveFacts LiveRun ExampleFacts ExampleSrc ExampleMon.
From Verif Require Import OpsFacts.
Import ListNotations.
Local Open Scope R_scope.
#[local] Existing Instance RNum.

Definition probe : tmon := TMon "probe" (TPoint (3, 4)) Ez (mk_every 0) [].
Definition gate : monitor := MSurf (mk_surf_mon "wall" wall DAll [1; 2]).
Definition out_head : list cmd := [AddObject chip; AddSource lamp].
Definition out_tail : list cmd := [AddTimeMonitor probe; WriteTimeMonitor 0; WriteE; WriteH; Move 0 (1, 0); WriteCurrent 0; Rotate 0 1; WriteCurrent 0; WriteE; WriteTimeMonitor 0].
Definition out_cmds : list cmd := out_head ++ [AddMonitor gate] ++ repeat Update 3 ++ out_tail.

(** the file operations of the run, for any rows *)
Definition head_file (g : grid) : res h5 :=
  f <- write_mat (fresh_h5 g) (o_mat chip) ;; f <- write_obj f chip ;; f <- write_src f lamp ;; write_mon f gate.
Definition put (f : h5) (p : string) (v : payload) : res h5 := if h5_exists f p then h5_append f p v else h5_create f p true v.
Definition tail_file (f : h5) (v1 e1 x1 y1 v2 e2 : payload) (q1 q2 : vec) (t1 t2 : R) : res h5 :=
  f <- h5_groups f ["fields"; "fields" // "probe"]%string ;; f <- h5_creates f ("fields" // "probe") (tm_items (TPoint (3, 4))) ;;
  f <- h5_groups f ["fields"; "fields" // "probe"]%string ;; f <- h5_create f ("fields" // "probe" // "Ez") true v1 ;;
  f <- h5_group f "fields" ;; f <- put f ("fields" // "Ez") e1 ;;
  f <- h5_group f "fields" ;; f <- put f ("fields" // "Hx") x1 ;;
  f <- h5_group f "fields" ;; f <- put f ("fields" // "Hy") y1 ;;
  f <- h5_groups f (obj_groups chip) ;; f <- h5_append f (obj_path chip // "position") (vec_pay q1) ;; f <- h5_append f (obj_path chip // "theta") (PReal t1) ;;
  f <- h5_groups f (obj_groups chip) ;; f <- h5_append f (obj_path chip // "position") (vec_pay q2) ;; f <- h5_append f (obj_path chip // "theta") (PReal t2) ;;
  f <- h5_group f "fields" ;; f <- put f ("fields" // "Ez") e2 ;;
  h5_append f ("fields" // "probe" // "Ez") v2.
Lemma files (g : grid) : exists f, head_file g = Ok f /\ forall v1 e1 x1 y1 v2 e2 q1 q2 t1 t2, exists f', tail_file f v1 e1 x1 y1 v2 e2 q1 q2 t1 t2 = Ok f'.
Proof. eexists. split; [reflexivity|]. intros. eexists. reflexivity. Qed.

Lemma write_field_step c a p mons tms mats f f1 f2 : get_field (ph_F p) c = Ok a -> c = Ez \/ c = Hx \/ c = Hy -> h5_group f "fields" = Ok f1 -> put f1 ("fields" // comp_str c) (tensor_pay a) = Ok f2 ->
  write_field c (Field p mons tms mats f mk_clocks) = Fine (Field p mons tms mats f2 mk_clocks).
Proof.
  intros Ha Hc H1 H2. unfold write_field, start. cbn [f_clk clock_start mk_clocks ticking k_hdf5 prim obind set_f_clk f_h5]. unfold clock_start. cbn [f_clk clock_start mk_clocks ticking k_hdf5 prim obind set_f_clk f_h5]. rewrite H1. cbn [prim obind].
  destruct Hc as [-> | [-> | ->]]; cbn [get_field] in *; injection Ha as <-; cbn [bind f_ph set_f_h5 f_h5 set_f_clk]; unfold put in H2; cbn [comp_str] in *; cbv zeta; rewrite H2; reflexivity.
Qed.
Lemma write_tmon_step g m v mons mats f f' p m' : ph_grid p = g -> tm_fields m = Ez -> tm_sample g (ph_F p) (tm_shape_ m) Ez = Ok v -> tm_write1 g (ph_F p) f m Ez = Ok (f', m') ->
  write_tmon 0 (Field p mons [m] mats f mk_clocks) = Fine (Field p mons [m'] mats f' mk_clocks).
Proof.
  intros Hg Hc Hs H1. unfold write_tmon. cbn [f_tmons nth_error]. unfold tm_write. rewrite Hc. cbn [expand foldM f_ph f_h5]. rewrite Hg, H1. reflexivity.
Qed.
Lemma write_current_step o p mons tms mats f f1 f2 f3 : ph_objs p = [o] -> o_dyn o = true -> h5_groups f (obj_groups o) = Ok f1 -> h5_append f1 (obj_path o // "position") (vec_pay (o_pos o)) = Ok f2 -> h5_append f2 (obj_path o // "theta") (PReal (o_theta o)) = Ok f3 ->
  write_current 0 (Field p mons tms mats f mk_clocks) = Fine (Field p mons tms mats f3 mk_clocks).
Proof.
  intros Ho Hd H1 H2 H3. unfold write_current. cbn [f_ph f_h5]. rewrite Ho. cbn [nth_error]. rewrite Hd. cbv zeta. rewrite current_eq, H1. cbn [bind]. rewrite H2. cbn [bind]. rewrite H3. reflexivity.
Qed.
Lemma on_obj_step o h p mons tms mats f : ph_objs p = [o] -> o_dyn o = true -> on_obj 0 h (Field p mons tms mats f mk_clocks) = Fine (Field (set_ph_objs [h o] p) mons tms mats f mk_clocks).
Proof. intros Ho Hd. unfold on_obj. cbn [f_ph]. rewrite Ho. cbn [nth_error]. rewrite Hd. unfold map_ph. cbn [f_ph]. rewrite Ho. reflexivity. Qed.

Lemma out_tail_fine (g : grid) (p : phys) mons mats f : ph_grid p = g -> wf_phys p -> g_Nx g = 8%Z -> g_Ny g = 8%Z -> g_dx g = 1 -> ph_objs p = [chip] ->
  head_file g = Ok f -> exists s, run out_tail (Field p mons [] mats f mk_clocks) = Fine s.
Proof.
  intros Hg Hw Nx Ny Hd Ho Hf. destruct (files g) as (f0 & Ef & Ht). rewrite Hf in Ef. injection Ef as <-.
  set (e := tensor_pay (fEz (ph_F p))). set (hx := tensor_pay (fHx (ph_F p))). set (hy := tensor_pay (fHy (ph_F p))).
  assert (Es : tm_sample g (ph_F p) (TPoint (3, 4)) Ez = Ok (PReal (tval (fEz (ph_F p)) 3 4))).
  { cbn [tm_sample]. rewrite (to_grid_int g 3 4 Hd); [|unfold is_int32; lia|unfold is_int32; lia]. cbn [bind get_field]. unfold tat. cbn [fst snd].
    destruct (wf_F p Hw) as ((D1 & D2) & _). rewrite Hg, Nx in D1. rewrite Hg, Ny in D2. unfold tget. rewrite D1, D2. reflexivity. }
  destruct (Ht (PReal (tval (fEz (ph_F p)) 3 4)) e hx hy (PReal (tval (fEz (ph_F p)) 3 4)) e (vadd (4, 4) (1, 0)) (vadd (4, 4) (1, 0)) 0 (0 + 1)) as (f' & E). unfold tail_file, put in E.
  repeat (apply bind_ok in E; let f := fresh "f" in let H := fresh "E" in destruct E as (f & H & E)).
  cbn [run out_tail exec].
  unfold add_tmon at 1. cbn [f_h5]. rewrite tm_add_eq. unfold tm_path. cbn [probe tm_name tm_shape_]. rewrite E0. cbn [bind]. rewrite E1. cbn [prim obind set_f_h5 set_f_tmons f_tmons app].
  unfold set_f_h5, set_f_tmons. cbn [f_ph f_mons f_tmons f_mats f_h5 f_clk app].
  fold probe.
  rewrite (write_tmon_step g probe (PReal (tval (fEz (ph_F p)) 3 4)) mons mats f1 f3 p (TMon "probe" (TPoint (3, 4)) Ez (mk_every 0) [Ez]) Hg eq_refl Es).
  2: { rewrite tm_write1_eq. cbn [probe tm_shape_ tm_dsets existsb tm_name tm_fields tm_every]. rewrite Es. cbn [bind]. unfold tm_path. cbn [tm_name probe comp_str]. rewrite E2. cbn [bind]. rewrite E3. reflexivity. }
  cbn [obind]. unfold writeE at 1. rewrite (write_field_step Ez (fEz (ph_F p)) _ _ _ _ _ f4 f5 eq_refl); [|now left|exact E4|exact E5].
  cbn [obind]. unfold writeH. rewrite (write_field_step Hx (fHx (ph_F p)) _ _ _ _ _ f6 f7 eq_refl); [|now right; left|exact E6|exact E7].
  cbn [obind]. rewrite (write_field_step Hy (fHy (ph_F p)) _ _ _ _ _ f8 f9 eq_refl); [|now right; right|exact E8|exact E9].
  cbn [obind]. rewrite (on_obj_step chip) by (exact Ho || reflexivity).
  cbn [obind]. rewrite (write_current_step (obj_move (1, 0) chip) _ _ _ _ _ f10 f11 f12) by (exact eq_refl || assumption).
  cbn [obind]. rewrite (on_obj_step (obj_move (1, 0) chip)) by reflexivity.
  cbn [obind]. rewrite (write_current_step (obj_rotate 1 (obj_move (1, 0) chip)) _ _ _ _ _ f13 f14 f15) by (exact eq_refl || assumption).
  cbn [obind]. unfold writeE at 1. erewrite write_field_step; [|reflexivity|now left|exact E16|exact E17].
  cbn [obind]. erewrite (write_tmon_step g _ _ _ _ _ f' _ (TMon "probe" (TPoint (3, 4)) Ez (mk_every 0) [Ez])); [|exact Hg|reflexivity|exact Es|].
  2: { rewrite tm_write1_eq. cbn [tm_shape_ tm_dsets existsb tm_name tm_fields tm_every]. change (ph_F _) with (ph_F p). rewrite Es. cbn [bind comp_eqb orb]. unfold tm_path. cbn [tm_name comp_str]. rewrite E. reflexivity. }
  eexists. reflexivity.
Qed.

Lemma updates_frame n : forall s s', f_tmons s = [] -> at_rest s -> run (repeat Update n) s = Fine s' ->
  f_h5 s' = f_h5 s /\ f_tmons s' = [] /\ at_rest s' /\ ph_objs (f_ph s') = ph_objs (f_ph s).
Proof.
  induction n as [|n IH]; intros s s' Ht Hr H; cbn [repeat run] in H; [injection H as <-; auto|].
  apply obind_fine in H. destruct H as (a & Ha & H). assert (Ra : at_rest a) by exact (exec_rest Update s a Hr Ha).
  cbn [exec] in Ha. assert (Pa := Ha). apply update_phys_step, phys_step_static, static_eq in Pa. apply update_split in Ha. destruct Ha as (b & Hb & B1 & B2 & _).
  unfold step_tmons in Hb. rewrite B2, Ht in Hb. cbn [List.length seq oloop] in Hb. injection Hb as ->.
  destruct (IH a s') as (A & B & C & D); [congruence|exact Ra|exact H|]. rewrite A, D. split; [congruence|]. split; [congruence|]. split; [exact C|]. tauto.
Qed.

Lemma out_run : exists (g : grid) s0 s1 s2 s, mk_grid 8 8 1 1 = Ok g /\ handy g /\ mk_field g "out" = Ok s0 /\
  run (out_head ++ [AddMonitor gate]) s0 = Fine s1 /\ run (repeat Update 3) s1 = Fine s2 /\ run out_tail s2 = Fine s /\ run out_cmds s0 = Fine s /\
  f_tmons s2 = [] /\ ph_objs (f_ph s2) = [chip].
Proof.
  destruct grid8 as (g & Eg & Hok & Nx & Ny & Hdx & HLx & HLy & Hp).
  assert (Hh : handy g) by (unfold handy; rewrite Nx, Ny, Hdx, Hp; split; [exact Hok|]; split; [lia|]; split; [lia|]; split; [lia|lra]).
  assert (Hr : roomy g) by (unfold roomy; lia).
  destruct (mk_field_fresh g "out" Hr) as (p & Ep & E0); [discriminate|]. set (s0 := Field p [] [] [] (fresh_h5 g) mk_clocks) in *.
  assert (G0 := mk_field_good g Hr "out" _ E0).
  destruct (mk_phys_ok g Hr) as (p' & Ep' & Hw & Gp & Sp & Tp & Op & Np). rewrite Ep in Ep'. injection Ep' as <-.
  destruct (files g) as (fh & Ef & _). assert (Ef0 := Ef). unfold head_file in Ef.
  apply bind_ok in Ef. destruct Ef as (f1 & F1 & Ef). apply bind_ok in Ef. destruct Ef as (f2 & F2 & Ef). apply bind_ok in Ef. destruct Ef as (f3 & F3 & F4).
  destruct chip_box as [D3 D4].
  destruct (paint_in_domain g chip (ph_C p) Hok) as [c1 Ec1]; [rewrite <- Gp; apply (wf_C p Hw)| | |].
  1, 2: rewrite ?D3, ?D4; unfold in_box, domain; cbn [mk_volume v_a v_b fst snd]; rewrite HLx, HLy; rnumg; lra.
  destruct (add_object_fine chip s0 f1 f2 c1) as (sa & E1 & H1 & M1 & Mo1 & T1 & K1 & G1 & O1 & S1 & N1 & Q1); try assumption.
  { cbn [s0 f_ph]. now rewrite Gp. } { cbn [s0 f_ph]. rewrite Gp. lia. } { cbn [s0 f_ph]. rewrite Gp. lia. }
  cbn [s0 f_ph f_mats f_mons f_tmons f_clk] in *.
  assert (Ea : exec (AddObject chip) s0 = Fine sa) by exact E1.
  set (sb := map_ph (fun p => set_ph_srcs (ph_srcs p ++ [lamp]) p) (set_f_h5 f3 sa)).
  assert (Eb : exec (AddSource lamp) sa = Fine sb). { cbn [exec]. unfold add_source. rewrite H1, F3. reflexivity. }
  assert (Hb : run out_head s0 = Fine sb). { unfold out_head. cbn [run]. rewrite Ea. cbn [obind]. rewrite Eb. reflexivity. }
  assert (Rb : reachable g sb). { exists "out"%string, s0, out_head. split; [exact E0|]. now apply run_run_catch. }
  destruct (reachable_good g sb Hr Rb) as [_ Gb].
  assert (In : forall x y : R, 2 <= x <= 5 -> 2 <= y <= 5 -> inside g (x, y)).
  { intros x y Hx Hy. unfold inside, in_box, interior, mk_volume. cbn [v_a v_b fst snd]. rewrite HLx, HLy, Hdx, Hp. rnumg. lra. }
  assert (Wg : within g gate).
  { eapply within_surface; [exact wall_made|apply In; lra|apply In; lra|]. unfold apart.
    rewrite (to_grid_int g 3 3), (to_grid_int g 3 5) by (assumption || (unfold is_int32; lia)). congruence. }
  destruct (mon_live_attach g gate) as (m' & Em & _); [apply Hok|now apply within_watches|].
  assert (Ec : exec (AddMonitor gate) sb = Fine (set_f_h5 fh (set_f_mons (f_mons sb ++ [m']) sb))).
  { cbn [exec]. unfold add_monitor. rewrite Gb, Em. cbn [prim]. rewrite (mon_attach_writes g _ _ _ Em). replace (f_h5 sb) with f3 by reflexivity. rewrite F4. reflexivity. }
  set (s1 := set_f_h5 fh (set_f_mons (f_mons sb ++ [m']) sb)) in *.
  assert (R1 : run (out_head ++ [AddMonitor gate]) s0 = Fine s1). { rewrite run_app, Hb. cbn [obind run]. rewrite Ec. reflexivity. }
  destruct (within_safe g sb [gate] s1 3) as [s2 E2].
  { exact Hr. } { exact Hh. } { exact Rb. }
  { split.
    - cbn [sb f_ph map_ph set_f_ph set_f_h5 set_ph_srcs ph_srcs ph_grid]. rewrite S1, G1, Sp, Gp. cbn [app].
      intros r [<-|[]]. split; [now left|]. exists (3, 3)%Z. split; [now apply (to_grid_int g 3 3)|]. unfold in_grid. rewrite Nx, Ny. cbn. lia.
    - cbn. rewrite Q1, Tp. discriminate. }
  { unfold stopped. cbn [sb f_clk map_ph set_f_ph set_f_h5]. rewrite K1. split; reflexivity. }
  { cbn. now rewrite Mo1. } { cbn. now rewrite T1. } { constructor; [exact Wg|constructor]. } { cbn [map run]. rewrite Ec. reflexivity. }
  { cbn. rewrite N1, Np. unfold INT_MIN. lia. } { cbn. rewrite N1, Np. unfold INT_MAX. lia. }
  destruct (updates_frame 3 s1 s2) as (U1 & U2 & U3 & U4); [cbn; now rewrite T1|unfold at_rest; cbn; now rewrite K1|exact E2|].
  assert (R2 : run ((out_head ++ [AddMonitor gate]) ++ repeat Update 3) s0 = Fine s2) by (rewrite run_app, R1; exact E2).
  assert (G2 := run_post g Hr _ _ G0 : post (good g) (run ((out_head ++ [AddMonitor gate]) ++ repeat Update 3) s0)). rewrite R2 in G2. destruct G2 as [W2 G2].
  destruct s2 as [p2 mo2 t2 ma2 h2 k2]. cbn [f_ph f_tmons f_h5 f_clk] in *. unfold at_rest in U3. cbn [f_clk] in U3. subst t2 h2 k2.
  destruct (out_tail_fine g p2 mo2 ma2 fh) as [s E3]; try assumption; [rewrite U4; cbn; rewrite O1, Op; reflexivity|]. assert (O2 : ph_objs p2 = [chip]) by (rewrite U4; cbn; rewrite O1, Op; reflexivity).
  exists g, s0, s1, (Field p2 mo2 [] ma2 fh mk_clocks), s. repeat (split; [assumption|]).
  split; [|split; [reflexivity|exact O2]]. unfold out_cmds. rewrite app_assoc, app_assoc, run_app, R2. exact E3.
Qed.

(** a second metal under the name of the first one *)
Definition plate : obj := Obj "plate" false (Block (2, 2)) (Material "metal" (KDrude (Drude 3 [UPole 2 1]))) (4, 4) 0.
Lemma plate_box : v_a (obj_box plate) = (3, 3) /\ v_b (obj_box plate) = (5, 5).
Proof. exact chip_box. Qed.
Lemma clash_run : exists (g : grid) s0 s, mk_field g "out" = Ok s0 /\ run [AddObject chip; AddObject plate] s0 = Fine s.
Proof.
  destruct grid8 as (g & Eg & Hok & Nx & Ny & Hdx & HLx & HLy & Hp).
  assert (Hr : roomy g) by (unfold roomy; lia).
  destruct (mk_field_fresh g "out" Hr) as (p & Ep & E0); [discriminate|]. set (s0 := Field p [] [] [] (fresh_h5 g) mk_clocks) in *.
  assert (G0 := mk_field_good g Hr "out" _ E0).
  destruct (mk_phys_ok g Hr) as (p' & Ep' & Hw & Gp & Sp & Tp & Op & Np). rewrite Ep in Ep'. injection Ep' as <-.
  assert (Ef : exists f, (f <- write_mat (fresh_h5 g) (o_mat chip) ;; f <- write_obj f chip ;; write_obj f plate) = Ok f) by (eexists; reflexivity).
  destruct Ef as (f3 & Ef). apply bind_ok in Ef. destruct Ef as (f1 & F1 & Ef). apply bind_ok in Ef. destruct Ef as (f2 & F2 & F3).
  assert (Hbox : forall o c, coefs_dims (g_Nx g) (g_Ny g) c -> o = plate \/ o = chip -> exists c', paint g o c = Ok c').
  { intros o c Hc Ho. destruct plate_box as [D1 D2], chip_box as [D3 D4].
    apply (paint_in_domain g o c Hok Hc); destruct Ho as [-> | ->]; rewrite ?D1, ?D2, ?D3, ?D4;
      unfold in_box, domain; cbn [mk_volume v_a v_b fst snd]; rewrite HLx, HLy; rnumg; lra. }
  destruct (Hbox chip (ph_C p)) as [c1 Ec1]; [rewrite <- Gp; apply (wf_C p Hw)|now right|].
  destruct (add_object_fine chip s0 f1 f2 c1) as (sa & E1 & H1 & M1 & Mo1 & T1 & K1 & G1 & O1 & S1 & N1 & Q1); try assumption.
  { cbn [s0 f_ph]. now rewrite Gp. } { cbn [s0 f_ph]. rewrite Gp. lia. } { cbn [s0 f_ph]. rewrite Gp. lia. }
  assert (Gd1 : good g sa). { assert (H := exec_post g Hr (AddObject chip) _ G0). cbn [exec] in H. now rewrite E1 in H. }
  destruct (Hbox plate (ph_C (f_ph sa))) as [c2 Ec2]; [|now left|]. { destruct Gd1 as [W1 W2]. rewrite <- W2. apply (wf_C _ W1). }
  cbn in M1.
  destruct (add_object_fine plate sa f2 f3 c2) as (sb & E2 & _).
  { rewrite M1, H1. reflexivity. } { exact F3. } { destruct Gd1 as [_ W2]. now rewrite W2. } { apply Gd1. } { rewrite (proj2 Gd1). lia. } { rewrite (proj2 Gd1). lia. }
  exists g, s0, sb. split; [exact E0|]. cbn [run exec]. rewrite E1. cbn [obind]. rewrite E2. reflexivity.
Qed.

(** parts of the run *)
Lemma tail_parts : exists s sa sb sc sd s' : field, nth_error (f_tmons s) 0 = Some probe /\ exec (WriteTimeMonitor 0) s = Fine sa /\ write_field Ez sa = Fine sb /\ exec WriteH sb = Fine sc /\
  run [WriteTimeMonitor 0; WriteE; WriteH] s = Fine sc /\ run [WriteCurrent 0; WriteE; WriteTimeMonitor 0] sd = Fine s'.
Proof.
  destruct out_run as (g & s0 & s1 & s2 & s & _ & _ & _ & _ & _ & T & _ & T0 & _). unfold out_tail in T.
  assert (Sp : forall a l s s', run (a :: l) s = Fine s' -> exists b, exec a s = Fine b /\ run l b = Fine s') by (intros a l u u' H; cbn [run] in H; now apply obind_fine).
  apply Sp in T. destruct T as (a1 & T1 & T). assert (M1 : nth_error (f_tmons a1) 0 = Some probe).
  { cbn [exec] in T1. unfold add_tmon in T1. apply prim_fine in T1. destruct T1 as (f & _ & T1). injection T1 as <-. cbn [f_tmons set_f_h5 set_f_tmons]. rewrite T0. reflexivity. }
  apply Sp in T. destruct T as (a2 & T2 & T). apply Sp in T. destruct T as (a3 & T3 & T). apply Sp in T. destruct T as (a4 & T4 & T). apply Sp in T. destruct T as (a5 & T5 & T).
  apply Sp in T. destruct T as (a6 & T6 & T). apply Sp in T. destruct T as (a7 & T7 & T).
  exists a1, a2, a3, a4, a7, s. split; [exact M1|]. split; [exact T2|]. split; [exact T3|]. split; [exact T4|]. split; [|exact T]. cbn [run]. rewrite T2. cbn [obind]. rewrite T3. cbn [obind]. rewrite T4. reflexivity.
Qed.
Lemma sources_run : exists p p1 p2 : phys, ph_srcs p = [lamp; wire] /\ pulse_src 0 p = Fine p1 /\ pulse_src 1 p = Fine p2 /\ sr_kind lamp = SPoint (3, 3) /\ sr_kind wire = SLine wire_surf.
Proof.
  destruct source_run as (g & s0 & s & _ & Hok & Hg & _ & _ & Hr & Hi & _ & _ & _ & _ & Hs). destruct (reachable_good g s Hg Hr) as [Hw _].
  destruct (pulse_src_ok 0 (f_ph s) Hw (sources_inside_placed _ Hi)) as (p1 & E1 & _). destruct (pulse_src_ok 1 (f_ph s) Hw (sources_inside_placed _ Hi)) as (p2 & E2 & _).
  exists (f_ph s), p1, p2. auto.
Qed.
