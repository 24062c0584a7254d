(** Properties of the frequency monitors: C30-C34, C54, C58, C60. *)
From Coq Require Import ZArith Reals List Bool String Lia Lra.
From Verif Require Import Scalar Base BaseFacts VecM GridM DftM InterpM H5M MonitorM FieldM SpecGrid GridFacts PhysFacts HalfFacts ReachFacts SpecSafety SafeFacts
  SpecDft DftFacts SpecSample SampleFacts MonFacts MonRun SpecStress FluxFacts FarFacts FarBox SubFacts
  SpecLive LiveFacts LiveRun LiveFail ExampleFacts ExampleSrc ExampleMon.
Import ListNotations.
Local Open Scope R_scope.
#[local] Existing Instance RNum.

(** ** C30 *)
(** samples given one by one: every rank, any component names, samples and frequencies *)
Theorem C30_sums : forall l d, shaped d -> later (d_t d) (map fst l) ->
  exists d', feed l d = Ok d' /\ d_freq d' = d_freq d /\ shaped d' /\ d_t d' = last (map fst l) (d_t d) /\
  forall key i k f z, nth_error (d_freq d) k = Some f -> coef d key i k = Some z ->
    coef d' key i k = Some (plus2 z (fourier f (map (fun tg => (fst tg, snd tg key i)) l))).
Proof. exact feed_sums. Qed.
Print Assumptions C30_sums.
(** a surface monitor: the samples are the fields at the middles of the cell edges, Ez averaged with the previous step *)
Theorem C30_surface : forall g a b sg s name k freq m0 m l, 0 < g_dx g -> mk_surface a b sg = Ok s ->
  surf_attach g (mk_surf_mon name s k freq) = Ok m0 -> surf_feed g l m0 = Ok m -> later 0 (map fst l) ->
  exists A B, to_grid g a = Ok A /\ to_grid g b = Ok B /\ sm_len m = edges A B /\ shaped (sm_dft m) /\ d_freq (sm_dft m) = freq /\
  forall c i kf f, wants k (fst A =? fst B)%Z c -> (0 <= i < edges A B)%Z -> nth_error freq kf = Some f ->
    exists vs, Forall2 (fun tF v => interpolate (g_dx g) (snd tF) c (edge_middle (g_dx g) A B i) = Ok v) l vs /\
      coef (sm_dft m) (key_of c) (Z.to_nat i) kf = Some (fourier f (combine (map fst l) (in_time c vs))).
Proof. exact surf_sums. Qed.
Print Assumptions C30_surface.
Theorem C30_cylinder : forall g cs all name freq m0 m l, cyl_attach g (mk_cyl_mon name cs all freq) = Ok m0 -> cyl_feed g l m0 = Ok m -> later 0 (map fst l) ->
  nceil (2 * PI * cs_radius cs / g_dx g) = Some (cm_len m) /\ shaped (cm_dft m) /\ d_freq (cm_dft m) = freq /\
  forall c i kf f, (c = RHr -> all = true) -> (0 <= i < cm_len m)%Z -> nth_error freq kf = Some f ->
    exists vs, Forall2 (fun tF v => circle_value (g_dx g) (snd tF) c (on_circle (cs_center cs) (cs_radius cs) (arc_middle (cm_len m) i)) (arc_middle (cm_len m) i) v) l vs /\
      coef (cm_dft m) (rkey c) (Z.to_nat i) kf = Some (fourier f (combine (map fst l) (match c with REz => averages 0 vs | _ => vs end))).
Proof. exact cyl_sums. Qed.
Print Assumptions C30_cylinder.
Theorem C30_volume : forall g v name k freq m0 m l, vol_attach g (mk_vol_mon name v k freq) = Ok m0 -> vol_feed g l m0 = Ok m -> later 0 (map fst l) ->
  exists A B, to_grid g (v_a v) = Ok A /\ to_grid g (v_b v) = Ok B /\ shaped (vm_dft m) /\ d_freq (vm_dft m) = freq /\
  let nx := (Z.abs (fst B - fst A) + 1)%Z in let ny := (Z.abs (snd B - snd A) + 1)%Z in
  (forall c, wants2 k c -> exists e, slookup (key_of c) (d_map (vm_dft m)) = Some e /\ List.length e = Z.to_nat (nx * ny)) /\
  forall c i j kf f, wants2 k c -> (0 <= i < nx)%Z -> (0 <= j < ny)%Z -> nth_error freq kf = Some f ->
    exists vs, Forall2 (fun tF v => tget (field_of (snd tF) c) (fst A + i) (snd A + j) = Ok v) l vs /\
      coef (vm_dft m) (key_of c) (Z.to_nat (i * ny + j)) kf = Some (fourier f (combine (map fst l) vs)).
Proof. exact vol_sums. Qed.
Print Assumptions C30_volume.
(** what the monitors of a simulation are fed: at each of n updates the fields after the E half-step, at t + dt, t + 2 dt, ... *)
Theorem C30_simulation : forall n s s', run (repeat Update n) s = Fine s' ->
  exists l, seen (f_ph s) n l /\ map fst l = map (fun m => ph_t (f_ph s) + INR (Datatypes.S m) * g_dt (ph_grid (f_ph s))) (seq 0 n) /\
    forall j m, nth_error (f_mons s) j = Some m -> exists m', nth_error (f_mons s') j = Some m' /\ mon_feed (ph_grid (f_ph s)) l m = Ok m'.
Proof. exact run_monitors. Qed.
Print Assumptions C30_simulation.
Theorem C30_times_increase : forall t0 dt n, 0 < dt -> later t0 (map (fun m => t0 + INR (Datatypes.S m) * dt) (seq 0 n)).
Proof. exact times_later. Qed.
Print Assumptions C30_times_increase.
(** a run of three updates with a surface, a box, a circle and a block *)
Example C30_case : exists (g : grid) l s0 s c0 c v0 v, 0 < g_dx g /\ mk_surface (3, 3) (3, 5) Positive = Ok wall /\ List.length l = 3%nat /\ later 0 (map fst l) /\
  surf_attach g (mk_surf_mon "wall" wall DAll [1; 2]) = Ok s0 /\ surf_feed g l s0 = Ok s /\
  cyl_attach g (mk_cyl_mon "ring" ring true [1]) = Ok c0 /\ cyl_feed g l c0 = Ok c /\
  vol_attach g (mk_vol_mon "block" square DAll [1]) = Ok v0 /\ vol_feed g l v0 = Ok v.
Proof. destruct watched as (g & l & s0 & s & b & c0 & c & v0 & v & _ & H). exists g, l, s0, s, c0, c, v0, v. split; [apply H|]. split; [exact wall_made|]. intuition. Qed.
Example C30_run_case : exists (s s' : field), ph_srcs (f_ph s) = [lamp] /\ List.length (f_mons s) = 4%nat /\ run (repeat Update 5) s = Fine s'.
Proof.
  destruct (watch_fed 5) as (g & s & s1 & s2 & m & l & _ & _ & _ & Hs & _ & E1 & E2 & _ & _ & F); [unfold INT_MAX; cbn; lia|].
  exists s1, s2. destruct (adds_attached (ph_grid (f_ph s)) _ _ _ eq_refl E1) as (P & _). rewrite P. split; [exact Hs|]. split; [|exact E2].
  rewrite <- (mons_length 5 s1 s2 E2). unfold watchers in F. do 4 (apply Forall2_inv_len in F; let b := fresh in let r := fresh in let E := fresh in destruct F as (b & r & E & F); rewrite E). inversion F. reflexivity.
Qed.

(** ** C31 *)
Theorem C31_same_time : forall (S S2 : Type) (f : sampler S) (f2 : sampler S2) s s2 d t d' s',
  dft_update f s d t = Ok (d', s') -> dft_update f2 s2 d' t = Ok (d', s2).
Proof. exact @update_again. Qed.
Print Assumptions C31_same_time.
Theorem C31_monitor : forall g F F2 t m m', mon_update g F t m = Ok m' -> mon_update g F2 t m' = Ok m'.
Proof. exact mon_again. Qed.
Print Assumptions C31_monitor.
Theorem C31_not_recorded : forall s s1 s2, ph_t (f_ph s) = 0 -> run [Update] s = Fine s1 -> run [ClearFields; Update] s1 = Fine s2 -> f_mons s2 = f_mons s1.
Proof. exact repeat_not_recorded. Qed.
Print Assumptions C31_not_recorded.
Example C31_case : exists (s1 sa sb : field), ph_t (f_ph s1) = 0 /\ List.length (f_mons s1) = 4%nat /\ run [Update] s1 = Fine sa /\ run [ClearFields; Update] sa = Fine sb.
Proof. exact watch_twice. Qed.

(** ** C32 *)
Theorem C32_coefficients : forall d o, NoDup (map fst (d_map d)) -> same_shape d o ->
  exists d', dft_sub d o = Ok d' /\ d_t d' = d_t d /\ d_freq d' = d_freq d /\ map fst (d_map d') = map fst (d_map d) /\ same_shape d' d /\
    forall key i k z w, coef d key i k = Some z -> coef o key i k = Some w -> coef d' key i k = Some (minus2 z w).
Proof. exact dft_sub_ok. Qed.
Print Assumptions C32_coefficients.
(** monitors of one region, kind and frequencies have the same shape, whatever they recorded *)
Theorem C32_surfaces_alike : forall g s nm nm2 k freq m0 o0 m o l l2,
  surf_attach g (mk_surf_mon nm s k freq) = Ok m0 -> surf_feed g l m0 = Ok m ->
  surf_attach g (mk_surf_mon nm2 s k freq) = Ok o0 -> surf_feed g l2 o0 = Ok o -> same_shape (sm_dft m) (sm_dft o) /\ shaped (sm_dft m).
Proof. exact surf_alike. Qed.
Print Assumptions C32_surfaces_alike.
Theorem C32_cylinders_alike : forall g s nm nm2 all freq m0 o0 m o l l2,
  cyl_attach g (mk_cyl_mon nm s all freq) = Ok m0 -> cyl_feed g l m0 = Ok m ->
  cyl_attach g (mk_cyl_mon nm2 s all freq) = Ok o0 -> cyl_feed g l2 o0 = Ok o -> same_shape (cm_dft m) (cm_dft o) /\ shaped (cm_dft m).
Proof. exact cyl_alike. Qed.
Print Assumptions C32_cylinders_alike.
Theorem C32_surface : forall m o, shaped (sm_dft m) -> same_shape (sm_dft m) (sm_dft o) ->
  exists m', surf_sub m o = Ok m' /\ less (sm_dft m') (sm_dft m) (sm_dft o) /\
    d_t (sm_dft m') = d_t (sm_dft m) /\ d_freq (sm_dft m') = d_freq (sm_dft m) /\ sm_surf m' = sm_surf m /\ sm_len m' = sm_len m /\ sm_prevE m' = sm_prevE m.
Proof. exact surf_sub_ok. Qed.
Print Assumptions C32_surface.
Theorem C32_cylinder : forall m o, shaped (cm_dft m) -> same_shape (cm_dft m) (cm_dft o) ->
  exists m', cyl_sub m o = Ok m' /\ less (cm_dft m') (cm_dft m) (cm_dft o) /\
    d_t (cm_dft m') = d_t (cm_dft m) /\ d_freq (cm_dft m') = d_freq (cm_dft m) /\ cm_surf m' = cm_surf m /\ cm_len m' = cm_len m /\ cm_prevE m' = cm_prevE m.
Proof. exact cyl_sub_ok. Qed.
Print Assumptions C32_cylinder.
Theorem C32_box : forall m o, List.length (bm_sides m) = List.length (bm_sides o) ->
  (forall j x y, nth_error (bm_sides m) j = Some x -> nth_error (bm_sides o) j = Some y -> shaped (sm_dft x) /\ same_shape (sm_dft x) (sm_dft y)) ->
  exists m', box_sub m o = Ok m' /\ List.length (bm_sides m') = List.length (bm_sides m) /\
    forall j x y, nth_error (bm_sides m) j = Some x -> nth_error (bm_sides o) j = Some y ->
      exists z, nth_error (bm_sides m') j = Some z /\ less (sm_dft z) (sm_dft x) (sm_dft y) /\ sm_surf z = sm_surf x.
Proof. exact box_sub_ok. Qed.
Print Assumptions C32_box.
Theorem C32_self : forall d' d, less d' d d -> forall key i k, coef d' key i k = match coef d key i k with Some _ => Some (0, 0) | None => None end.
Proof. exact less_self. Qed.
Print Assumptions C32_self.
(** the monitor of a run of three steps, minus the same monitor before it recorded anything; a box minus itself *)
Example C32_case : exists (m o : surf_mon) (b : box_mon), shaped (sm_dft m) /\ same_shape (sm_dft m) (sm_dft o) /\ sm_len m = 2%Z /\
  List.length (bm_sides b) = 4%nat /\ forall j x y, nth_error (bm_sides b) j = Some x -> nth_error (bm_sides b) j = Some y -> shaped (sm_dft x) /\ same_shape (sm_dft x) (sm_dft y).
Proof.
  destruct watched as (g & l & s0 & s & b & c0 & c & v0 & v & Hd1 & Hd & _ & Hl & A1 & A2 & B & _). exists s, s0, b.
  destruct (surf_alike g wall "wall" "wall" DAll [1; 2] s0 s0 s s0 l [] A1 A2 A1 eq_refl) as [X Y]. split; [exact Y|]. split; [exact X|].
  split.
  { destruct (surf_sums g _ _ _ _ _ _ _ _ _ _ Hd wall_made A1 A2 Hl) as (P & Q & E1 & E2 & E3 & _). rewrite (to_grid_int g 3 3 Hd1) in E1 by (unfold is_int32; lia). rewrite (to_grid_int g 3 5 Hd1) in E2 by (unfold is_int32; lia).
    injection E1 as <-. injection E2 as <-. exact E3. }
  destruct (box_sides_are _ _ _ _ _ _ _ B) as (_ & L & S). split; [exact L|]. intros j x y Hx Hy. rewrite Hx in Hy. injection Hy as <-.
  assert (Hj : (j < 4)%nat) by (rewrite <- L; apply nth_error_Some; congruence). destruct (S j x Hj Hx) as (_ & _ & sf & _ & _ & _ & _ & R). split; [apply (R eq_refl)|apply same_shape_refl].
Qed.

(** ** C33 *)
Theorem C33_surface : forall (a b : R * R) sg s m n (dx : R), mk_surface a b sg = Ok s -> sm_surf m = s -> recorded (sm_dft m) n ["Ez"%string; h_along a b] ->
  exists fl : list R, surf_flux dx m = Ok fl /\ List.length fl = List.length (d_freq (sm_dft m)) /\
    forall k, (k < List.length (d_freq (sm_dft m)))%nat -> nth_error fl k =
      Some (total n (fun i => dot2 (poynting (cval (sm_dft m) "Ez" i k) (cval (sm_dft m) "Hx" i k) (cval (sm_dft m) "Hy" i k)) (side_normal a b sg) * dx)).
Proof. exact surf_flux_sum. Qed.
Print Assumptions C33_surface.
Theorem C33_sign : forall (a b : R * R) sp sn mp mn n (dx : R), mk_surface a b Positive = Ok sp -> mk_surface a b Negative = Ok sn -> sm_surf mp = sp -> sm_surf mn = sn -> sm_dft mn = sm_dft mp ->
  recorded (sm_dft mp) n ["Ez"%string; h_along a b] ->
  exists fp fn : list R, surf_flux dx mp = Ok fp /\ surf_flux dx mn = Ok fn /\ List.length fp = List.length fn /\ forall k x, nth_error fp k = Some x -> nth_error fn k = Some (- x).
Proof. exact surf_flux_flip. Qed.
Print Assumptions C33_sign.
Theorem C33_cylinder : forall m n, recorded (cm_dft m) n ["Ez"; "Hp"]%string -> cm_len m = Z.of_nat n ->
  exists fl : list R, cyl_flux m = Ok fl /\ List.length fl = List.length (d_freq (cm_dft m)) /\
    forall k, (k < List.length (d_freq (cm_dft m)))%nat -> nth_error fl k =
      Some (total n (fun i => let th := arc_middle (Z.of_nat n) (Z.of_nat i) in let hp := cval (cm_dft m) "Hp" i k in let hr := cval (cm_dft m) "Hr" i k in
        dot2 (poynting (cval (cm_dft m) "Ez" i k) (cart_x th hp hr) (cart_y th hp hr)) (e_r th) * (2 * PI * cs_radius (cm_surf m) / INR n))).
Proof. exact cyl_flux_sum. Qed.
Print Assumptions C33_cylinder.
Theorem C33_box : forall g name v k freq l m (dx : R), box_ran g name v k freq l m -> k = DTangent \/ k = DAll ->
  exists (x : nat -> surf_mon) (fl : list R), (forall j, (j < 4)%nat -> nth_error (bm_sides m) j = Some (x j)) /\ box_flux dx m = Ok fl /\ List.length fl = List.length freq /\
    forall kf, (kf < List.length freq)%nat -> nth_error fl kf = Some (total 4 (fun j => outflow (sm_dft (x j)) (Z.to_nat (sm_len (x j))) (looks j) dx kf)).
Proof. exact box_flux_sum. Qed.
Print Assumptions C33_box.
(** the four directions point away from the middle of the box *)
Theorem C33_outward : forall v j q, (j < 4)%nat -> fst (v_a v) <= fst (v_b v) -> snd (v_a v) <= snd (v_b v) -> 0 <= q <= 1 ->
  0 <= dot2 (minus2 (plus2 (fst (fst (side_ends (v_a v) (v_b v) j))) (scale2 q (minus2 (snd (fst (side_ends (v_a v) (v_b v) j))) (fst (fst (side_ends (v_a v) (v_b v) j)))))) (middle v)) (looks j).
Proof. exact looks_outward. Qed.
Print Assumptions C33_outward.
(** which monitors have recorded the components flux() and force() need *)
Theorem C33_surface_recorded : forall g (a b : R * R) sg s name k freq m0 m l, mk_surface a b sg = Ok s ->
  surf_attach g (mk_surf_mon name s k freq) = Ok m0 -> surf_feed g l m0 = Ok m ->
  sm_surf m = s /\ a <> b /\ d_freq (sm_dft m) = freq /\
  (k = DTangent \/ k = DAll -> recorded (sm_dft m) (Z.to_nat (sm_len m)) ["Ez"%string; h_along a b]) /\
  (k = DAll -> recorded (sm_dft m) (Z.to_nat (sm_len m)) hxy).
Proof. exact surf_recorded. Qed.
Print Assumptions C33_surface_recorded.
Theorem C33_cylinder_recorded : forall g cs all name freq m0 m l, cyl_attach g (mk_cyl_mon name cs all freq) = Ok m0 -> cyl_feed g l m0 = Ok m ->
  cm_surf m = cs /\ d_freq (cm_dft m) = freq /\ cm_len m = Z.of_nat (Z.to_nat (cm_len m)) /\
  recorded (cm_dft m) (Z.to_nat (cm_len m)) ["Ez"; "Hp"]%string /\ (all = true -> recorded (cm_dft m) (Z.to_nat (cm_len m)) hpr).
Proof. exact cyl_recorded. Qed.
Print Assumptions C33_cylinder_recorded.
(** the run of three updates *)
Example C33_case : exists (g : grid) l m b c, mk_surface (3, 3) (3, 5) Positive = Ok wall /\ sm_surf m = wall /\ recorded (sm_dft m) (Z.to_nat (sm_len m)) ["Ez"%string; h_along (3, 3) (3, 5)] /\
  box_ran g "square" square DAll [1] l b /\ List.length l = 3%nat /\ recorded (cm_dft c) (Z.to_nat (cm_len c)) ["Ez"; "Hp"]%string /\ cm_len c = Z.of_nat (Z.to_nat (cm_len c)) /\ cm_surf c = ring.
Proof.
  destruct watched as (g & l & s0 & s & b & c0 & c & v0 & v & _ & Hd & Hn & _ & A1 & A2 & B & C1 & C2 & _). exists g, l, s, b, c. split; [exact wall_made|].
  destruct (surf_recorded g _ _ _ _ _ _ _ _ _ _ wall_made A1 A2) as (E & _ & _ & R & _). split; [exact E|]. split; [apply R; now right|]. split; [exact B|]. split; [exact Hn|].
  destruct (cyl_recorded g _ _ _ _ _ _ _ C1 C2) as (E2 & _ & L & R2 & _). auto.
Qed.

(** ** C34 *)
Theorem C34_surface_force : forall (a b : R * R) sg s m n (dx : R), mk_surface a b sg = Ok s -> a <> b -> sm_surf m = s -> recorded (sm_dft m) n hxy ->
  exists fl : list (R * R), surf_force dx m = Ok fl /\ List.length fl = List.length (d_freq (sm_dft m)) /\
    forall k, (k < List.length (d_freq (sm_dft m)))%nat -> nth_error fl k = Some (total2 n (fun i => pull (sm_dft m) (side_normal a b sg) dx i k)).
Proof. exact surf_force_sum. Qed.
Print Assumptions C34_surface_force.
Theorem C34_surface_torque : forall (a b : R * R) sg s m n (dx : R) (c : R * R), mk_surface a b sg = Ok s -> a <> b -> sm_surf m = s -> recorded (sm_dft m) n hxy ->
  exists fl : list R, surf_torque dx c m = Ok fl /\ List.length fl = List.length (d_freq (sm_dft m)) /\
    forall k, (k < List.length (d_freq (sm_dft m)))%nat -> nth_error fl k = Some (total n (fun i => cross2 (minus2 (arm a b dx i) c) (pull (sm_dft m) (side_normal a b sg) dx i k))).
Proof. exact surf_torque_sum. Qed.
Print Assumptions C34_surface_torque.
Theorem C34_box_force : forall g name v freq l m (dx : R), box_ran g name v DAll freq l m ->
  exists (x : nat -> surf_mon) (fl : list (R * R)), (forall j, (j < 4)%nat -> nth_error (bm_sides m) j = Some (x j)) /\ box_force dx m = Ok fl /\ List.length fl = List.length freq /\
    forall kf, (kf < List.length freq)%nat -> nth_error fl kf = Some (total2 4 (fun j => total2 (Z.to_nat (sm_len (x j))) (fun i => pull (sm_dft (x j)) (looks j) dx i kf))).
Proof. exact box_force_sum. Qed.
Print Assumptions C34_box_force.
Theorem C34_box_torque : forall g name v freq l m (dx : R), box_ran g name v DAll freq l m ->
  exists (x : nat -> surf_mon) (fl : list R), (forall j, (j < 4)%nat -> nth_error (bm_sides m) j = Some (x j)) /\ box_torque dx m = Ok fl /\ List.length fl = List.length freq /\
    forall kf, (kf < List.length freq)%nat -> nth_error fl kf = Some (total 4 (fun j => total (Z.to_nat (sm_len (x j)))
      (fun i => cross2 (minus2 (side_arm v dx j i) (middle v)) (pull (sm_dft (x j)) (looks j) dx i kf)))).
Proof. exact box_torque_sum. Qed.
Print Assumptions C34_box_torque.
Theorem C34_cylinder_force : forall m n, recorded (cm_dft m) n hpr -> cm_len m = Z.of_nat n ->
  exists fl : list (R * R), cyl_force m = Ok fl /\ List.length fl = List.length (d_freq (cm_dft m)) /\
    forall k, (k < List.length (d_freq (cm_dft m)))%nat -> nth_error fl k =
      Some (total2 n (fun i => circle_pull (cm_dft m) n (2 * PI * cs_radius (cm_surf m) / INR n) i k)).
Proof. exact cyl_force_sum. Qed.
Print Assumptions C34_cylinder_force.
Theorem C34_cylinder_torque : forall m n, recorded (cm_dft m) n hpr -> cm_len m = Z.of_nat n ->
  exists fl : list R, cyl_torque m = Ok fl /\ List.length fl = List.length (d_freq (cm_dft m)) /\
    forall k, (k < List.length (d_freq (cm_dft m)))%nat -> nth_error fl k =
      Some (total n (fun i => cross2 (minus2 (on_circle (cs_center (cm_surf m)) (cs_radius (cm_surf m)) (arc_middle (Z.of_nat n) (Z.of_nat i))) (cs_center (cm_surf m)))
        (circle_pull (cm_dft m) n (2 * PI * cs_radius (cm_surf m) / INR n) i k))).
Proof. exact cyl_torque_sum. Qed.
Print Assumptions C34_cylinder_torque.
(** moving the reference point *)
Theorem C34_reference : forall n (r : nat -> R * R) (f : nat -> R * R) (c c' : R * R),
  total n (fun i => cross2 (minus2 (r i) c') (f i)) - total n (fun i => cross2 (minus2 (r i) c) (f i)) = cross2 (minus2 c c') (total2 n f).
Proof. exact moment_shift. Qed.
Print Assumptions C34_reference.
Example C34_case : exists (g : grid) l m b c, (3, 3) <> (3, 5) /\ sm_surf m = wall /\ recorded (sm_dft m) (Z.to_nat (sm_len m)) hxy /\
  box_ran g "square" square DAll [1] l b /\ List.length l = 3%nat /\ recorded (cm_dft c) (Z.to_nat (cm_len c)) hpr /\ cm_len c = Z.of_nat (Z.to_nat (cm_len c)).
Proof.
  destruct watched as (g & l & s0 & s & b & c0 & c & v0 & v & _ & Hd & Hn & _ & A1 & A2 & B & C1 & C2 & _). exists g, l, s, b, c.
  destruct (surf_recorded g _ _ _ _ _ _ _ _ _ _ wall_made A1 A2) as (E & Ne & _ & _ & R). split; [exact Ne|]. split; [exact E|]. split; [now apply R|]. split; [exact B|]. split; [exact Hn|].
  destruct (cyl_recorded g _ _ _ _ _ _ _ C1 C2) as (E2 & _ & L & _ & R2). auto.
Qed.

(** ** C54 *)
(** a box adds up its sides, all seen from its middle *)
Theorem C54_box_partial : forall g name v k freq l m (dx : R) (p : R * R), box_ran g name v k freq l m -> k = DTangent \/ k = DAll ->
  exists (x : nat -> surf_mon) (f : nat -> list (R * R)) (fl : list (R * R)), (forall j, (j < 4)%nat -> nth_error (bm_sides m) j = Some (x j) /\ surf_ntff dx (x j) (middle v) p = Ok (f j) /\ List.length (f j) = List.length freq) /\
    box_ntff dx m p = Ok fl /\ List.length fl = List.length freq /\
    forall kf, (kf < List.length freq)%nat -> nth_error fl kf = Some (total2 4 (fun j => nth kf (f j) (0, 0))).
Proof. exact box_far. Qed.
Print Assumptions C54_box_partial.
Theorem C54_surface_linear_partial : forall (a b : R * R) sg s m1 m2 m3 n (dx : R) (c pc u v : R * R), mk_surface a b sg = Ok s -> a <> b -> sm_surf m1 = s -> sm_surf m2 = s -> sm_surf m3 = s ->
  recorded (sm_dft m1) n ["Ez"%string; h_along a b] -> recorded (sm_dft m2) n ["Ez"%string; h_along a b] -> recorded (sm_dft m3) n ["Ez"%string; h_along a b] ->
  sm_len m1 = Z.of_nat n -> sm_len m2 = Z.of_nat n -> sm_len m3 = Z.of_nat n -> mixed u v (sm_dft m1) (sm_dft m2) (sm_dft m3) ->
  exists l1 l2 l3, surf_ntff dx m1 c pc = Ok l1 /\ surf_ntff dx m2 c pc = Ok l2 /\ surf_ntff dx m3 c pc = Ok l3 /\ mixed_results u v l1 l2 l3.
Proof. exact surf_ntff_linear. Qed.
Print Assumptions C54_surface_linear_partial.
Theorem C54_cylinder_linear_partial : forall m1 m2 m3 n (pc u v : R * R), cm_surf m1 = cm_surf m3 -> cm_surf m2 = cm_surf m3 ->
  recorded (cm_dft m1) n ["Ez"; "Hp"]%string -> recorded (cm_dft m2) n ["Ez"; "Hp"]%string -> recorded (cm_dft m3) n ["Ez"; "Hp"]%string ->
  cm_len m1 = Z.of_nat n -> cm_len m2 = Z.of_nat n -> cm_len m3 = Z.of_nat n -> mixed u v (cm_dft m1) (cm_dft m2) (cm_dft m3) ->
  exists l1 l2 l3, cyl_ntff m1 pc = Ok l1 /\ cyl_ntff m2 pc = Ok l2 /\ cyl_ntff m3 pc = Ok l3 /\ mixed_results u v l1 l2 l3.
Proof. exact cyl_ntff_linear. Qed.
Print Assumptions C54_cylinder_linear_partial.
(** the exact sums: H_t + (p.n/|p|) E_z on a segment, H_t - (p.n/|p|) E_z on a circle *)
Theorem C54_surface_sum_partial : surf_uses (fun k p q t n ez ht => far_term 1 k p q n ez ht).
Proof. exact surf_uses_plus. Qed.
Print Assumptions C54_surface_sum_partial.
Theorem C54_cylinder_sum_partial : circle_uses (fun k p q t n ez ht => far_term (-1) k p q n ez ht).
Proof. exact circle_uses_minus. Qed.
Print Assumptions C54_cylinder_sum_partial.
Theorem C54_refuted : ~ exists f, surf_uses f /\ circle_uses f.
Proof. exact integrands_differ. Qed.
Print Assumptions C54_refuted.
(** the run of three updates; and twice a content, as 1 * content + 1 * content *)
Example C54_case : exists (g : grid) l b m m3, box_ran g "square" square DAll [1] l b /\ List.length l = 3%nat /\
  mk_surface (3, 3) (3, 5) Positive = Ok wall /\ (3, 3) <> (3, 5) /\ sm_surf m = wall /\ sm_surf m3 = wall /\ sm_len m = 2%Z /\ sm_len m3 = 2%Z /\
  recorded (sm_dft m) 2 ["Ez"%string; h_along (3, 3) (3, 5)] /\ recorded (sm_dft m3) 2 ["Ez"%string; h_along (3, 3) (3, 5)] /\ mixed (1, 0) (0, 0) (sm_dft m) (sm_dft m3) (sm_dft m3).
Proof.
  destruct watched as (g & l & s0 & s & b & c0 & c & v0 & v & Hd1 & Hd & Hn & Hl & A1 & A2 & B & C1 & C2 & _). exists g, l, b, s, s. split; [exact B|]. split; [exact Hn|]. split; [exact wall_made|].
  destruct (surf_recorded g _ _ _ _ _ _ _ _ _ _ wall_made A1 A2) as (E & Ne & _ & R & _). specialize (R (or_intror eq_refl)).
  assert (E3 : sm_len s = 2%Z).
  { destruct (surf_sums g _ _ _ _ _ _ _ _ _ _ Hd wall_made A1 A2 Hl) as (P & Q & E1 & E2 & E3 & _). rewrite (to_grid_int g 3 3 Hd1) in E1 by (unfold is_int32; lia). rewrite (to_grid_int g 3 5 Hd1) in E2 by (unfold is_int32; lia).
    injection E1 as <-. injection E2 as <-. exact E3. }
  rewrite E3 in R. change (Z.to_nat 2) with 2%nat in R. do 5 (split; [assumption|]). split; [exact R|]. split; [exact R|].
  split; [reflexivity|]. split; [reflexivity|]. intros key i k. unfold blend2, times2, plus2. cbn [fst snd]. destruct (cval (sm_dft s) key i k) as [x y]. cbn [fst snd]. f_equal; lra.
Qed.

(** ** C58 *)
(** the cells of a volume time monitor, in row-major order, each once *)
Theorem C58_volume_time : forall g F v c y A B, to_grid g (v_a v) = Ok A -> to_grid g (v_b v) = Ok B -> (fst A <= fst B)%Z -> (snd A <= snd B)%Z ->
  tm_sample g F (TVol v) c = Ok y -> exists f l, get_field F c = Ok f /\ y = PReals l /\ cells_of f (block A B) l.
Proof. exact tm_volume_cells. Qed.
Print Assumptions C58_volume_time.
Theorem C58_block : forall A B c, In c (block A B) <-> (fst A <= fst c <= fst B)%Z /\ (snd A <= snd c <= snd B)%Z.
Proof. exact block_In. Qed.
Print Assumptions C58_block.
Theorem C58_block_once : forall A B, NoDup (block A B).
Proof. exact block_NoDup. Qed.
Print Assumptions C58_block_once.
Theorem C58_surface_time : forall g F (a b : R * R) sg s c y A B, mk_surface a b sg = Ok s -> to_grid g a = Ok A -> to_grid g b = Ok B ->
  tm_sample g F (TSurf s) c = Ok y -> exists f l, get_field F c = Ok f /\ y = PReals l /\
    cells_of f (map (fun i => (fst A + i * Z.sgn (fst B - fst A), snd A + i * Z.sgn (snd B - snd A))%Z) (zrange 0 (edges A B))) l.
Proof. exact tm_surface_cells. Qed.
Print Assumptions C58_surface_time.
(** a volume monitor: one update at a new time reads cell (i, j) of the block for sample i*ny+j *)
Theorem C58_volume : forall g v name k freq m0 m F t, vol_attach g (mk_vol_mon name v k freq) = Ok m0 -> vol_update g F t m0 = Ok m -> 0 < t ->
  exists A B, to_grid g (v_a v) = Ok A /\ to_grid g (v_b v) = Ok B /\
  let nx := (Z.abs (fst B - fst A) + 1)%Z in let ny := (Z.abs (snd B - snd A) + 1)%Z in
  forall c i j kf f, wants2 k c -> (0 <= i < nx)%Z -> (0 <= j < ny)%Z -> nth_error freq kf = Some f ->
    exists x, tget (field_of F c) (fst A + i) (snd A + j) = Ok x /\
      coef (vm_dft m) (key_of c) (Z.to_nat (i * ny + j)) kf = Some (x * cos (2 * PI * f * t), x * sin (2 * PI * f * t)).
Proof. exact vol_one. Qed.
Print Assumptions C58_volume.
(** a surface monitor: sample i is at the middle of edge i, halfway between two neighbouring cells *)
Theorem C58_surface : forall g a b sg s name k freq m0 m F t, 0 < g_dx g -> mk_surface a b sg = Ok s ->
  surf_attach g (mk_surf_mon name s k freq) = Ok m0 -> surf_update g F t m0 = Ok m -> 0 < t ->
  exists A B, to_grid g a = Ok A /\ to_grid g b = Ok B /\ sm_len m = edges A B /\
  forall c i kf f, wants k (fst A =? fst B)%Z c -> (0 <= i < edges A B)%Z -> nth_error freq kf = Some f ->
    exists x, interpolate (g_dx g) F c (edge_middle (g_dx g) A B i) = Ok x /\
      let y := match c with Ez => x / 2 | _ => x end in
      coef (sm_dft m) (key_of c) (Z.to_nat i) kf = Some (y * cos (2 * PI * f * t), y * sin (2 * PI * f * t)).
Proof. exact surf_one. Qed.
Print Assumptions C58_surface.
Theorem C58_middle : forall dx A B i, edge_middle dx A B i =
  (dx * ((IZR (fst A + i * Z.sgn (fst B - fst A)) + IZR (fst A + (i + 1) * Z.sgn (fst B - fst A))) / 2),
   dx * ((IZR (snd A + i * Z.sgn (snd B - snd A)) + IZR (snd A + (i + 1) * Z.sgn (snd B - snd A))) / 2)).
Proof. exact edge_middle_between. Qed.
Print Assumptions C58_middle.
Theorem C58_either_end : forall dx A B i, fst A = fst B \/ snd A = snd B -> (0 <= i < edges A B)%Z -> edge_middle dx B A i = edge_middle dx A B (edges A B - 1 - i).
Proof. exact edge_middle_back. Qed.
Print Assumptions C58_either_end.
Example C58_case : exists (g : grid) s0 s v0 v F t, 0 < g_dx g /\ 0 < t /\ surf_attach g (mk_surf_mon "wall" wall DAll [1; 2]) = Ok s0 /\ surf_update g F t s0 = Ok s /\
  vol_attach g (mk_vol_mon "block" square DAll [1]) = Ok v0 /\ vol_update g F t v0 = Ok v /\
  to_grid g (v_a square) = Ok (3, 3)%Z /\ to_grid g (v_b square) = Ok (5, 5)%Z.
Proof.
  destruct watched as (g & l & s0 & s & b & c0 & c & v0 & v & Hd1 & Hd & Hn & Hl & A1 & A2 & B & C1 & C2 & V1 & V2).
  destruct l as [|[t F] l]; [discriminate|]. unfold surf_feed, vol_feed in A2, V2. cbn [foldM fst snd] in A2, V2.
  destruct (surf_update g F t s0) as [s'| |] eqn:U1; cbn [bind] in A2; try discriminate. destruct (vol_update g F t v0) as [v'| |] eqn:U2; cbn [bind] in V2; try discriminate.
  exists g, s0, s', v0, v', F, t. split; [exact Hd|]. split; [apply Hl|]. do 4 (split; [assumption|]).
  split; [apply (to_grid_int g 3 3 Hd1)|apply (to_grid_int g 5 5 Hd1)]; unfold is_int32; lia.
Qed.

(** ** C60 *)
(** cells no longer than the stored layer thickness: adding such monitors cannot be undefined, and then any number of updates runs *)
Theorem C60_added_partial : forall g m s, handy g -> ph_grid (f_ph s) = g -> within g m -> (exists e s', add_monitor m s = Raise e s' /\ f_ph s' = f_ph s /\ f_mons s' = f_mons s /\ f_tmons s' = f_tmons s /\ f_clk s' = f_clk s) \/ exists s', add_monitor m s = Fine s'.
Proof. exact within_added. Qed.
Print Assumptions C60_added_partial.
Theorem C60_updates_partial : forall g s ms s1 n, big_enough g -> handy g -> reachable g s -> sources_inside (f_ph s) -> stopped s ->
  f_mons s = [] -> f_tmons s = [] -> Forall (within g) ms -> run (map AddMonitor ms) s = Fine s1 ->
  (INT_MIN <= ph_step (f_ph s))%Z -> (ph_step (f_ph s) + Z.of_nat n <= INT_MAX)%Z ->
  exists s', run (repeat Update n) s1 = Fine s'.
Proof. exact within_safe. Qed.
Print Assumptions C60_updates_partial.
(** any monitors whose samples can be read *)
Theorem C60_readable_partial : forall g s ms s1 n, big_enough g -> small g -> 0 < g_dx g -> reachable g s -> sources_inside (f_ph s) -> stopped s ->
  f_mons s = [] -> f_tmons s = [] -> Forall (watches g) ms -> run (map AddMonitor ms) s = Fine s1 ->
  (INT_MIN <= ph_step (f_ph s))%Z -> (ph_step (f_ph s) + Z.of_nat n <= INT_MAX)%Z ->
  exists s', run (repeat Update n) s1 = Fine s'.
Proof. exact watched_safe. Qed.
Print Assumptions C60_readable_partial.
(** longer cells: an Hx monitor on the lowest row of the interior makes the next update read outside the array *)
Theorem C60_refuted : forall g s a b sg sf name freq s1, big_enough g -> grid_ok g -> IZR (g_pml g) < g_dx g -> reachable g s -> sources_inside (f_ph s) -> stopped s ->
  f_mons s = [] -> 0 <= ph_t (f_ph s) -> (INT_MIN <= ph_step (f_ph s) < INT_MAX)%Z -> row_edge g a b -> mk_surface a b sg = Ok sf ->
  run [AddMonitor (MSurf (mk_surf_mon name sf DHx freq))] s = Fine s1 -> exists u, run [Update] s1 = Undef u.
Proof. exact edge_update_ub. Qed.
Print Assumptions C60_refuted.
Example C60_case : exists (g : grid) s m s1, big_enough g /\ handy g /\ reachable g s /\ sources_inside (f_ph s) /\ stopped s /\ f_mons s = [] /\ f_tmons s = [] /\
  Forall (within g) (watchers m) /\ run (map AddMonitor (watchers m)) s = Fine s1 /\ ph_step (f_ph s) = 0%Z.
Proof.
  destruct watch_run as (g & s0 & s & m & s1 & Eg & Hh & Hg & E0 & Es & Hr & Hs & Hk & Hm & Ht & Hst & Hsr & Em & Hw & E1). exists g, s, m, s1. auto 12.
Qed.
(** ten cells of length 4, a layer of two cells *)
Example C60_refuted_case : exists (g : grid) s0 (sf : surface) s1, mk_grid 40 40 (1 / 4) 1 = Ok g /\ big_enough g /\ grid_ok g /\ IZR (g_pml g) < g_dx g /\ (g_Nx g <= 46341)%Z /\ (g_Ny g <= 46341)%Z /\
  mk_field g "out" = Ok s0 /\ reachable g s0 /\ sources_inside (f_ph s0) /\ stopped s0 /\ f_mons s0 = [] /\ ph_t (f_ph s0) = 0 /\ ph_step (f_ph s0) = 0%Z /\
  row_edge g (8, 8) (16, 8) /\ mk_surface (8, 8) (16, 8) Positive = Ok sf /\ run [AddMonitor (MSurf (mk_surf_mon "edge" sf DHx [1]))] s0 = Fine s1.
Proof. exact coarse_run. Qed.
