(** Far fields: C69-C71. *)
From Coq Require Import ZArith Reals List Bool String Lia Lra.
From Verif Require Import Scalar Base VecM GridM DftM InterpM H5M MonitorM FieldM ReportM SpecGrid GridFacts SpecDft SpecSample SampleFacts MonFacts SpecStress FluxFacts FarFacts FarBox
  SpecFar RadiateFacts ExampleFacts ExampleSrc ExampleMon.
Import ListNotations.
Local Open Scope R_scope.
#[local] Existing Instance RNum.

(** ** C69 *)
Theorem C69_surface : forall (a b : R * R) sg s m n (dx : R) (c : R * R), mk_surface a b sg = Ok s -> a <> b -> sm_surf m = s ->
  recorded (sm_dft m) n ["Ez"%string; h_along a b] -> sm_len m = Z.of_nat n -> outgoing (d_freq (sm_dft m)) (surf_ntff dx m c) c.
Proof. exact surf_outgoing. Qed.
Print Assumptions C69_surface.
Theorem C69_cylinder : forall m n, recorded (cm_dft m) n ["Ez"; "Hp"]%string -> cm_len m = Z.of_nat n -> outgoing (d_freq (cm_dft m)) (cyl_ntff m) (cs_center (cm_surf m)).
Proof. exact cyl_outgoing. Qed.
Print Assumptions C69_cylinder.
Theorem C69_box : forall g name v k freq l m (dx : R), box_ran g name v k freq l m -> k = DTangent \/ k = DAll -> outgoing freq (box_ntff dx m) (middle v).
Proof. exact box_outgoing. Qed.
Print Assumptions C69_box.
(** so the power per angle does not depend on the distance *)
Theorem C69_power : forall freq far c u k f r r' fl fl' z z', outgoing freq far c -> unit2 u -> nth_error freq k = Some f -> 0 < f -> 0 < r -> 0 < r' ->
  far (seen_from c r u) = Ok fl -> far (seen_from c r' u) = Ok fl' -> nth_error fl k = Some z -> nth_error fl' k = Some z' -> r * power2 z = r' * power2 z'.
Proof. exact outgoing_power. Qed.
Print Assumptions C69_power.
(** and whole wavelengths further out the phase is the same *)
Theorem C69_wavelength : forall freq far c u k f r fl fl' z z' (n : nat), outgoing freq far c -> unit2 u -> nth_error freq k = Some f -> 0 < f -> 0 < r ->
  far (seen_from c r u) = Ok fl -> far (seen_from c (r + INR n / f) u) = Ok fl' -> nth_error fl k = Some z -> nth_error fl' k = Some z' ->
  scale2 (sqrt r) z = scale2 (sqrt (r + INR n / f)) z'.
Proof. exact outgoing_phase. Qed.
Print Assumptions C69_wavelength.
(** a segment, a circle and a box after three updates *)
Example C69_case : exists (g : grid) l b s c, box_ran g "square" square DAll [1] l b /\ List.length l = 3%nat /\
  mk_surface (3, 3) (3, 5) Positive = Ok wall /\ (3, 3) <> (3, 5) /\ sm_surf s = wall /\ sm_len s = 2%Z /\ recorded (sm_dft s) 2 ["Ez"%string; h_along (3, 3) (3, 5)] /\
  recorded (cm_dft c) (Z.to_nat (cm_len c)) ["Ez"; "Hp"]%string /\ cm_len c = Z.of_nat (Z.to_nat (cm_len c)) /\ unit2 (3 / 5, 4 / 5).
Proof.
  destruct watched as (g & l & s0 & s & b & c0 & c & v0 & v & Hd1 & Hd & Hn & Hl & A1 & A2 & B & C1 & C2 & _). exists g, l, b, s, c. split; [exact B|]. split; [exact Hn|]. split; [exact wall_made|].
  destruct (surf_recorded g _ _ _ _ _ _ _ _ _ _ wall_made A1 A2) as (E & Ne & _ & R & _). specialize (R (or_intror eq_refl)).
  assert (E3 : sm_len s = 2%Z).
  { destruct (surf_sums g _ _ _ _ _ _ _ _ _ _ Hd wall_made A1 A2 Hl) as (P & Q & E1 & E2 & E3 & _). rewrite (to_grid_int g 3 3 Hd1) in E1 by (unfold is_int32; lia). rewrite (to_grid_int g 3 5 Hd1) in E2 by (unfold is_int32; lia).
    injection E1 as <-. injection E2 as <-. exact E3. }
  rewrite E3 in R. change (Z.to_nat 2) with 2%nat in R. do 3 (split; [assumption|]). split; [exact R|].
  destruct (cyl_recorded g _ _ _ _ _ _ _ C1 C2) as (_ & _ & L & R1 & _). split; [exact R1|]. split; [exact L|]. unfold unit2, dot2. cbn [fst snd]. lra.
Qed.

(** ** C70 *)
Theorem C70_box : forall g name v k freq l m (dx r : R) n, box_ran g name v k freq l m -> k = DTangent \/ k = DAll -> (2 <= n)%nat ->
  exists tb, mon_report dx (MBox m) (QCircle r (Z.of_nat n)) = Ok (PCplx tb) /\ round_table (List.length freq) (box_ntff dx m) (middle v) r n tb.
Proof. exact box_circle. Qed.
Print Assumptions C70_box.
Theorem C70_cylinder : forall m (r : R) n w, recorded (cm_dft m) w ["Ez"; "Hp"]%string -> cm_len m = Z.of_nat w -> (2 <= n)%nat -> forall dx : R,
  exists tb, mon_report dx (MCyl m) (QCircle r (Z.of_nat n)) = Ok (PCplx tb) /\ round_table (List.length (d_freq (cm_dft m))) (cyl_ntff m) (cs_center (cm_surf m)) r n tb.
Proof. exact cyl_circle. Qed.
Print Assumptions C70_cylinder.
Theorem C70_even : forall n i, (2 <= n)%nat -> angle_of n 0 = 0 /\ angle_of n (n - 1) = 2 * PI /\ angle_of n (S i) - angle_of n i = 2 * PI / INR (n - 1).
Proof. exact even_spacing. Qed.
Print Assumptions C70_even.
(** the last row is the first again *)
Theorem C70_closes : forall w far c r n tb, (2 <= n)%nat -> round_table w far c r n tb -> forall j, (j < w)%nat -> entry_at w tb (n - 1) j = entry_at w tb 0 j.
Proof. exact table_closes. Qed.
Print Assumptions C70_closes.
Example C70_case : exists (g : grid) l b tb, box_ran g "square" square DAll [1] l b /\ List.length l = 3%nat /\ (2 <= 9)%nat /\ round_table 1 (box_ntff 1 b) (middle square) 50 9 tb /\ List.length tb = 9%nat.
Proof.
  destruct watched as (g & l & s0 & s & b & c0 & c & v0 & v & Hd1 & Hd & Hn & Hl & A1 & A2 & B & _).
  destruct (box_circle g _ _ _ _ _ _ 1 50 9 B (or_intror eq_refl) ltac:(lia)) as (tb & _ & F). exists g, l, b, tb. split; [exact B|]. split; [exact Hn|]. split; [lia|]. split; [exact F|apply F].
Qed.

(** ** C71 *)
(** the same uniform content on the same segment, cut into n1 and n2 pieces *)
Theorem C71_refuted : ~ forall (a b : R * R) sg s m1 m2 n1 n2 (dx1 dx2 : R) (c pc e h : R * R), mk_surface a b sg = Ok s -> a <> b -> sm_surf m1 = s -> sm_surf m2 = s ->
  d_freq (sm_dft m1) = d_freq (sm_dft m2) -> uniform (sm_dft m1) n1 (h_along a b) e h -> uniform (sm_dft m2) n2 (h_along a b) e h -> sm_len m1 = Z.of_nat n1 -> sm_len m2 = Z.of_nat n2 ->
  0 < dx1 -> 0 < dx2 -> INR n1 * dx1 = sqrt (dot2 (minus2 b a) (minus2 b a)) -> INR n2 * dx2 = sqrt (dot2 (minus2 b a) (minus2 b a)) -> broadside a b c pc ->
  surf_ntff dx1 m1 c pc = surf_ntff dx2 m2 c pc.
Proof. exact samples_count. Qed.
Print Assumptions C71_refuted.
(** it is proportional to the number of pieces *)
Theorem C71_samples_partial : forall (a b : R * R) sg s m n (dx : R) (c pc e h : R * R), mk_surface a b sg = Ok s -> a <> b -> sm_surf m = s ->
  uniform (sm_dft m) n (h_along a b) e h -> sm_len m = Z.of_nat n -> broadside a b c pc ->
  let p := minus2 pc c in let t := direction a b in
  exists fl : list (R * R), surf_ntff dx m c pc = Ok fl /\ List.length fl = List.length (d_freq (sm_dft m)) /\
    forall k f, nth_error (d_freq (sm_dft m)) k = Some f -> nth_error fl k =
      Some (scale2 (INR n) (times2 (far_factor (2 * PI * f) (sqrt (dot2 p p)))
        (far_term 1 (2 * PI * f) p (minus2 a c) (right_of t) e (scale2 (if vertical a b then snd t else fst t) h)))).
Proof. exact broadside_sum. Qed.
Print Assumptions C71_samples_partial.
Example C71_case : exists s n, mk_surface (3, 3) (3, 5) Positive = Ok s /\ (3, 3) <> (3, 5) /\ n = 40%nat /\ sm_surf (even_side s n) = s /\ sm_len (even_side s n) = Z.of_nat n /\
  uniform (sm_dft (even_side s n)) n (h_along (3, 3) (3, 5)) (1, 0) (1, 0) /\ broadside (3, 3) (3, 5) (3, 4) (70, 4).
Proof.
  exists wall, 40%nat. split; [exact wall_made|]. split; [intros E; injection E; lra|]. split; [reflexivity|]. split; [reflexivity|]. split; [reflexivity|]. split.
  - replace (h_along (3, 3) (3, 5)) with "Hy"%string; [apply even_uniform|]. unfold h_along, vertical. destruct (Req_EM_T (fst (3, 3)) (fst (3, 5))) as [|Q]; [reflexivity|exfalso; apply Q; reflexivity].
  - split; [|intros E; injection E; lra]. rewrite direction_vertical; [|reflexivity|cbn; lra]. unfold dot2, minus2. cbn [fst snd]. lra.
Qed.
