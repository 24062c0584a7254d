(** Conversions and clipping of whole regions (C01, C12, C13), monitors as their constructor makes them (C53), the empty far-field
    function (C80), one-pole materials (C81). *)
From Coq Require Import ZArith Reals List String Bool Lia Lra.
From Flocq Require Import Core.Core IEEE754.BinarySingleNaN.
From Verif Require Import Scalar Base BaseFacts VecM GridM Float FloatFacts GeometryM MaterialM PmlM DftM TfsfM PolarM
  InterpM H5M ClockM MonitorM FieldM FreeM ArraysM SpecGrid SpecSafety GridFacts RejectFacts ArraysFacts RegionFacts.
Import ListNotations.
Local Open Scope R_scope.
#[local] Existing Instance RNum.

(** C01 for volumes and surfaces: the real region has the real corners, and converts back to the same cells *)
Theorem C01_volume_real : forall (g : grid) a b, g_dx g <> 0 -> cell32 a -> cell32 b ->
  exists v, to_real_volume g (mk_ivolume a b) = v /\ v_a v = to_real g a /\ v_b v = to_real g b /\ to_grid_volume g v = Ok (mk_ivolume a b).
Proof. exact volume_R. Qed.
Print Assumptions C01_volume_real.
Theorem C01_surface_real : forall (g : grid) a b sg s, g_dx g <> 0 -> cell32 a -> cell32 b -> mk_isurface a b sg = Ok s ->
  exists r, to_real_surface g s = Ok r /\ s_a r = to_real g a /\ s_b r = to_real g b /\ s_sign r = sg /\ to_grid_surface g r = Ok s.
Proof. exact surface_R. Qed.
Print Assumptions C01_surface_real.
Theorem C01_volume_double : forall (L : libm) (g : @grid (B64 L)) a b, is_finite (g_dx g : f64) = true ->
  bpow radix2 (-1022) <= Rabs (B2R (g_dx g : f64)) <= bpow radix2 990 -> cell32 a -> cell32 b ->
  exists v, @to_real_volume (B64 L) g (mk_ivolume a b) = v /\ v_a v = @to_real (B64 L) g a /\ v_b v = @to_real (B64 L) g b /\
    @to_grid_volume (B64 L) g v = Ok (mk_ivolume a b).
Proof. exact volume_b64. Qed.
Print Assumptions C01_volume_double.
Theorem C01_surface_double : forall (L : libm) (g : @grid (B64 L)) a b sg s, is_finite (g_dx g : f64) = true ->
  bpow radix2 (-1022) <= Rabs (B2R (g_dx g : f64)) <= bpow radix2 990 -> cell32 a -> cell32 b -> mk_isurface a b sg = Ok s ->
  exists r, @to_real_surface (B64 L) g s = Ok r /\ s_a r = @to_real (B64 L) g a /\ s_b r = @to_real (B64 L) g b /\ s_sign r = sg /\
    @to_grid_surface (B64 L) g r = Ok s.
Proof. exact surface_b64. Qed.
Print Assumptions C01_surface_double.
Example C01_region_case : cell32 (-5, 7)%Z /\ cell32 (-5, 30)%Z /\ exists s, mk_isurface (-5, 7)%Z (-5, 30)%Z Negative = Ok s.
Proof. unfold cell32, is_int32. cbn. repeat split; try lia. eexists. reflexivity. Qed.

(** C12 and C13 for the real-valued clip *)
Theorem C12_clip_keeps_points : forall (g : grid) (v : volume) p, in_box (0, 0) (g_Lx g, g_Ly g) p -> in_box (v_a v) (v_b v) p ->
  in_box (v_a (clip g v)) (v_b (clip g v)) p.
Proof. exact clip_keeps. Qed.
Print Assumptions C12_clip_keeps_points.
Theorem C13_clip_points_refuted : forall (g : grid), 0 < g_Lx g -> 0 < g_Ly g ->
  (exists v p, in_box (v_a v) (v_b v) (0, 0) /\ in_box (v_a (clip g v)) (v_b (clip g v)) p /\ g_Lx g < fst p) /\
  (exists v p, in_box (v_a v) (v_b v) (0, 0) /\ in_box (v_a (clip g v)) (v_b (clip g v)) p /\ snd p < 0).
Proof. exact clip_escapes. Qed.
Print Assumptions C13_clip_points_refuted.
Theorem C13_clip_points_partial : forall (g : grid) (v : volume) p, 0 <= g_Lx g -> 0 <= g_Ly g ->
  fst (v_b v) <= g_Lx g -> 0 <= snd (v_a v) ->
  in_box (v_a (clip g v)) (v_b (clip g v)) p -> in_box (0, 0) (g_Lx g, g_Ly g) p.
Proof. exact clip_confines. Qed.
Print Assumptions C13_clip_points_partial.
Example C12_clip_points_case : exists g : grid, mk_grid 8 8 1 1 = Ok g /\ 0 < g_Lx g /\ 0 < g_Ly g /\
  let v := mk_volume (-3, 5) (2, 30) in
  fst (v_b v) <= g_Lx g /\ 0 <= snd (v_a v) /\ in_box (0, 0) (g_Lx g, g_Ly g) (1, 6) /\ in_box (v_a v) (v_b v) (1, 6).
Proof.
  destruct grid8 as (g & E & _ & _ & _ & _ & HLx & HLy & _). exists g. rewrite HLx, HLy. unfold in_box. cbn.
  repeat split; try lra. exact E.
Qed.

(** C53 for every monitor as the constructor makes it *)
Theorem C53_made_refuted : forall (g : grid) name nm p k freq s0 s1, big_enough g -> 0 < g_dt g -> mk_field g name = Ok s0 ->
  cart_keys k <> [] -> add_monitor (MPt (mk_pt_mon nm p k freq)) s0 = Fine s1 -> update s1 = Undef DanglingRef.
Proof.
  intros g name nm p k freq s0 s1 B D E K A. apply (@point_monitor_first RNum g name s0 (mk_pt_mon nm p k freq) s1 B E K); [|exact A].
  cbn. rnum. unfold Reqb. destruct Req_EM_T; [lra|reflexivity].
Qed.
Print Assumptions C53_made_refuted.
Example C53_made_case : exists (g : grid) s0 s1, big_enough g /\ mk_field g "out" = Ok s0 /\ cart_keys DAll <> [] /\
  add_monitor (MPt (mk_pt_mon "pin" (3, 3) DAll [1; 2])) s0 = Fine s1.
Proof. destruct pin_run as (g & s0 & s1 & A & B & C & _ & D). exists g, s0, s1. auto. Qed.

(** C80: the other far-field function has no body *)
Theorem C80_sphere_refuted : forall (N : Num) E H (da : @T N) sg v, @compute_ntff_sphere N E H da sg <> Ok v.
Proof. intros N E H da sg v. discriminate. Qed.
Print Assumptions C80_sphere_refuted.

(** C81: the constructors that take numbers make one pole *)
Theorem C81_one_debye_partial : forall (N : Num) (eps deps tau : @T N), exists m, mk_adebye1 eps deps tau = Ok m /\
  ad_npoles m = 1%Z /\ forall dt, ad_beta m dt = Ok (debye_beta (Debye eps [DPole deps tau]) dt) /\
    ad_kappa m dt = Ok (debye_kappa (Debye eps [DPole deps tau]) dt) /\ ad_Cb m dt = Ok (mat_Cb (KDebye (Debye eps [DPole deps tau])) dt).
Proof. intros N eps deps tau. eexists. split; [reflexivity|]. exact (debye_arrays eps [DPole deps tau]). Qed.
Print Assumptions C81_one_debye_partial.
Theorem C81_one_drude_partial : forall (N : Num) (eps omega gamma : @T N), exists m, mk_adrude1 eps omega gamma = Ok m /\
  au_npoles m = 1%Z /\ forall dt, au_beta m dt = Ok (drude_beta (Drude eps [UPole omega gamma]) dt) /\
    au_kappa m dt = Ok (drude_kappa (Drude eps [UPole omega gamma]) dt) /\
    au_Ca m dt = Ok (mat_Ca (KDrude (Drude eps [UPole omega gamma])) dt) /\
    au_Cb m dt = Ok (mat_Cb (KDrude (Drude eps [UPole omega gamma])) dt).
Proof. intros N eps omega gamma. eexists. split; [reflexivity|]. exact (drude_arrays eps [UPole omega gamma]). Qed.
Print Assumptions C81_one_drude_partial.
Theorem C81_one_lorentz_partial : forall (N : Num) (eps omega deps gamma : @T N), exists m, mk_alorentz1 eps omega deps gamma = Ok m /\
  al_npoles m = 1%Z /\ forall dt, let p := Lorentz eps [LPole omega deps gamma] in
    al_alpha m dt = Ok (lorentz_alpha p dt) /\ al_beta m dt = Ok (lorentz_beta p dt) /\
    al_delta m dt = Ok (lorentz_delta p dt) /\ al_Ca_prev m dt = Ok (lorentz_Ca_prev p dt) /\
    al_Ca m dt = Ok (mat_Ca (KLorentz p) dt) /\ al_Cb m dt = Ok (mat_Cb (KLorentz p) dt).
Proof. intros N eps omega deps gamma. eexists. split; [reflexivity|]. exact (lorentz_arrays eps [LPole omega deps gamma]). Qed.
Print Assumptions C81_one_lorentz_partial.
