(** Near-to-far-field transforms as sums of equivalent currents *)
From Coq Require Import ZArith Reals List Bool String Lia Lra Psatz.
From Verif Require Import Scalar Base BaseFacts VecM GridM DftM InterpM MonitorM OutFacts GridFacts
  SpecDft DftFacts SpecSample SampleFacts MonFacts SpecStress FluxFacts.
Import ListNotations.
Local Open Scope R_scope.
#[local] Existing Instance RNum.

Definition waves (d : dft) : list R := map (fun f => 2 * PI * f) (d_freq d).
(** the sum of the terms of all samples *)
Lemma ntff_sum d n ks ke kh (E H : dentry) (term : Z -> R -> R * R -> R * R -> R * R) : recorded d n ks -> In ke ks -> In kh ks -> dft_get d ke = Ok E -> dft_get d kh = Ok H ->
  forall FF, FF = fold_left (fun acc '(i, (e, h)) => map (fun '(a, (k, (ej, hj))) => plus2 a (term i k ej hj)) (combine acc (combine (waves d) (combine e h))))
    (combine (zseq 0 n) (combine E H)) (repeat (0, 0) (List.length (waves d))) ->
  List.length FF = List.length (d_freq d) /\ forall k, (k < List.length (d_freq d))%nat ->
    nth_error FF k = Some (total2 n (fun i => term (Z.of_nat i) (wave d k) (cval d ke i k) (cval d kh i k))).
Proof.
  intros Hr He Hh GE GH FF EF. destruct (recorded_get _ _ _ _ Hr He) as (E' & G1 & L1 & N1 & R1). destruct (recorded_get _ _ _ _ Hr Hh) as (H' & G2 & L2 & N2 & R2).
  rewrite G1 in GE. rewrite G2 in GH. injection GE as <-. injection GH as <-.
  assert (Lw : List.length (waves d) = List.length (d_freq d)) by (unfold waves; now rewrite map_length).
  destruct (cols_sum2 (fun i => combine (waves d) (combine (nth i E' []) (nth i H' []))) (2 * PI * 0, ((0, 0), (0, 0)))
     (fun i y => term (Z.of_nat i) (fst y) (fst (snd y)) (snd (snd y))) (List.length (d_freq d)) n FF) as [A1 A2].
  { intros i Hi. rewrite !combine_length, Lw, R1, R2 by exact Hi. lia. }
  { rewrite EF, Lw. change (@T RNum) with R. rewrite (rows3 E' H' n [] [] N1 N2), fold_left_map. apply fold_left_ext. intros F i. apply map_ext. intros [a [k [ej hj]]]. reflexivity. }
  split; [exact A1|]. intros k Hk. refine (eq_trans (A2 k Hk) _). f_equal. apply total2_ext. intros i Hi.
  rewrite !combine_nth by (rewrite ?combine_length, ?Lw, ?R1, ?R2 by exact Hi; lia). cbn [fst snd].
  rewrite (cval_nth _ _ _ _ _ L1), (cval_nth _ _ _ _ _ L2). unfold waves, wave. rewrite (map_nth (fun f => 2 * PI * f)). reflexivity.
Qed.
Lemma finish_nth d (tot : list (R * R)) r k z : (k < List.length (d_freq d))%nat -> nth_error tot k = Some z ->
  nth_error (map (fun '(k, z) => cmul (ntff_factor k r) z) (combine (waves d) tot)) k = Some (times2 (far_factor (wave d k) r) z).
Proof.
  intros Hk Hz. assert (Hw : nth_error (waves d) k = Some (wave d k)).
  { unfold waves. rewrite nth_error_map, (nth_error_nth' _ 0 Hk). reflexivity. }
  rewrite nth_error_map. change (@T RNum) with R. rewrite (nth_error_combine _ _ _ _ _ Hw Hz). cbn [option_map]. f_equal.
  unfold cmul, times2, ntff_factor, far_factor, cis, expi, scale2. cbn [fst snd]. rnumg.
  replace (8 * r * PI * wave d k) with (8 * PI * wave d k * r) by ring. set (s := sqrt (8 * PI * wave d k * r)).
  set (u := PI / 4 - wave d k * r). unfold Rdiv. f_equal; ring.
Qed.
Lemma surf_ntff_sum (a b : R * R) sg s m n (dx : R) (c pc : R * R) : mk_surface a b sg = Ok s -> a <> b -> sm_surf m = s ->
  recorded (sm_dft m) n ["Ez"%string; h_along a b] -> sm_len m = Z.of_nat n ->
  let p := minus2 pc c in let t := direction a b in
  exists fl : list (R * R), surf_ntff dx m c pc = Ok fl /\ List.length fl = List.length (d_freq (sm_dft m)) /\
    forall k, (k < List.length (d_freq (sm_dft m)))%nat -> nth_error fl k =
      Some (times2 (far_factor (wave (sm_dft m) k) (sqrt (dot2 p p)))
        (total2 n (fun i => far_term 1 (wave (sm_dft m) k) p (minus2 (plus2 a (scale2 (INR i * dx) t)) c) (right_of t)
           (cval (sm_dft m) "Ez" i k) (scale2 (if vertical a b then snd t else fst t) (cval (sm_dft m) (h_along a b) i k))))).
Proof.
  intros Hs N <- Hr Hl p t. unfold surf_ntff. cbn zeta. rewrite (tang_key_is _ _ _ _ Hs).
  destruct (recorded_get _ _ _ "Ez" Hr (or_introl eq_refl)) as (E & G1 & _). destruct (recorded_get _ _ _ (h_along a b) Hr (or_intror (or_introl eq_refl))) as (H & G2 & _).
  rewrite G1, G2. cbn [bind]. eexists. split; [reflexivity|].
  match goal with |- context [combine (map ?w (d_freq (sm_dft m))) ?tt] => set (tot := tt) end.
  assert (Et : exists term, (forall i k e h, term i k e h = far_term 1 k p (minus2 (plus2 a (scale2 (IZR i * dx) t)) c) (right_of t) e (scale2 (if vertical a b then snd t else fst t) h)) /\
     tot = fold_left (fun acc '(i, (e, h)) => map (fun '(a, (k, (ej, hj))) => plus2 a (term i k ej hj)) (combine acc (combine (waves (sm_dft m)) (combine e h))))
       (combine (zseq 0 n) (combine E H)) (repeat (0, 0) (List.length (waves (sm_dft m))))).
  { exists (fun i k ej hj => ntff_term k (vdot (s_tangent (sm_surf m)) (1, 1)%num) (vdot (s_tangent (sm_surf m)) (nofZ (-1), 1)%num) (vdot (vsub pc c) (vabs (s_normal (sm_surf m))) / vnorm (vsub pc c))%num
      (k * vdot (vsub pc c) (vsub (vadd (s_a (sm_surf m)) (vscale dx (vscale (nofZ i) (s_tangent (sm_surf m))))) c) / vnorm (vsub pc c))%num ej hj).
    split; [|unfold tot; rewrite Hl, Nat2Z.id; reflexivity].
    intros i k e h. destruct (mk_surface_fields _ _ _ _ Hs) as (-> & _ & _). rewrite (surf_tangent_is _ _ _ _ Hs), (surf_normal_is _ _ _ _ Hs). fold t.
    unfold ntff_term, far_term, cmul, times2, cadd, plus2, cscale, scale2, cis, expi, right_of, vdot, dot2, vsub, vadd, vscale, vnorm, vsqnorm, vdot, minus2. cbn [fst snd]. rnumg.
    fold p.
    assert (T0 : if vertical a b then fst t = 0 else snd t = 0).
    { unfold vertical, t. destruct (Req_EM_T (fst a) (fst b)) as [Q|Q].
      - rewrite direction_vertical; [reflexivity|exact Q|]. intros X. apply N. destruct a, b. cbn in *. congruence.
      - rewrite direction_horizontal; [reflexivity| |exact Q]. eapply surf_axis; eauto. }
    replace (fst pc - fst c) with (fst p) by reflexivity. replace (snd pc - snd c) with (snd p) by reflexivity.
    set (r := sqrt (fst p * fst p + snd p * snd p)).
    match goal with |- context [cos ?x] => set (ph := x) end.
    match goal with |- _ = ?rhs => match rhs with context [cos ?x] => replace x with ph by (unfold ph, Rdiv; ring) end end.
    destruct (vertical a b); rewrite T0; cbn [fst snd]; unfold Rdiv; f_equal; ring. }
  destruct Et as (term & T1 & T2).
  destruct (ntff_sum _ n _ _ _ E H term Hr (or_introl eq_refl) (or_intror (or_introl eq_refl)) G1 G2 tot T2) as [A1 A2].
  split.
  - rewrite map_length, combine_length, map_length. change (@T RNum) with R in *. rewrite A1. lia.
  - intros k Hk. refine (eq_trans (finish_nth _ _ _ _ _ Hk (A2 k Hk)) _). f_equal. apply (f_equal (times2 _)). apply total2_ext. intros i Hi. rewrite T1, <- INR_IZR_INZ. reflexivity.
Qed.
Lemma cyl_ntff_sum m n (pc : R * R) : recorded (cm_dft m) n ["Ez"; "Hp"]%string -> cm_len m = Z.of_nat n ->
  let c := cs_center (cm_surf m) in let p := minus2 pc c in
  exists fl : list (R * R), cyl_ntff m pc = Ok fl /\ List.length fl = List.length (d_freq (cm_dft m)) /\
    forall k, (k < List.length (d_freq (cm_dft m)))%nat -> nth_error fl k =
      Some (times2 (far_factor (wave (cm_dft m) k) (sqrt (dot2 p p)))
        (total2 n (fun i => let th := arc_middle (Z.of_nat n) (Z.of_nat i) in
           far_term (-1) (wave (cm_dft m) k) p (minus2 (on_circle c (cs_radius (cm_surf m)) th) c) (right_of (e_phi th))
             (cval (cm_dft m) "Ez" i k) (cval (cm_dft m) "Hp" i k)))).
Proof.
  intros Hr Hl c p. unfold cyl_ntff. cbn zeta.
  destruct (recorded_get _ _ _ "Ez" Hr (or_introl eq_refl)) as (E & G1 & _). destruct (recorded_get _ _ _ "Hp" Hr (or_intror (or_introl eq_refl))) as (H & G2 & _).
  rewrite G1, G2. cbn [bind]. eexists. split; [reflexivity|].
  match goal with |- context [combine (map ?w (d_freq (cm_dft m))) ?tt] => set (tot := tt) end.
  assert (Et : exists term, (forall i k e h, term i k e h = far_term (-1) k p (minus2 (on_circle c (cs_radius (cm_surf m)) (arc_middle (Z.of_nat n) i)) c) (right_of (e_phi (arc_middle (Z.of_nat n) i))) e h) /\
     tot = fold_left (fun acc '(i, (e, h)) => map (fun '(a, (k, (ej, hj))) => plus2 a (term i k ej hj)) (combine acc (combine (waves (cm_dft m)) (combine e h))))
       (combine (zseq 0 n) (combine E H)) (repeat (0, 0) (List.length (waves (cm_dft m))))).
  { exists (fun i k ej hj => ntff_term k (nofZ 1) (nofZ (-1)) (vdot (vsub pc c) (cs_normal (cyl_theta (cm_len m) i)) / vnorm (vsub pc c))%num
      (k * vdot (vsub pc c) (vsub (cs_position (cm_surf m) (cyl_theta (cm_len m) i)) c) / vnorm (vsub pc c))%num ej hj).
    split; [|unfold tot; rewrite Hl, Nat2Z.id; reflexivity].
    intros i k e h. rewrite cyl_theta_middle, Hl. set (th := arc_middle (Z.of_nat n) i).
    unfold ntff_term, far_term, cmul, times2, cadd, plus2, cscale, scale2, cis, expi, right_of, vdot, dot2, vsub, vadd, vscale, vnorm, vsqnorm, vdot, minus2, cs_position, on_circle, cs_normal, e_phi, vadd, vscale. cbn [fst snd]. rnumg.
    change (@T RNum) with R. fold c. unfold p, minus2, c. cbn [fst snd]. change (@T RNum) with R.
    match goal with |- ?lhs = _ => match lhs with context [sqrt ?x] => set (r := sqrt x) end end.
    match goal with |- ?lhs = _ => match lhs with context [cos (?x / r)] => set (ph := x / r) end end.
    match goal with |- _ = ?rhs => match rhs with context [cos (?x / r)] => replace (x / r) with ph by (unfold ph, Rdiv; ring) end end.
    unfold Rdiv; f_equal; ring. }
  destruct Et as (term & T1 & T2).
  destruct (ntff_sum _ n _ _ _ E H term Hr (or_introl eq_refl) (or_intror (or_introl eq_refl)) G1 G2 tot T2) as [A1 A2].
  split.
  - rewrite map_length, combine_length, map_length. change (@T RNum) with R in *. rewrite A1. lia.
  - intros k Hk. refine (eq_trans (finish_nth _ _ _ _ _ Hk (A2 k Hk)) _). f_equal. apply (f_equal (times2 _)). apply total2_ext. intros i Hi. now rewrite T1.
Qed.
Lemma total2_linear n (u v w : R * R) f g : total2 n (fun i => times2 w (plus2 (times2 u (f i)) (times2 v (g i)))) = times2 w (plus2 (times2 u (total2 n f)) (times2 v (total2 n g))).
Proof.
  induction n as [|n IH]; [unfold times2, plus2, total2; cbn; f_equal; ring|]. rewrite !total2_S, IH. unfold times2, plus2. cbn [fst snd]. f_equal; ring.
Qed.
Lemma far_term_linear sg k p q n u v e1 e2 h1 h2 c : far_term sg k p q n (blend2 u v e1 e2) (scale2 c (blend2 u v h1 h2)) =
  blend2 u v (far_term sg k p q n e1 (scale2 c h1)) (far_term sg k p q n e2 (scale2 c h2)).
Proof. unfold far_term, blend2, times2, plus2, scale2. cbn [fst snd]. f_equal; ring. Qed.
Lemma blend_total n u v f g : total2 n (fun i => blend2 u v (f i) (g i)) = blend2 u v (total2 n f) (total2 n g).
Proof.
  induction n as [|n IH]; [unfold blend2, times2, plus2, total2; cbn; f_equal; ring|]. rewrite !total2_S, IH. unfold blend2, times2, plus2. cbn [fst snd]. f_equal; ring.
Qed.
Lemma blend_times u v w x y : times2 w (blend2 u v x y) = blend2 u v (times2 w x) (times2 w y).
Proof. unfold blend2, times2, plus2. cbn [fst snd]. f_equal; ring. Qed.
Lemma surf_ntff_linear (a b : R * R) sg s m1 m2 m3 n (dx : R) (c pc u v : R * R) : mk_surface a b sg = Ok s -> a <> b -> sm_surf m1 = s -> sm_surf m2 = s -> sm_surf m3 = s ->
  recorded (sm_dft m1) n ["Ez"%string; h_along a b] -> recorded (sm_dft m2) n ["Ez"%string; h_along a b] -> recorded (sm_dft m3) n ["Ez"%string; h_along a b] ->
  sm_len m1 = Z.of_nat n -> sm_len m2 = Z.of_nat n -> sm_len m3 = Z.of_nat n -> mixed u v (sm_dft m1) (sm_dft m2) (sm_dft m3) ->
  exists l1 l2 l3, surf_ntff dx m1 c pc = Ok l1 /\ surf_ntff dx m2 c pc = Ok l2 /\ surf_ntff dx m3 c pc = Ok l3 /\ mixed_results u v l1 l2 l3.
Proof.
  intros Hs N E1 E2 E3 R1 R2 R3 L1 L2 L3 (F1 & F2 & M).
  destruct (surf_ntff_sum a b sg s m1 n dx c pc Hs N E1 R1 L1) as (l1 & A1 & B1 & C1). destruct (surf_ntff_sum a b sg s m2 n dx c pc Hs N E2 R2 L2) as (l2 & A2 & B2 & C2).
  destruct (surf_ntff_sum a b sg s m3 n dx c pc Hs N E3 R3 L3) as (l3 & A3 & B3 & C3). exists l1, l2, l3. split; [exact A1|]. split; [exact A2|]. split; [exact A3|].
  assert (W1 : forall k, wave (sm_dft m1) k = wave (sm_dft m3) k) by (intros k; unfold wave; now rewrite F1). assert (W2 : forall k, wave (sm_dft m2) k = wave (sm_dft m3) k) by (intros k; unfold wave; now rewrite F2).
  rewrite F1 in *. rewrite F2 in *. split; [exact (eq_trans B1 (eq_sym B3))|]. split; [exact (eq_trans B2 (eq_sym B3))|]. intros k x y Hx Hy.
  assert (Hk : (k < List.length (d_freq (sm_dft m3)))%nat) by (rewrite <- B1; apply nth_error_Some; change (@T RNum) with R in *; congruence).
  rewrite (C1 k Hk) in Hx. rewrite (C2 k Hk) in Hy. injection Hx as <-. injection Hy as <-. rewrite (C3 k Hk). f_equal.
  rewrite W1, W2, <- blend_times, <- blend_total. f_equal. apply total2_ext. intros i Hi. rewrite !M. apply far_term_linear.
Qed.
Lemma scale1 z : scale2 1 z = z.
Proof. destruct z. unfold scale2. cbn. f_equal; ring. Qed.
Lemma cyl_ntff_linear m1 m2 m3 n (pc u v : R * R) : cm_surf m1 = cm_surf m3 -> cm_surf m2 = cm_surf m3 ->
  recorded (cm_dft m1) n ["Ez"; "Hp"]%string -> recorded (cm_dft m2) n ["Ez"; "Hp"]%string -> recorded (cm_dft m3) n ["Ez"; "Hp"]%string ->
  cm_len m1 = Z.of_nat n -> cm_len m2 = Z.of_nat n -> cm_len m3 = Z.of_nat n -> mixed u v (cm_dft m1) (cm_dft m2) (cm_dft m3) ->
  exists l1 l2 l3, cyl_ntff m1 pc = Ok l1 /\ cyl_ntff m2 pc = Ok l2 /\ cyl_ntff m3 pc = Ok l3 /\ mixed_results u v l1 l2 l3.
Proof.
  intros E1 E2 R1 R2 R3 L1 L2 L3 (F1 & F2 & M).
  destruct (cyl_ntff_sum m1 n pc R1 L1) as (l1 & A1 & B1 & C1). destruct (cyl_ntff_sum m2 n pc R2 L2) as (l2 & A2 & B2 & C2).
  destruct (cyl_ntff_sum m3 n pc R3 L3) as (l3 & A3 & B3 & C3). exists l1, l2, l3. split; [exact A1|]. split; [exact A2|]. split; [exact A3|].
  assert (W1 : forall k, wave (cm_dft m1) k = wave (cm_dft m3) k) by (intros k; unfold wave; now rewrite F1). assert (W2 : forall k, wave (cm_dft m2) k = wave (cm_dft m3) k) by (intros k; unfold wave; now rewrite F2).
  rewrite F1 in *. rewrite F2 in *. rewrite E1 in *. rewrite E2 in *. split; [exact (eq_trans B1 (eq_sym B3))|]. split; [exact (eq_trans B2 (eq_sym B3))|]. intros k x y Hx Hy.
  assert (Hk : (k < List.length (d_freq (cm_dft m3)))%nat) by (rewrite <- B1; apply nth_error_Some; change (@T RNum) with R in *; congruence).
  rewrite (C1 k Hk) in Hx. rewrite (C2 k Hk) in Hy. injection Hx as <-. injection Hy as <-. rewrite (C3 k Hk). f_equal.
  rewrite W1, W2, <- blend_times, <- blend_total. f_equal. apply total2_ext. intros i Hi. cbn zeta. rewrite !M.
  rewrite <- (scale1 (blend2 u v (cval (cm_dft m1) "Hp" i k) _)), far_term_linear, !scale1. reflexivity.
Qed.
(** a box adds up its sides *)
Lemma box_ntff_sum (m : box_mon) nf (dx : R) (p : R * R) (parts : surf_mon -> nat -> R * R) : List.length (bm_freq m) = nf ->
  (forall x, In x (bm_sides m) -> exists f, surf_ntff dx x (vol_center (bm_vol m)) p = Ok f /\ List.length f = nf /\ forall k, (k < nf)%nat -> nth_error f k = Some (parts x k)) ->
  exists fl, box_ntff dx m p = Ok fl /\ List.length fl = nf /\ forall k, (k < nf)%nat -> nth_error fl k = Some (fold_left (fun z x => plus2 z (parts x k)) (bm_sides m) (0, 0)).
Proof.
  intros Hn H. destruct (sides_sum2 (fun s => surf_ntff dx s (vol_center (bm_vol m)) p) parts cadd nf (fun x y => eq_refl) (bm_sides m) (repeat (0, 0) nf) H (repeat_length _ _)) as (r & R1 & R2 & R3).
  exists r. unfold box_ntff. split; [rewrite <- Hn in R1; exact R1|]. split; [exact R2|]. intros k Hk. exact (R3 k (0, 0) Hk (nth_error_repeat (0, 0) Hk)).
Qed.

(** *** The two monitors use different integrands *)
Definition one_dft (h : string) : dft := Dft 0 [1] [("Ez"%string, [[(1, 0)]]); (h, [[(0, 0)]])].
Lemma one_recorded h : h = "Hy"%string \/ h = "Hp"%string -> recorded (one_dft h) 1 ["Ez"%string; h].
Proof.
  intros H. split; [split|].
  - destruct H as [-> | ->]; repeat constructor; cbn; intuition discriminate.
  - intros key e row He Hr. cbn [one_dft d_map slookup d_freq] in *. destruct (String.eqb key "Ez"); [injection He as <-; destruct Hr as [<-|[]]; reflexivity|].
    destruct (String.eqb key h); [injection He as <-; destruct Hr as [<-|[]]; reflexivity|discriminate].
  - destruct H as [-> | ->]; intros key [<- | [<- | []]]; cbn; eauto.
Qed.
(** one sample at (-1, 0), outward normal (-1, 0), direction (0, -1) *)
Definition one_side (s : surface) : surf_mon := SurfMon "s" s DTangent 1 [0] (one_dft "Hy").
Definition one_arc : cyl_mon := CylMon "c" (CylSurf (0, 0) 1) false 1 [0] (one_dft "Hp").
Lemma surf_uses_plus : surf_uses (fun k p q t n ez ht => far_term 1 k p q n ez ht).
Proof.
  intros a b sg s m n dx c pc fl k Hs N Em Hr Hl Hf Hk p t. destruct (surf_ntff_sum a b sg s m n dx c pc Hs N Em Hr Hl) as (fl' & A & _ & C).
  rewrite A in Hf. injection Hf as <-. exact (C k Hk).
Qed.
Lemma circle_uses_minus : circle_uses (fun k p q t n ez ht => far_term (-1) k p q n ez ht).
Proof.
  intros m n pc fl k Hr Hl Hf Hk c p. destruct (cyl_ntff_sum m n pc Hr Hl) as (fl' & A & _ & C).
  rewrite A in Hf. injection Hf as <-. exact (C k Hk).
Qed.
Lemma far_factor_nonzero k r : 0 < k -> 0 < r -> 0 < fst (far_factor k r) * fst (far_factor k r) + snd (far_factor k r) * snd (far_factor k r).
Proof.
  intros Hk Hr. unfold far_factor, scale2, expi. cbn [fst snd]. set (x := PI / 4 - k * r). set (q := / sqrt (8 * PI * k * r)).
  assert (P := PI_RGT_0). assert (0 < q) by (apply Rinv_0_lt_compat, sqrt_lt_R0; apply Rmult_lt_0_compat; [|exact Hr]; apply Rmult_lt_0_compat; [lra|exact Hk]).
  replace (q * cos x * (q * cos x) + q * sin x * (q * sin x)) with (q * q * (Rsqr (sin x) + Rsqr (cos x))) by (unfold Rsqr; ring). rewrite sin2_cos2. nra.
Qed.
Lemma integrands_differ : ~ exists f, surf_uses f /\ circle_uses f.
Proof.
  intros (f & Hf & Hc).
  set (a := (-1, 0) : R * R). set (b := (-1, -1) : R * R).
  destruct (proj2 (mk_surface_iff a b Negative) (or_introl eq_refl)) as [s Hs].
  assert (N : a <> b) by (intros E; injection E; lra).
  assert (V : vertical a b = true) by (unfold vertical; destruct (Req_EM_T (fst a) (fst b)); [reflexivity|contradiction]).
  assert (D : direction a b = (0, -1)).
  { rewrite direction_vertical; [|reflexivity|cbn; lra]. cbn [a b snd]. f_equal. rewrite Rabs_left by lra. field. }
  assert (Rs : recorded (sm_dft (one_side s)) 1 ["Ez"%string; h_along a b]) by (unfold h_along; rewrite V; apply (one_recorded "Hy"); auto).
  assert (Rc : recorded (cm_dft one_arc) 1 ["Ez"; "Hp"]%string) by (apply (one_recorded "Hp"); auto).
  set (pc := (1, 0) : R * R). set (c := (0, 0) : R * R).
  destruct (surf_ntff_sum a b Negative s (one_side s) 1 1 c pc Hs N eq_refl Rs eq_refl) as (l1 & A1 & _ & C1).
  destruct (cyl_ntff_sum one_arc 1 pc Rc eq_refl) as (l2 & A2 & _ & C2).
  assert (X1 := Hf a b Negative s (one_side s) 1%nat 1 c pc l1 0%nat Hs N eq_refl Rs eq_refl A1 ltac:(cbn; lia)). apply (eq_trans (eq_sym (C1 0%nat ltac:(cbn; lia)))) in X1.
  assert (X2 := Hc one_arc 1%nat pc l2 0%nat Rc eq_refl A2 ltac:(cbn; lia)). apply (eq_trans (eq_sym (C2 0%nat ltac:(cbn; lia)))) in X2. clear C1 C2 A1 A2.
  cbn zeta in X1, X2. rewrite D, V in X1. cbn [snd] in X1.
  assert (Th : arc_middle (Z.of_nat 1) (Z.of_nat 0) = PI) by (unfold arc_middle; cbn; field).
  assert (Lx : forall g, total2 1 g = plus2 (0, 0) (g 0%nat)) by reflexivity. rewrite !Lx in X1, X2. rewrite Th in X2. cbn [one_arc cm_surf cs_center cs_radius] in X2.
  assert (Ep : e_phi PI = (0, -1)) by (unfold e_phi; rewrite sin_PI, cos_PI; f_equal; ring). rewrite Ep in X2.
  assert (Eq : minus2 (on_circle (0, 0) 1 PI) (0, 0) = (-1, 0)) by (unfold minus2, on_circle; cbn [fst snd]; rewrite sin_PI, cos_PI; f_equal; ring).
  match type of X2 with context [minus2 (on_circle ?u ?v PI) ?w] => change (minus2 (on_circle u v PI) w) with (minus2 (on_circle (0, 0) 1 PI) (0, 0)) in X2 end. rewrite Eq in X2.
  assert (Eq2 : minus2 (plus2 a (scale2 (INR 0 * 1) (0, -1))) c = (-1, 0)) by (unfold minus2, plus2, scale2, a, c; cbn [fst snd INR]; f_equal; ring). rewrite Eq2 in X1.
  assert (H1 : cval (sm_dft (one_side s)) (h_along a b) 0 0 = (0, 0)) by (unfold h_along; rewrite V; reflexivity). rewrite H1 in X1.
  change (cval (sm_dft (one_side s)) "Ez" 0 0) with ((1, 0) : R * R) in X1. change (cval (cm_dft one_arc) "Ez" 0 0) with ((1, 0) : R * R) in X2. change (cval (cm_dft one_arc) "Hp" 0 0) with ((0, 0) : R * R) in X2.
  assert (S0 : scale2 (-1) (0, 0) = (0, 0)) by (unfold scale2; cbn [fst snd]; f_equal; ring). rewrite S0 in X1.
  change (wave (sm_dft (one_side s)) 0) with (2 * PI * 1) in X1. change (wave (cm_dft one_arc) 0) with (2 * PI * 1) in X2.
  change (minus2 pc c) with (minus2 pc (0, 0)) in X1. match type of X2 with context [minus2 pc ?w] => change (minus2 pc w) with (minus2 pc (0, 0)) in X2 end.
  set (k := 2 * PI * 1) in *. set (p := minus2 pc (0, 0)) in *. set (ff := far_factor k (sqrt (dot2 p p))) in *.
  assert (SI : forall x y : R * R, Some x = Some y -> x = y) by (intros x y E; now injection E).
  apply SI in X1, X2. rewrite <- X1 in X2. assert (Z1 := f_equal fst X2). assert (Z2 := f_equal snd X2). clear X1 X2.
  assert (Pp : dot2 p p = 1) by (unfold dot2, p, minus2, pc; cbn [fst snd]; ring). assert (Pn : dot2 p (right_of (0, -1)) = -1) by (unfold dot2, p, minus2, pc, right_of; cbn [fst snd]; ring).
  assert (Pk : 0 < k) by (unfold k; assert (Q := PI_RGT_0); lra).
  unfold far_term in Z1, Z2. rewrite Pn, Pp, sqrt_1 in Z1, Z2. set (ph := k * dot2 p (-1, 0) / 1) in *.
  assert (FN := far_factor_nonzero k 1 Pk ltac:(lra)). assert (Ef : ff = far_factor k 1) by (unfold ff; now rewrite Pp, sqrt_1). rewrite Ef in Z1, Z2. set (gg := far_factor k 1) in *.
  unfold times2, plus2, scale2, expi in Z1, Z2. cbn [fst snd] in Z1, Z2.
  assert (U1 : k * (fst gg * cos ph - snd gg * sin ph) = 0) by lra. assert (U2 : k * (fst gg * sin ph + snd gg * cos ph) = 0) by lra.
  assert (V1 : fst gg * cos ph - snd gg * sin ph = 0) by nra. assert (V2 : fst gg * sin ph + snd gg * cos ph = 0) by nra.
  assert (SC := sin2_cos2 ph). unfold Rsqr in SC.
  assert (Q : (fst gg * fst gg + snd gg * snd gg) * (sin ph * sin ph + cos ph * cos ph) = 0).
  { transitivity ((fst gg * cos ph - snd gg * sin ph) * (fst gg * cos ph - snd gg * sin ph) + (fst gg * sin ph + snd gg * cos ph) * (fst gg * sin ph + snd gg * cos ph)); [ring|]. rewrite V1, V2. ring. }
  rewrite SC in Q. lra.
Qed.
