(** Far fields as outgoing waves; far fields around a circle; their dependence on the number of samples. *)
From Coq Require Import ZArith Reals List Bool String Lia Lra Psatz.
From Verif Require Import Scalar Base BaseFacts VecM GridM GeometryM MaterialM PmlM DftM TfsfM PolarM InterpM H5M ClockM MonitorM FieldM ReportM
  OutFacts GridFacts SpecDft DftFacts SpecSample SampleFacts MonFacts SpecStress FluxFacts FarFacts FarBox SpecFar.
Import ListNotations.
Local Open Scope R_scope.
#[local] Existing Instance RNum.

Lemma seen_minus c r u : minus2 (seen_from c r u) c = scale2 r u.
Proof. unfold minus2, seen_from, plus2, scale2. cbn [fst snd]. f_equal; ring. Qed.
Lemma dot_scale r u v : dot2 (scale2 r u) v = r * dot2 u v.
Proof. unfold dot2, scale2. cbn [fst snd]. ring. Qed.
Lemma dist_scale r u : unit2 u -> 0 < r -> sqrt (dot2 (scale2 r u) (scale2 r u)) = r.
Proof.
  intros Hu Hr. replace (dot2 (scale2 r u) (scale2 r u)) with (r * r * dot2 u u) by (unfold dot2, scale2; cbn [fst snd]; ring).
  rewrite Hu, Rmult_1_r. apply sqrt_square. lra.
Qed.
Lemma far_term_scale sg k r u q n e h : unit2 u -> 0 < r -> far_term sg k (scale2 r u) q n e h = far_term sg k u q n e h.
Proof.
  intros Hu Hr. unfold far_term. rewrite (dist_scale r u Hu Hr), !dot_scale, Hu, sqrt_1.
  replace (r * dot2 u n / r) with (dot2 u n / 1) by (field; lra). replace (k * (r * dot2 u q) / r) with (k * dot2 u q / 1) by (field; lra). reflexivity.
Qed.
Lemma nth_wave d k f : nth_error (d_freq d) k = Some f -> wave d k = 2 * PI * f.
Proof. intros H. unfold wave. f_equal. apply nth_error_nth. exact H. Qed.
Lemma nth_lt {A} (l : list A) k x : nth_error l k = Some x -> (k < List.length l)%nat.
Proof. intros H. apply nth_error_Some. congruence. Qed.

Lemma surf_outgoing (a b : R * R) sg s m n (dx : R) (c : R * R) : mk_surface a b sg = Ok s -> a <> b -> sm_surf m = s ->
  recorded (sm_dft m) n ["Ez"%string; h_along a b] -> sm_len m = Z.of_nat n -> outgoing (d_freq (sm_dft m)) (surf_ntff dx m c) c.
Proof.
  intros Hs N Em Hr Hl u Hu.
  set (t := direction a b).
  exists (fun k => total2 n (fun i => far_term 1 (wave (sm_dft m) k) u (minus2 (plus2 a (scale2 (INR i * dx) t)) c) (right_of t)
           (cval (sm_dft m) "Ez" i k) (scale2 (if vertical a b then snd t else fst t) (cval (sm_dft m) (h_along a b) i k)))).
  intros r Pr. destruct (surf_ntff_sum a b sg s m n dx c (seen_from c r u) Hs N Em Hr Hl) as (fl & A & B & C). exists fl. split; [exact A|]. split; [exact B|].
  intros k f Hf. refine (eq_trans (C k (nth_lt _ _ _ Hf)) _). fold t. rewrite seen_minus, (dist_scale r u Hu Pr), (nth_wave _ _ _ Hf). f_equal. apply (f_equal (times2 _)).
  apply total2_ext. intros i Hi. now apply far_term_scale.
Qed.
Lemma cyl_outgoing m n : recorded (cm_dft m) n ["Ez"; "Hp"]%string -> cm_len m = Z.of_nat n -> outgoing (d_freq (cm_dft m)) (cyl_ntff m) (cs_center (cm_surf m)).
Proof.
  intros Hr Hl u Hu. set (c := cs_center (cm_surf m)).
  exists (fun k => total2 n (fun i => let th := arc_middle (Z.of_nat n) (Z.of_nat i) in
           far_term (-1) (wave (cm_dft m) k) u (minus2 (on_circle c (cs_radius (cm_surf m)) th) c) (right_of (e_phi th))
             (cval (cm_dft m) "Ez" i k) (cval (cm_dft m) "Hp" i k))).
  intros r Pr. destruct (cyl_ntff_sum m n (seen_from c r u) Hr Hl) as (fl & A & B & C). exists fl. split; [exact A|]. split; [exact B|].
  intros k f Hf. refine (eq_trans (C k (nth_lt _ _ _ Hf)) _). fold c. rewrite seen_minus, (dist_scale r u Hu Pr), (nth_wave _ _ _ Hf). f_equal. apply (f_equal (times2 _)).
  apply total2_ext. intros i Hi. cbn zeta. now apply far_term_scale.
Qed.
Lemma sum_outgoing freq (far : nat -> R * R -> res (list (R * R))) c (tot : R * R -> res (list (R * R))) :
  (forall j, (j < 4)%nat -> outgoing freq (far j) c) ->
  (forall p, exists f fl, (forall j, (j < 4)%nat -> far j p = Ok (f j)) /\ tot p = Ok fl /\ List.length fl = List.length freq /\
     forall kf, (kf < List.length freq)%nat -> nth_error fl kf = Some (total2 4 (fun j => nth kf (f j) (0, 0)))) -> outgoing freq tot c.
Proof.
  intros H Ht u Hu.
  destruct (H 0%nat ltac:(lia) u Hu) as [A0 P0]. destruct (H 1%nat ltac:(lia) u Hu) as [A1 P1]. destruct (H 2%nat ltac:(lia) u Hu) as [A2 P2]. destruct (H 3%nat ltac:(lia) u Hu) as [A3 P3].
  exists (fun k => plus2 (plus2 (plus2 (A0 k) (A1 k)) (A2 k)) (A3 k)). intros r Pr.
  destruct (Ht (seen_from c r u)) as (f & fl & F & E & L & S). exists fl. split; [exact E|]. split; [exact L|]. intros k q Hq. rewrite (S k (nth_lt _ _ _ Hq)). f_equal.
  assert (G : forall j A, (j < 4)%nat -> (exists l, far j (seen_from c r u) = Ok l /\ List.length l = List.length freq /\ forall k f, nth_error freq k = Some f -> nth_error l k = Some (times2 (far_factor (2 * PI * f) r) (A k))) ->
     nth k (f j) (0, 0) = times2 (far_factor (2 * PI * q) r) (A k)).
  { intros j A Hj (l & E1 & _ & E3). rewrite (F j Hj) in E1. injection E1 as <-. apply nth_error_nth. exact (E3 k q Hq). }
  unfold total2. cbn [total]. rewrite (G 0%nat A0), (G 1%nat A1), (G 2%nat A2), (G 3%nat A3) by (auto; lia). unfold times2, plus2. cbn [fst snd]. f_equal; ring.
Qed.
Lemma box_outgoing g name v k freq l m (dx : R) : box_ran g name v k freq l m -> k = DTangent \/ k = DAll -> outgoing freq (box_ntff dx m) (middle v).
Proof.
  intros H Hk. destruct (box_sides_are _ _ _ _ _ _ _ H) as (Fq & L & S).
  set (x := fun j => nth j (bm_sides m) (SurfMon "" (Surface (0, 0) (0, 0) Positive (0, 0) (0, 0) (0, 0)) k 0 [] (Dft 0 [] []))).
  assert (Nx : forall j, (j < 4)%nat -> nth_error (bm_sides m) j = Some (x j)) by (intros j Hj; apply nth_error_nth'; lia).
  apply (sum_outgoing freq (fun j => surf_ntff dx (x j) (middle v))).
  - intros j Hj. destruct (S j (x j) Hj (Nx j Hj)) as (D & Fx & s & Es & Ex & Ne & Rx & _).
    assert (Ln : sm_len (x j) = Z.of_nat (Z.to_nat (sm_len (x j)))).
    { destruct H as (m0 & m1 & A & B & C). destruct (box_side _ _ _ _ _ _ _ _ _ A B C) as (_ & _ & SD). destruct (SD j Hj) as (x' & nm & s' & x0 & N' & _ & At & Fe).
      assert (Ej := Nx j Hj). rewrite N' in Ej. injection Ej as Ej. rewrite <- Ej. rewrite Z2Nat.id; [reflexivity|]. eapply surf_len_nonneg; eassumption. }
    rewrite <- Fx. eapply surf_outgoing; [exact Es|exact Ne|exact Ex|exact (Rx Hk)|exact Ln].
  - intros p. destruct (box_far g name v k freq l m dx p H Hk) as (x' & f & fl & A & B & C & E). exists f, fl. split; [|auto].
    intros j Hj. destruct (A j Hj) as (A1 & A2 & _). rewrite (Nx j Hj) in A1. injection A1 as A1. rewrite A1. exact A2.
Qed.
(** the power through a circle does not depend on its radius *)
Lemma power_times z w : power2 (times2 z w) = power2 z * power2 w.
Proof. unfold power2, re_prod, times2. cbn [fst snd]. ring. Qed.
Lemma power_factor k r : 0 < k -> 0 < r -> r * power2 (far_factor k r) = / (8 * PI * k).
Proof.
  intros Hk Hr. unfold power2, re_prod, far_factor, scale2, expi. cbn [fst snd]. set (x := PI / 4 - k * r). assert (Q := PI_RGT_0).
  assert (P : 0 < 8 * PI * k * r) by (apply Rmult_lt_0_compat; [apply Rmult_lt_0_compat; [lra|exact Hk]|exact Hr]).
  assert (S1 := sqrt_lt_R0 _ P). assert (S2 := sqrt_sqrt _ (Rlt_le _ _ P)). set (s := sqrt (8 * PI * k * r)) in *. assert (SC := sin2_cos2 x). unfold Rsqr in SC.
  replace (/ s * cos x * (/ s * cos x) + / s * sin x * (/ s * sin x)) with (/ (s * s) * (sin x * sin x + cos x * cos x)) by (field; lra).
  rewrite SC, S2. field. repeat split; lra.
Qed.
Lemma outgoing_power freq far c u k f r r' fl fl' z z' : outgoing freq far c -> unit2 u -> nth_error freq k = Some f -> 0 < f -> 0 < r -> 0 < r' ->
  far (seen_from c r u) = Ok fl -> far (seen_from c r' u) = Ok fl' -> nth_error fl k = Some z -> nth_error fl' k = Some z' -> r * power2 z = r' * power2 z'.
Proof.
  intros H Hu Hf Pf Pr Pr' E E' Z Z'. destruct (H u Hu) as [A HA].
  destruct (HA r Pr) as (l & L1 & _ & L3). rewrite E in L1. injection L1 as <-. rewrite (L3 k f Hf) in Z. injection Z as <-.
  destruct (HA r' Pr') as (l' & L1' & _ & L3'). rewrite E' in L1'. injection L1' as <-. rewrite (L3' k f Hf) in Z'. injection Z' as <-.
  rewrite !power_times, <- !Rmult_assoc. assert (Q := PI_RGT_0). rewrite !power_factor; [reflexivity|apply Rmult_lt_0_compat; lra|exact Pr'|apply Rmult_lt_0_compat; lra|exact Pr].
Qed.
Lemma outgoing_phase freq far c u k f r fl fl' z z' (n : nat) : outgoing freq far c -> unit2 u -> nth_error freq k = Some f -> 0 < f -> 0 < r ->
  far (seen_from c r u) = Ok fl -> far (seen_from c (r + INR n / f) u) = Ok fl' -> nth_error fl k = Some z -> nth_error fl' k = Some z' ->
  scale2 (sqrt r) z = scale2 (sqrt (r + INR n / f)) z'.
Proof.
  intros H Hu Hf Pf Pr E E' Z Z'. set (r' := r + INR n / f) in *. assert (Pn : 0 <= INR n / f) by (apply Rmult_le_pos; [apply pos_INR|left; now apply Rinv_0_lt_compat]). assert (Pr' : 0 < r') by (unfold r'; lra).
  destruct (H u Hu) as [A HA].
  destruct (HA r Pr) as (l & L1 & _ & L3). rewrite E in L1. injection L1 as <-. rewrite (L3 k f Hf) in Z. injection Z as <-.
  destruct (HA r' Pr') as (l' & L1' & _ & L3'). rewrite E' in L1'. injection L1' as <-. rewrite (L3' k f Hf) in Z'. injection Z' as <-.
  assert (Q := PI_RGT_0). assert (Pk : 0 < 8 * PI * (2 * PI * f)) by (apply Rmult_lt_0_compat; [lra|apply Rmult_lt_0_compat; [lra|exact Pf]]).
  assert (X : forall s, 0 < s -> sqrt s * / sqrt (8 * PI * (2 * PI * f) * s) = / sqrt (8 * PI * (2 * PI * f))).
  { intros s Ps. rewrite (sqrt_mult _ _ (Rlt_le _ _ Pk) (Rlt_le _ _ Ps)). assert (S1 := sqrt_lt_R0 _ Pk). assert (S2 := sqrt_lt_R0 _ Ps). field. lra. }
  assert (Ph : expi (PI / 4 - 2 * PI * f * r') = expi (PI / 4 - 2 * PI * f * r)).
  { unfold expi. replace (PI / 4 - 2 * PI * f * r) with (PI / 4 - 2 * PI * f * r' + 2 * INR n * PI) by (unfold r'; field; lra). now rewrite cos_period, sin_period. }
  unfold far_factor. rewrite Ph. set (e := expi (PI / 4 - 2 * PI * f * r)).
  assert (Y := X r Pr). assert (Y' := X r' Pr'). set (q := / sqrt (8 * PI * (2 * PI * f) * r)) in *. set (q' := / sqrt (8 * PI * (2 * PI * f) * r')) in *.
  unfold scale2, times2. cbn [fst snd].
  f_equal; [transitivity ((sqrt r * q) * (fst e * fst (A k) - snd e * snd (A k)))|transitivity ((sqrt r * q) * (fst e * snd (A k) + snd e * fst (A k)))]; try ring; rewrite Y, <- Y'; ring.
Qed.

(** around a circle *)
Lemma linspaced_angle n i : (2 <= n)%nat -> (i < n)%nat -> linspaced (Z.of_nat n) 0 (2 * PI) (Z.of_nat i) = angle_of n i.
Proof.
  intros Hn Hi. unfold linspaced, angle_of. rnumg. assert (P : 0 < INR (n - 1)) by (apply lt_0_INR; lia).
  destruct (Z.eqb_spec (Z.of_nat i) (Z.of_nat n - 1)) as [E|E].
  - replace (n - 1)%nat with i by lia. replace (n - 1)%nat with i in P by lia. field. lra.
  - rewrite <- INR_IZR_INZ. replace (Z.of_nat n - 1)%Z with (Z.of_nat (n - 1)) by lia. rewrite <- INR_IZR_INZ. field. lra.
Qed.
Lemma mapM_nth_ok {A B} (f : A -> res B) l r i x : mapM f l = Ok r -> nth_error l i = Some x -> exists y, nth_error r i = Some y /\ f x = Ok y.
Proof.
  revert r i. induction l as [|a l IH]; intros r i H Hx; [destruct i; discriminate|]. cbn [mapM] in H. destruct (f a) as [y| |] eqn:E; cbn [bind] in H; try discriminate.
  destruct (mapM f l) as [ys| |] eqn:E2; cbn [bind] in H; try discriminate. injection H as <-. destruct i as [|i]; [injection Hx as <-; exists y; auto|]. exact (IH ys i eq_refl Hx).
Qed.
Lemma concat_entry {A} (tb : list (list A)) w i j row : (forall x, In x tb -> List.length x = w) -> nth_error tb i = Some row -> (j < w)%nat -> entry_at w (List.concat tb) i j = nth_error row j.
Proof.
  unfold entry_at. revert i. induction tb as [|x tb IH]; intros i H Hr Hj; [destruct i; discriminate|]. assert (Hx := H x (or_introl eq_refl)). destruct i as [|i].
  - injection Hr as ->. cbn [List.concat]. apply nth_error_app1. lia.
  - cbn [List.concat]. rewrite nth_error_app2 by lia. rewrite <- (IH i); [f_equal; lia|intros y Hy; apply H; now right|exact Hr|exact Hj].
Qed.
Lemma concat_len {A} (tb : list (list A)) w : (forall x, In x tb -> List.length x = w) -> List.length (List.concat tb) = (List.length tb * w)%nat.
Proof. induction tb as [|x tb IH]; intros H; [reflexivity|]. cbn [List.concat]. rewrite app_length, (H x (or_introl eq_refl)), IH; [reflexivity|]. intros y Hy. apply H. now right. Qed.
Lemma zseq_nth lo n i : (i < n)%nat -> nth_error (zseq lo n) i = Some (lo + Z.of_nat i)%Z.
Proof.
  revert lo i. induction n as [|n IH]; intros lo i Hi; [lia|]. cbn [zseq]. destruct i as [|i]; cbn [nth_error]; [f_equal; lia|]. rewrite IH by lia. f_equal. lia.
Qed.
Lemma circle_table far (c : R * R) r n w : (2 <= n)%nat -> (forall p, exists l : list (R * R), far p = Ok l /\ List.length l = w) ->
  exists S, ntff_circle far c r (Z.of_nat n) = Ok S /\ round_table w far c r n (List.concat S).
Proof.
  intros Hn Hf. unfold ntff_circle. replace (Z.of_nat n <? 0)%Z with false by (symmetry; apply Z.ltb_ge; lia).
  set (h := fun i => let th := linspaced (Z.of_nat n) 0%num (2 * npi)%num i in far (vadd (vscale r (ncos th, nsin th)) c)).
  assert (Hh : forall i, (i < n)%nat -> h (Z.of_nat i) = far (on_circle c r (angle_of n i))).
  { intros i Hi. unfold h. cbn zeta. apply (f_equal far). rewrite <- (linspaced_angle n i Hn Hi). unfold on_circle, vadd, vscale. cbn [fst snd]. rnumg. f_equal; ring. }
  exists (map (fun i => match h i with Ok l => l | _ => [] end) (zrange 0 (Z.of_nat n))). split; [apply mapM_ok|].
  { intros i _. unfold h. cbn zeta. match goal with |- far ?p = _ => destruct (Hf p) as (l & E & _) end. rewrite E. reflexivity. }
  set (S := map (fun i => match h i with Ok l => l | _ => [] end) (zrange 0 (Z.of_nat n))).
  assert (HS : forall x, In x S -> List.length x = w).
  { intros x Hx. apply in_map_iff in Hx. destruct Hx as (i & <- & _). unfold h. cbn zeta. match goal with |- context [far ?p] => destruct (Hf p) as (l & E & E2) end. rewrite E. exact E2. }
  assert (LS : List.length S = n) by (unfold S, zrange; rewrite map_length, zseq_length; lia).
  split; [exact (eq_trans (concat_len S w HS) (f_equal (fun x => (x * w)%nat) LS))|]. intros i Hi.
  destruct (Hf (on_circle c r (angle_of n i))) as (row & E & Lr). exists row. split; [exact E|]. split; [exact Lr|]. intros j Hj. apply concat_entry; [exact HS| |exact Hj].
  unfold S, zrange. rewrite nth_error_map, zseq_nth by lia. cbn [option_map]. rewrite Z.add_0_l, (Hh i Hi), E. reflexivity.
Qed.
Lemma last_is_first c r n : (2 <= n)%nat -> on_circle c r (angle_of n (n - 1)) = on_circle c r (angle_of n 0).
Proof.
  intros Hn. assert (P : 0 < INR (n - 1)) by (apply lt_0_INR; lia). unfold on_circle, angle_of. replace (2 * PI * INR (n - 1) / INR (n - 1)) with (2 * PI) by (field; lra).
  replace (2 * PI * INR 0 / INR (n - 1)) with 0 by (cbn [INR]; field; lra). rewrite cos_2PI, sin_2PI, cos_0, sin_0. reflexivity.
Qed.

(** number of samples *)
Lemma total2_const n (z : R * R) : total2 n (fun _ => z) = scale2 (INR n) z.
Proof. induction n as [|n IH]; [unfold total2, scale2; cbn; f_equal; ring|]. rewrite total2_S, IH, S_INR. unfold plus2, scale2. cbn [fst snd]. f_equal; ring. Qed.
Lemma broadside_sum (a b : R * R) sg s m n (dx : R) (c pc e h : R * R) : mk_surface a b sg = Ok s -> a <> b -> sm_surf m = s ->
  uniform (sm_dft m) n (h_along a b) e h -> sm_len m = Z.of_nat n -> broadside a b c pc ->
  let p := minus2 pc c in let t := direction a b in
  exists fl : list (R * R), surf_ntff dx m c pc = Ok fl /\ List.length fl = List.length (d_freq (sm_dft m)) /\
    forall k f, nth_error (d_freq (sm_dft m)) k = Some f -> nth_error fl k =
      Some (scale2 (INR n) (times2 (far_factor (2 * PI * f) (sqrt (dot2 p p)))
        (far_term 1 (2 * PI * f) p (minus2 a c) (right_of t) e (scale2 (if vertical a b then snd t else fst t) h)))).
Proof.
  intros Hs N Em [Hr Hv] Hl [Hb _] p t. destruct (surf_ntff_sum a b sg s m n dx c pc Hs N Em Hr Hl) as (fl & A & B & C). exists fl. split; [exact A|]. split; [exact B|].
  intros k f Hf. refine (eq_trans (C k (nth_lt _ _ _ Hf)) _). fold p t. rewrite (nth_wave _ _ _ Hf). f_equal.
  rewrite (total2_ext n _ (fun _ => far_term 1 (2 * PI * f) p (minus2 a c) (right_of t) e (scale2 (if vertical a b then snd t else fst t) h))).
  - rewrite total2_const. unfold times2, scale2. cbn [fst snd]. f_equal; ring.
  - intros i Hi. destruct (Hv i k Hi (nth_lt _ _ _ Hf)) as [-> ->]. unfold far_term.
    replace (dot2 p (minus2 (plus2 a (scale2 (INR i * dx) t)) c)) with (dot2 p (minus2 a c)); [reflexivity|].
    transitivity (dot2 p (minus2 a c) + INR i * dx * dot2 p t); [unfold p, t; rewrite Hb; ring|]. unfold dot2, minus2, plus2, scale2. cbn [fst snd]. ring.
Qed.
(** the same segment with the same contents, sampled once and twice *)
Definition even_dft (n : nat) : dft := Dft 0 [1] [("Ez"%string, repeat [(1, 0)] n); ("Hy"%string, repeat [(1, 0)] n)].
Definition even_side (s : surface) (n : nat) : surf_mon := SurfMon "s" s DTangent (Z.of_nat n) [0] (even_dft n).
Lemma even_uniform n : uniform (even_dft n) n "Hy" (1, 0) (1, 0).
Proof.
  split; [split; [split|]|].
  - repeat constructor; cbn; intuition discriminate.
  - intros key e row He Hr. cbn [even_dft d_map slookup d_freq] in *. destruct (String.eqb key "Ez"); [injection He as <-; apply repeat_spec in Hr; now subst row|].
    destruct (String.eqb key "Hy"); [injection He as <-; apply repeat_spec in Hr; now subst row|discriminate].
  - intros key [<- | [<- | []]]; cbn; eexists; (split; [reflexivity|apply repeat_length]).
  - intros i k Hi Hk. cbn in Hk. assert (k = 0)%nat by lia. subst k. assert (Q : forall z : list (R * R), nth i (repeat z n) [] = z).
    { intros z. apply nth_error_nth. now apply nth_error_repeat. }
    split; [rewrite (cval_nth (even_dft n) "Ez" (repeat [(1, 0)] n) i 0 eq_refl)|rewrite (cval_nth (even_dft n) "Hy" (repeat [(1, 0)] n) i 0 eq_refl)]; rewrite Q; reflexivity.
Qed.
Lemma samples_count : ~ forall (a b : R * R) sg s m1 m2 n1 n2 (dx1 dx2 : R) (c pc e h : R * R), mk_surface a b sg = Ok s -> a <> b -> sm_surf m1 = s -> sm_surf m2 = s ->
  d_freq (sm_dft m1) = d_freq (sm_dft m2) -> uniform (sm_dft m1) n1 (h_along a b) e h -> uniform (sm_dft m2) n2 (h_along a b) e h -> sm_len m1 = Z.of_nat n1 -> sm_len m2 = Z.of_nat n2 ->
  0 < dx1 -> 0 < dx2 -> INR n1 * dx1 = sqrt (dot2 (minus2 b a) (minus2 b a)) -> INR n2 * dx2 = sqrt (dot2 (minus2 b a) (minus2 b a)) -> broadside a b c pc ->
  surf_ntff dx1 m1 c pc = surf_ntff dx2 m2 c pc.
Proof.
  intros H. set (a := (0, 0) : R * R). set (b := (0, 1) : R * R). set (pc := (1, 0) : R * R).
  destruct (proj2 (mk_surface_iff a b Positive) (or_introl eq_refl)) as [s Hs].
  assert (N : a <> b) by (intros E; injection E; lra).
  assert (V : vertical a b = true) by (unfold vertical; destruct (Req_EM_T (fst a) (fst b)) as [|Q]; [reflexivity|exfalso; apply Q; reflexivity]).
  assert (K : h_along a b = "Hy"%string) by (unfold h_along; now rewrite V).
  assert (D : direction a b = (0, 1)).
  { rewrite direction_vertical; [|reflexivity|cbn; lra]. cbn [a b snd]. f_equal. rewrite Rabs_right by lra. field. }
  assert (U : forall n, uniform (sm_dft (even_side s n)) n (h_along a b) (1, 0) (1, 0)) by (intros n; rewrite K; apply even_uniform).
  assert (Bs : broadside a b a pc) by (split; [rewrite D; unfold dot2, minus2, pc, a; cbn [fst snd]; ring|intros E; injection E; lra]).
  assert (L1 : sqrt (dot2 (minus2 b a) (minus2 b a)) = 1) by (unfold dot2, minus2, a, b; cbn [fst snd]; replace ((0 - 0) * (0 - 0) + (1 - 0) * (1 - 0)) with 1 by ring; apply sqrt_1).
  assert (E := H a b Positive s (even_side s 1) (even_side s 2) 1%nat 2%nat 1 (/ 2) a pc (1, 0) (1, 0) Hs N eq_refl eq_refl eq_refl (U 1%nat) (U 2%nat) eq_refl eq_refl ltac:(lra) ltac:(lra)
    ltac:(rewrite L1; cbn; lra) ltac:(rewrite L1; cbn; lra) Bs).
  destruct (broadside_sum a b Positive s (even_side s 1) 1 1 a pc (1, 0) (1, 0) Hs N eq_refl (U 1%nat) eq_refl Bs) as (f1 & A1 & _ & C1).
  destruct (broadside_sum a b Positive s (even_side s 2) 2 (/ 2) a pc (1, 0) (1, 0) Hs N eq_refl (U 2%nat) eq_refl Bs) as (f2 & A2 & _ & C2).
  rewrite A1, A2 in E. injection E as E. subst f2. assert (X := C1 0%nat 1 eq_refl). rewrite (C2 0%nat 1 eq_refl) in X.
  assert (SI : forall x y : R * R, Some x = Some y -> x = y) by (intros x y Q; now injection Q). apply SI in X. clear SI C1 C2 A1 A2.
  rewrite D, V in X. set (p := minus2 pc a) in *.
  assert (Pp : dot2 p p = 1) by (unfold dot2, p, minus2, pc, a; cbn [fst snd]; ring). rewrite Pp, sqrt_1 in X.
  unfold far_term in X. rewrite Pp, sqrt_1 in X. assert (Pn : dot2 p (right_of (0, 1)) = 1) by (unfold dot2, p, minus2, pc, a, right_of; cbn [fst snd]; ring).
  assert (Pq : dot2 p (minus2 a a) = 0) by (unfold dot2, minus2, a; cbn [fst snd]; ring). rewrite Pn, Pq in X. assert (Q := PI_RGT_0). set (k := 2 * PI * 1) in *. assert (Pk : 0 < k) by (unfold k; lra).
  assert (FN := far_factor_nonzero k 1 Pk ltac:(lra)). set (g := far_factor k 1) in *.
  unfold scale2, times2, plus2, expi in X. cbn [fst snd] in X. replace (k * 0 / 1) with 0 in X by field. rewrite cos_0, sin_0 in X. cbn [INR] in X. assert (X1 := f_equal fst X). assert (X2 := f_equal snd X). cbn [fst snd] in X1, X2.
  assert (Y1 : k * fst g = 0) by lra. assert (Y2 : k * snd g = 0) by lra. assert (fst g = 0) by nra. assert (snd g = 0) by nra. nra.
Qed.
Lemma box_circle g name v k freq l m (dx r : R) n : box_ran g name v k freq l m -> k = DTangent \/ k = DAll -> (2 <= n)%nat ->
  exists tb, mon_report dx (MBox m) (QCircle r (Z.of_nat n)) = Ok (PCplx tb) /\ round_table (List.length freq) (box_ntff dx m) (middle v) r n tb.
Proof.
  intros H Hk Hn. assert (V := box_vol _ _ _ _ _ _ _ H).
  assert (Mid : vol_center (bm_vol m) = middle v).
  { rewrite V. unfold vol_center, middle, vdivs, vadd. apply injective_projections; cbn [fst snd]; rnumg; lra. }
  destruct (circle_table (box_ntff dx m) (middle v) r n (List.length freq) Hn) as (tb & E & F).
  { intros p. destruct (box_far g name v k freq l m dx p H Hk) as (_ & _ & fl & _ & B & C & _). eauto. }
  exists (List.concat tb). split; [|exact F]. cbn [mon_report]. rewrite Mid, E. reflexivity.
Qed.
Lemma cyl_circle m (r : R) n w : recorded (cm_dft m) w ["Ez"; "Hp"]%string -> cm_len m = Z.of_nat w -> (2 <= n)%nat -> forall dx : R,
  exists tb, mon_report dx (MCyl m) (QCircle r (Z.of_nat n)) = Ok (PCplx tb) /\ round_table (List.length (d_freq (cm_dft m))) (cyl_ntff m) (cs_center (cm_surf m)) r n tb.
Proof.
  intros Hr Hl Hn dx. destruct (circle_table (cyl_ntff m) (cs_center (cm_surf m)) r n (List.length (d_freq (cm_dft m))) Hn) as (tb & E & F).
  { intros p. destruct (cyl_ntff_sum m w p Hr Hl) as (fl & A & B & _). eauto. }
  exists (List.concat tb). split; [|exact F]. cbn [mon_report]. rewrite E. reflexivity.
Qed.
Lemma table_closes w far c r n tb : (2 <= n)%nat -> round_table w far c r n tb -> forall j, (j < w)%nat -> entry_at w tb (n - 1) j = entry_at w tb 0 j.
Proof.
  intros Hn [_ H] j Hj. destruct (H (n - 1)%nat ltac:(lia)) as (x & E & _ & X). destruct (H 0%nat ltac:(lia)) as (y & E' & _ & Y).
  rewrite (last_is_first c r n Hn), E' in E. injection E as <-. rewrite (X j Hj), (Y j Hj). reflexivity.
Qed.
Lemma even_spacing n i : (2 <= n)%nat -> angle_of n 0 = 0 /\ angle_of n (n - 1) = 2 * PI /\ angle_of n (S i) - angle_of n i = 2 * PI / INR (n - 1).
Proof.
  intros Hn. assert (P : 0 < INR (n - 1)) by (apply lt_0_INR; lia). unfold angle_of. rewrite S_INR. change (INR 0) with 0. repeat split; field; lra.
Qed.
