(** Far field of a box after a run; the edges of a segment seen from its other end. *)
From Coq Require Import ZArith Reals List Bool String Lia Lra.
From Verif Require Import Scalar Base BaseFacts VecM GridM DftM InterpM MonitorM SpecGrid GridFacts SpecDft DftFacts SpecSample SampleFacts MonFacts SpecStress FluxFacts FarFacts.
Import ListNotations.
Local Open Scope R_scope.
#[local] Existing Instance RNum.

Lemma surf_len_nonneg g m0 m1 m l : surf_attach g m0 = Ok m1 -> surf_feed g l m1 = Ok m -> (0 <= sm_len m)%Z.
Proof.
  intros Ha Hf. assert (E : sm_len m = sm_len m1).
  { clear Ha. revert m1 Hf. induction l as [|[t F] l IH]; intros m1 Hf; unfold surf_feed in *; cbn [foldM fst snd] in Hf; [now injection Hf as <-|].
    destruct (surf_update g F t m1) as [x| |] eqn:E; cbn [bind] in Hf; try discriminate. rewrite (IH _ Hf). unfold surf_update in E. inv_ok. destruct r0 as [d pe]. now injection E as <-. }
  rewrite E. unfold surf_attach in Ha. inv_ok. cbn [sm_len]. unfold inorm in *. inv_ok. apply Z.sqrt_nonneg.
Qed.
Lemma box_vol g name v k freq l m : box_ran g name v k freq l m -> bm_vol m = v.
Proof.
  intros (m0 & m1 & A & B & C). destruct (mk_box_sides _ _ _ _ _ A) as (V & _).
  assert (V1 : bm_vol m1 = v) by (unfold box_attach in B; destruct (mapM _ _) as [y| |]; cbn [bind] in B; try discriminate; injection B as <-; exact V).
  rewrite <- V1. clear - C. revert m1 C. induction l as [|[t F] l IH]; intros x C; unfold box_feed in *; cbn [foldM fst snd] in C; [now injection C as <-|].
  destruct (box_update g F t x) as [y| |] eqn:E; cbn [bind] in C; try discriminate. rewrite (IH _ C). unfold box_update in E. destruct (mapM _ _) as [z| |]; cbn [bind] in E; try discriminate. now injection E as <-.
Qed.
Lemma box_far g name v k freq l m (dx : R) (p : R * R) : box_ran g name v k freq l m -> k = DTangent \/ k = DAll ->
  exists (x : nat -> surf_mon) (f : nat -> list (R * R)) (fl : list (R * R)), (forall j, (j < 4)%nat -> nth_error (bm_sides m) j = Some (x j) /\ surf_ntff dx (x j) (middle v) p = Ok (f j) /\ List.length (f j) = List.length freq) /\
    box_ntff dx m p = Ok fl /\ List.length fl = List.length freq /\
    forall kf, (kf < List.length freq)%nat -> nth_error fl kf = Some (total2 4 (fun j => nth kf (f j) (0, 0))).
Proof.
  intros H Hk. assert (V := box_vol _ _ _ _ _ _ _ H). destruct (box_sides_are _ _ _ _ _ _ _ H) as (Fq & L & S).
  assert (Mid : vol_center (bm_vol m) = middle v).
  { rewrite V. unfold vol_center, middle, vdivs, vadd. apply injective_projections; cbn [fst snd]; rnumg; lra. }
  set (q := fun s => surf_ntff dx s (middle v) p).
  set (fs := fun s => match q s with Ok f => f | _ => [] end).
  assert (Q : forall x, In x (bm_sides m) -> q x = Ok (fs x) /\ List.length (fs x) = List.length freq).
  { intros x Hx. destruct (in_sides _ _ L Hx) as (j & Hj & Nj). destruct (S j x Hj Nj) as (D & Fx & s & Es & Ex & Ne & Rx & _).
    assert (Ln : sm_len x = Z.of_nat (Z.to_nat (sm_len x))).
    { destruct H as (m0 & m1 & A & B & C). destruct (box_side _ _ _ _ _ _ _ _ _ A B C) as (_ & _ & SD). destruct (SD j Hj) as (x' & nm & s' & x0 & N' & _ & At & Fe).
      rewrite Nj in N'. injection N' as <-. rewrite Z2Nat.id; [reflexivity|]. eapply surf_len_nonneg; eassumption. }
    destruct (surf_ntff_sum _ _ _ _ x (Z.to_nat (sm_len x)) dx (middle v) p Es Ne Ex (Rx Hk) Ln) as (fl & F1 & F2 & _).
    assert (Eq : q x = Ok fl) by exact F1. unfold fs. rewrite Eq. split; [reflexivity|]. rewrite <- Fx. exact F2. }
  destruct (box_ntff_sum m (List.length freq) dx p (fun s kf => nth kf (fs s) (0, 0))) as (fl & B1 & B2 & B3).
  { exact (f_equal (@List.length R) Fq). }
  { intros x Hx. destruct (Q x Hx) as [Q1 Q2]. exists (fs x). rewrite Mid. split; [exact Q1|]. split; [exact Q2|]. intros kf Hkf. apply nth_error_nth'. rewrite Q2. exact Hkf. }
  destruct (bm_sides m) as [|x0 [|x1 [|x2 [|x3 [|]]]]] eqn:E; try discriminate.
  set (x := fun j => match j with 0%nat => x0 | 1%nat => x1 | 2%nat => x2 | _ => x3 end).
  exists x, (fun j => fs (x j)), fl. split; [|split; [exact B1|split; [exact B2|]]].
  - intros j Hj. assert (N : nth_error [x0; x1; x2; x3] j = Some (x j)) by (destruct j as [|[|[|[|j]]]]; [reflexivity..|lia]). split; [exact N|]. apply (Q (x j)). eapply nth_error_In. exact N.
  - intros kf Hkf. exact (B3 kf Hkf).
Qed.

Lemma edge_middle_back dx A B i : fst A = fst B \/ snd A = snd B -> (0 <= i < edges A B)%Z -> edge_middle dx B A i = edge_middle dx A B (edges A B - 1 - i).
Proof.
  unfold edge_middle, edges. destruct A as [a b], B as [c d]. cbn [fst snd]. intros H Hi.
  assert (Q : forall u w : Z, (u <> w -> (Z.abs (c - a) + Z.abs (d - b))%Z = Z.abs (w - u)) ->
    (IZR w + (IZR i + / 2) * IZR (Z.sgn (u - w))) * dx = (IZR u + (IZR (Z.abs (c - a) + Z.abs (d - b) - 1 - i) + / 2) * IZR (Z.sgn (w - u))) * dx).
  { intros u w Hu. destruct (Z.eq_dec u w) as [-> | Hne]; [rewrite Z.sub_diag; cbn [Z.sgn]; ring|].
    rewrite (Hu Hne), !minus_IZR. destruct (Z.lt_ge_cases u w).
    - rewrite (Z.sgn_neg (u - w)), (Z.sgn_pos (w - u)), Z.abs_eq by lia. rewrite !minus_IZR. ring_simplify. lra.
    - rewrite (Z.sgn_pos (u - w)), (Z.sgn_neg (w - u)), Z.abs_neq by lia. rewrite opp_IZR, !minus_IZR. ring_simplify. lra. }
  f_equal; apply Q; intros; destruct H; lia.
Qed.
(** halfway between one cell and the next *)
Lemma edge_middle_between dx A B i : edge_middle dx A B i =
  (dx * ((IZR (fst A + i * Z.sgn (fst B - fst A)) + IZR (fst A + (i + 1) * Z.sgn (fst B - fst A))) / 2),
   dx * ((IZR (snd A + i * Z.sgn (snd B - snd A)) + IZR (snd A + (i + 1) * Z.sgn (snd B - snd A))) / 2)).
Proof. unfold edge_middle. f_equal; rewrite !plus_IZR, !mult_IZR, plus_IZR; field. Qed.
(** the other sign *)
Lemma side_normal_flip a b : side_normal a b Negative = scale2 (-1) (side_normal a b Positive).
Proof. unfold side_normal, scale2. destruct (Req_EM_T (fst a) (fst b)); cbn [fst snd]; f_equal; lra. Qed.
Lemma surf_flux_flip (a b : R * R) sp sn mp mn n (dx : R) : mk_surface a b Positive = Ok sp -> mk_surface a b Negative = Ok sn -> sm_surf mp = sp -> sm_surf mn = sn -> sm_dft mn = sm_dft mp ->
  recorded (sm_dft mp) n ["Ez"%string; h_along a b] ->
  exists fp fn : list R, surf_flux dx mp = Ok fp /\ surf_flux dx mn = Ok fn /\ List.length fp = List.length fn /\ forall k x, nth_error fp k = Some x -> nth_error fn k = Some (- x).
Proof.
  intros Sp Sn Ep En Ed Hr. destruct (surf_flux_sum a b Positive sp mp n dx Sp Ep Hr) as (fp & P1 & P2 & P3).
  assert (Hr' := Hr). rewrite <- Ed in Hr'. destruct (surf_flux_sum a b Negative sn mn n dx Sn En Hr') as (fn & N1 & N2 & N3). rewrite Ed in *.
  exists fp, fn. split; [exact P1|]. split; [exact N1|]. split; [congruence|]. intros k x Hx.
  assert (Hk : (k < List.length (d_freq (sm_dft mp)))%nat) by (rewrite <- P2; apply nth_error_Some; congruence).
  rewrite (P3 k Hk) in Hx. injection Hx as <-. rewrite (N3 k Hk). f_equal. rewrite side_normal_flip.
  assert (IH' : forall f g : nat -> R, (forall i, g i = - f i) -> total n g = - total n f) by (clear; intros f g H; induction n as [|n IH]; cbn [total]; [lra|rewrite IH, H; lra]).
  apply IH'. intros i. unfold dot2, scale2. cbn [fst snd]. ring.
Qed.

(** one update *)
Lemma vol_one g v name k freq m0 m F t : vol_attach g (mk_vol_mon name v k freq) = Ok m0 -> vol_update g F t m0 = Ok m -> 0 < t ->
  exists A B, to_grid g (v_a v) = Ok A /\ to_grid g (v_b v) = Ok B /\
  let nx := (Z.abs (fst B - fst A) + 1)%Z in let ny := (Z.abs (snd B - snd A) + 1)%Z in
  forall c i j kf f, wants2 k c -> (0 <= i < nx)%Z -> (0 <= j < ny)%Z -> nth_error freq kf = Some f ->
    exists x, tget (field_of F c) (fst A + i) (snd A + j) = Ok x /\
      coef (vm_dft m) (key_of c) (Z.to_nat (i * ny + j)) kf = Some (x * cos (2 * PI * f * t), x * sin (2 * PI * f * t)).
Proof.
  intros Ha Hu Ht. destruct (vol_sums g v name k freq m0 m [(t, F)] Ha) as (A & B & E1 & E2 & _ & _ & _ & S); [unfold vol_feed; cbn [foldM fst snd]; now rewrite Hu|cbn; auto|].
  exists A, B. split; [exact E1|]. split; [exact E2|]. intros nx ny c i j kf f Hc Hi Hj Hf. destruct (S c i j kf f Hc Hi Hj Hf) as (vs & Hv & Hz).
  inversion Hv as [|? x ? vs' Hx Hn]; subst. inversion Hn; subst. exists x. split; [exact Hx|]. refine (eq_trans Hz _). cbn [map combine fourier fst snd]. rewrite !Rplus_0_r. reflexivity.
Qed.
Lemma surf_one g a b sg s name k freq m0 m F t : 0 < g_dx g -> mk_surface a b sg = Ok s ->
  surf_attach g (mk_surf_mon name s k freq) = Ok m0 -> surf_update g F t m0 = Ok m -> 0 < t ->
  exists A B, to_grid g a = Ok A /\ to_grid g b = Ok B /\ sm_len m = edges A B /\
  forall c i kf f, wants k (fst A =? fst B)%Z c -> (0 <= i < edges A B)%Z -> nth_error freq kf = Some f ->
    exists x, interpolate (g_dx g) F c (edge_middle (g_dx g) A B i) = Ok x /\
      let y := match c with Ez => x / 2 | _ => x end in
      coef (sm_dft m) (key_of c) (Z.to_nat i) kf = Some (y * cos (2 * PI * f * t), y * sin (2 * PI * f * t)).
Proof.
  intros Hd Hs Ha Hu Ht. destruct (surf_sums g a b sg s name k freq m0 m [(t, F)] Hd Hs Ha) as (A & B & E1 & E2 & E3 & _ & _ & S); [unfold surf_feed; cbn [foldM fst snd]; now rewrite Hu|cbn; auto|].
  exists A, B. split; [exact E1|]. split; [exact E2|]. split; [exact E3|]. intros c i kf f Hc Hi Hf. destruct (S c i kf f Hc Hi Hf) as (vs & Hv & Hz).
  inversion Hv as [|? x ? vs' Hx Hn]; subst. inversion Hn; subst. exists x. split; [exact Hx|]. refine (eq_trans Hz _). destruct c; cbn [in_time averages map combine fourier fst snd]; rewrite !Rplus_0_r; reflexivity.
Qed.
