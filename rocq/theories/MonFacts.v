(** Box, cylinder and volume monitors; monitors inside a simulation. *)
From Coq Require Import ZArith Reals List Bool String Lia Lra Psatz.
From Verif Require Import Scalar Base BaseFacts VecM GridM DftM InterpM MonitorM SpecGrid GridFacts SpecDft DftFacts SpecSample SampleFacts.
Import ListNotations.
Local Open Scope R_scope.
#[local] Existing Instance RNum.

(** *** Boxes *)
Lemma mapM_nth {A B} (f : A -> res B) l r n y : mapM f l = Ok r -> nth_error r n = Some y -> exists x, nth_error l n = Some x /\ f x = Ok y.
Proof.
  intros H Hn. assert (L := mapM_length _ _ _ H). destruct (nth_error l n) as [x|] eqn:E.
  - destruct (mapM_inv _ _ _ H n x E) as (y' & Y1 & Y2). exists x. split; [reflexivity|]. congruence.
  - apply nth_error_None in E. assert (n < List.length r)%nat by (apply nth_error_Some; congruence). lia.
Qed.
Lemma box_feed_sides g : forall l m m', box_feed g l m = Ok m' ->
  List.length (bm_sides m') = List.length (bm_sides m) /\
  forall n a, nth_error (bm_sides m) n = Some a -> exists b, nth_error (bm_sides m') n = Some b /\ surf_feed g l a = Ok b.
Proof.
  induction l as [|[t F] l IH]; intros m m' H; unfold box_feed, surf_feed in *; cbn [foldM fst snd] in *.
  - injection H as <-. split; [reflexivity|]. eauto.
  - destruct (box_update g F t m) as [m1| |] eqn:E; cbn [bind] in H; try discriminate. unfold box_update in E.
    destruct (mapM (surf_update g F t) (bm_sides m)) as [sd| |] eqn:E1; cbn [bind] in E; try discriminate. injection E as <-.
    destruct (IH _ _ H) as [A B]. cbn [bm_sides] in *. split; [rewrite A; now apply (mapM_length _ _ _ E1)|].
    intros n a Ha. destruct (mapM_inv _ _ _ E1 n a Ha) as (a1 & A1 & A2). destruct (B n a1 A1) as (b & B1 & B2).
    exists b. split; [exact B1|]. rewrite A2. exact B2.
Qed.
Lemma mk_box_sides name v k freq m : mk_box_mon name v k freq = Ok m ->
  bm_vol m = v /\ bm_freq m = freq /\
  exists s1 s2 s3 s4, get_surface v y_bottom = Ok s1 /\ get_surface v x_top = Ok s2 /\ get_surface v y_top = Ok s3 /\ get_surface v x_bottom = Ok s4 /\
    bm_sides m = [mk_surf_mon (name ++ "_1") s1 k freq; mk_surf_mon (name ++ "_2") s2 k freq; mk_surf_mon (name ++ "_3") s3 k freq; mk_surf_mon (name ++ "_4") s4 k freq].
Proof. unfold mk_box_mon. intros H. inv_ok. cbn [bm_vol bm_freq bm_sides]. split; [reflexivity|]. split; [reflexivity|]. eauto 12. Qed.

(** *** Cylinders *)
Definition cyl_read (g : grid) (s : cylsurf) (len : Z) (F : fields) (key : string) (i : nat) : res R :=
  let th := cyl_theta len (Z.of_nat i) in let p := cs_position s th in
  if String.eqb key "Ez" then interpolate (g_dx g) F Ez p else
  hx <- interpolate (g_dx g) F Hx p ;; hy <- interpolate (g_dx g) F Hy p ;;
  Ok (vdot (hx, hy) (if String.eqb key "Hp" then cs_tangent th else cs_normal th)).
Definition cyl_h (g : grid) (F : fields) (s : cylsurf) (len : Z) (n : nat) (dir : R -> vec) : res (list R) :=
  for_samples n (fun i => hx <- interpolate (g_dx g) F Hx (cs_position s (cyl_theta len i)) ;;
                          hy <- interpolate (g_dx g) F Hy (cs_position s (cyl_theta len i)) ;; Ok (vdot (hx, hy) (dir (cyl_theta len i)))).
Lemma cyl_sample_plain g F s len st key n gs st' : cyl_sample g F s len st key n = Ok (gs, st') -> key <> "Ez"%string ->
  st' = st /\ (forall st2, cyl_sample g F s len st2 key n = Ok (gs, st2)) /\ List.length gs = n /\
  forall i, (i < n)%nat -> exists v, cyl_read g s len F key i = Ok v /\ nth_error gs i = Some v.
Proof.
  intros H Hk. assert (Ek : String.eqb key "Ez" = false) by now apply String.eqb_neq.
  assert (K : key = "Hp"%string \/ key = "Hr"%string).
  { unfold cyl_sample in H. rewrite Ek in H. destruct (String.eqb_spec key "Hp"); [auto|]. destruct (String.eqb_spec key "Hr"); [auto|discriminate]. }
  set (dir := if String.eqb key "Hp" then cs_tangent else cs_normal).
  assert (Q : forall st2, cyl_sample g F s len st2 key n = (v <- cyl_h g F s len n dir ;; Ok (v, st2))) by (intros st2; destruct K as [-> | ->]; reflexivity).
  rewrite Q in H. destruct (cyl_h g F s len n dir) as [v| |] eqn:E; cbn [bind] in H; try discriminate. injection H as -> <-.
  destruct (for_samples_nth _ _ _ E) as [L N]. split; [reflexivity|]. split; [intros st2; now rewrite Q|]. split; [exact L|].
  intros i Hi. destruct (N i Hi) as (v & V1 & V2). exists v. split; [|exact V1]. unfold cyl_read. rewrite Ek. refine (eq_trans _ V2).
  unfold dir. now destruct (String.eqb key "Hp").
Qed.
Lemma cyl_isolated g s len F : isolated "Ez" (cyl_sample g F s len).
Proof. intros st key n gs st' H Hk. destruct (cyl_sample_plain _ _ _ _ _ _ _ _ _ H Hk) as (A & B & _). auto. Qed.
Lemma cyl_fills g s len F : fills (cyl_sample g F s len).
Proof.
  intros st key n gs st' H. destruct (string_dec key "Ez") as [->|Hk].
  - change (sample_E (g_dx g) F (fun i => cs_position s (cyl_theta len i)) st n = Ok (gs, st')) in H. apply sample_E_nth in H. tauto.
  - destruct (cyl_sample_plain _ _ _ _ _ _ _ _ _ H Hk) as (_ & _ & B & _). auto.
Qed.
Lemma cyl_reads g s len : forall F st key n gs st', cyl_sample g F s len st key n = Ok (gs, st') -> forall i, (i < n)%nat ->
  exists v, cyl_read g s len F key i = Ok v /\
    nth_error gs i = Some (if String.eqb key "Ez" then match stored st i with Some p => (v + p) / 2 | None => v end else v) /\
    (key = "Ez"%string -> stored st' i = match stored st i with Some _ => Some v | None => None end).
Proof.
  intros F st key n gs st' H i Hi. destruct (String.eqb_spec key "Ez") as [->|Hk].
  - change (sample_E (g_dx g) F (fun i => cs_position s (cyl_theta len i)) st n = Ok (gs, st')) in H. apply sample_E_nth in H.
    destruct H as (_ & _ & H). destruct (H i Hi) as (v & p & V1 & V2 & V3 & V4).
    exists v. unfold stored. change (@T RNum) with R in *. rewrite V2. auto.
  - destruct (cyl_sample_plain _ _ _ _ _ _ _ _ _ H Hk) as (_ & _ & _ & B). destruct (B i Hi) as (v & V1 & V2).
    exists v. split; [exact V1|]. split; [exact V2|]. congruence.
Qed.
Lemma cyl_feed_fam g : forall l m m', cyl_feed g l m = Ok m' ->
  cm_surf m' = cm_surf m /\ cm_len m' = cm_len m /\
  fam_run (fun F => cyl_sample g F (cm_surf m) (cm_len m)) l (cm_prevE m) (cm_dft m) = Ok (cm_dft m', cm_prevE m').
Proof.
  induction l as [|[t F] l IH]; intros m m' H; unfold cyl_feed in *; cbn [foldM fam_run fst snd] in *.
  - injection H as <-. auto.
  - destruct (cyl_update g F t m) as [m1| |] eqn:E; cbn [bind] in H; try discriminate. unfold cyl_update in E.
    destruct (dft_update (cyl_sample g F (cm_surf m) (cm_len m)) (cm_prevE m) (cm_dft m) t) as [[d pe]| |]; cbn [bind] in E |- *; try discriminate.
    injection E as <-. apply IH in H. cbn [cm_surf cm_len cm_prevE cm_dft] in H. exact H.
Qed.
Lemma cyl_attach_fresh g m0 m : d_map (cm_dft m0) = [] -> cyl_attach g m0 = Ok m ->
  nceil (2 * PI * cs_radius (cm_surf m0) / g_dx g) = Some (cm_len m) /\ (0 <= cm_len m)%Z /\ cm_surf m = cm_surf m0 /\
    cm_prevE m = repeat 0 (Z.to_nat (cm_len m)) /\ d_t (cm_dft m) = d_t (cm_dft m0) /\ d_freq (cm_dft m) = d_freq (cm_dft m0) /\
    fresh (cm_dft m) (cm_len m) (if cm_all m0 then ["Ez"; "Hp"; "Hr"] else ["Ez"; "Hp"])%string.
Proof.
  intros Hm H. unfold cyl_attach in H. match type of H with bind (ofOption _ ?x) _ = _ => destruct x as [len|] eqn:E1; cbn [ofOption bind] in H; try discriminate end.
  destruct (len <? 0)%Z eqn:E2; [discriminate|].
  match type of H with bind ?x _ = _ => destruct x as [d| |] eqn:E3; cbn [bind] in H; try discriminate end. injection H as <-.
  cbn [cm_len cm_surf cm_prevE cm_dft].
  assert (F0 : fresh (cm_dft m0) len []) by (split; [rewrite Hm; constructor|intros key; now rewrite Hm]).
  destruct (dft_adds_fresh _ _ _ _ _ F0 E3) as (A1 & A2 & A3). cbn [app] in A3. split; [exact E1|]. split; [lia|]. repeat (split; [auto; fail|]). auto.
Qed.
Lemma cyl_place s len i : cs_position s (cyl_theta len i) = on_circle (cs_center s) (cs_radius s) (arc_middle len i) /\ cyl_theta len i = arc_middle len i.
Proof.
  assert (E : cyl_theta len i = arc_middle len i) by (unfold cyl_theta, arc_middle; rnumg; do 3 f_equal; lra).
  split; [|exact E]. rewrite E. unfold cs_position, on_circle, cs_normal, vadd, vscale. cbn [fst snd]. rnumg. f_equal; ring.
Qed.
Lemma cyl_sums g cs all name freq m0 m l : cyl_attach g (mk_cyl_mon name cs all freq) = Ok m0 -> cyl_feed g l m0 = Ok m -> later 0 (map fst l) ->
  nceil (2 * PI * cs_radius cs / g_dx g) = Some (cm_len m) /\ shaped (cm_dft m) /\ d_freq (cm_dft m) = freq /\
  forall c i kf f, (c = RHr -> all = true) -> (0 <= i < cm_len m)%Z -> nth_error freq kf = Some f ->
    exists vs, Forall2 (fun tF v => circle_value (g_dx g) (snd tF) c (on_circle (cs_center cs) (cs_radius cs) (arc_middle (cm_len m) i)) (arc_middle (cm_len m) i) v) l vs /\
      coef (cm_dft m) (rkey c) (Z.to_nat i) kf = Some (fourier f (combine (map fst l) (match c with REz => averages 0 vs | _ => vs end))).
Proof.
  intros Ha Hf Ht. destruct (cyl_attach_fresh g _ _ (eq_refl : d_map (cm_dft (mk_cyl_mon name cs all freq)) = []) Ha) as (I1 & I2 & I3 & I4 & I5 & I6 & I7).
  cbn [mk_cyl_mon cm_surf cm_all cm_dft mk_dft d_t d_freq] in *.
  destruct (cyl_feed_fam g l m0 m Hf) as (_ & L & FR). rewrite L.
  split; [exact I1|].
  assert (T0 : later (d_t (cm_dft m0)) (map fst l)) by (rewrite I5; exact Ht).
  destruct (fam_sums _ _ stored (cyl_isolated g (cm_surf m0) (cm_len m0)) (cyl_fills g (cm_surf m0) (cm_len m0)) (cyl_reads g (cm_surf m0) (cm_len m0)) l _ _ _ _ (fresh_shaped _ _ _ I7) T0 FR) as (S1 & S2 & _ & S3).
  split; [exact S1|]. split; [congruence|]. intros c i kf f Hw Hi Hk.
  assert (Hkf : (kf < List.length (d_freq (cm_dft m0)))%nat) by (rewrite I6; apply nth_error_Some; congruence).
  assert (Z0 : coef (cm_dft m0) (rkey c) (Z.to_nat i) kf = Some (0, 0)).
  { apply (fresh_coef _ _ _ _ _ _ I7); [|lia|exact Hkf]. destruct c; [destruct all; cbn; auto..|]. rewrite Hw by reflexivity. cbn. auto. }
  assert (Hk2 := Hk). rewrite <- I6 in Hk2. destruct (S3 _ _ _ _ _ Hk2 Z0) as (vs & V1 & V2). exists vs.
  split.
  - revert V1. apply Forall2_weaken. intros [t F] v. unfold cyl_read. rewrite Z2Nat.id by lia.
    destruct (cyl_place (cm_surf m0) (cm_len m0) i) as [P1 P2]. rewrite P1, P2, I3.
    destruct c; cbn [rkey String.eqb Ascii.eqb Bool.eqb circle_value snd]; [auto| |].
    all: destruct (interpolate (g_dx g) F Hx _) as [hx| |] eqn:E1; cbn [bind]; try discriminate;
      destruct (interpolate (g_dx g) F Hy _) as [hy| |] eqn:E2; cbn [bind]; try discriminate;
      intros [= <-]; exists hx, hy; split; [reflexivity|]; split; [reflexivity|]; unfold vdot, cs_tangent, cs_normal; cbn [fst snd]; rnumg; ring.
  - rewrite V2, plus2_0. do 3 f_equal. rewrite I4. unfold stored. destruct c; try reflexivity.
    cbn [rkey String.eqb Ascii.eqb Bool.eqb]. rewrite nth_error_repeat by lia. reflexivity.
Qed.

(** *** Volumes *)
Definition vol_read (iv : ivolume) (ny : Z) (F : fields) (key : string) (k : nat) : res R :=
  match comp_name key with
  | Some c => f <- get_field F c ;; tat f (iadd (iv_a iv) (Z.of_nat k / ny, Z.of_nat k mod ny)%Z)
  | None => UB MissingReturn
  end.
Lemma vol_sample_any F iv ny st key n gs st' : vol_sample F iv ny st key n = Ok (gs, st') ->
  List.length gs = n /\ forall i, (i < n)%nat -> exists v, vol_read iv ny F key i = Ok v /\ nth_error gs i = Some v.
Proof.
  intros H. unfold vol_sample, vol_read in *. destruct (comp_name key) as [c|]; [|discriminate].
  destruct (get_field F c) as [f| |]; cbn [bind] in H |- *; try discriminate.
  match type of H with bind ?x _ = _ => destruct x as [v| |] eqn:E; cbn [bind] in H; try discriminate end. injection H as -> <-.
  destruct (for_samples_nth _ _ _ E) as [L N]. split; [exact L|]. intros i Hi. destruct (N i Hi) as (v & V1 & V2). eauto.
Qed.
Lemma vol_isolated iv ny F : isolated "Ez" (vol_sample F iv ny).
Proof. intros [] key n gs [] H _. split; [reflexivity|]. now intros []. Qed.
Lemma vol_fills iv ny F : fills (vol_sample F iv ny).
Proof. intros st key n gs st' H. apply vol_sample_any in H. tauto. Qed.
Lemma vol_reads iv ny : forall F st key n gs st', vol_sample F iv ny st key n = Ok (gs, st') -> forall i, (i < n)%nat ->
  exists v, vol_read iv ny F key i = Ok v /\
    nth_error gs i = Some (if String.eqb key "Ez" then match (fun (_ : unit) (_ : nat) => @None R) st i with Some p => (v + p) / 2 | None => v end else v) /\
    (key = "Ez"%string -> (fun (_ : unit) (_ : nat) => @None R) st' i = match (fun (_ : unit) (_ : nat) => @None R) st i with Some _ => Some v | None => None end).
Proof.
  intros F st key n gs st' H i Hi. apply vol_sample_any in H. destruct H as [_ H]. destruct (H i Hi) as (v & V1 & V2).
  exists v. split; [exact V1|]. split; [|reflexivity]. rewrite V2. now destruct (String.eqb key "Ez").
Qed.
Lemma vol_feed_fam g iv : forall l m m', to_grid_volume g (vm_vol m) = Ok iv -> vol_feed g l m = Ok m' ->
  vm_vol m' = vm_vol m /\ vm_ny m' = vm_ny m /\ fam_run (fun F => vol_sample F iv (vm_ny m)) l tt (vm_dft m) = Ok (vm_dft m', tt).
Proof.
  induction l as [|[t F] l IH]; intros m m' Hg H; unfold vol_feed in *; cbn [foldM fam_run fst snd] in *.
  - injection H as <-. auto.
  - destruct (vol_update g F t m) as [m1| |] eqn:E; cbn [bind] in H; try discriminate. unfold vol_update in E. rewrite Hg in E. cbn [bind] in E.
    destruct (dft_update (vol_sample F iv (vm_ny m)) tt (vm_dft m) t) as [[d []]| |]; cbn [bind] in E |- *; try discriminate.
    injection E as <-. apply IH in H; [|exact Hg]. cbn [vm_vol vm_ny vm_dft] in H. exact H.
Qed.
Lemma cart_keys_wants k c : wants2 k c -> In (key_of c) (cart_keys k).
Proof. destruct k; cbn [wants2 cart_keys]; [intros ->; now left..|contradiction|intros [-> | [-> | ->]]; cbn; auto]. Qed.
Lemma wants2_range k c : wants2 k c -> c = Ez \/ c = Hx \/ c = Hy.
Proof. destruct k; cbn; tauto. Qed.
Lemma vol_sums g v name k freq m0 m l : vol_attach g (mk_vol_mon name v k freq) = Ok m0 -> vol_feed g l m0 = Ok m -> later 0 (map fst l) ->
  exists A B, to_grid g (v_a v) = Ok A /\ to_grid g (v_b v) = Ok B /\ shaped (vm_dft m) /\ d_freq (vm_dft m) = freq /\
  let nx := (Z.abs (fst B - fst A) + 1)%Z in let ny := (Z.abs (snd B - snd A) + 1)%Z in
  (forall c, wants2 k c -> exists e, slookup (key_of c) (d_map (vm_dft m)) = Some e /\ List.length e = Z.to_nat (nx * ny)) /\
  forall c i j kf f, wants2 k c -> (0 <= i < nx)%Z -> (0 <= j < ny)%Z -> nth_error freq kf = Some f ->
    exists vs, Forall2 (fun tF v => tget (field_of (snd tF) c) (fst A + i) (snd A + j) = Ok v) l vs /\
      coef (vm_dft m) (key_of c) (Z.to_nat (i * ny + j)) kf = Some (fourier f (combine (map fst l) vs)).
Proof.
  intros Ha Hf Ht. unfold vol_attach in Ha. destruct (to_grid_volume g (vm_vol (mk_vol_mon name v k freq))) as [iv| |] eqn:E1; cbn [bind] in Ha; try discriminate.
  match type of Ha with bind ?x _ = _ => destruct x as [d| |] eqn:E3; cbn [bind] in Ha; try discriminate end. injection Ha as <-.
  cbn [mk_vol_mon vm_vol vm_dft vm_kind vm_name] in *. assert (E1' := E1). unfold to_grid_volume in E1'.
  destruct (to_grid g (v_a v)) as [A| |]; cbn [bind] in E1'; try discriminate. destruct (to_grid g (v_b v)) as [B| |]; cbn [bind] in E1'; try discriminate.
  injection E1' as Eiv. exists A, B. split; [reflexivity|]. split; [reflexivity|].
  match type of Hf with vol_feed _ _ ?mm = _ => destruct (vol_feed_fam g iv l mm m E1 Hf) as (_ & _ & FR) end. cbn [vm_ny vm_dft] in FR.
  assert (Dx : fst (iv_dim iv) = Z.abs (fst B - fst A)) by (rewrite <- Eiv; cbn; lia). assert (Dy : snd (iv_dim iv) = Z.abs (snd B - snd A)) by (rewrite <- Eiv; cbn; lia).
  rewrite Dx, Dy in *. set (nx := (Z.abs (fst B - fst A) + 1)%Z) in *. set (ny := (Z.abs (snd B - snd A) + 1)%Z) in *.
  destruct (dft_adds_fresh _ _ _ _ _ (mk_dft_fresh freq (nx * ny)) E3) as (A1 & A2 & A3). cbn [app] in A3. cbn [mk_dft d_t d_freq] in *.
  assert (T0 : later (d_t d) (map fst l)) by (rewrite A1; exact Ht).
  destruct (fam_sums _ _ (fun (_ : unit) (_ : nat) => @None R) (vol_isolated iv ny) (vol_fills iv ny) (vol_reads iv ny) l _ _ _ _ (fresh_shaped _ _ _ A3) T0 FR) as (S1 & S2 & S4 & S3).
  split; [exact S1|]. split; [congruence|]. cbv zeta. split.
  - intros c Hw. assert (K : slookup (key_of c) (d_map d) = Some (zeros d (nx * ny))).
    { destruct A3 as [_ A3]. rewrite A3. destruct (in_dec string_dec (key_of c) (cart_keys k)) as [|N]; [reflexivity|]. destruct N. now apply cart_keys_wants. }
    clear - FR K S1 A3 T0. assert (G : forall l s d d' s', fam_run (fun F => vol_sample F iv ny) l s d = Ok (d', s') -> shaped d -> later (d_t d) (map fst l) ->
      forall e, slookup (key_of c) (d_map d) = Some e -> exists e', slookup (key_of c) (d_map d') = Some e' /\ List.length e' = List.length e).
    { clear. induction l as [|[t F] l IH]; intros s d d' s' H Hs Ht e He; cbn [fam_run map fst later] in *; [injection H as <- <-; eauto|].
      destruct Ht as [Ht1 Ht2]. destruct (dft_update (vol_sample F iv ny) s d t) as [[d1 s1]| |] eqn:E; cbn [bind] in H; try discriminate.
      destruct (update_isolated "Ez" _ _ _ _ _ _ (vol_isolated iv ny F) (vol_fills iv ny F) Hs (Rlt_not_eq _ _ Ht1) E) as (Q1 & Q2 & Q3 & Qk & Q4 & _).
      destruct (Q4 _ _ He) as (gs & e1 & _ & _ & G3 & G4 & _). rewrite <- Q1 in Ht2. destruct (IH _ _ _ _ H Q3 Ht2 _ G3) as (e' & X1 & X2).
      exists e'. split; [exact X1|congruence]. }
    destruct (G l tt d (vm_dft m) tt FR (fresh_shaped _ _ _ A3) T0 _ K) as (e & X1 & X2). exists e. split; [exact X1|]. rewrite X2. unfold zeros. apply repeat_length.
  - intros c i j kf f Hw Hi Hj Hk. assert (Rg := wants2_range _ _ Hw).
    assert (Hij : (0 <= i * ny + j < nx * ny)%Z) by nia.
    assert (Hkf : (kf < List.length (d_freq d))%nat) by (rewrite A2; apply nth_error_Some; congruence).
    assert (Z0 : coef d (key_of c) (Z.to_nat (i * ny + j)) kf = Some (0, 0))
      by (apply (fresh_coef _ _ _ _ _ _ A3); [now apply cart_keys_wants|lia|exact Hkf]).
    assert (Hk2 := Hk). rewrite <- A2 in Hk2. destruct (S3 _ _ _ _ _ Hk2 Z0) as (vs & V1 & V2). exists vs. split.
    + revert V1. apply Forall2_weaken. intros [t F] w. unfold vol_read. rewrite comp_name_key by exact Rg. rewrite Z2Nat.id by lia.
      replace ((i * ny + j) / ny)%Z with i by (rewrite Z.div_add_l by lia; rewrite Z.div_small by lia; lia).
      replace ((i * ny + j) mod ny)%Z with j by (rewrite Z.add_comm, Z.mod_add by lia; rewrite Z.mod_small by lia; lia).
      rewrite <- Eiv. destruct Rg as [-> | [-> | ->]]; cbn; auto.
    + rewrite V2, plus2_0. do 3 f_equal. now destruct (String.eqb (key_of c) "Ez").
Qed.
