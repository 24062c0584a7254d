(** Sampling positions and what the monitors accumulate. *)
From Coq Require Import ZArith Reals List Bool String Lia Lra Psatz.
From Verif Require Import Scalar Base BaseFacts VecM GridM DftM InterpM MonitorM SpecGrid GridFacts SpecDft DftFacts SpecSample.
Import ListNotations.
Local Open Scope R_scope.
#[local] Existing Instance RNum.

(** *** Surfaces on the grid *)
Lemma surface_cells g a b sg s ic : mk_surface a b sg = Ok s -> to_grid_surface g s = Ok ic ->
  to_grid g a = Ok (is_a ic) /\ to_grid g b = Ok (is_b ic) /\ is_a ic <> is_b ic /\
  (fst (is_a ic) = fst (is_b ic) \/ snd (is_a ic) = snd (is_b ic)) /\ (1 <= edges (is_a ic) (is_b ic) <= 46340)%Z /\
  is_dim ic = (Z.abs (fst (is_b ic) - fst (is_a ic)), Z.abs (snd (is_b ic) - snd (is_a ic)))%Z /\
  is_tangent ic = (Z.sgn (fst (is_b ic) - fst (is_a ic)), Z.sgn (snd (is_b ic) - snd (is_a ic)))%Z.
Proof.
  intros Hs H. destruct (mk_surface_fields a b sg s Hs) as [Ha [Hb Hsg]].
  destruct (to_grid g a) as [ia| |] eqn:Ea; [|unfold to_grid_surface in H; rewrite Ha, Ea in H; discriminate..].
  destruct (to_grid g b) as [ib| |] eqn:Eb; [|unfold to_grid_surface in H; rewrite Ha, Hb, Ea, Eb in H; discriminate..].
  assert (Ne : ia <> ib) by (intros <-; rewrite (to_grid_surface_same_cell g a b sg s ia Hs Ea Eb) in H; discriminate).
  assert (Hax : fst a = fst b \/ snd a = snd b) by (apply (mk_surface_iff a b sg); eauto).
  destruct (to_grid_coord g a b ia ib Ea Eb) as [C1 C2].
  assert (Hi : fst ia = fst ib \/ snd ia = snd ib) by tauto.
  assert (L : (edges ia ib <= 46340)%Z).
  { destruct (Z_le_gt_dec (edges ia ib) 46340) as [|Big]; [assumption|exfalso].
    unfold to_grid_surface in H. rewrite Ha, Hb, Ea, Eb in H. cbn [bind] in H. unfold mk_isurface in H.
    inv_ok. unfold inorm in *. cbn [fst snd] in *.
    match goal with K : bind (i32 ?z) _ = Ok _ |- _ => destruct (i32 z) eqn:E; [|discriminate..]; unfold i32, in_i32 in E; destruct ((_ <=? _) && (_ <=? _))%Z eqn:E2 in E; [|discriminate] end.
    unfold INT_MAX, INT_MIN, edges in *. nia. }
  destruct (to_grid_surface_ok g a b sg s ia ib Hs Ea Eb Ne L) as (x & X1 & X2 & X3 & _ & X4 & _ & X5).
  rewrite X1 in H. injection H as <-. rewrite X2, X3.
  split; [reflexivity|]. split; [reflexivity|]. split; [exact Ne|]. split; [exact Hi|]. split; [|split; assumption].
  split; [|exact L]. unfold edges. destruct (Z.eq_dec (edges ia ib) 0) as [E|E]; unfold edges in E; [|lia].
  destruct Ne. destruct ia, ib. cbn [fst snd] in *. f_equal; lia.
Qed.
Lemma edges_norm g a b sg s ic : mk_surface a b sg = Ok s -> to_grid_surface g s = Ok ic -> inorm (is_dim ic) = Ok (edges (is_a ic) (is_b ic)).
Proof.
  intros Hs H. destruct (surface_cells _ _ _ _ _ _ Hs H) as (_ & _ & _ & Hax & HL & -> & _). unfold inorm. cbn [fst snd].
  set (x := Z.abs (fst (is_b ic) - fst (is_a ic))). set (y := Z.abs (snd (is_b ic) - snd (is_a ic))).
  assert (Hxy : edges (is_a ic) (is_b ic) = (x + y)%Z) by reflexivity. rewrite Hxy in *.
  assert (Z0 : x = 0%Z \/ y = 0%Z) by (unfold x, y; lia).
  replace (x * x + y * y)%Z with ((x + y) * (x + y))%Z by (destruct Z0 as [-> | ->]; ring).
  rewrite i32_ok by (unfold INT_MIN, INT_MAX; nia). cbn [bind]. rewrite Z.sqrt_square by lia. reflexivity.
Qed.
Lemma to_grid_mono g p q u v : 0 < g_dx g -> to_grid g p = Ok u -> to_grid g q = Ok v ->
  (fst p <= fst q -> (fst u <= fst v)%Z) /\ (snd p <= snd q -> (snd u <= snd v)%Z).
Proof.
  intros Hd H1 H2. unfold to_grid in *. inv_ok. apply ofOption_ok in Hr, Hr0, Hr1, Hr2. rnum.
  apply cast_i32_some in Hr, Hr0, Hr1, Hr2. destruct Hr as [-> _], Hr0 as [-> _], Hr1 as [-> _], Hr2 as [-> _]. cbn [fst snd].
  assert (Hi : 0 < / g_dx g) by now apply Rinv_0_lt_compat.
  split; intros H; apply Rround_mono; unfold Rdiv; nra.
Qed.
Lemma unit_sign d : d <> 0 -> d / sqrt (d * d) = if Rlt_dec 0 d then 1 else -1.
Proof.
  intros H. change (d * d) with (Rsqr d). rewrite sqrt_Rsqr_abs. destruct (Rlt_dec 0 d) as [L|L].
  - rewrite Rabs_right by lra. field. lra.
  - rewrite Rabs_left by lra. field. lra.
Qed.
Lemma mk_surface_dir (a b : vec) sg s : mk_surface a b sg = Ok s ->
  s_tangent s = ((fst b - fst a) / sqrt ((fst b - fst a) * (fst b - fst a) + (snd b - snd a) * (snd b - snd a)),
                 (snd b - snd a) / sqrt ((fst b - fst a) * (fst b - fst a) + (snd b - snd a) * (snd b - snd a))).
Proof. intros H. unfold mk_surface in H. inv_ok. cbn [s_tangent]. unfold vdivs, vnorm, vsub. rnumg. reflexivity. Qed.
Lemma tangent_cells g a b sg s ic : 0 < g_dx g -> mk_surface a b sg = Ok s -> to_grid_surface g s = Ok ic ->
  s_tangent s = (IZR (fst (is_tangent ic)), IZR (snd (is_tangent ic))).
Proof.
  intros Hd Hs H. destruct (surface_cells _ _ _ _ _ _ Hs H) as (Ea & Eb & Ne & _ & _ & _ & ->). cbn [fst snd].
  assert (Hax : fst a = fst b \/ snd a = snd b) by (apply (mk_surface_iff a b sg); eauto).
  rewrite (mk_surface_dir _ _ _ _ Hs).
  destruct (to_grid_mono g a b _ _ Hd Ea Eb) as [M1 M2], (to_grid_mono g b a _ _ Hd Eb Ea) as [M3 M4].
  destruct (to_grid_coord g a b _ _ Ea Eb) as [C1 C2].
  set (A := is_a ic) in *. set (B := is_b ic) in *.
  assert (Sg : forall x y (X Y : Z), (x <= y -> (X <= Y)%Z) -> (y <= x -> (Y <= X)%Z) -> X <> Y ->
     y - x <> 0 /\ (if Rlt_dec 0 (y - x) then 1 else -1) = IZR (Z.sgn (Y - X))).
  { intros x y X Y N1 N2 N. destruct (Rlt_dec x y) as [L|L].
    - split; [lra|]. destruct (Rlt_dec 0 (y - x)); [|lra]. specialize (N1 ltac:(lra)). rewrite Z.sgn_pos by lia. reflexivity.
    - specialize (N2 ltac:(lra)). split; [intros E; specialize (N1 ltac:(lra)); lia|]. destruct (Rlt_dec 0 (y - x)); [lra|]. rewrite Z.sgn_neg by lia. reflexivity. }
  destruct Hax as [E|E].
  - specialize (C1 E). rewrite E, C1. rewrite !Rminus_eq_0, Z.sub_diag. rewrite Rmult_0_l, Rplus_0_l.
    assert (N : snd A <> snd B) by (intros E2; apply Ne; destruct A, B; cbn in *; congruence).
    destruct (Sg _ _ _ _ M2 M4 N) as [S1 S2]. f_equal; [unfold Rdiv; cbn; ring|]. rewrite <- S2. now apply unit_sign.
  - specialize (C2 E). rewrite E, C2. rewrite !Rminus_eq_0, Z.sub_diag. rewrite Rmult_0_l, Rplus_0_r.
    assert (N : fst A <> fst B) by (intros E2; apply Ne; destruct A, B; cbn in *; congruence).
    destruct (Sg _ _ _ _ M1 M3 N) as [S1 S2]. f_equal; [|unfold Rdiv; cbn; ring]. rewrite <- S2. now apply unit_sign.
Qed.
Lemma surf_pos_middle g a b sg s ic i : 0 < g_dx g -> mk_surface a b sg = Ok s -> to_grid_surface g s = Ok ic ->
  surf_pos g s ic i = edge_middle (g_dx g) (is_a ic) (is_b ic) i.
Proof.
  intros Hd Hs H. unfold surf_pos. rewrite (tangent_cells _ _ _ _ _ _ Hd Hs H).
  destruct (surface_cells _ _ _ _ _ _ Hs H) as (_ & _ & _ & _ & _ & _ & ->). unfold edge_middle, to_real, iadd, iscale, vadd, vscale. cbn [fst snd].
  rnumg. rewrite !plus_IZR, !mult_IZR. cbn [fst snd]. f_equal; field.
Qed.

(** *** Sampling loops *)
Lemma for_samples_nth n f l : for_samples n f = Ok l -> List.length l = n /\ forall i, (i < n)%nat -> exists v, nth_error l i = Some v /\ f (Z.of_nat i) = Ok v.
Proof.
  unfold for_samples. intros H. assert (L := mapM_length _ _ _ H). rewrite zseq_length in L. split; [exact L|].
  intros i Hi. apply (mapM_inv _ _ _ H i (Z.of_nat i)).
  rewrite (nth_error_nth' _ 0%Z) by now rewrite zseq_length. rewrite zseq_nth by exact Hi. f_equal.
Qed.
Lemma pget_ok l i v : pget l (Z.of_nat i) = Ok v -> nth_error l i = Some v.
Proof.
  unfold pget, inr. destruct ((0 <=? Z.of_nat i)%Z && (Z.of_nat i <? Z.of_nat (List.length l))%Z) eqn:E; [|discriminate].
  intros H. injection H as <-. rewrite Nat2Z.id. apply nth_error_nth'. apply andb_prop in E. change (@T RNum) with R in *. lia.
Qed.
Lemma sample_E_nth dx F pos s n gs s' : sample_E dx F pos s n = Ok (gs, s') ->
  List.length gs = n /\ List.length s' = Nat.max n (List.length s) /\
  forall i, (i < n)%nat -> exists v p, interpolate dx F Ez (pos (Z.of_nat i)) = Ok v /\ nth_error s i = Some p /\
    nth_error gs i = Some ((v + p) / 2) /\ nth_error s' i = Some v.
Proof.
  unfold sample_E. intros H.
  destruct (for_samples n (fun i => interpolate dx F Ez (pos i))) as [new| |] eqn:E1; cbn [bind] in H; try discriminate.
  destruct (for_samples n (pget s)) as [old| |] eqn:E2; cbn [bind] in H; try discriminate. injection H as <- <-.
  destruct (for_samples_nth _ _ _ E1) as [L1 N1], (for_samples_nth _ _ _ E2) as [L2 N2].
  change (@T RNum) with R in *.
  split; [rewrite map_length, combine_length; lia|]. split; [rewrite app_length, skipn_length; lia|].
  intros i Hi. destruct (N1 i Hi) as (v & V1 & V2), (N2 i Hi) as (p & P1 & P2). exists v, p.
  split; [exact V2|]. split; [now apply pget_ok|]. split.
  - rewrite nth_error_map, (nth_error_combine _ _ _ _ _ V1 P1). reflexivity.
  - rewrite nth_error_app1 by lia. exact V1.
Qed.

(** *** A family of samplers, one for each field content *)
Section Family.
Context {S : Type} (fs : fields -> sampler S) (rd : fields -> string -> nat -> res R) (old : S -> nat -> option R) (ok : S -> Prop).
Hypothesis Iso : forall F, isolated "Ez" (fs F).
Hypothesis Fill : forall F, fills (fs F).
Hypothesis Read : forall F s key n gs s', fs F s key n = Ok (gs, s') -> forall i, (i < n)%nat ->
  exists v, rd F key i = Ok v /\
    nth_error gs i = Some (if String.eqb key "Ez" then match old s i with Some p => (v + p) / 2 | None => v end else v) /\
    (key = "Ez"%string -> old s' i = match old s i with Some _ => Some v | None => None end).
Fixpoint fam_run (l : list (R * fields)) (s : S) (d : dft) : res (dft * S) :=
  match l with
  | [] => Ok (d, s)
  | (t, F) :: l => '(d, s) <- dft_update (fs F) s d t ;; fam_run l s d
  end.
Definition smooth (o : option R) (l : list R) : list R := match o with Some p => averages p l | None => l end.
Lemma fam_sums : forall l s d d' s', shaped d -> later (d_t d) (map fst l) -> fam_run l s d = Ok (d', s') ->
  shaped d' /\ d_freq d' = d_freq d /\ map fst (d_map d') = map fst (d_map d) /\
  forall key i k f z, nth_error (d_freq d) k = Some f -> coef d key i k = Some z ->
    exists vs, Forall2 (fun tF v => rd (snd tF) key i = Ok v) l vs /\
      coef d' key i k = Some (plus2 z (fourier f (combine (map fst l) (if String.eqb key "Ez" then smooth (old s i) vs else vs)))).
Proof.
  induction l as [|[t F] l IH]; intros s d d' s' Hd Ht H; cbn [fam_run map fst later] in *.
  - injection H as <- <-. split; [exact Hd|]. split; [reflexivity|]. split; [reflexivity|]. intros key i k f [a b] _ Hz. exists []. split; [constructor|].
    rewrite Hz. unfold plus2. cbn. do 2 f_equal; ring.
  - destruct Ht as [Ht1 Ht2]. destruct (dft_update (fs F) s d t) as [[d1 s1]| |] eqn:E; cbn [bind] in H; try discriminate.
    destruct (update_isolated "Ez" _ _ _ _ _ _ (Iso F) (Fill F) Hd (Rlt_not_eq _ _ Ht1) E) as (Q1 & Q2 & Q3 & Qk & Q4 & _).
    rewrite <- Q1 in Ht2. destruct (IH _ _ _ _ Q3 Ht2 H) as (D1 & D2 & D3 & D4).
    split; [exact D1|]. split; [congruence|]. split; [congruence|]. intros key i k f z Hf Hz.
    destruct (coef_lookup _ _ _ _ _ Hz) as (e & row & H1 & H2 & H3).
    destruct (Q4 _ _ H1) as (gs & e' & G1 & G2 & G3 & G4 & G5).
    assert (Hi : (i < List.length e)%nat) by (apply nth_error_Some; congruence).
    destruct (Read _ _ _ _ _ _ G1 i Hi) as (v & R1 & R2 & R3).
    assert (C := G5 i k f _ z Hf R2 Hz). rewrite <- Q2 in Hf. destruct (D4 key i k f _ Hf C) as (vs & V1 & V2).
    exists (v :: vs). split; [now constructor|]. rewrite V2. clear - R3.
    destruct (String.eqb key "Ez") eqn:Ek.
    + apply String.eqb_eq in Ek. specialize (R3 Ek). rewrite R3. destruct (old s i) as [p|]; cbn [smooth averages combine fourier]; unfold plus2; cbn [fst snd]; do 2 f_equal; ring.
    + cbn [combine fourier]. unfold plus2; cbn [fst snd]; do 2 f_equal; ring.
Qed.
End Family.

Lemma Forall2_weaken {A B} (P Q : A -> B -> Prop) l l2 : (forall a b, P a b -> Q a b) -> Forall2 P l l2 -> Forall2 Q l l2.
Proof. intros H. induction 1; constructor; auto. Qed.

(** *** Surface monitors *)
Definition surf_read (g : grid) (s : surface) (ic : isurface) (F : fields) (key : string) (i : nat) : res R :=
  match comp_name key with Some c => interpolate (g_dx g) F c (surf_pos g s ic (Z.of_nat i)) | None => UB MissingReturn end.
Lemma comp_name_ez key : comp_name key = Some Ez <-> key = "Ez"%string.
Proof.
  unfold comp_name. destruct (String.eqb_spec key "Ez") as [->|E]; [tauto|].
  destruct (String.eqb key "Hx"); [split; congruence|]. destruct (String.eqb key "Hy"); split; congruence.
Qed.
Lemma comp_name_range key c : comp_name key = Some c -> c = Ez \/ c = Hx \/ c = Hy.
Proof.
  unfold comp_name. destruct (String.eqb key "Ez"); [intros [= <-]; auto|]. destruct (String.eqb key "Hx"); [intros [= <-]; auto|].
  destruct (String.eqb key "Hy"); [intros [= <-]; auto|discriminate].
Qed.
Lemma surf_sample_plain g F s ic st key n gs st' : surf_sample g F s ic st key n = Ok (gs, st') -> key <> "Ez"%string ->
  st' = st /\ (forall st2, surf_sample g F s ic st2 key n = Ok (gs, st2)) /\ List.length gs = n /\
  forall i, (i < n)%nat -> exists v, surf_read g s ic F key i = Ok v /\ nth_error gs i = Some v.
Proof.
  intros H Hk. unfold surf_read. destruct (comp_name key) as [c|] eqn:C; [|unfold surf_sample in H; rewrite C in H; discriminate].
  assert (Hc : c <> Ez) by (intros ->; apply comp_name_ez in C; contradiction).
  assert (Q : forall st2, surf_sample g F s ic st2 key n = (v <- for_samples n (fun i => interpolate (g_dx g) F c (surf_pos g s ic i)) ;; Ok (v, st2)))
    by (intros st2; unfold surf_sample; rewrite C; destruct c; congruence || reflexivity).
  rewrite Q in H. destruct (for_samples n (fun i => interpolate (g_dx g) F c (surf_pos g s ic i))) as [v| |] eqn:E; cbn [bind] in H; try discriminate. injection H as -> <-.
  destruct (for_samples_nth _ _ _ E) as [L N]. split; [reflexivity|]. split; [|split; [exact L|]].
  - intros st2. rewrite Q. reflexivity.
  - intros i Hi. destruct (N i Hi) as (v & V1 & V2). exists v. auto.
Qed.
Lemma surf_sample_ez g F s ic st n : surf_sample g F s ic st "Ez"%string n = sample_E (g_dx g) F (surf_pos g s ic) st n.
Proof. reflexivity. Qed.
Lemma surf_isolated g s ic F : isolated "Ez" (surf_sample g F s ic).
Proof. intros st key n gs st' H Hk. destruct (surf_sample_plain _ _ _ _ _ _ _ _ _ H Hk) as (A & B & _). auto. Qed.
Lemma surf_fills g s ic F : fills (surf_sample g F s ic).
Proof.
  intros st key n gs st' H. destruct (string_dec key "Ez") as [->|Hk].
  - rewrite surf_sample_ez in H. apply sample_E_nth in H. tauto.
  - destruct (surf_sample_plain _ _ _ _ _ _ _ _ _ H Hk) as (_ & _ & B & _). auto.
Qed.
Definition stored (s : list R) (i : nat) : option R := nth_error s i.
Lemma surf_reads g s ic : forall F st key n gs st', surf_sample g F s ic st key n = Ok (gs, st') -> forall i, (i < n)%nat ->
  exists v, surf_read g s ic F key i = Ok v /\
    nth_error gs i = Some (if String.eqb key "Ez" then match stored st i with Some p => (v + p) / 2 | None => v end else v) /\
    (key = "Ez"%string -> stored st' i = match stored st i with Some _ => Some v | None => None end).
Proof.
  intros F st key n gs st' H i Hi. destruct (String.eqb_spec key "Ez") as [->|Hk].
  - rewrite surf_sample_ez in H. apply sample_E_nth in H. destruct H as (_ & _ & H). destruct (H i Hi) as (v & p & V1 & V2 & V3 & V4).
    exists v. unfold stored. change (@T RNum) with R in *. rewrite V2. auto.
  - destruct (surf_sample_plain _ _ _ _ _ _ _ _ _ H Hk) as (_ & _ & _ & B). destruct (B i Hi) as (v & V1 & V2).
    exists v. split; [exact V1|]. split; [exact V2|]. congruence.
Qed.

Lemma surf_feed_fam g ic : forall l m m', to_grid_surface g (sm_surf m) = Ok ic -> surf_feed g l m = Ok m' ->
  sm_surf m' = sm_surf m /\ sm_len m' = sm_len m /\ sm_kind m' = sm_kind m /\
  fam_run (fun F => surf_sample g F (sm_surf m) ic) l (sm_prevE m) (sm_dft m) = Ok (sm_dft m', sm_prevE m').
Proof.
  induction l as [|[t F] l IH]; intros m m' Hg H; unfold surf_feed in *; cbn [foldM fam_run fst snd] in *.
  - injection H as <-. auto.
  - destruct (surf_update g F t m) as [m1| |] eqn:E; cbn [bind] in H; try discriminate. unfold surf_update in E. rewrite Hg in E. cbn [bind] in E.
    destruct (dft_update (surf_sample g F (sm_surf m) ic) (sm_prevE m) (sm_dft m) t) as [[d pe]| |]; cbn [bind] in E |- *; try discriminate.
    injection E as <-. apply IH in H; [|exact Hg]. cbn [sm_surf sm_len sm_kind sm_prevE sm_dft] in H. exact H.
Qed.
Lemma surf_attach_fresh g m0 m : d_map (sm_dft m0) = [] -> surf_attach g m0 = Ok m ->
  exists ic, to_grid_surface g (sm_surf m0) = Ok ic /\ inorm (is_dim ic) = Ok (sm_len m) /\ sm_surf m = sm_surf m0 /\ sm_kind m = sm_kind m0 /\
    sm_prevE m = repeat 0 (Z.to_nat (sm_len m)) /\ d_t (sm_dft m) = d_t (sm_dft m0) /\ d_freq (sm_dft m) = d_freq (sm_dft m0) /\
    fresh (sm_dft m) (sm_len m) (surf_keys (sm_kind m0) (fst (is_dim ic))).
Proof.
  intros Hm H. unfold surf_attach in H. destruct (to_grid_surface g (sm_surf m0)) as [ic| |] eqn:E1; cbn [bind] in H; try discriminate.
  destruct (inorm (is_dim ic)) as [len| |] eqn:E2; cbn [bind] in H; try discriminate.
  match type of H with bind ?x _ = _ => destruct x as [d| |] eqn:E3; cbn [bind] in H; try discriminate end. injection H as <-.
  exists ic. cbn [sm_len sm_surf sm_kind sm_prevE sm_dft].
  assert (F0 : fresh (sm_dft m0) len []) by (split; [rewrite Hm; constructor|intros key; now rewrite Hm]).
  destruct (dft_adds_fresh _ _ _ _ _ F0 E3) as (A1 & A2 & A3). cbn [app] in A3. repeat (split; [auto; fail|]). auto.
Qed.

Lemma comp_name_key c : c = Ez \/ c = Hx \/ c = Hy -> comp_name (key_of c) = Some c.
Proof. intros [-> | [-> | ->]]; reflexivity. Qed.
Lemma wants_range k v c : wants k v c -> c = Ez \/ c = Hx \/ c = Hy.
Proof. destruct k; cbn; try tauto. destruct v; tauto. Qed.
Lemma surf_keys_wants k d c : wants k (d =? 0)%Z c -> In (key_of c) (surf_keys k d).
Proof.
  destruct k; cbn [wants surf_keys]; [intros ->; now left..| |intros [-> | [-> | ->]]; cbn; auto].
  destruct (d =? 0)%Z; intros [-> | ->]; cbn; auto.
Qed.
Lemma key_ez c : c = Ez \/ c = Hx \/ c = Hy -> String.eqb (key_of c) "Ez" = match c with Ez => true | _ => false end.
Proof. intros [-> | [-> | ->]]; reflexivity. Qed.

Lemma plus2_0 z : plus2 (0, 0) z = z.
Proof. destruct z. unfold plus2. cbn. f_equal; ring. Qed.
Lemma surf_sums g a b sg s name k freq m0 m l : 0 < g_dx g -> mk_surface a b sg = Ok s ->
  surf_attach g (mk_surf_mon name s k freq) = Ok m0 -> surf_feed g l m0 = Ok m -> later 0 (map fst l) ->
  exists A B, to_grid g a = Ok A /\ to_grid g b = Ok B /\ sm_len m = edges A B /\ shaped (sm_dft m) /\ d_freq (sm_dft m) = freq /\
  forall c i kf f, wants k (fst A =? fst B)%Z c -> (0 <= i < edges A B)%Z -> nth_error freq kf = Some f ->
    exists vs, Forall2 (fun tF v => interpolate (g_dx g) (snd tF) c (edge_middle (g_dx g) A B i) = Ok v) l vs /\
      coef (sm_dft m) (key_of c) (Z.to_nat i) kf = Some (fourier f (combine (map fst l) (in_time c vs))).
Proof.
  intros Hd Hs Ha Hf Ht. destruct (surf_attach_fresh g _ _ (eq_refl : d_map (sm_dft (mk_surf_mon name s k freq)) = []) Ha) as (ic & I1 & I2 & I3 & I4 & I5 & I6 & I7 & I8).
  cbn [mk_surf_mon sm_surf sm_kind sm_dft mk_dft d_t d_freq] in *.
  destruct (surface_cells _ _ _ _ _ _ Hs I1) as (C1 & C2 & _ & _ & _ & C3 & _). exists (is_a ic), (is_b ic).
  rewrite (edges_norm _ _ _ _ _ _ Hs I1) in I2. injection I2 as I2.
  rewrite <- I3 in I1. destruct (surf_feed_fam g ic l m0 m I1 Hf) as (_ & L & _ & FR).
  split; [exact C1|]. split; [exact C2|]. split; [congruence|].
  assert (T0 : later (d_t (sm_dft m0)) (map fst l)) by (rewrite I6; exact Ht).
  destruct (fam_sums _ _ stored (surf_isolated g (sm_surf m0) ic) (surf_fills g (sm_surf m0) ic) (surf_reads g (sm_surf m0) ic) l _ _ _ _ (fresh_shaped _ _ _ I8) T0 FR) as (S1 & S2 & _ & S3).
  split; [exact S1|]. split; [congruence|]. intros c i kf f Hw Hi Hk.
  assert (Rg := wants_range _ _ _ Hw).
  assert (Hkf : (kf < List.length (d_freq (sm_dft m0)))%nat) by (rewrite I7; apply nth_error_Some; congruence).
  assert (Z0 : coef (sm_dft m0) (key_of c) (Z.to_nat i) kf = Some (0, 0)).
  { apply (fresh_coef _ _ _ _ _ _ I8); [|rewrite <- I2; lia|exact Hkf]. apply surf_keys_wants. rewrite C3. cbn [fst].
    replace (Z.abs (fst (is_b ic) - fst (is_a ic)) =? 0)%Z with (fst (is_a ic) =? fst (is_b ic))%Z by lia. exact Hw. }
  assert (Hk2 := Hk). rewrite <- I7 in Hk2. destruct (S3 _ _ _ _ _ Hk2 Z0) as (vs & V1 & V2). exists vs.
  split.
  - revert V1. apply Forall2_weaken. intros [t F] v. unfold surf_read. rewrite comp_name_key by exact Rg.
    rewrite (surf_pos_middle g a b sg (sm_surf m0) ic); [|exact Hd|now rewrite I3|exact I1]. rewrite Z2Nat.id by lia. auto.
  - rewrite V2, plus2_0. rewrite key_ez by exact Rg. do 3 f_equal. unfold in_time. rewrite I5. unfold stored.
    destruct Rg as [-> | [-> | ->]]; try reflexivity.
    rewrite nth_error_repeat by (rewrite <- I2; lia). reflexivity.
Qed.
