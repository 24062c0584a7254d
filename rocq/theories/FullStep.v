(** One call of update() cell by cell, with dispersive media, sources and the TFSF region. *)
From Coq Require Import ZArith String List Bool Lia.
From Verif Require Import Scalar Base BaseFacts VecM GridM GeometryM MaterialM PmlM DftM TfsfM PolarM
  InterpM H5M ClockM MonitorM FieldM OutFacts PhysFacts PaintFacts WfFacts ReachFacts SpecStep StepFacts
  EngineFacts YeeFacts SpecSource SourceFacts PolarFacts.
Import ListNotations.
Local Open Scope Z_scope.

Section Full.
Context {N : Num}.

(** ** The TFSF corrections as functions of the cell *)
Definition band (a b i : Z) : bool := (a <=? i) && (i <=? b).
Definition tfD1 (q : tfsf) (i j : Z) (x : T) : T :=
  if band (q_ia q) (q_ib q) i then
    let x := if j =? q_ja q then (x + half * aval (q_H q) 2)%num else x in
    if j =? q_jb q then (x + - half * aval (q_H q) (q_N q - 2))%num else x
  else x.
Definition tfHx1 (q : tfsf) (i j : Z) (x : T) : T :=
  if band (q_ia q) (q_ib q) i then
    let x := if j =? q_ja q - 1 then (x + half * aval (q_E q) 3)%num else x in
    if j =? q_jb q then (x + - half * aval (q_E q) (q_N q - 2))%num else x
  else x.
Definition tfHy1 (q : tfsf) (i j : Z) (x : T) : T :=
  if band (q_ja q) (q_jb q) j then
    let e := aval (q_E q) (j - q_ja q + 3) in
    let x := if i =? q_ia q - 1 then (x + - half * e)%num else x in
    if i =? q_ib q then (x + half * e)%num else x
  else x.
Definition tf (f : tfsf -> Z -> Z -> T -> T) (o : option tfsf) (a : cells) : cells := fun i j =>
  match o with None => a i j | Some q => f q i j (a i j) end.

Lemma tadd_val a i j v b : tadd a i j v = Ok b ->
  forall i' j', tval b i' j' = if (i' =? i) && (j' =? j) then (tval a i' j' + v)%num else tval a i' j'.
Proof.
  unfold tadd. intros H i' j'. apply bind_ok in H. destruct H as (x & Hx & H).
  apply tget_inv in Hx. destruct Hx as (_ & _ & ->). apply tset_inv in H. destruct H as (_ & _ & ->).
  destruct ((i' =? i) && (j' =? j)) eqn:E.
  - apply andb_true_iff in E. destruct E as [E1 E2]. apply Z.eqb_eq in E1, E2. subst. apply tupd_same.
  - apply tupd_other. intros [-> ->]. rewrite !Z.eqb_refl in E. discriminate.
Qed.
Lemma aget_val a i v : aget a i = Ok v -> v = aval a i.
Proof. unfold aget. destruct (inr (alen a) i); intros H; inv_ok. reflexivity. Qed.

(** a loop over the columns of a band, each pass changing only its own column *)
Lemma column_loop (f : Z -> Z -> T -> T) body lo hi : forall a b,
  (forall k a b, lo <= k < hi -> body k a = Ok b -> forall i j, tval b i j = if i =? k then f i j (tval a i j) else tval a i j) ->
  for_up lo hi body a = Ok b ->
  forall i j, tval b i j = if (lo <=? i) && (i <? hi) then f i j (tval a i j) else tval a i j.
Proof.
  intros a b Hs Hr. destruct (Z.le_gt_cases lo hi) as [Hle|Hgt].
  - apply (for_up_post (fun k c => forall i j, tval c i j = if (lo <=? i) && (i <? k) then f i j (tval a i j) else tval a i j)
      body lo hi a b Hle); [| |exact Hr].
    + intros i j. replace ((lo <=? i) && (i <? lo)) with false by lia. reflexivity.
    + intros k c d Hk Hc Hb i j. rewrite (Hs k c d Hk Hb), Hc. destruct (Z.eqb_spec i k) as [->|Hne].
      * replace ((lo <=? k) && (k <? k)) with false by lia. replace ((lo <=? k) && (k <? k + 1)) with true by lia. reflexivity.
      * replace ((lo <=? i) && (i <? k + 1)) with ((lo <=? i) && (i <? k)) by lia. reflexivity.
  - rewrite for_up_empty in Hr by lia. injection Hr as <-. intros i j.
    replace ((lo <=? i) && (i <? hi)) with false by lia. reflexivity.
Qed.
Lemma row_loop (f : Z -> Z -> T -> T) body lo hi : forall a b,
  (forall k a b, lo <= k < hi -> body k a = Ok b -> forall i j, tval b i j = if j =? k then f i j (tval a i j) else tval a i j) ->
  for_up lo hi body a = Ok b ->
  forall i j, tval b i j = if (lo <=? j) && (j <? hi) then f i j (tval a i j) else tval a i j.
Proof.
  intros a b Hs Hr. destruct (Z.le_gt_cases lo hi) as [Hle|Hgt].
  - apply (for_up_post (fun k c => forall i j, tval c i j = if (lo <=? j) && (j <? k) then f i j (tval a i j) else tval a i j)
      body lo hi a b Hle); [| |exact Hr].
    + intros i j. replace ((lo <=? j) && (j <? lo)) with false by lia. reflexivity.
    + intros k c d Hk Hc Hb i j. rewrite (Hs k c d Hk Hb), Hc. destruct (Z.eqb_spec j k) as [->|Hne].
      * replace ((lo <=? k) && (k <? k)) with false by lia. replace ((lo <=? k) && (k <? k + 1)) with true by lia. reflexivity.
      * replace ((lo <=? j) && (j <? k + 1)) with ((lo <=? j) && (j <? k)) by lia. reflexivity.
  - rewrite for_up_empty in Hr by lia. injection Hr as <-. intros i j.
    replace ((lo <=? j) && (j <? hi)) with false by lia. reflexivity.
Qed.

Lemma band_lt a b i : band a b i = (a <=? i) && (i <? b + 1).
Proof. unfold band. lia. Qed.

Lemma tfsf_updateD_cells q E E' : tfsf_updateD q E = Ok E' -> forall i j, tval E' i j = tfD1 q i j (tval E i j).
Proof.
  unfold tfsf_updateD. intros H i j.
  apply (column_loop (fun i j x =>
    let x := if j =? q_ja q then (x + half * aval (q_H q) 2)%num else x in
    if j =? q_jb q then (x + - half * aval (q_H q) (q_N q - 2))%num else x)) with (i := i) (j := j) in H.
  - rewrite H. unfold tfD1. now rewrite band_lt.
  - clear. intros k a b _ Hb i j. inv_ok.
    repeat match goal with H : aget _ _ = Ok _ |- _ => apply aget_val in H; subst end.
    match goal with H : tadd ?x _ _ _ = Ok b, H' : tadd a _ _ _ = Ok ?x |- _ => rewrite (tadd_val _ _ _ _ _ H), (tadd_val _ _ _ _ _ H') end.
    destruct (i =? k), (j =? q_jb q), (j =? q_ja q); reflexivity.
Qed.
Lemma tfsf_updateH_cells q X Y X' Y' : tfsf_updateH q X Y = Ok (X', Y') ->
  (forall i j, tval X' i j = tfHx1 q i j (tval X i j)) /\ (forall i j, tval Y' i j = tfHy1 q i j (tval Y i j)).
Proof.
  unfold tfsf_updateH. intros H. apply bind_ok in H. destruct H as (X1 & HX & H). apply bind_ok in H. destruct H as (Y1 & HY & H).
  injection H as <- <-. split; intros i j.
  - apply (column_loop (fun i j x =>
      let x := if j =? q_ja q - 1 then (x + half * aval (q_E q) 3)%num else x in
      if j =? q_jb q then (x + - half * aval (q_E q) (q_N q - 2))%num else x)) with (i := i) (j := j) in HX.
    + rewrite HX. unfold tfHx1. now rewrite band_lt.
    + clear. intros k a b _ Hb i j. inv_ok.
      repeat match goal with H : aget _ _ = Ok _ |- _ => apply aget_val in H; subst end.
      match goal with H : tadd ?x _ _ _ = Ok b, H' : tadd a _ _ _ = Ok ?x |- _ => rewrite (tadd_val _ _ _ _ _ H), (tadd_val _ _ _ _ _ H') end.
      destruct (i =? k), (j =? q_jb q), (j =? q_ja q - 1); reflexivity.
  - apply (row_loop (fun i j x => let e := aval (q_E q) (j - q_ja q + 3) in
      let x := if i =? q_ia q - 1 then (x + - half * e)%num else x in
      if i =? q_ib q then (x + half * e)%num else x)) with (i := i) (j := j) in HY.
    + rewrite HY. unfold tfHy1. now rewrite band_lt.
    + clear. intros k a b _ Hb i j. inv_ok.
      repeat match goal with H : aget _ _ = Ok _ |- _ => apply aget_val in H; subst end.
      match goal with H : tadd ?x _ _ _ = Ok b, H' : tadd a _ _ _ = Ok ?x |- _ => rewrite (tadd_val _ _ _ _ _ H), (tadd_val _ _ _ _ _ H') end.
      destruct (Z.eqb_spec j k) as [->|]; destruct (i =? q_ia q - 1), (i =? q_ib q); reflexivity.
Qed.

(** ** The whole step *)
Definition lits (t : T) (RL : list (source * list (Z * Z))) (c : comp) (a : cells) : cells :=
  fun i j => lit t RL c i j (a i j).
Definition line (o : option tfsf) : res (option tfsf) :=
  match o with None => Ok None | Some q => q <- tfsf_pulse q ;; Ok (Some q) end.
Definition saved {A} (o : option A) (v : A) : option A := match o with None => None | Some _ => Some v end.
Definition shifted {A} (o v : option A) : option A := match o with None => None | Some _ => v end.
Definition with_xy (x y : cells) (u : hmag) : hmag := Hmag x (hXl u) (hXh u) y (hYl u) (hYh u).

Record cellwise (p p' : phys) (E0 E1 E2 E3 : tensor) (Ls : list (list (Z * Z))) (u : emag) (h : hmag) : Prop := Cellwise {
  cw_u : u = grid_next_e p (e_of p) (hX (h_of p)) (hY (h_of p));
  cw_E0 : forall i j, tval E0 i j = eE u i j;
  cw_debye : polar_all debye_update (saved (ph_prevE p) (fEz (ph_F p))) E0 (ph_debye p) = Ok (ph_debye p', E1);
  cw_drude : polar_all drude_update (saved (ph_prevE p) (fEz (ph_F p))) E1 (ph_drude p) = Ok (ph_drude p', E2);
  cw_lorentz : polar_all lorentz_update (shifted (ph_prev2E p) (ph_prevE p)) E2 (ph_lorentz p) = Ok (ph_lorentz p', E3);
  cw_prev : ph_prevE p' = saved (ph_prevE p) (fEz (ph_F p)) /\ ph_prev2E p' = shifted (ph_prev2E p) (ph_prevE p);
  cw_cells : Forall2 (fun r L => src_cells (ph_grid p) (sr_kind r) L /\ (L <> [] -> field_comp (sr_c r))) (ph_srcs p) Ls;
  cw_srcs : map src_core (ph_srcs p') = map src_core (ph_srcs p);
  cw_e : same_e (e_of p') (Emag (lits (ph_t p + g_dt (ph_grid p))%num (combine (ph_srcs p) Ls) Ez (tf tfD1 (ph_tfsf p) (tval E3)))
                               (eXl u) (eXh u) (eYl u) (eYh u));
  cw_line : line (ph_tfsf p) = Ok (ph_tfsf p');
  cw_hm : h = grid_next_h p (with_xy (lits (ph_t p + g_dt (ph_grid p))%num (combine (ph_srcs p) Ls) Hx (hX (h_of p)))
                                     (lits (ph_t p + g_dt (ph_grid p))%num (combine (ph_srcs p) Ls) Hy (hY (h_of p))) (h_of p)) (eE (e_of p'));
  cw_h : same_h (h_of p') (with_xy (tf tfHx1 (ph_tfsf p') (hX h)) (tf tfHy1 (ph_tfsf p') (hY h)) h);
  cw_static : static p' = static p;
  cw_wf : wf_phys p';
  cw_t : ph_t p' = (ph_t p + g_dt (ph_grid p))%num;
  cw_step : ph_step p' = ph_step p + 1 }.

Lemma full_step p p' : apart (ph_grid p) -> wf_phys p -> phys_step p = Fine p' ->
  exists E0 E1 E2 E3 Ls u h, cellwise p p' E0 E1 E2 E3 Ls u h.
Proof.
  intros Ha Hw Hs.
  destruct (phys_step_phases p p' Ha Hw Hs) as (p0 & p1 & p2 & p3 & p4 & p5 & p6 & PH).
  destruct PH as [Hi E0 (E & b & E1) Ve Vh R2 R3 R4 R5 (X & Y & b6 & E6) V6 W6 R7 Hwf Hst (K2 & K3 & K4 & K5 & K7)].
  set (t' := (ph_t p + g_dt (ph_grid p))%num) in *.
  assert (Q0 : ph_prevE p0 = saved (ph_prevE p) (fEz (ph_F p)) /\ ph_prev2E p0 = shifted (ph_prev2E p) (ph_prevE p) /\
     ph_tfsf p0 = ph_tfsf p /\ ph_srcs p0 = ph_srcs p /\ ph_debye p0 = ph_debye p /\ ph_drude p0 = ph_drude p /\
     ph_lorentz p0 = ph_lorentz p /\ ph_t p0 = t' /\ ph_step p0 = ph_step p + 1).
  { rewrite E0. clear. destruct p. unfold step_prev, saved, shifted. cbn in *. destruct ph_prev2E; cbn; destruct ph_prevE; cbn; auto 20. }
  destruct Q0 as (Q1 & Q2 & Q3 & Q4 & Q5 & Q6 & Q7 & Q8 & Q9).
  assert (R1 : ph_prevE p1 = saved (ph_prevE p) (fEz (ph_F p)) /\ ph_prev2E p1 = shifted (ph_prev2E p) (ph_prevE p) /\
     ph_tfsf p1 = ph_tfsf p /\ ph_srcs p1 = ph_srcs p /\ ph_debye p1 = ph_debye p /\ ph_drude p1 = ph_drude p /\
     ph_lorentz p1 = ph_lorentz p /\ ph_t p1 = t' /\ ph_step p1 = ph_step p + 1).
  { rewrite E1. cbn. auto 20. }
  clear Q1 Q2 Q3 Q4 Q5 Q6 Q7 Q8 Q9. destruct R1 as (Q1 & Q2 & Q3 & Q4 & Q5 & Q6 & Q7 & Q8 & Q9).
  destruct (step_polar_frame _ _ R2) as (_ & A2x & A2y & A2q & A2s & A2t & A2n & A2p & A2pp).
  destruct (step_tfsfD_frame _ _ R3) as (_ & A3x & A3y & A3q & A3s & A3t & A3n & A3d & A3u & A3l & A3p & A3pp).
  destruct (step_sources_frame _ _ R4) as (_ & A4q & A4t & A4n & _ & A4d & A4u & A4l & A4p & A4pp).
  destruct (step_tfsf_pulse_frame _ _ R5) as (_ & A5F & A5s & A5t & A5n & A5d & A5u & A5l & A5p & A5pp).
  destruct (step_tfsfH_frame _ _ R7) as (_ & A7E & A7q & A7s & A7t & A7n & A7d & A7u & A7l & A7p & A7pp).
  assert (A6 : ph_tfsf p6 = ph_tfsf p5 /\ ph_srcs p6 = ph_srcs p5 /\ ph_t p6 = ph_t p5 /\ ph_step p6 = ph_step p5 /\
    ph_debye p6 = ph_debye p5 /\ ph_drude p6 = ph_drude p5 /\ ph_lorentz p6 = ph_lorentz p5 /\ ph_prevE p6 = ph_prevE p5 /\
    ph_prev2E p6 = ph_prev2E p5) by (rewrite E6; cbn; auto 20).
  destruct A6 as (A6q & A6s & A6t & A6n & A6d & A6u & A6l & A6p & A6pp).
  assert (Hp2 := R2). unfold step_polar in Hp2. apply bind_ok in Hp2. destruct Hp2 as ([P1 T1] & L1 & Hp2).
  apply bind_ok in Hp2. destruct Hp2 as ([P2 T2] & L2 & Hp2).
  apply bind_ok in Hp2. destruct Hp2 as ([P3 T3] & L3 & Hp2). injection Hp2 as Hp2.
  cbn in L2, L3. rewrite Q1, Q5 in L1. rewrite Q1, Q6 in L2. rewrite Q2, Q7 in L3.
  assert (D : ph_debye p2 = P1 /\ ph_drude p2 = P2 /\ ph_lorentz p2 = P3 /\ fEz (ph_F p2) = T3) by (rewrite <- Hp2; cbn; auto).
  destruct D as (D1 & D2 & D3 & D4).
  assert (G3 : ph_grid p3 = ph_grid p) by (destruct Hst as (_ & _ & _ & S3 & _); now apply grid_static).
  assert (V3 : forall i j, tval (fEz (ph_F p3)) i j = tf tfD1 (ph_tfsf p) (tval T3) i j).
  { intros i j. unfold step_tfsfD in R3. rewrite A2q, Q3 in R3. unfold tf. destruct (ph_tfsf p) as [q|].
    - apply bind_ok in R3. destruct R3 as (E' & HE & R3). injection R3 as <-. cbn. rewrite D4 in HE. now apply tfsf_updateD_cells.
    - injection R3 as <-. now rewrite D4. }
  assert (Rc := step_sources_cells _ _ R4). destruct Rc as (Ls & HL & Hc & V4).
  rewrite A3s, A2s, Q4 in HL, Hc, V4. rewrite G3 in HL. rewrite A3t, A2t, Q8 in V4.
  exists (fEz (ph_F p1)), T1, T2, T3, Ls,
    (grid_next_e p (e_of p) (hX (h_of p)) (hY (h_of p))).
  eexists.
  constructor; try reflexivity.
  - intros i j. apply Ve.
  - rewrite L1, <- D1. congruence.
  - rewrite L2, <- D2. congruence.
  - rewrite L3, <- D3. congruence.
  - split; congruence.
  - exact HL.
  - rewrite A7s, A6s, A5s. exact Hc.
  - assert (P5 : forall i j, tval (fEz (ph_F p')) i j = lits t' (combine (ph_srcs p) Ls) Ez (tf tfD1 (ph_tfsf p) (tval T3)) i j).
    { intros i j. rewrite A7E. assert (Z6 := f_equal (fun e => eE e i j) V6). cbn in Z6. rewrite Z6, A5F.
      assert (Hez : field_comp Ez) by (unfold field_comp; auto). specialize (V4 Ez i j Hez). cbn [fval] in V4. rewrite V4. unfold lits. now rewrite V3. }
    assert (Z7 : p_psi (ph_pml p') = p_psi (ph_pml p6)) by exact K7.
    split; [exact P5|]. cbn [eXl eXh eYl eYh].
    destruct Ve as (_ & Ve). unfold e_of in Ve |- *. cbn [eXl eXh eYl eYh] in Ve |- *. rewrite Z7.
    assert (Y1 := f_equal eXl V6). assert (Y2 := f_equal eXh V6). assert (Y3 := f_equal eYl V6). assert (Y4 := f_equal eYh V6).
    cbn [e_of eXl eXh eYl eYh] in Y1, Y2, Y3, Y4. rewrite Y1, Y2, Y3, Y4, K5. exact Ve.
  - unfold line. unfold step_tfsf_pulse in R5. rewrite A4q, A3q, A2q, Q3 in R5. rewrite A7q, A6q. destruct (ph_tfsf p) as [q|].
    + apply bind_ok in R5. destruct R5 as (q' & -> & R5). injection R5 as <-. reflexivity.
    + injection R5 as <-. now rewrite A4q, A3q, A2q, Q3.
  - assert (Hxc : field_comp Hx) by (unfold field_comp; auto). assert (Hyc : field_comp Hy) by (unfold field_comp; auto).
    assert (X5 : same_h (h_of p5) (with_xy (lits t' (combine (ph_srcs p) Ls) Hx (hX (h_of p))) (lits t' (combine (ph_srcs p) Ls) Hy (hY (h_of p))) (h_of p))).
    { assert (B2 : h_of p1 = h_of p) by exact Vh.
      assert (B3 := f_equal hXl B2). assert (B4 := f_equal hXh B2). assert (B5 := f_equal hYl B2). assert (B6 := f_equal hYh B2).
      assert (B7 := f_equal hX B2). assert (B8 := f_equal hY B2). cbn [h_of hX hXl hXh hY hYl hYh] in B3, B4, B5, B6, B7, B8.
      unfold h_of, with_xy. cbn [hX hXl hXh hY hYl hYh]. rewrite K5, A5F. unfold same_h. cbn [hX hXl hXh hY hYl hYh].
      rewrite B3, B4, B5, B6. split; [|split; [|split; [|split; [|split]]]]; try apply same_refl.
      - intros i j. specialize (V4 Hx i j Hxc). cbn [fval] in V4. rewrite V4. unfold lits. now rewrite A3x, A2x, B7.
      - intros i j. specialize (V4 Hy i j Hyc). cbn [fval] in V4. rewrite V4. unfold lits. now rewrite A3y, A2y, B8. }
    assert (Y5 : same (eE (e_of p5)) (eE (e_of p'))).
    { intros i j. rewrite <- V6. cbn. now rewrite A7E. }
    assert (W7 : same_h (h_of p6) (grid_next_h p (with_xy (lits t' (combine (ph_srcs p) Ls) Hx (hX (h_of p))) (lits t' (combine (ph_srcs p) Ls) Hy (hY (h_of p))) (h_of p)) (eE (e_of p')))).
    { eapply same_h_trans; [exact W6|]. now apply next_h_same. }
    set (h7 := grid_next_h p _ _) in *.
    destruct W7 as (C1 & C2 & C3 & C4 & C5 & C6).
    assert (V7 : (forall i j, tval (fHx (ph_F p')) i j = tf tfHx1 (ph_tfsf p') (hX (h_of p6)) i j) /\
                 (forall i j, tval (fHy (ph_F p')) i j = tf tfHy1 (ph_tfsf p') (hY (h_of p6)) i j)).
    { unfold step_tfsfH in R7. rewrite A7q. unfold tf. destruct (ph_tfsf p6) as [q|].
      - apply bind_ok in R7. destruct R7 as ([X7 Y7] & HH & R7). injection R7 as <-. cbn.
        apply tfsf_updateH_cells in HH. exact HH.
      - injection R7 as <-. split; reflexivity. }
    destruct V7 as [V7x V7y].
    unfold same_h, with_xy. cbn [h_of hX hXl hXh hY hYl hYh] in C1, C2, C3, C4, C5, C6 |- *. rewrite K7.
    split; [|split; [exact C2|split; [exact C3|split; [|split; [exact C5|exact C6]]]]].
    + intros i j. rewrite V7x. unfold tf. destruct (ph_tfsf p'); cbn; now rewrite C1.
    + intros i j. rewrite V7y. unfold tf. destruct (ph_tfsf p'); cbn; now rewrite C4.
  - apply Hst.
  - apply Hwf.
  - rewrite A7t, A6t, A5t, A4t, A3t, A2t. exact Q8.
  - congruence.
Qed.
End Full.
