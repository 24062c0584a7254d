(** Painting objects onto the material grid. *)
From Coq Require Import ZArith Reals List Bool String Lia Psatz.
From Verif Require Import Scalar Base BaseFacts VecM GridM GeometryM MaterialM PmlM FieldM OutFacts PhysFacts
  SpecGrid GridFacts SpecGeometry GeometryFacts SpecPaint.
Import ListNotations.
Local Open Scope R_scope.
#[local] Existing Instance RNum.

Section Gen.
Context {N : Num}.
Definition gcell (c : coefs) (i j : Z) : T * T * T * T :=
  (tval (cCa c) i j, tval (cCb c) i j, tval (cDa c) i j, tval (cDb c) i j).
Definition gmat_cell (k : mat_kind) (dt : T) : T * T * T * T :=
  (mat_Ca k dt, mat_Cb k dt, mat_Da k dt, mat_Db k dt).

(** all four coefficient tensors have n rows and m columns *)
Definition coefs_dims (n m : Z) (c : coefs) : Prop :=
  (rows (cCa c) = n /\ cols (cCa c) = m) /\ (rows (cCb c) = n /\ cols (cCb c) = m) /\
  (rows (cDa c) = n /\ cols (cDa c) = m) /\ (rows (cDb c) = n /\ cols (cDb c) = m).

Definition set_cell (k : mat_kind) (dt : T) (i j : Z) (c : coefs) : res coefs :=
  a <- tset (cCa c) i j (mat_Ca k dt) ;;
  b <- tset (cCb c) i j (mat_Cb k dt) ;;
  d <- tset (cDa c) i j (mat_Da k dt) ;;
  e <- tset (cDb c) i j (mat_Db k dt) ;;
  Ok (Coefs a b d e).

Lemma set_cell_post k dt i j c c' : set_cell k dt i j c = Ok c' ->
  gcell c' i j = gmat_cell k dt /\
  (forall i' j', ~ (i' = i /\ j' = j)%Z -> gcell c' i' j' = gcell c i' j') /\
  (forall n m, coefs_dims n m c -> coefs_dims n m c') /\
  (0 <= i < rows (cCa c))%Z /\ (0 <= j < cols (cCa c))%Z.
Proof.
  unfold set_cell. intros H. inv_ok.
  apply tset_inv in Hr, Hr0, Hr1, Hr2.
  destruct Hr as [-> R1], Hr0 as [-> R2], Hr1 as [-> R3], Hr2 as [-> R4].
  unfold gcell, gmat_cell, coefs_dims. cbn [cCa cCb cDa cDb]. split; [now rewrite !tupd_same|].
  split; [|split; [auto|tauto]]. intros i' j' Hne. now rewrite !tupd_other.
Qed.

Lemma set_cell_ok k dt i j c n m : coefs_dims n m c -> (0 <= i < n)%Z -> (0 <= j < m)%Z ->
  exists c', set_cell k dt i j c = Ok c'.
Proof.
  intros ((A1 & A2) & (B1 & B2) & (C1 & C2) & (D1 & D2)) Hi Hj. unfold set_cell.
  rewrite !tset_ok by lia. cbn [bind]. eauto.
Qed.

Lemma clear_coefs_eq g bg c : clear_coefs g bg c =
  for_up 0 (g_Nx g) (fun i c => for_up 0 (g_Ny g) (fun j c => set_cell bg (g_dt g) i j c) c) c.
Proof. reflexivity. Qed.

Lemma clear_coefs_post g bg c c' : clear_coefs g bg c = Ok c' ->
  (forall i j, (0 <= i < g_Nx g)%Z -> (0 <= j < g_Ny g)%Z -> gcell c' i j = gmat_cell bg (g_dt g)) /\
  (forall n m, coefs_dims n m c -> coefs_dims n m c').
Proof.
  rewrite clear_coefs_eq. intros H.
  destruct (for2_cells_post gcell (fun s => forall n m, coefs_dims n m c -> coefs_dims n m s)
     (fun _ _ => gmat_cell bg (g_dt g)) (set_cell bg (g_dt g)) 0 (g_Nx g) 0 (g_Ny g) c c')
    as [Hd [Hg _]]; auto.
  intros i j s s' _ _ Hf _ Hs. apply set_cell_post in Hs. destruct Hs as (H1 & H2 & H3 & _).
  split; [intros n m Hd; apply H3, Hf, Hd|]. auto.
Qed.

Lemma clear_coefs_ok g bg c : coefs_dims (g_Nx g) (g_Ny g) c -> exists c', clear_coefs g bg c = Ok c'.
Proof.
  rewrite clear_coefs_eq. intros Hd.
  destruct (for2_cells gcell (coefs_dims (g_Nx g) (g_Ny g)) (fun _ _ => gmat_cell bg (g_dt g))
     (set_cell bg (g_dt g)) 0 (g_Nx g) 0 (g_Ny g) c Hd) as [c' [H _]]; [|eauto].
  intros i j s Hi Hj Hf _. destruct (set_cell_ok bg (g_dt g) i j s _ _ Hf Hi Hj) as [s' Hs].
  exists s'. split; [exact Hs|]. apply set_cell_post in Hs. destruct Hs as (H1 & H2 & H3 & _). auto.
Qed.

Lemma paint_eq g o c : paint g o c =
  (ib <- to_grid_volume g (obj_box o) ;;
   for_up (fst (iv_a (iclip g ib))) (fst (iv_b (iclip g ib)) + 1) (fun i c =>
    for_up (snd (iv_a (iclip g ib))) (snd (iv_b (iclip g ib)) + 1) (fun j c =>
      if obj_inside o (to_real g (i, j)) then set_cell (m_kind (o_mat o)) (g_dt g) i j c else Ok c) c) c).
Proof. reflexivity. Qed.

Lemma paint_post g o c c' : paint g o c = Ok c' ->
  (forall n m, coefs_dims n m c -> coefs_dims n m c') /\
  exists ib, to_grid_volume g (obj_box o) = Ok ib /\
    forall i j,
      (in_ibox (iv_a (iclip g ib)) (iv_b (iclip g ib)) (i, j) ->
       gcell c' i j = if obj_inside o (to_real g (i, j)) then gmat_cell (m_kind (o_mat o)) (g_dt g)
                      else gcell c i j) /\
      (~ in_ibox (iv_a (iclip g ib)) (iv_b (iclip g ib)) (i, j) -> gcell c' i j = gcell c i j).
Proof.
  rewrite paint_eq. intros H. inv_ok. set (b := iclip g r) in *.
  destruct (for2_cells_post gcell (fun s => forall n m, coefs_dims n m c -> coefs_dims n m s)
     (fun i j => if obj_inside o (to_real g (i, j)) then gmat_cell (m_kind (o_mat o)) (g_dt g)
                 else gcell c i j)
     (fun i j c => if obj_inside o (to_real g (i, j))
                   then set_cell (m_kind (o_mat o)) (g_dt g) i j c else Ok c)
     (fst (iv_a b)) (fst (iv_b b) + 1) (snd (iv_a b)) (snd (iv_b b) + 1) c c')
    as [Hd [Hg Ho]]; auto.
  - intros i j s s' _ _ Hf Hs0 Hs. destruct (obj_inside o (to_real g (i, j))).
    + apply set_cell_post in Hs. destruct Hs as (H1 & H2 & H3 & _).
      split; [intros n m Hd; apply H3, Hf, Hd|]. auto.
    + inv_ok. auto.
  - split; [exact Hd|]. exists r. split; [exact Hr|]. fold b. unfold in_ibox. cbn [fst snd].
    intros i j. split; intros Hi; [apply Hg; lia|apply Ho; lia].
Qed.

(** a painted cell is a cell of the tensors *)
Lemma paint_in_range g o c c' n m : coefs_dims n m c -> paint g o c = Ok c' ->
  exists ib, to_grid_volume g (obj_box o) = Ok ib /\
    forall i j, in_ibox (iv_a (iclip g ib)) (iv_b (iclip g ib)) (i, j) ->
      obj_inside o (to_real g (i, j)) = true -> (0 <= i < n)%Z /\ (0 <= j < m)%Z.
Proof.
  intros Hdim. rewrite paint_eq. intros H. inv_ok. exists r. split; [exact Hr|]. set (b := iclip g r) in *.
  unfold in_ibox. cbn [fst snd]. intros i0 j0 [Hi0 Hj0] Hin.
  set (body := fun i j c => if obj_inside o (to_real g (i, j))
                   then set_cell (m_kind (o_mat o)) (g_dt g) i j c else Ok c) in *.
  assert (Hrow : forall s s', coefs_dims n m s ->
     for_up (snd (iv_a b)) (snd (iv_b b) + 1) (fun j c => body i0 j c) s = Ok s' ->
     (0 <= i0 < n)%Z /\ (0 <= j0 < m)%Z).
  { intros s s' Hs Hl.
    assert (HP : coefs_dims n m s' /\ ((j0 < snd (iv_b b) + 1)%Z -> (0 <= i0 < n)%Z /\ (0 <= j0 < m)%Z)).
    { apply (for_up_post (fun k a => coefs_dims n m a /\ ((j0 < k)%Z -> (0 <= i0 < n)%Z /\ (0 <= j0 < m)%Z))
        (fun j c => body i0 j c) (snd (iv_a b)) (snd (iv_b b) + 1)%Z s s'); [lia| | |exact Hl].
      - split; [exact Hs|lia].
      - intros j a a' Hj [Ha Hlt] Hb. unfold body in Hb. destruct (Z.eq_dec j j0) as [->|Hne].
        + rewrite Hin in Hb. apply set_cell_post in Hb. destruct Hb as (_ & _ & Hd & R1 & R2).
          destruct Ha as [[E1 E2] ?]. rewrite E1, E2 in *. split; [|auto].
          apply Hd. unfold coefs_dims. auto.
        + split.
          * destruct (obj_inside o (to_real g (i0, j))); [|inv_ok; exact Ha].
            apply set_cell_post in Hb. now apply Hb.
          * intros Hlt'. apply Hlt. lia. }
    apply HP. lia. }
  assert (HP : coefs_dims n m c' /\ ((i0 < fst (iv_b b) + 1)%Z -> (0 <= i0 < n)%Z /\ (0 <= j0 < m)%Z)).
  { apply (for_up_post (fun k a => coefs_dims n m a /\ ((i0 < k)%Z -> (0 <= i0 < n)%Z /\ (0 <= j0 < m)%Z))
      (fun i a => for_up (snd (iv_a b)) (snd (iv_b b) + 1) (fun j c => body i j c) a)
      (fst (iv_a b)) (fst (iv_b b) + 1)%Z c c'); [lia| | |exact H].
    - split; [exact Hdim|lia].
    - intros i a a' Hi [Ha Hlt] Hb.
      assert (Hd' : coefs_dims n m a').
      { revert Hb. apply (for_up_pres (coefs_dims n m)); [exact Ha|].
        intros j x y _ Hx Hy. unfold body in Hy. destruct (obj_inside o (to_real g (i, j))); [|inv_ok; exact Hx].
        apply set_cell_post in Hy. now apply Hy. }
      split; [exact Hd'|]. intros Hlt'. destruct (Z.eq_dec i i0) as [->|Hne].
      + apply (Hrow a a' Ha Hb).
      + apply Hlt. lia. }
  apply HP. lia.
Qed.

Lemma for_n_nothrow {A} (body : Z -> A -> res A) n : (forall i a e, body i a <> Throw e) ->
  forall lo a e, for_n lo n body a <> Throw e.
Proof.
  intros Hb. induction n as [|n IH]; cbn [for_n]; intros lo a e; [discriminate|].
  generalize (Hb lo a). destruct (body lo a); cbn [bind]; intros H; [apply IH| |discriminate].
  exfalso. now apply (H e0).
Qed.
Lemma paint_nothrow g o c e : (forall p e, to_grid g p <> Throw e) -> paint g o c <> Throw e.
Proof.
  intros Hg. rewrite paint_eq. unfold to_grid_volume.
  generalize (Hg (v_a (obj_box o))), (Hg (v_b (obj_box o))).
  destruct (to_grid g (v_a (obj_box o))); cbn [bind]; intros H1 H2; [|exfalso; now apply (H1 e0)|discriminate].
  destruct (to_grid g (v_b (obj_box o))); cbn [bind]; [|exfalso; now apply (H2 e0)|discriminate].
  apply for_n_nothrow. intros i x e0. apply for_n_nothrow. intros j y e1.
  destruct (obj_inside o (to_real g (i, j))); [|discriminate].
  unfold set_cell, tset.
  repeat match goal with |- context [if ?b then _ else _] => destruct b; cbn [bind] end; discriminate.
Qed.

Lemma paint_total g o c ib : coefs_dims (g_Nx g) (g_Ny g) c -> to_grid_volume g (obj_box o) = Ok ib ->
  (forall i j, in_ibox (iv_a (iclip g ib)) (iv_b (iclip g ib)) (i, j) -> in_grid (g_Nx g) (g_Ny g) (i, j)) ->
  exists c', paint g o c = Ok c'.
Proof.
  intros Hd Hb Hin. rewrite paint_eq, Hb. cbn [bind]. set (b := iclip g ib) in *.
  destruct (for2_cells (fun _ _ _ => tt) (coefs_dims (g_Nx g) (g_Ny g)) (fun _ _ => tt)
     (fun i j c => if obj_inside o (to_real g (i, j))
                   then set_cell (m_kind (o_mat o)) (g_dt g) i j c else Ok c)
     (fst (iv_a b)) (fst (iv_b b) + 1) (snd (iv_a b)) (snd (iv_b b) + 1) c Hd) as [c' [H _]]; [|eauto].
  intros i j s Hi Hj Hf _. destruct (Hin i j) as [Hi' Hj']; [unfold in_ibox; cbn [fst snd]; lia|].
  cbn [fst snd] in *. destruct (obj_inside o (to_real g (i, j))); [|eauto 6].
  destruct (set_cell_ok (m_kind (o_mat o)) (g_dt g) i j s _ _ Hf Hi' Hj') as [s' Hs].
  exists s'. split; [exact Hs|]. apply set_cell_post in Hs. destruct Hs as (_ & _ & H3 & _). auto.
Qed.
End Gen.

(** ** Exact reals: the scan covers every cell of the object *)
Lemma inside_scanned (g : grid) (o : obj) ib i j :
  grid_ok g -> shape_ok (o_geom o) -> to_grid_volume g (obj_box o) = Ok ib ->
  in_grid (g_Nx g) (g_Ny g) (i, j) -> obj_inside o (to_real g (i, j)) = true ->
  in_ibox (iv_a (iclip g ib)) (iv_b (iclip g ib)) (i, j).
Proof.
  intros (Hdx & HNx & HNy & _) Hs Hb Hg Hin. apply iclip_keeps; [exact Hg|].
  apply bounding_box_contains in Hin; [|exact Hs]. destruct Hin as [[X1 X2] [Y1 Y2]].
  unfold in_grid in Hg. cbn [fst snd] in Hg.
  assert (E : to_grid g (to_real g (i, j)) = Ok (i, j)).
  { apply round_trip_R; [lra| |]; unfold is_int32; unfold INT_MAX in *; lia. }
  unfold to_grid_volume in Hb. inv_ok. destruct r as [a0 a1], r0 as [b0 b1].
  destruct (to_grid_mono g _ _ _ _ _ _ Hdx Hr E) as [M1 M2].
  destruct (to_grid_mono g _ _ _ _ _ _ Hdx E Hr0) as [M3 M4].
  unfold in_ibox, mk_ivolume. cbn [iv_a iv_b fst snd].
  unfold obj_box in *. split; split; auto.
Qed.

Lemma paint_cell (g : grid) (o : obj) c c' i j :
  grid_ok g -> shape_ok (o_geom o) -> paint g o c = Ok c' -> in_grid (g_Nx g) (g_Ny g) (i, j) ->
  cell c' i j = if obj_inside o (to_real g (i, j)) then mat_cell (m_kind (o_mat o)) (g_dt g) else cell c i j.
Proof.
  intros Hg Hs H Hij. apply paint_post in H. destruct H as [_ [ib [Hb H]]]. destruct (H i j) as [H1 H2].
  destruct (obj_inside o (to_real g (i, j))) eqn:E.
  - apply H1. now apply (inside_scanned g o ib i j).
  - destruct (Z.le_gt_cases (fst (iv_a (iclip g ib))) i), (Z.le_gt_cases i (fst (iv_b (iclip g ib)))),
      (Z.le_gt_cases (snd (iv_a (iclip g ib))) j), (Z.le_gt_cases j (snd (iv_b (iclip g ib))));
      try (apply H2; unfold in_ibox; cbn [fst snd]; lia).
    apply H1. unfold in_ibox. cbn [fst snd]. lia.
Qed.

Lemma obj_inside_iff (o : obj) p : obj_inside o p = true <-> in_obj o p.
Proof. apply place_inside_iff. Qed.
Lemma obj_inside_false (o : obj) p : obj_inside o p = false -> ~ in_obj o p.
Proof. intros H Hp. apply obj_inside_iff in Hp. congruence. Qed.

(** adding one object at the end of the list *)
Lemma grid_shows_snoc (g : grid) os o bg c c' :
  grid_ok g -> shape_ok (o_geom o) -> grid_shows g os bg c -> paint g o c = Ok c' ->
  grid_shows g (os ++ [o]) bg c'.
Proof.
  intros Hg Hs Hold Hp i j k Hij Hk. rewrite (paint_cell g o c c' i j Hg Hs Hp Hij).
  change (g_dx g * IZR i, g_dx g * IZR j) with (to_real g (i, j)) in Hk.
  destruct (obj_inside o (to_real g (i, j))) eqn:E.
  - apply obj_inside_iff in E. destruct Hk as [(b & o1 & a & Eq & Ho & Hn & ->)|[Hn _]].
    + destruct a as [|a1 a] using rev_ind.
      * apply app_inj_tail in Eq. destruct Eq as [_ <-]. reflexivity.
      * exfalso. rewrite app_comm_cons, app_assoc in Eq. apply app_inj_tail in Eq. destruct Eq as [_ <-].
        apply (Hn o); [apply in_or_app; right; left; reflexivity|exact E].
    + exfalso. apply (Hn o); [apply in_or_app; right; left; reflexivity|exact E].
  - apply obj_inside_false in E. apply Hold; [exact Hij|].
    destruct Hk as [(b & o1 & a & Eq & Ho & Hn & ->)|[Hn ->]].
    + destruct a as [|a1 a] using rev_ind.
      * apply app_inj_tail in Eq. destruct Eq as [_ <-]. contradiction.
      * rewrite app_comm_cons, app_assoc in Eq. apply app_inj_tail in Eq. destruct Eq as [-> _].
        left. exists b, o1, a. split; [reflexivity|]. split; [exact Ho|]. split; [|reflexivity].
        intros o' Ho'. apply Hn. apply in_or_app. now left.
    + right. split; [|reflexivity]. intros o' Ho'. apply Hn. apply in_or_app. now left.
Qed.

Lemma grid_shows_bg (g : grid) bg c c' : clear_coefs g bg c = Ok c' -> grid_shows g [] bg c'.
Proof.
  intros H i j k [Hi Hj] Hk. cbn [fst snd] in *. apply clear_coefs_post in H. destruct H as [H _].
  destruct Hk as [(b & o & a & Eq & _)|[_ ->]]; [destruct b; discriminate|]. now apply H.
Qed.

Lemma repaint_shows (g : grid) bg l : forall os p p',
  ph_grid p = g -> grid_ok g -> Forall (fun o => shape_ok (o_geom o)) l ->
  grid_shows g os bg (ph_C p) -> foldM repaint_one p l = Ok p' -> grid_shows g (os ++ l) bg (ph_C p').
Proof.
  induction l as [|o l IH]; cbn [foldM]; intros os p p' Eg Hg Hf Hs H.
  - inv_ok. now rewrite app_nil_r.
  - apply bind_ok in H. destruct H as [q [Hq H]]. inversion Hf as [|? ? Ho Hl]; subst.
    unfold repaint_one, paint_phys in Hq. inv_ok. apply reinsert_material_frame in Hq. cbn in Hq.
    destruct Hq as (G1 & G2 & _).
    replace (os ++ o :: l) with ((os ++ [o]) ++ l) by now rewrite <- app_assoc.
    apply (IH (os ++ [o]) q p'); auto. rewrite G2. apply (grid_shows_snoc _ os o bg (ph_C p)); auto.
Qed.

Lemma update_material_grid_shows (p p' : phys) :
  grid_ok (ph_grid p) -> Forall (fun o => shape_ok (o_geom o)) (ph_objs p) ->
  update_material_grid p = Ok p' -> grid_shows (ph_grid p) (ph_objs p) (ph_bg p) (ph_C p').
Proof.
  intros Hg Hf H. unfold update_material_grid in H. inv_ok. apply grid_shows_bg in Hr.
  apply (repaint_shows (ph_grid p) (ph_bg p) (ph_objs p) [] (set_ph_C r p) p'); auto.
Qed.

Lemma mk_field_ph (g : grid) fname s : mk_field g fname = Ok s ->
  ph_grid (f_ph s) = g /\ ph_objs (f_ph s) = [] /\ ph_bg (f_ph s) = vacuum /\
  grid_shows g [] vacuum (ph_C (f_ph s)).
Proof.
  unfold mk_field, mk_phys. intros H. inv_ok.
  destruct (String.eqb fname ""); [discriminate|]. inv_ok. cbn. repeat split; auto.
  eapply grid_shows_bg. exact Hr1.
Qed.

(** the painting invariant along a program *)
Definition paint_inv (g : grid) (p : phys) : Prop :=
  ph_grid p = g /\ ph_bg p = vacuum /\ grid_shows g (ph_objs p) vacuum (ph_C p).

Lemma phys_exec_paint (g : grid) c p p' :
  grid_ok g -> repositions c = false -> Forall (fun o => shape_ok (o_geom o)) (ph_objs p ++ added [c]) ->
  paint_inv g p -> phys_exec c p = Fine p' -> paint_inv g p' /\ ph_objs p' = ph_objs p ++ added [c].
Proof.
  intros Hg Hc Hf (E1 & E2 & Hs) H. unfold paint_inv.
  destruct c; try discriminate Hc; cbn [phys_exec] in H; cbn [added flat_map app] in *;
    try (injection H as <-; cbn; rewrite app_nil_r; auto; fail).
  - apply phys_step_static, static_eq in H. destruct H as (A1 & A2 & A3 & A4 & _).
    rewrite A1, A2, A3, A4, app_nil_r. auto.
  - apply ok_out_fine in H. pose proof H as H'. rewrite app_nil_r in *.
    apply update_material_grid_shows in H'; [|now rewrite E1|exact Hf].
    unfold update_material_grid in H. inv_ok. apply repaint_frame in H. cbn in H.
    destruct H as (A1 & A2 & A3 & _). rewrite A1, A2, A3. rewrite E1, E2 in H'. auto.
  - apply ok_out_fine in H. unfold phys_add_object, paint_phys in H. inv_ok.
    apply insert_material_frame in Hr0. cbn in *. destruct Hr0 as (A1 & A2 & A3 & A4 & _).
    rewrite A1, A2, A3, A4. repeat split; auto. apply (grid_shows_snoc _ _ o _ (ph_C p)); auto.
    apply Forall_app in Hf. destruct Hf as [_ Hf]. now inversion Hf.
  - apply ok_out_fine in H. unfold phys_set_tfsf in H. inv_ok. cbn. rewrite app_nil_r. auto.
Qed.

Lemma phys_run_paint (g : grid) l : forall p p',
  grid_ok g -> forallb (fun c => negb (repositions c)) l = true ->
  Forall (fun o => shape_ok (o_geom o)) (ph_objs p ++ added l) ->
  paint_inv g p -> phys_run l p = Fine p' -> paint_inv g p' /\ ph_objs p' = ph_objs p ++ added l.
Proof.
  induction l as [|c l IH]; cbn [phys_run]; intros p p' Hg Hl Hf Hp H.
  - injection H as <-. cbn. now rewrite app_nil_r.
  - apply obind_fine in H. destruct H as [q [Hq H]]. cbn [forallb] in Hl. apply andb_true_iff in Hl.
    destruct Hl as [Hc Hl]. apply negb_true_iff in Hc.
    assert (Ea : added (c :: l) = added [c] ++ added l).
    { unfold added. cbn [flat_map]. now rewrite app_nil_r. }
    rewrite Ea, app_assoc in Hf.
    destruct (phys_exec_paint g c p q Hg Hc) as [Hq' Eo]; auto.
    { apply Forall_app in Hf. tauto. }
    destruct (IH q p' Hg Hl) as [Hr Er]; auto; [now rewrite Eo|].
    split; [exact Hr|]. rewrite Er, Eo, Ea. now rewrite app_assoc.
Qed.

(** C10 *)
Lemma painting_last_wins (g : grid) fname s0 l s :
  grid_ok g -> mk_field g fname = Ok s0 -> run l s0 = Fine s ->
  forallb (fun c => negb (repositions c)) l = true ->
  Forall (fun o => shape_ok (o_geom o)) (added l) ->
  ph_objs (f_ph s) = added l /\ grid_shows g (added l) vacuum (ph_C (f_ph s)).
Proof.
  intros Hg H0 Hr Hl Hf. apply mk_field_ph in H0. destruct H0 as (E1 & E2 & E3 & Hs).
  apply run_phys in Hr. apply (phys_run_paint g l) in Hr; auto.
  - rewrite E2 in Hr. cbn [app] in Hr. destruct Hr as [(_ & _ & Hs') Eo]. rewrite Eo in Hs'. auto.
  - now rewrite E2.
  - unfold paint_inv. rewrite E1, E2, E3. auto.
Qed.

(** C11 *)
Lemma repaint_from_poses (g : grid) fname s0 l s s' :
  grid_ok g -> mk_field g fname = Ok s0 -> run l s0 = Fine s ->
  Forall (fun o => shape_ok (o_geom o)) (ph_objs (f_ph s)) ->
  exec UpdateMaterialGrid s = Fine s' ->
  ph_objs (f_ph s') = ph_objs (f_ph s) /\ grid_shows g (ph_objs (f_ph s)) vacuum (ph_C (f_ph s')) /\
  ph_F (f_ph s') = ph_F (f_ph s) /\ ph_srcs (f_ph s') = ph_srcs (f_ph s) /\
  ph_t (f_ph s') = ph_t (f_ph s) /\ ph_step (f_ph s') = ph_step (f_ph s).
Proof.
  intros Hg H0 Hr Hf H. apply mk_field_ph in H0. destruct H0 as (E1 & E2 & E3 & _).
  apply run_phys in Hr. apply phys_run_grid in Hr. destruct Hr as [G1 G2].
  cbn [exec] in H. apply on_ph_fine in H. destruct H as [p [H ->]]. cbn [f_ph set_f_ph].
  pose proof H as H'. apply update_material_grid_shows in H'; [|now rewrite G1, E1|exact Hf].
  rewrite G1, G2, E1, E3 in H'. unfold update_material_grid in H. inv_ok. apply repaint_frame in H.
  cbn in H. tauto.
Qed.

(** every point has exactly one material *)
Lemma material_at_exists os bg p : exists k, material_at os bg p k.
Proof.
  unfold material_at. induction os as [|o os IH] using rev_ind.
  - exists bg. right. split; [intros o []|reflexivity].
  - destruct (obj_inside o p) eqn:E.
    + exists (m_kind (o_mat o)). left. exists os, o, []. apply obj_inside_iff in E.
      repeat split; auto.
    + apply obj_inside_false in E. destruct IH as [k [(b & o1 & a & -> & Ho & Hn & Hk)|[Hn Hk]]]; exists k.
      * left. exists b, o1, (a ++ [o]). rewrite <- app_assoc. repeat split; auto.
        intros o' H. apply in_app_or in H. destruct H as [H|[<-|[]]]; [now apply Hn|exact E].
      * right. split; [|exact Hk]. intros o' H. apply in_app_or in H.
        destruct H as [H|[<-|[]]]; [now apply Hn|exact E].
Qed.
Lemma material_at_unique os bg p k k' : material_at os bg p k -> material_at os bg p k' -> k = k'.
Proof.
  revert k k'. induction os as [|o os IH] using rev_ind; intros k k' H1 H2.
  - destruct H1 as [(b & o1 & a & Eq & _)|[_ ->]]; [destruct b; discriminate|].
    destruct H2 as [(b & o1 & a & Eq & _)|[_ ->]]; [destruct b; discriminate|]. reflexivity.
  - assert (W : forall k, material_at (os ++ [o]) bg p k ->
        (in_obj o p /\ k = m_kind (o_mat o)) \/ (~ in_obj o p /\ material_at os bg p k)).
    { clear. intros k [(b & o1 & a & Eq & Ho & Hn & ->)|[Hn ->]].
      - destruct a as [|a1 a] using rev_ind.
        + apply app_inj_tail in Eq. destruct Eq as [_ <-]. now left.
        + rewrite app_comm_cons, app_assoc in Eq. apply app_inj_tail in Eq. destruct Eq as [-> ->].
          right. split; [apply Hn, in_or_app; right; now left|]. left. exists b, o1, a.
          repeat split; auto. intros o' Ho'. apply Hn, in_or_app. now left.
      - right. split; [apply Hn, in_or_app; right; now left|]. right. split; [|reflexivity].
        intros o' Ho'. apply Hn, in_or_app. now left. }
    apply W in H1, H2. destruct H1 as [[A1 ->]|[A1 H1]], H2 as [[A2 ->]|[A2 H2]]; try contradiction; auto.
Qed.

(** ** C13 at the level of add *)

(** an object whose bounding box lies in the domain can be painted *)
Lemma paint_in_domain (g : grid) (o : obj) c :
  grid_ok g -> coefs_dims (g_Nx g) (g_Ny g) c ->
  in_box (v_a (domain g)) (v_b (domain g)) (v_a (obj_box o)) ->
  in_box (v_a (domain g)) (v_b (domain g)) (v_b (obj_box o)) ->
  exists c', paint g o c = Ok c'.
Proof.
  intros Hg Hd Ha Hb. destruct (domain_cell g _ Hg Ha) as [qa [Ea Ga]].
  destruct (domain_cell g _ Hg Hb) as [qb [Eb Gb]].
  apply (paint_total g o c (mk_ivolume qa qb)); [exact Hd| |].
  - unfold to_grid_volume. now rewrite Ea, Eb.
  - intros i j H. destruct Hg as (_ & HNx & HNy & _).
    apply (iclip_confines_partial g (mk_ivolume qa qb)); [lia|lia| | |exact H];
      unfold in_grid in *; cbn [iv_a iv_b mk_ivolume]; lia.
Qed.

(** a block that sticks out of the right edge *)
Definition stray : obj := Obj "b"%string false (Block (4, 4)) (Material "m"%string (KSimple (Simple 2 1 0))) (7, 4) 0.

Lemma stray_paint (g : grid) c : g_Nx g = 8%Z -> g_Ny g = 8%Z -> g_dx g = 1 ->
  coefs_dims 8 8 c -> exists u, paint g stray c = UB u.
Proof.
  intros Nx Ny Edx Hd.
  destruct (paint g stray c) as [c'|e|u] eqn:E; [exfalso| |eauto].
  2:{ exfalso. revert E. apply paint_nothrow. intros p e'. apply to_grid_not_throw. }
  destruct (paint_in_range g stray c c' 8 8 Hd E) as [ib [Hb H]].
  assert (Ein : obj_inside stray (to_real g (8, 4)%Z) = true).
  { apply obj_inside_iff. exists (1, 0). split.
    - unfold in_shape, stray. cbn [o_geom fst snd]. rewrite !Rabs_pos_eq by lra. lra.
    - unfold to_real, stray, vadd, rot. cbn [o_pos o_theta fst snd]. rnum.
      rewrite cos_0, sin_0, Edx. f_equal; lra. }
  destruct (H 8%Z 4%Z) as [H1 _]; [|exact Ein|lia].
  apply bounding_box_contains in Ein; [|exact I]. destruct Ein as [[X1 X2] [Y1 Y2]].
  assert (Et : to_grid g (to_real g (8, 4)%Z) = Ok (8, 4)%Z).
  { apply round_trip_R; [lra| |]; unfold is_int32; lia. }
  assert (Hdx : 0 < g_dx g) by lra.
  unfold to_grid_volume in Hb. inv_ok. destruct r as [a0 a1], r0 as [b0 b1].
  destruct (to_grid_mono g _ _ _ _ _ _ Hdx Hr Et) as [M1 M2].
  destruct (to_grid_mono g _ _ _ _ _ _ Hdx Et Hr0) as [M3 M4].
  specialize (M1 X1). specialize (M2 Y1). specialize (M3 X2). specialize (M4 Y2).
  unfold in_ibox, iclip, mk_ivolume. cbn [iv_a iv_b fst snd]. rewrite Nx, Ny.
  destruct (a0 <? 0)%Z eqn:Q1, (b0 <? 0)%Z eqn:Q2, (8 - 1 <? a1)%Z eqn:Q3, (8 - 1 <? b1)%Z eqn:Q4; lia.
Qed.
