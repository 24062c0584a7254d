(** Moving every object and source by whole cells moves the outcome. *)
From Coq Require Import ZArith Reals List Bool String Lia Lra.
From Verif Require Import Scalar Base BaseFacts VecM GridM GeometryM MaterialM PmlM DftM TfsfM PolarM
  InterpM H5M ClockM MonitorM FieldM SpecGrid GridFacts SpecGeometry GeometryFacts OutFacts PhysFacts SpecPaint PaintFacts
  WfFacts ReachFacts SafetyFacts SpecSafety SafeFacts SpecStep StepFacts EngineFacts YeeFacts TextbookFacts SpecSource SourceFacts ExampleFacts ExampleSrc SpecMedium PolarFacts FullStep SpecRim MediumFacts StrengthFacts
  SpecMedia MediaRun CadenceFacts SpecWave DarkFacts SpecTfsf TfsfFacts SpecCone ConeFacts ConeRun FlipRun SpecShift ShiftFacts SpecScene.
Import ListNotations.
Local Open Scope Z_scope.
#[local] Existing Instance RNum.

Lemma moved_inside v o o' p : moved_obj v o o' -> obj_inside o' (vadd p v) = obj_inside o p.
Proof.
  intros (Hg & Ht & _ & Hp). apply eq_true_iff_eq. rewrite !obj_inside_iff. unfold in_obj, in_placed. rewrite Hg, Ht, Hp.
  destruct p as [px py], v as [vx vy], (o_pos o) as [x y]. unfold vadd. cbn [fst snd]. rnum.
  split; intros (q & Hq & E); exists q; (split; [exact Hq|]); destruct (rot (o_theta o) q) as [u w]; cbn [fst snd] in *;
    injection E as E1 E2; f_equal; lra.
Qed.

Section Polars.
Context {M : Type}.
Variables (np : M -> nat) (vals : M -> R -> list R) (g g' : grid) (i j i' j' : Z).
Hypotheses (Dx : g_dx g = g_dx g') (Dt : g_dt g = g_dt g').
Hypotheses (Hi : 0 <= i < g_Nx g) (Hj : 0 <= j < g_Ny g) (Hi' : 0 <= i' < g_Nx g') (Hj' : 0 <= j' < g_Ny g').
Variables (o o' : obj).
Hypothesis Same : obj_inside o (g_dx g * IZR i, g_dx g * IZR j)%R = obj_inside o' (g_dx g' * IZR i', g_dx g' * IZR j')%R.

Definition shapes (h : grid) (P : list (string * (M * polar))) : Prop := forall nm x q, In (nm, (x, q)) P -> shaped np h q x.

Lemma alike_insert x q r q' r' : shaped np g q x -> shaped np g' r x -> alike i j i' j' q r ->
  insert_polar q (vals x (g_dt g)) (obj_inside o) = Ok q' -> insert_polar r (vals x (g_dt g')) (obj_inside o') = Ok r' -> alike i j i' j' q' r'.
Proof.
  intros (A1 & A2 & A3 & A4 & A5) (B1 & B2 & B3 & B4 & B5) (N1 & N2 & L) H1 H2.
  apply insert_polar_cells in H1; [|lia]. apply insert_polar_cells in H2; [|lia].
  destruct H1 as (_ & _ & _ & D1 & E1 & J1 & P1 & V1). destruct H2 as (_ & _ & _ & D2 & E2 & J2 & P2 & V2).
  split; [congruence|]. split; [congruence|]. intros k Hk. destruct (L k ltac:(congruence)) as (La & Lb & Lc). rewrite J1, J2, P1, P2. split; [exact La|]. split; [|exact Lc].
  rewrite V1, V2 by lia. rewrite A3, B3. rnum. rewrite Same, Lb, Dt. reflexivity.
Qed.

Lemma alike_lookup (P Q : list (string * (M * polar))) nm : alike_all i j i' j' P Q -> match slookup nm P, slookup nm Q with
  | Some (x, q), Some (y, r) => x = y /\ alike i j i' j' q r /\ In (nm, (x, q)) P /\ In (nm, (y, r)) Q | None, None => True | _, _ => False end.
Proof.
  intros H. induction H as [|[k1 [x q]] [k2 [y r]] P Q (E1 & E2 & L) H IH]; cbn [slookup]; [exact I|]. cbn [fst snd] in *. subst k2 y.
  destruct (String.eqb_spec nm k1) as [->|Hne]; [cbn; auto|]. destruct (slookup nm P) as [[? ?]|], (slookup nm Q) as [[? ?]|]; auto.
  destruct IH as (A & B & C & D). cbn. auto.
Qed.
Lemma alike_sassign (P Q : list (string * (M * polar))) nm x q r : alike_all i j i' j' P Q -> alike i j i' j' q r -> alike_all i j i' j' (sassign nm (x, q) P) (sassign nm (x, r) Q).
Proof.
  intros H L. induction H as [|[k1 [x1 q1]] [k2 [y r1]] P Q (E1 & E2 & L1) H IH]; cbn [sassign]; [constructor|]. cbn [fst snd] in *. subst k2 y.
  destruct (String.eqb nm k1); constructor; auto; (split; [reflexivity|split; [reflexivity|cbn; assumption]]).
Qed.
Lemma alike_sinsert (P Q : list (string * (M * polar))) nm x q r : alike_all i j i' j' P Q -> alike i j i' j' q r -> alike_all i j i' j' (sinsert nm (x, q) P) (sinsert nm (x, r) Q).
Proof.
  intros H L. induction H as [|[k1 [x1 q1]] [k2 [y r1]] P Q (E1 & E2 & L1) H IH]; cbn [sinsert].
  { constructor; [|constructor]. split; [reflexivity|split; [reflexivity|cbn; assumption]]. }
  cbn [fst snd] in *. subst k2 y. destruct (String.compare nm k1).
  - constructor; [split; [reflexivity|split; [reflexivity|cbn; assumption]]|exact H].
  - constructor; [split; [reflexivity|split; [reflexivity|cbn; assumption]]|]. constructor; [split; [reflexivity|split; [reflexivity|cbn; assumption]]|exact H].
  - constructor; [split; [reflexivity|split; [reflexivity|cbn; assumption]]|exact IH].
Qed.
Lemma alike_new x q r : mk_polar g (np x) = Ok q -> mk_polar g' (np x) = Ok r -> alike i j i' j' q r /\ shaped np g q x /\ shaped np g' r x.
Proof.
  unfold mk_polar, t3const. intros H1 H2. inv_ok.
  destruct ((0 <=? g_Nx g) && (0 <=? g_Ny g) && (0 <=? Z.of_nat (np x))); [|discriminate].
  destruct ((0 <=? g_Nx g') && (0 <=? g_Ny g') && (0 <=? Z.of_nat (np x))); [|discriminate].
  inv_ok. unfold alike, shaped. cbn. rewrite Dt. repeat split; auto.
Qed.

Lemma add_alike P Q P' Q' nm x : shapes g P -> shapes g' Q -> alike_all i j i' j' P Q ->
  add_polar np vals g P nm x o = Ok P' -> add_polar np vals g' Q nm x o' = Ok Q' -> alike_all i j i' j' P' Q'.
Proof.
  intros SP SQ H H1 H2. unfold add_polar in H1, H2. assert (K := alike_lookup P Q nm H).
  destruct (slookup nm P) as [[x1 q1]|], (slookup nm Q) as [[x2 q2]|]; try contradiction; inv_ok.
  - destruct K as (-> & L & I1 & I2). apply alike_sassign; [exact H|]. eapply alike_insert; [eapply SP; exact I1|eapply SQ; exact I2|exact L|eassumption|eassumption].
  - match goal with A : mk_polar g _ = Ok ?q, B : mk_polar g' _ = Ok ?r |- _ => destruct (alike_new x q r A B) as (L & S1 & S2) end.
    apply alike_sinsert; [exact H|]. eapply alike_insert; [exact S1|exact S2|exact L|eassumption|eassumption].
Qed.
End Polars.

Lemma str_shapes {M} (np : M -> nat) vals mat g os P : str_map np vals mat g os P -> shapes np g P.
Proof. intros (_ & _ & H) nm x q K. apply (H nm x q K). Qed.

Lemma add_moved g g' p q p' q' o o' i j a b : grid_ok g -> grid_ok g' -> g_dx g = g_dx g' -> g_dt g = g_dt g' ->
  str_phys g (ph_objs p) p -> str_phys g' (ph_objs q) q -> shape_ok (o_geom o) -> moved_obj (by_cells g a b) o o' ->
  0 <= i < g_Nx g -> 0 <= j < g_Ny g -> 0 <= i + a < g_Nx g' -> 0 <= j + b < g_Ny g' ->
  phys_add_object o p = Ok p' -> phys_add_object o' q = Ok q' ->
  moved_cell p q i j (i + a) (j + b) -> moved_cell p' q' i j (i + a) (j + b).
Proof.
  intros Hg Hg' Dx Dt (G & S1 & S2 & S3) (G' & S1' & S2' & S3') Hs Hm Hi Hj Hi' Hj' H H' [F C M1 M2 M3 V1 V2 D].
  subst g g'.
  assert (Hs' : shape_ok (o_geom o')) by (destruct Hm as (-> & _); exact Hs).
  assert (Same : obj_inside o (g_dx (ph_grid p) * IZR i, g_dx (ph_grid p) * IZR j)%R = obj_inside o' (g_dx (ph_grid q) * IZR (i + a), g_dx (ph_grid q) * IZR (j + b))%R).
  { rewrite <- (moved_inside _ _ _ _ Hm). f_equal. unfold by_cells, vadd. cbn [fst snd]. rnum. rewrite !plus_IZR, <- Dx. f_equal; ring. }
  unfold phys_add_object, paint_phys in H, H'. inv_ok.
  match goal with A : paint (ph_grid p) o _ = Ok ?c, B : paint (ph_grid q) o' _ = Ok ?c' |- _ => rename c into c1; rename c' into c1'; rename A into P1; rename B into P1' end.
  assert (K := paint_cell (ph_grid p) o _ _ i j Hg Hs P1 (conj Hi Hj)). assert (K' := paint_cell (ph_grid q) o' _ _ (i + a) (j + b) Hg' Hs' P1' (conj Hi' Hj')).
  unfold to_real in K, K'. cbn [fst snd] in K, K'. revert K K'. rnum. intros K K'. rewrite <- Same in K'. destruct Hm as (_ & _ & Em & _). rewrite Em, <- Dt in K'.
  assert (C' : cell c1 i j = cell c1' (i + a) (j + b)).
  { rewrite K, K'. destruct (obj_inside o _); [reflexivity|]. unfold cell. destruct C as (-> & -> & -> & ->). reflexivity. }
  unfold cell in C'. injection C' as C1 C2 C3 C4.
  match goal with A : insert_material o (set_ph_C _ p) = Ok ?r, B : insert_material o' (set_ph_C _ q) = Ok ?r' |- _ => rename A into I1; rename B into I2 end.
  assert (Ez' : forall u w, alike_prev i j (i + a) (j + b) u w -> alike_prev i j (i + a) (j + b) (ensure u (fEz (ph_F p))) (ensure w (fEz (ph_F q)))).
  { intros [u|] [w|]; cbn; tauto. }
  unfold insert_material in I1, I2. rewrite Em in I2. destruct (m_kind (o_mat o)) eqn:Ek; cbn [set_ph_C ph_F ph_grid ph_debye ph_drude ph_lorentz ph_prevE ph_prev2E] in I1, I2; inv_ok.
  all: constructor; cbn [set_ph_C set_ph_objs set_ph_prevE set_ph_prev2E set_ph_debye set_ph_drude set_ph_lorentz ph_F ph_C ph_grid ph_srcs ph_debye ph_drude ph_lorentz ph_prevE ph_prev2E];
    try assumption; try (repeat split; assumption); auto.
  - eapply (add_alike np_debye debye_beta (ph_grid p) (ph_grid q) i j (i + a) (j + b)); try eassumption; eapply str_shapes; eassumption.
  - eapply (add_alike np_drude drude_beta (ph_grid p) (ph_grid q) i j (i + a) (j + b)); try eassumption; eapply str_shapes; eassumption.
  - eapply (add_alike np_lorentz lorentz_delta (ph_grid p) (ph_grid q) i j (i + a) (j + b)); try eassumption; eapply str_shapes; eassumption.
Qed.

Lemma nearest_nonneg x n : (0 <= x)%R -> nearest_away x n <-> (IZR n - / 2 <= x < IZR n + / 2)%R.
Proof.
  intros Hx. unfold nearest_away. split.
  - intros [H1 H2]. assert (H3 : (- / 2 <= x - IZR n <= / 2)%R) by (destruct (Rabs_def2 (x - IZR n) (/ 2 + 1)) as [? ?]; [lra|]; revert H1; unfold Rabs; destruct (Rcase_abs _); lra).
    split; [lra|]. destruct (Rlt_or_le x (IZR n + / 2)) as [L|L]; [exact L|]. exfalso. assert (E : (x = IZR n + / 2)%R) by lra.
    assert (K : (Rabs (x - IZR n) = / 2)%R) by (rewrite E; replace (IZR n + / 2 - IZR n)%R with (/ 2)%R by ring; apply Rabs_pos_eq; lra).
    specialize (H2 K). rewrite (Rabs_pos_eq x) in H2 by lra. revert H2. unfold Rabs. destruct (Rcase_abs (IZR n)) as [Hn|Hn]; [|lra].
    assert (n < 0) by (apply lt_IZR; exact Hn). assert (n <= -1) by lia. assert (IZR n <= -1)%R by (apply IZR_le; assumption). lra.
  - intros [H1 H2]. split; [unfold Rabs; destruct (Rcase_abs _); lra|]. intros K.
    assert (E : (x = IZR n - / 2)%R) by (revert K; unfold Rabs; destruct (Rcase_abs _); lra). rewrite !Rabs_pos_eq by lra. lra.
Qed.

Lemma to_grid_moved g g' a b p c d : (0 < g_dx g)%R -> g_dx g = g_dx g' -> (0 <= fst p)%R -> (0 <= snd p)%R ->
  (0 <= fst (vadd p (by_cells g a b)))%R -> (0 <= snd (vadd p (by_cells g a b)))%R ->
  to_grid g p = Ok c -> to_grid g' (vadd p (by_cells g a b)) = Ok d -> d = (fst c + a, snd c + b).
Proof.
  intros Dp Dx X Y X' Y' H H'. destruct c as [c1 c2], d as [d1 d2]. cbn [fst snd].
  apply to_grid_nearest in H; [|exact Dp]. apply to_grid_nearest in H'; [|rewrite <- Dx; exact Dp]. destruct H as [H1 H2], H' as [H3 H4]. rewrite <- Dx in H3, H4.
  destruct p as [x y]. unfold vadd, by_cells in *. cbn [fst snd] in *. revert X' Y' H3 H4. rnumg. intros X' Y' H3 H4.
  change (@T RNum) with R in *. set (h := g_dx g) in *.
  assert (Q : forall u, (0 <= u)%R -> (0 <= u / h)%R) by (intros u Hu; apply Rmult_le_pos; [exact Hu|left; now apply Rinv_0_lt_compat]).
  apply nearest_nonneg in H1, H2, H3, H4; try (apply Q; assumption).
  replace ((x + h * IZR a) / h)%R with (x / h + IZR a)%R in H3 by (field; lra). replace ((y + h * IZR b) / h)%R with (y / h + IZR b)%R in H4 by (field; lra).
  assert (U : forall (z : R) (n m k : Z), (IZR n - / 2 <= z < IZR n + / 2)%R -> (IZR m - / 2 <= z + IZR k < IZR m + / 2)%R -> m = n + k).
  { intros z n m k A B. assert (IZR m < IZR (n + k + 1))%R by (rewrite !plus_IZR; lra). assert (IZR (n + k - 1) < IZR m)%R by (rewrite minus_IZR, plus_IZR; lra).
    apply lt_IZR in H, H0. lia. }
  f_equal; [apply (U (x / h)%R c1 d1 a)|apply (U (y / h)%R c2 d2 b)]; assumption.
Qed.

Definition hop (a b : Z) (q : Z * Z) : Z * Z := (fst q + a, snd q + b).
Lemma walk_hop n a b q s : walk n (hop a b q) s = map (hop a b) (walk n q s).
Proof. revert q. induction n as [|n IH]; intros q; [reflexivity|]. cbn [walk map]. f_equal. rewrite <- IH. f_equal. unfold hop. cbn. f_equal; ring. Qed.
Lemma add_at_hop v a b L i j x : add_at v (map (hop a b) L) (i + a) (j + b) x = add_at v L i j x.
Proof.
  unfold add_at. revert x. induction L as [|q L IH]; intros x; [reflexivity|]. cbn [map fold_left]. rewrite IH. unfold hop. cbn [fst snd].
  replace (fst q + a =? i + a) with (fst q =? i) by lia. replace (snd q + b =? j + b) with (snd q =? j) by lia. reflexivity.
Qed.
Lemma cells_moved g g' a b r r' L L' : (0 < g_dx g)%R -> g_dx g = g_dx g' -> (forall p, In p (ends r ++ ends r') -> (0 <= fst p)%R /\ (0 <= snd p)%R) ->
  moved_src (by_cells g a b) r r' -> src_cells g (sr_kind r) L -> src_cells g' (sr_kind r') L' -> L' = map (hop a b) L.
Proof.
  intros Dp Dx Hp (_ & _ & Hk) H H'. unfold ends in Hp. destruct (sr_kind r) as [p|s], (sr_kind r') as [p'|s']; try contradiction; cbn [src_cells] in H, H'.
  - destruct H as (q & Hq & ->), H' as (q' & Hq' & ->). subst p'. cbn [app] in Hp.
    destruct (Hp p ltac:(cbn; auto)) as [A B]. destruct (Hp (vadd p (by_cells g a b)) ltac:(cbn; auto)) as [A' B'].
    cbn [map]. f_equal. apply (to_grid_moved g g' a b p q q'); assumption.
  - destruct H as (u & w & Hu & Hw & ->), H' as (u' & w' & Hu' & Hw' & ->). destruct Hk as [E1 E2]. rewrite E1 in Hu'. rewrite E2 in Hw'. rewrite E1, E2 in Hp. cbn [app] in Hp.
    assert (P : forall p c d, In p [s_a s; s_b s] -> In (vadd p (by_cells g a b)) [s_a s; s_b s; vadd (s_a s) (by_cells g a b); vadd (s_b s) (by_cells g a b)] ->
      to_grid g p = Ok c -> to_grid g' (vadd p (by_cells g a b)) = Ok d -> d = hop a b c).
    { intros p c d I1 I2 T1 T2. destruct (Hp p) as [A B]; [cbn in *; tauto|]. destruct (Hp _ I2) as [A' B']. apply (to_grid_moved g g' a b p c d); assumption. }
    assert (Eu := P (s_a s) u u' ltac:(cbn; auto) ltac:(cbn; auto) Hu Hu'). assert (Ew := P (s_b s) w w' ltac:(cbn; auto) ltac:(cbn; auto) Hw Hw'). subst u' w'.
    rewrite walk_hop. change (fst (hop a b w)) with (fst w + a). change (fst (hop a b u)) with (fst u + a). change (snd (hop a b w)) with (snd w + b). change (snd (hop a b u)) with (snd u + b).
    replace (fst w + a - (fst u + a)) with (fst w - fst u) by ring. replace (snd w + b - (snd u + b)) with (snd w - snd u) by ring. reflexivity.
Qed.

Lemma paired_length {A B} (P : A -> B -> Prop) X Y : Forall2 P X Y -> List.length X = List.length Y.
Proof. intros H. induction H; cbn; congruence. Qed.
Lemma lit_snoc t RL r L c i j x : lit t (RL ++ [(r, L)]) c i j x = if comp_eqb (sr_c r) c then add_at (shape_val (tp_shape (sr_tp r)) t) L i j (lit t RL c i j x) else lit t RL c i j x.
Proof. unfold lit. rewrite fold_left_app. reflexivity. Qed.
Lemma drive_moved g g' a b S1 S2 r r' i j : (0 < g_dx g)%R -> g_dx g = g_dx g' -> (forall p, In p (ends r ++ ends r') -> (0 <= fst p)%R /\ (0 <= snd p)%R) ->
  moved_src (by_cells g a b) r r' -> moved_drive g g' S1 S2 i j (i + a) (j + b) -> moved_drive g g' (S1 ++ [r]) (S2 ++ [r']) i j (i + a) (j + b).
Proof.
  intros Dp Dx Hp Hm H Ls Ls' K K' t c x. apply Forall2_app_inv_l in K. destruct K as (L1 & L2 & A1 & A2 & ->).
  apply Forall2_app_inv_l in K'. destruct K' as (M1 & M2 & B1 & B2 & ->).
  inversion A2 as [|? L ? ? CL N1]; subst. inversion N1; subst. inversion B2 as [|? L' ? ? CL' N2]; subst. inversion N2; subst.
  assert (C : forall (X : list source) (Y : list (list (Z * Z))) r L, List.length X = List.length Y -> combine (X ++ [r]) (Y ++ [L]) = combine X Y ++ [(r, L)]).
  { clear. induction X as [|s X IH]; intros [|y Y] r L E; try discriminate; [reflexivity|]. cbn [app combine]. f_equal. apply IH. cbn in E. congruence. }
  rewrite !C by (eapply paired_length; eassumption). rewrite !lit_snoc, (H L1 M1 A1 B1).
  rewrite (cells_moved g g' a b r r' L L' Dp Dx Hp Hm CL CL'). destruct Hm as (-> & -> & _). destruct (comp_eqb _ _); [|reflexivity]. now rewrite add_at_hop.
Qed.

Lemma fresh_moved g g' p q i j i' j' : apart g -> apart g' -> g_dt g = g_dt g' -> mk_phys g = Ok p -> mk_phys g' = Ok q ->
  0 <= i < g_Nx g -> 0 <= j < g_Ny g -> 0 <= i' < g_Nx g' -> 0 <= j' < g_Ny g' -> moved_cell p q i j i' j'.
Proof.
  intros Ha Hb Dt P1 P2 Hx Hy Hx' Hy'. assert (Hr := apart_roomy _ Ha). assert (Hr' := apart_roomy _ Hb).
  destruct (mk_phys_ok g Hr) as (p1 & Ep & _ & Gp & Sp & _). rewrite P1 in Ep. injection Ep as <-.
  destruct (mk_phys_ok g' Hr') as (q1 & Eq & _ & Gq & Sq & _). rewrite P2 in Eq. injection Eq as <-.
  destruct (fresh_state g p Hr P1) as (D & (B1 & B2 & B3 & B4) & F1 & F2 & F3 & F4).
  destruct (fresh_state g' q Hr' P2) as (D' & (B1' & B2' & B3' & B4') & F1' & F2' & F3' & F4').
  destruct D, D'. unfold z2 in *. constructor.
  - now rewrite d_E, d_X, d_Y, d_E0, d_X0, d_Y0.
  - assert (Y1 := F4 i j Hx Hy). assert (Y2 := F4' _ _ Hx' Hy'). rewrite <- Dt in Y2. rewrite <- Y1 in Y2. unfold gcell in Y2.
    injection Y2 as Z1 Z2 Z3 Z4. auto.
  - rewrite B1, B1'. constructor.
  - rewrite B2, B2'. constructor.
  - rewrite B3, B3'. constructor.
  - rewrite F1, F1'. exact I.
  - rewrite F2, F2'. exact I.
  - rewrite Sp, Sq. intros Ls Ls' K K'. inversion K; inversion K'; subst. reflexivity.
Qed.

Lemma companions_step p q p' q' : sound p -> sound q -> companions p q -> phys_step p = Fine p' -> phys_step q = Fine q' -> companions p' q'.
Proof.
  intros (Ha & Hw & Cp) (Hb & Hv & Cq) (Fx & Fd & Ft & Tp & Tq) Hp Hq.
  destruct (full_step p p' Ha Hw Hp) as (E0 & E1 & E2 & E3 & Ls & u & h & [A1 A2 A3 A4 A5 A6 A7 A8 A9 A10 A11 A12 A13 A14 A15 A16]).
  destruct (full_step q q' Hb Hv Hq) as (E0' & E1' & E2' & E3' & Ls' & v & k & [B1 B2 B3 B4 B5 B6 B7 B8 B9 B10 B11 B12 B13 B14 B15 B16]).
  apply static_eq in A13, B13. destruct A13 as (S1 & _), B13 as (T1 & _). rewrite Tp in A10. rewrite Tq in B10.
  cbn [line] in A10, B10. injection A10 as A10. injection B10 as B10.
  unfold companions. rewrite S1, T1, A15, B15, <- A10, <- B10, Fx, Fd, Ft. auto.
Qed.

Lemma scene_run g g' name name' s0 s0' a b : apart g -> apart g' -> grid_ok g -> grid_ok g' -> g_dx g = g_dx g' -> g_dt g = g_dt g' ->
  mk_field g name = Ok s0 -> mk_field g' name' = Ok s0' ->
  forall l l', Forall2 (moved_call (by_cells g a b)) l l' -> forall s s', run l s0 = Fine s -> run l' s0' = Fine s' ->
  companions (f_ph s) (f_ph s') /\
  forall d i j, 0 <= d -> opens g g' a b (d + updates_in l) i j -> moved_near a b (f_ph s) (f_ph s') d i j.
Proof.
  intros Ha Hb Hg Hg' Dx Dt H0 H0' l. assert (Hr := apart_roomy _ Ha). assert (Hr' := apart_roomy _ Hb).
  assert (P0 : exists p q, mk_phys g = Ok p /\ mk_phys g' = Ok q /\ f_ph s0 = p /\ f_ph s0' = q).
  { revert H0 H0'. unfold mk_field. intros A B. apply bind_ok in A. destruct A as (p & P1 & A). apply bind_ok in B. destruct B as (q & P2 & B).
    exists p, q. destruct (String.eqb name ""); [discriminate|]. destruct (String.eqb name' ""); [discriminate|]. inv_ok. auto. }
  destruct P0 as (p & q & P1 & P2 & E1 & E2).
  induction l as [|c l IH] using rev_ind; intros l' HL s s' R1 R2.
  - inversion HL; subst. cbn in R1, R2. injection R1 as <-. injection R2 as <-.
    destruct (mk_phys_ok g Hr) as (p1 & Ep & _ & Gp & Sp & Tp & _). rewrite P1 in Ep. injection Ep as <-.
    destruct (mk_phys_ok g' Hr') as (q1 & Eq & _ & Gq & Sq & Tq & _). rewrite P2 in Eq. injection Eq as <-.
    destruct (fresh_state g (f_ph s0) Hr P1) as (_ & _ & _ & _ & T0 & _). destruct (fresh_state g' (f_ph s0') Hr' P2) as (_ & _ & _ & _ & T0' & _).
    split; [unfold companions; rewrite Gp, Gq; repeat split; try assumption; congruence|].
    intros d i j Hd Ho x y Hx Hy. rewrite Gp, Gq. destruct (Ho x y) as [O O']; [cbn; lia|cbn; lia|]. split; [exact O|]. split; [exact O'|].
    unfold open, apart in *. apply (fresh_moved g g'); try assumption; lia.
  - apply Forall2_app_inv_l in HL. destruct HL as (l1 & l2 & HL1 & HL2 & ->). inversion HL2 as [|? c' ? ? Hc N]; subst. inversion N; subst. clear HL2 N.
    apply run_snoc in R1. destruct R1 as (s1 & R1 & X1). apply run_snoc in R2. destruct R2 as (s2 & R2 & X2).
    destruct (IH l1 HL1 s1 s2 R1 R2) as [Cm Mv].
    assert (Rs : reachable g s1) by (exists name, s0, l; split; [exact H0|now apply run_run_catch]).
    assert (Rs' : reachable g' s2) by (exists name', s0', l1; split; [exact H0'|now apply run_run_catch]).
    destruct (reachable_good g s1 Hr Rs) as [W1 G1]. destruct (reachable_good g' s2 Hr' Rs') as [W2 G2].
    assert (St : str_phys g (ph_objs (f_ph s1)) (f_ph s1)).
    { apply (str_run g name s0 l s1 H0 R1).
      - clear - HL1. induction HL1 as [|? ? ? ? [ | | ] _ IH]; cbn; auto.
      - clear - HL1. induction HL1 as [|? ? ? ? [ | | ] _ IH]; cbn; [auto| | | ]; intros [K|K]; try discriminate; auto. }
    assert (St' : str_phys g' (ph_objs (f_ph s2)) (f_ph s2)).
    { apply (str_run g' name' s0' l1 s2 H0' R2).
      - clear - HL1. induction HL1 as [|? ? ? ? [ | | ] _ IH]; cbn; auto.
      - clear - HL1. induction HL1 as [|? ? ? ? [ | | ] _ IH]; cbn; [auto| | | ]; intros [K|K]; try discriminate; auto. }
    apply exec_phys in X1, X2.
    assert (U : forall c, updates_in (l ++ [c]) = updates_in l + updates_in [c]).
    { intros e. unfold updates_in. rewrite filter_app, app_length. lia. }
    rewrite U. destruct Hc as [o o' Hs Hm|r r' Hp Hm|]; cbn [phys_exec] in X1, X2.
    + apply ok_out_fine in X1, X2.
      assert (Cm' : companions (f_ph s) (f_ph s')).
      { assert (Kp : forall h o p p', phys_add_object o p = Ok p' -> ph_grid p = h -> ph_grid p' = h /\ ph_t p' = ph_t p /\ ph_tfsf p' = ph_tfsf p).
        { clear. intros h o p p' H Hh. unfold phys_add_object, paint_phys, insert_material in H. inv_ok. destruct (m_kind (o_mat o)); inv_ok; auto. }
        destruct (Kp _ _ _ _ X1 G1) as (A1 & A2 & A3). destruct (Kp _ _ _ _ X2 G2) as (B1 & B2 & B3). unfold companions in *. rewrite A1, A2, A3, B1, B2, B3. rewrite G1, G2 in Cm. exact Cm. }
      split; [exact Cm'|]. intros d i j Hd Ho x y Hx Hy. change (updates_in [AddObject o]) with 0 in Ho. rewrite Z.add_0_r in Ho.
      destruct (Mv d i j Hd Ho x y Hx Hy) as (O & O' & Cl).
      assert (Gs : ph_grid (f_ph s) = g /\ ph_grid (f_ph s') = g').
      { assert (Kp : forall h o p p', phys_add_object o p = Ok p' -> ph_grid p = h -> ph_grid p' = h).
        { clear. intros h o p p' H Hh. unfold phys_add_object, paint_phys, insert_material in H. inv_ok. destruct (m_kind (o_mat o)); inv_ok; auto. }
        split; eapply Kp; eassumption. }
      destruct Gs as [-> ->]. rewrite G1 in O. rewrite G2 in O'. split; [exact O|]. split; [exact O'|]. unfold open, apart in *.
      apply (add_moved g g' (f_ph s1) (f_ph s2) _ _ o o' x y a b); try assumption; lia.
    + injection X1 as <-. injection X2 as <-. split; [exact Cm|].
      intros d i j Hd Ho x y Hx Hy. change (updates_in [AddSource r]) with 0 in Ho. rewrite Z.add_0_r in Ho.
      destruct (Mv d i j Hd Ho x y Hx Hy) as (O & O' & [F C M1 M2 M3 V1 V2 D]). split; [exact O|]. split; [exact O'|].
      constructor; try assumption. cbn [set_ph_srcs ph_srcs ph_grid]. rewrite G1, G2 in *.
      apply drive_moved; try assumption. destruct Hg. assumption.
    + change (updates_in [Update]) with 1.
      assert (Sp : sound (f_ph s1)) by (unfold sound; rewrite G1; auto using reachable_coefs).
      assert (Sq : sound (f_ph s2)) by (unfold sound; rewrite G2; auto using reachable_coefs).
      assert (Y1 : phys_run (repeat Update 1) (f_ph s1) = Fine (f_ph s)) by (cbn; rewrite X1; reflexivity).
      assert (Y2 : phys_run (repeat Update 1) (f_ph s2) = Fine (f_ph s')) by (cbn; rewrite X2; reflexivity).
      assert (Cm' : companions (f_ph s) (f_ph s')).
      { exact (companions_step _ _ _ _ Sp Sq Cm X1 X2). }
      split; [exact Cm'|]. intros d i j Hd Ho.
      refine (proj2 (shift_run 1 (f_ph s1) (f_ph s2) _ _ a b d i j Sp Sq Cm Y1 Y2 Hd _)). apply Mv; [lia|]. intros x y Hx Hy. apply Ho; lia.
Qed.

Lemma scene g g' name name' s0 s0' a b l l' s s' i j : apart g -> apart g' -> grid_ok g -> grid_ok g' -> g_dx g = g_dx g' -> g_dt g = g_dt g' ->
  mk_field g name = Ok s0 -> mk_field g' name' = Ok s0' -> Forall2 (moved_call (by_cells g a b)) l l' ->
  run l s0 = Fine s -> run l' s0' = Fine s' -> opens g g' a b (updates_in l) i j ->
  tval (fEz (ph_F (f_ph s))) i j = tval (fEz (ph_F (f_ph s'))) (i + a) (j + b) /\
  tval (fHx (ph_F (f_ph s))) i j = tval (fHx (ph_F (f_ph s'))) (i + a) (j + b) /\
  tval (fHy (ph_F (f_ph s))) i j = tval (fHy (ph_F (f_ph s'))) (i + a) (j + b).
Proof.
  intros Ha Hb Hg Hg' Dx Dt H0 H0' HL R1 R2 Ho.
  destruct (scene_run g g' name name' s0 s0' a b Ha Hb Hg Hg' Dx Dt H0 H0' l l' HL s s' R1 R2) as [_ M].
  destruct (M 0 i j ltac:(lia) Ho i j ltac:(lia) ltac:(lia)) as (_ & _ & [F _ _ _ _ _ _ _]). exact F.
Qed.
