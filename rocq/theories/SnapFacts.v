(** Snapshots and the walk of a line source. *)
From Coq Require Import ZArith String Ascii List Bool Lia.
From Verif Require Import Scalar Base BaseFacts VecM GridM GeometryM MaterialM PmlM DftM TfsfM PolarM
  InterpM H5M ClockM MonitorM FieldM OutFacts PhysFacts WfFacts SpecClock TimerFacts H5Facts SpecSource SourceFacts SpecOutput PassiveFacts EditFacts.
Import ListNotations.
Local Open Scope Z_scope.

(** ** The walk *)
Lemma visits_det st b p L : visits st b p L -> forall L', visits st b p L' -> L = L'.
Proof.
  induction 1 as [|p L Hn H IH]; intros L' H'; inversion H' as [|q M Hn' H'']; subst; auto; try congruence. f_equal. auto.
Qed.
Lemma walk_visits n : forall (a st : Z * Z), (forall k, 0 < k <= Z.of_nat n -> (k * fst st, k * snd st) <> (0, 0)) ->
  visits st (fst a + Z.of_nat n * fst st, snd a + Z.of_nat n * snd st) a (walk n a st).
Proof.
  induction n as [|n IH]; intros a st H; cbn [walk].
  - replace (fst a + Z.of_nat 0 * fst st, snd a + Z.of_nat 0 * snd st) with a by (destruct a; cbn [fst snd]; f_equal; lia). constructor.
  - constructor.
    + intros E. apply (H (Z.of_nat (S n))); [lia|]. clear - E. generalize dependent (Z.of_nat (S n)). intros m E. destruct a as [x y]. cbn [fst snd] in E. injection E as E1 E2. f_equal; lia.
    + replace (fst a + Z.of_nat (S n) * fst st, snd a + Z.of_nat (S n) * snd st)
        with (fst (fst a + fst st, snd a + snd st) + Z.of_nat n * fst st, snd (fst a + fst st, snd a + snd st) + Z.of_nat n * snd st) by (cbn [fst snd]; f_equal; lia).
      apply IH. intros k Hk. apply H. lia.
Qed.
Lemma walk_length n : forall a st, List.length (walk n a st) = n.
Proof. induction n; intros; cbn; auto. Qed.
Lemma walk_In n : forall a st c, In c (walk n a st) <-> exists k, 0 <= k < Z.of_nat n /\ c = (fst a + k * fst st, snd a + k * snd st).
Proof.
  induction n as [|n IH]; intros a st c; cbn [walk In]; [split; [intros []|intros (k & Hk & _); lia]|]. rewrite IH. cbn [fst snd]. split.
  - intros [<-|(k & Hk & ->)].
    + exists 0. split; [lia|]. destruct a; cbn [fst snd]; f_equal; lia.
    + exists (k + 1). split; [lia|]. f_equal; lia.
  - intros (k & Hk & ->). destruct (Z.eq_dec k 0) as [->|Hz]; [left; destruct a; cbn [fst snd]; f_equal; lia|right]. exists (k - 1). split; [lia|]. f_equal; lia.
Qed.
Lemma walk_nodup n : forall a st, (forall k, 0 < k <= Z.of_nat n -> (k * fst st, k * snd st) <> (0, 0)) -> NoDup (walk n a st).
Proof.
  induction n as [|n IH]; intros a st H; cbn [walk]; [constructor|]. constructor.
  - intros K. apply walk_In in K. destruct K as (k & Hk & E). destruct a as [x y]. cbn [fst snd] in E. injection E as E1 E2. apply (H (k + 1)); [lia|]. f_equal; lia.
  - apply IH. intros k Hk. apply H. lia.
Qed.
Definition axis_walk (a b : Z * Z) : list (Z * Z) :=
  walk (Z.to_nat (Z.abs (fst b - fst a) + Z.abs (snd b - snd a))) a (Z.sgn (fst b - fst a), Z.sgn (snd b - snd a)).
Lemma axis_walk_ok (a b : Z * Z) : fst a = fst b \/ snd a = snd b ->
  visits (Z.sgn (fst b - fst a), Z.sgn (snd b - snd a)) b a (axis_walk a b) /\ NoDup (axis_walk a b) /\
  List.length (axis_walk a b) = Z.to_nat (Z.abs (fst b - fst a) + Z.abs (snd b - snd a)).
Proof.
  intros H. set (n := Z.to_nat (Z.abs (fst b - fst a) + Z.abs (snd b - snd a))).
  assert (En : Z.of_nat n = Z.abs (fst b - fst a) + Z.abs (snd b - snd a)) by (unfold n; lia).
  assert (K : forall k, 0 < k <= Z.of_nat n -> (k * fst (Z.sgn (fst b - fst a), Z.sgn (snd b - snd a)), k * snd (Z.sgn (fst b - fst a), Z.sgn (snd b - snd a))) <> (0, 0)).
  { intros k Hk E. cbn [fst snd] in E. injection E as E1 E2. nia. }
  assert (B : (fst a + Z.of_nat n * fst (Z.sgn (fst b - fst a), Z.sgn (snd b - snd a)), snd a + Z.of_nat n * snd (Z.sgn (fst b - fst a), Z.sgn (snd b - snd a))) = b).
  { rewrite En. destruct b as [b0 b1]. cbn [fst snd] in *. f_equal; nia. }
  split; [|split].
  - assert (V := walk_visits n a _ K). rewrite B in V. exact V.
  - now apply walk_nodup.
  - apply walk_length.
Qed.

Section Snap.
Context {N : Num}.

(** adding once at each of distinct cells *)
Lemma add_at_once v L i j x : NoDup L -> add_at v L i j x = if existsb (fun q => (fst q =? i) && (snd q =? j)) L then (x + v)%num else x.
Proof.
  intros H. destruct (existsb _ L) eqn:E.
  - apply existsb_exists in E. destruct E as ((a & b) & Hin & E). apply andb_true_iff in E. destruct E as [E1 E2]. apply Z.eqb_eq in E1, E2. cbn [fst snd] in E1, E2. subst a b.
    revert x Hin. induction H as [|[a b] L Hn H IH]; intros x Hin; [destruct Hin|]. unfold add_at. cbn [fold_left fst snd]. destruct ((a =? i) && (b =? j)) eqn:Eb.
    + apply andb_true_iff in Eb. destruct Eb as [E1 E2]. apply Z.eqb_eq in E1, E2. subst a b. change (add_at v L i j (x + v)%num = (x + v)%num). now apply add_at_miss.
    + destruct Hin as [K|K]; [injection K as -> ->; rewrite !Z.eqb_refl in Eb; discriminate|]. exact (IH x K).
  - apply add_at_miss. intros K. assert (existsb (fun q => (fst q =? i) && (snd q =? j)) L = true); [|congruence]. apply existsb_exists. exists (i, j). split; [exact K|]. cbn. now rewrite !Z.eqb_refl.
Qed.

(** one pulse *)
Lemma pulse_src_cells n p p' r : nth_error (ph_srcs p) n = Some r -> pulse_src n p = Fine p' ->
  exists L F' srcs', src_cells (ph_grid p) (sr_kind r) L /\ (L <> [] -> field_comp (sr_c r)) /\ NoDup L /\
    p' = set_ph_F F' (set_ph_srcs srcs' p) /\ map src_core srcs' = map src_core (ph_srcs p) /\
    forall c i j, field_comp c -> fval F' c i j =
      if comp_eqb (sr_c r) c && existsb (fun q => (fst q =? i) && (snd q =? j)) L then (fval (ph_F p) c i j + shape_val (tp_shape (sr_tp r)) (ph_t p))%num else fval (ph_F p) c i j.
Proof.
  intros Hr H. unfold pulse_src in H. rewrite Hr in H. apply prim_fine in H. destruct H as ([v tp] & Hv & H). cbv zeta in H. apply prim_fine in H. destruct H as (F' & HF & H). injection H as <-.
  apply response_val in Hv. destruct Hv as [Ev Et]. cbn [ph_grid ph_F set_ph_srcs] in HF.
  assert (ND : forall L, src_cells (ph_grid p) (sr_kind r) L -> NoDup L).
  { intros L HL. destruct (sr_kind r) as [q|s]; cbn [src_cells] in HL; [destruct HL as (c & _ & ->); repeat constructor; auto|].
    unfold pulse_field in HF. apply bind_ok in HF. destruct HF as (is & His & _). unfold to_grid_surface in His. destruct HL as (a & b & Ha & Hb & ->). rewrite Ha, Hb in His. cbn [bind] in His.
    apply mk_isurface_inv in His. destruct His as (_ & Hax & _). apply (axis_walk_ok a b Hax). }
  apply pulse_field_cells in HF. destruct HF as (L & Hs & Hc & HF). exists L, F'. eexists. split; [exact Hs|]. split; [exact Hc|]. split; [now apply ND|]. split; [reflexivity|]. split.
  - apply (upd_nth_map src_core _ _ _ _ Hr). unfold src_core. cbn. now rewrite Et.
  - intros c i j Hcc. rewrite HF by exact Hcc. destruct (comp_eqb (sr_c r) c); cbn [andb]; [|reflexivity]. rewrite add_at_once by now apply ND. now rewrite Ev.
Qed.
Lemma point_source n p p' r q0 : nth_error (ph_srcs p) n = Some r -> sr_kind r = SPoint q0 -> pulse_src n p = Fine p' ->
  exists q F' srcs', to_grid (ph_grid p) q0 = Ok q /\ p' = set_ph_F F' (set_ph_srcs srcs' p) /\ map src_core srcs' = map src_core (ph_srcs p) /\ field_comp (sr_c r) /\
    forall c i j, field_comp c -> fval F' c i j =
      if comp_eqb (sr_c r) c && ((fst q =? i) && (snd q =? j)) then (fval (ph_F p) c i j + shape_val (tp_shape (sr_tp r)) (ph_t p))%num else fval (ph_F p) c i j.
Proof.
  intros Hr Hk H. destruct (pulse_src_cells _ _ _ _ Hr H) as (L & F' & srcs' & Hs & Hc & _ & E & Es & HF). rewrite Hk in Hs. destruct Hs as (q & Hq & ->).
  exists q, F', srcs'. repeat (split; [assumption|]). split; [apply Hc; discriminate|]. intros c i j Hcc. rewrite HF by exact Hcc. cbn [existsb]. now rewrite orb_false_r.
Qed.
Lemma line_source n p p' r s : nth_error (ph_srcs p) n = Some r -> sr_kind r = SLine s -> pulse_src n p = Fine p' ->
  exists a b L F' srcs', to_grid (ph_grid p) (s_a s) = Ok a /\ to_grid (ph_grid p) (s_b s) = Ok b /\ (fst a = fst b \/ snd a = snd b) /\
    visits (Z.sgn (fst b - fst a), Z.sgn (snd b - snd a)) b a L /\ (forall L', visits (Z.sgn (fst b - fst a), Z.sgn (snd b - snd a)) b a L' -> L' = L) /\
    NoDup L /\ Z.of_nat (List.length L) = Z.abs (fst b - fst a) + Z.abs (snd b - snd a) /\
    p' = set_ph_F F' (set_ph_srcs srcs' p) /\ map src_core srcs' = map src_core (ph_srcs p) /\ field_comp (sr_c r) /\
    forall c i j, field_comp c -> fval F' c i j =
      if comp_eqb (sr_c r) c && existsb (fun q => (fst q =? i) && (snd q =? j)) L then (fval (ph_F p) c i j + shape_val (tp_shape (sr_tp r)) (ph_t p))%num else fval (ph_F p) c i j.
Proof.
  intros Hr Hk H. assert (Hax : forall a b, to_grid (ph_grid p) (s_a s) = Ok a -> to_grid (ph_grid p) (s_b s) = Ok b -> a <> b /\ (fst a = fst b \/ snd a = snd b)).
  { intros a b Ha Hb. unfold pulse_src in H. rewrite Hr in H. apply prim_fine in H. destruct H as ([v tp] & _ & H). cbv zeta in H. apply prim_fine in H. destruct H as (F' & HF & _).
    rewrite Hk in HF. unfold pulse_field in HF. apply bind_ok in HF. destruct HF as (is & His & _). unfold to_grid_surface in His. cbn [ph_grid set_ph_srcs] in His. rewrite Ha, Hb in His. cbn [bind] in His.
    apply mk_isurface_inv in His. tauto. }
  destruct (pulse_src_cells _ _ _ _ Hr H) as (L & F' & srcs' & Hs & Hc & _ & E & Es & HF). rewrite Hk in Hs. destruct Hs as (a & b & Ha & Hb & EL). destruct (Hax a b Ha Hb) as [Hne Hab].
  destruct (axis_walk_ok a b Hab) as (V & ND & Len). unfold axis_walk in *. rewrite <- EL in *. exists a, b, L, F', srcs'. repeat (split; [assumption|]).
  split; [intros L' HL'; symmetry; eapply visits_det; eassumption|]. split; [exact ND|]. split; [rewrite Len; lia|]. repeat (split; [assumption|]). split; [|exact HF].
  apply Hc. intros ->. cbn in Len. destruct a, b; cbn [fst snd] in *. apply Hne. f_equal; lia.
Qed.

(** ** Snapshots *)
Lemma mapM_values {A} f (k : A -> Z * Z) l r : mapM (fun x => tat f (k x)) l = Ok r -> r = values f (map k l).
Proof.
  revert r. induction l as [|x l IH]; cbn [mapM map]; intros r H; [injection H as <-; reflexivity|]. apply bind_ok in H. destruct H as (v & Hv & H). apply bind_ok in H. destruct H as (r' & Hr' & H). injection H as <-.
  unfold values. cbn [map]. f_equal; [|now apply IH]. unfold tat in Hv. now apply tget_inv in Hv.
Qed.
Lemma zseq_shift a n : forall lo, map (Z.add a) (zseq lo n) = zseq (a + lo) n.
Proof. induction n as [|n IH]; intros lo; cbn; [reflexivity|]. f_equal. rewrite IH. f_equal. lia. Qed.
Lemma tm_sample_cells g F sh c v : tm_sample g F sh c = Ok v -> exists f L, get_field F c = Ok f /\ tm_cells g sh L /\ tm_row sh (values f L) v.
Proof.
  destruct sh as [p|s|w]; cbn [tm_sample tm_cells tm_row]; intros H.
  - apply bind_ok in H. destruct H as (q & Hq & H). apply bind_ok in H. destruct H as (f & Hf & H). apply bind_ok in H. destruct H as (x & Hx & H). injection H as <-.
    exists f, [q]. split; [exact Hf|]. split; [eauto|]. exists x. split; [|reflexivity]. unfold tat in Hx. apply tget_inv in Hx. destruct Hx as (-> & _). reflexivity.
  - apply bind_ok in H. destruct H as (is & His & H). apply bind_ok in H. destruct H as (len & Hlen & H). apply bind_ok in H. destruct H as (f & Hf & H). apply bind_ok in H. destruct H as (l & Hl & H). injection H as <-.
    unfold to_grid_surface in His. apply bind_ok in His. destruct His as (a & Ha & His). apply bind_ok in His. destruct His as (b & Hb & His). apply mk_isurface_inv in His. destruct His as (Hne & Hax & Hsz & Ia & Ib & _ & Id & It).
    apply mapM_values in Hl. subst l. eexists f, _. split; [exact Hf|]. split; [exists a, b; split; [exact Ha|]; split; [exact Hb|reflexivity]|]. f_equal. f_equal.
    assert (El : len = Z.abs (fst b - fst a) + Z.abs (snd b - snd a)).
    { unfold inorm in Hlen. apply bind_ok in Hlen. destruct Hlen as (q & Hq & Hlen). injection Hlen as <-. unfold i32 in Hq. rewrite Id in Hq. cbn [fst snd] in Hq. destruct (in_i32 _); [|discriminate]. injection Hq as <-.
      destruct Hax as [E|E].
      - rewrite E, Z.sub_diag. rewrite Z.abs_0, Z.mul_0_r, !Z.add_0_l, Z.sqrt_square; lia.
      - rewrite E, Z.sub_diag. rewrite Z.abs_0, Z.mul_0_r, !Z.add_0_r, Z.sqrt_square; lia. }
    rewrite Ia, It, El. assert (W := walk_line (Z.to_nat (Z.abs (fst b - fst a) + Z.abs (snd b - snd a))) a (Z.sgn (fst b - fst a), Z.sgn (snd b - snd a)) 0).
    replace (fst a + 0 * fst (Z.sgn (fst b - fst a), Z.sgn (snd b - snd a)), snd a + 0 * snd (Z.sgn (fst b - fst a), Z.sgn (snd b - snd a))) with a in W by (destruct a; cbn [fst snd]; f_equal; lia).
    rewrite W. unfold zrange. rewrite Z.sub_0_r. reflexivity.
  - apply bind_ok in H. destruct H as (iv & Hiv & H). apply bind_ok in H. destruct H as (f & Hf & H). apply bind_ok in H. destruct H as (l & Hl & H). injection H as <-.
    unfold to_grid_volume in Hiv. apply bind_ok in Hiv. destruct Hiv as (a & Ha & Hiv). apply bind_ok in Hiv. destruct Hiv as (b & Hb & Hiv). injection Hiv as <-. cbn [mk_ivolume iv_a iv_dim fst snd] in Hl.
    eexists f, _. split; [exact Hf|]. split; [exists a, b; split; [exact Ha|]; split; [exact Hb|reflexivity]|]. f_equal.
    assert (Hl' : mapM (fun x : Z * Z => tat f (iadd a x)) (list_prod (zrange 0 (Z.abs (fst a - fst b) + 1)) (zrange 0 (Z.abs (snd a - snd b) + 1))) = Ok l).
    { rewrite <- Hl. generalize (list_prod (zrange 0 (Z.abs (fst a - fst b) + 1)) (zrange 0 (Z.abs (snd a - snd b) + 1))). clear. induction l as [|[i j] l IH]; cbn [mapM]; [reflexivity|]. now rewrite IH. }
    apply mapM_values in Hl'. rewrite Hl'. f_equal. unfold zrange. rewrite !Z.sub_0_r.
    replace (fst a + Z.abs (fst b - fst a) + 1 - fst a) with (Z.abs (fst a - fst b) + 1) by lia. replace (snd a + Z.abs (snd b - snd a) + 1 - snd a) with (Z.abs (snd a - snd b) + 1) by lia.
    assert (Zs : forall u n, zseq u n = map (Z.add u) (zseq 0 n)) by (intros; rewrite zseq_shift, Z.add_0_r; reflexivity). rewrite (Zs (fst a)), (Zs (snd a)).
    assert (LP : forall u w, list_prod (map (Z.add (fst a)) u) (map (Z.add (snd a)) w) = map (iadd a) (list_prod u w)).
    { clear. induction u as [|x u IH]; intros w; cbn [map list_prod]; [reflexivity|]. rewrite map_app, <- IH, !map_map. reflexivity. }
    now rewrite LP.
Qed.
End Snap.
