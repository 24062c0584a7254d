(** Polarizations of materials that list the same poles in different orders. *)
From Coq Require Import ZArith Reals String List Bool Permutation Lia Lra FunctionalExtensionality.
From Verif Require Import Scalar Base BaseFacts VecM GridM GeometryM MaterialM PmlM DftM TfsfM PolarM
  InterpM H5M ClockM MonitorM FieldM OutFacts PhysFacts PaintFacts WfFacts SpecMedium PolarFacts MediumFacts PoleOrder.
Import ListNotations.
Local Open Scope R_scope.
#[local] Existing Instance RNum.

Lemma tensor_ext (a b : tensor) : rows a = rows b -> cols a = cols b -> (forall i j, tval a i j = tval b i j) -> a = b.
Proof.
  destruct a as [n m f], b as [n' m' f']. cbn. intros -> -> H. f_equal. apply functional_extensionality. intros i. apply functional_extensionality. intros j. apply H.
Qed.
Lemma for_n_keeps {A} (P : A -> Prop) body : (forall k a b, P a -> body k a = Ok b -> P b) -> forall n lo a b, P a -> for_n lo n body a = Ok b -> P b.
Proof.
  intros Hb. induction n as [|n IH]; intros lo a b Ha H; cbn [for_n] in H; [now injection H as <-|]. apply bind_ok in H. destruct H as (c & H1 & H). eapply IH; [|exact H]. eapply Hb; eassumption.
Qed.
Definition extent (n m : Z) (a : tensor) : Prop := rows a = n /\ cols a = m.
Lemma tset_extent n m a i j v b : extent n m a -> tset a i j v = Ok b -> extent n m b.
Proof. intros H K. apply tset_inv in K. destruct K as (_ & _ & ->). exact H. Qed.
Lemma debye_extent n m x q pe E q' E' : extent n m E -> debye_update x q pe E = Ok (q', E') -> extent n m E'.
Proof.
  intros HE H. unfold debye_update in H. apply bind_ok in H. destruct H as ([E1 J1] & H & K). injection K as _ <-. change (extent n m (fst (E1, J1))). revert H. apply (for_n_keeps (fun s => extent n m (fst s))); [|exact HE].
  intros i s s' Hs. apply (for_n_keeps (fun s => extent n m (fst s))); [|exact Hs]. clear. intros j s s' Hs. apply (for_n_keeps (fun s => extent n m (fst s))); [|exact Hs]. clear. intros k [E J] [E' J'] Hs H. cbn [fst] in *.
  unfold debye_body in H. inv_ok. eapply tset_extent; eassumption.
Qed.
Lemma drude_extent n m x q pe E q' E' : extent n m E -> drude_update x q pe E = Ok (q', E') -> extent n m E'.
Proof.
  intros HE H. unfold drude_update in H. apply bind_ok in H. destruct H as ([E1 J1] & H & K). injection K as _ <-. change (extent n m (fst (E1, J1))). revert H. apply (for_n_keeps (fun s => extent n m (fst s))); [|exact HE].
  intros i s s' Hs. apply (for_n_keeps (fun s => extent n m (fst s))); [|exact Hs]. clear. intros j s s' Hs. apply (for_n_keeps (fun s => extent n m (fst s))); [|exact Hs]. clear. intros k [E J] [E' J'] Hs H. cbn [fst] in *.
  unfold drude_body in H. inv_ok. eapply tset_extent; eassumption.
Qed.

(** ** One kind of material: poles, factors and weights *)
Section Kind.
Context {M A : Type}.
Variables (poles : M -> list A) (val ka : R -> A -> R) (cb : M -> R -> R) (wt : R -> R -> R) (sg : R).
Variable f : M -> polar -> tensor -> tensor -> res (polar * tensor).
Definition vals (x : M) (dt : R) : list R := map (val dt) (poles x).
Definition np (x : M) : nat := length (poles x).
Hypothesis f_cells : forall x q pe E q' E', (0 <= pl_n q)%Z -> f x q pe E = Ok (q', E') ->
  by_cells q q' E E' (fun i j => chain (pl_n q)
    (fun k e => e - cb x (pl_dt q) / 2 * (1 + nth (Z.to_nat k) (map (ka (pl_dt q)) (poles x)) 0) * t3val (pl_J q) i j k)
    (fun k e => nth (Z.to_nat k) (map (ka (pl_dt q)) (poles x)) 0 * t3val (pl_J q) i j k + wt (pl_dt q) (t3val (pl_c q) i j k) * (e + sg * tval pe i j))
    (tval E i j) (tval E' i j) (t3val (pl_J q') i j)).
Hypothesis f_extent : forall n m x q pe E q' E', extent n m E -> f x q pe E = Ok (q', E') -> extent n m E'.
Hypothesis wt0 : forall dt, wt dt 0 = 0.

Definition same_stuff (x y : M) : Prop := Permutation (poles x) (poles y) /\ forall dt, cb x dt = cb y dt.
Definition strengths (x : M) (q : polar) (i j : Z) : Prop :=
  forall k, (0 <= k < pl_n q)%Z -> t3val (pl_c q) i j k = nth (Z.to_nat k) (vals x (pl_dt q)) 0.
Definition blank (q : polar) (i j : Z) : Prop := forall k, (0 <= k < pl_n q)%Z -> t3val (pl_c q) i j k = 0 /\ t3val (pl_J q) i j k = 0.
Definition currents (x : M) (q : polar) (i j : Z) : list (A * R) := zip (poles x) 0 (t3val (pl_J q) i j).
Definition live (x : M) (q : polar) (y : M) (r : polar) (i j : Z) : Prop :=
  strengths x q i j /\ strengths y r i j /\
  shuffled (ka (pl_dt q)) (fun a => wt (pl_dt q) (val (pl_dt q) a)) (cb x (pl_dt q) / 2) (currents x q i j) (currents y r i j).
Definition twin (x : M) (q : polar) (y : M) (r : polar) : Prop :=
  same_stuff x y /\ (pl_Nx r = pl_Nx q /\ pl_Ny r = pl_Ny q /\ pl_dx r = pl_dx q /\ pl_dt r = pl_dt q /\ pl_n r = pl_n q) /\
  pl_n q = Z.of_nat (np x) /\
  forall i j, (0 <= i < pl_Nx q)%Z -> (0 <= j < pl_Ny q)%Z -> live x q y r i j \/ (blank q i j /\ blank r i j).

Lemma nth_vals (F : A -> R) l n a d : nth_error l n = Some a -> nth n (map F l) d = F a.
Proof. intros H. apply nth_error_nth. now apply map_nth_error. Qed.
Lemma cell_next x q pe E q' E' i j : (forall k, (0 <= k < pl_n q)%Z -> t3val (pl_c q) i j k = nth (Z.to_nat k) (vals x (pl_dt q)) 0) -> pl_n q = Z.of_nat (np x) ->
  (0 <= i < pl_Nx q)%Z -> (0 <= j < pl_Ny q)%Z -> f x q pe E = Ok (q', E') ->
  tval E' i j = tval E i j - cb x (pl_dt q) / 2 * drag (ka (pl_dt q)) (currents x q i j) /\
  currents x q' i j = next (ka (pl_dt q)) (fun a => wt (pl_dt q) (val (pl_dt q) a)) (cb x (pl_dt q) / 2) (tval E' i j + sg * tval pe i j) (currents x q i j).
Proof.
  intros Hc Hn Hi Hj H. apply f_cells in H; [|lia]. destruct H as (_ & H & _). destruct (H i j Hi Hj) as (e & E0 & E1 & C). unfold currents.
  rewrite <- E0, <- E1. replace (pl_n q) with (0 + Z.of_nat (length (poles x)))%Z by (rewrite Hn; reflexivity). apply zip_chain. intros n a Hna. cbv zeta.
  assert (L : (n < length (poles x))%nat) by (apply nth_error_Some; congruence). assert (Hk : (0 <= 0 + Z.of_nat n < pl_n q)%Z) by (rewrite Hn; unfold np; lia).
  destruct (C _ Hk) as [C1 C2]. rewrite C2, C1. rewrite (Hc _ Hk). replace (Z.to_nat (0 + Z.of_nat n)) with n by lia. unfold vals. rewrite !(nth_vals _ _ _ _ _ Hna). split; ring.
Qed.
Lemma cell_blank x q pe E q' E' i j : blank q i j -> (0 <= pl_n q)%Z -> (0 <= i < pl_Nx q)%Z -> (0 <= j < pl_Ny q)%Z -> f x q pe E = Ok (q', E') ->
  tval E' i j = tval E i j /\ forall k, (0 <= k < pl_n q)%Z -> t3val (pl_J q') i j k = 0.
Proof.
  intros Hb Hn Hi Hj H. apply f_cells in H; [|lia]. destruct H as (_ & H & _). destruct (H i j Hi Hj) as (e & E0 & E1 & C).
  assert (K : forall d : nat, (Z.of_nat d <= pl_n q)%Z -> e (Z.of_nat d) = tval E i j).
  { induction d as [|d IH]; intros Hd; [exact E0|]. replace (Z.of_nat (S d)) with (Z.of_nat d + 1)%Z by lia. destruct (C (Z.of_nat d) ltac:(lia)) as [-> _]. destruct (Hb (Z.of_nat d) ltac:(lia)) as [_ ->]. rewrite IH by lia. rnumg. ring. }
  split.
  - rewrite <- E1. rewrite <- (Z2Nat.id (pl_n q)) by exact Hn. apply K. lia.
  - intros k Hk. destruct (C k Hk) as [_ ->]. destruct (Hb k Hk) as [-> ->]. rewrite wt0. rnumg. ring.
Qed.
Lemma twin_update x q y r pe E q' E' r' F' : twin x q y r -> f x q pe E = Ok (q', E') -> f y r pe E = Ok (r', F') -> twin x q' y r' /\ E' = F'.
Proof.
  intros ((Hp & Hcb) & (S1 & S2 & S3 & S4 & S5) & Hn & Hcell) U V. assert (Nx : (0 <= pl_n q)%Z) by (rewrite Hn; lia). assert (Ny : (0 <= pl_n r)%Z) by lia.
  assert (Ln : pl_n r = Z.of_nat (np y)) by (rewrite S5, Hn; unfold np; f_equal; now apply Permutation_length).
  destruct (f_cells _ _ _ _ _ _ Nx U) as ((K1 & K2 & K3 & K4 & K5 & K6) & _ & Oq). destruct (f_cells _ _ _ _ _ _ Ny V) as ((L1 & L2 & L3 & L4 & L5 & L6) & _ & Or).
  assert (C : forall i j, (0 <= i < pl_Nx q)%Z -> (0 <= j < pl_Ny q)%Z -> (live x q' y r' i j \/ (blank q' i j /\ blank r' i j)) /\ tval E' i j = tval F' i j).
  { intros i j Hi Hj. destruct (Hcell i j Hi Hj) as [(A1 & A2 & A3)|[B1 B2]].
    - destruct (cell_next x q pe E q' E' i j A1 Hn Hi Hj U) as [X1 X2]. destruct (cell_next y r pe E r' F' i j A2 Ln ltac:(lia) ltac:(lia) V) as [Y1 Y2].
      rewrite S4 in Y1, Y2. rewrite <- Hcb in Y1, Y2. rewrite <- (shuffled_drag _ _ _ _ _ A3) in Y1. assert (EF : tval E' i j = tval F' i j) by (rewrite X1, Y1; reflexivity). split; [|exact EF]. left.
      split; [intros k Hk; rewrite K6, K4; apply A1; lia|]. split; [intros k Hk; rewrite L6, L4; apply A2; lia|].
      rewrite X2, Y2, K4, <- EF. now apply shuffled_next.
    - destruct (cell_blank x q pe E q' E' i j B1 Nx Hi Hj U) as [X1 X2]. destruct (cell_blank y r pe E r' F' i j B2 Ny ltac:(lia) ltac:(lia) V) as [Y1 Y2]. split; [right|congruence].
      split; intros k Hk; [rewrite K6|rewrite L6]; (split; [|now (apply X2 || apply Y2); lia]); [apply B1; lia|apply B2; lia]. }
  split.
  - split; [split; assumption|]. split; [repeat split; congruence|]. split; [congruence|]. intros i j Hi Hj. apply C; lia.
  - destruct (f_extent _ _ _ _ _ _ _ _ (conj eq_refl eq_refl) U) as [R1 R2]. destruct (f_extent _ _ _ _ _ _ _ _ (conj eq_refl eq_refl) V) as [Q1 Q2].
    apply tensor_ext; [congruence|congruence|]. intros i j.
    destruct (Z_lt_dec i 0), (Z_lt_dec j 0), (Z_lt_dec i (pl_Nx q)), (Z_lt_dec j (pl_Ny q)); solve [apply C; lia|rewrite Oq, Or by lia; reflexivity].
Qed.
Lemma twin_insert x q y r inside q' r' : twin x q y r -> insert_polar q (vals x (pl_dt q)) inside = Ok q' -> insert_polar r (vals y (pl_dt q)) inside = Ok r' -> twin x q' y r'.
Proof.
  intros ((Hp & Hcb) & (S1 & S2 & S3 & S4 & S5) & Hn & Hcell) U V. assert (Nx : (0 <= pl_n q)%Z) by (rewrite Hn; lia). assert (Ny : (0 <= pl_n r)%Z) by lia.
  assert (Ln : pl_n r = Z.of_nat (np y)) by (rewrite S5, Hn; unfold np; f_equal; now apply Permutation_length).
  destruct (insert_polar_cells _ _ _ _ Nx U) as (K1 & K2 & K3 & K4 & K5 & K6 & _ & K8). destruct (insert_polar_cells _ _ _ _ Ny V) as (L1 & L2 & L3 & L4 & L5 & L6 & _ & L8).
  split; [split; assumption|]. split; [repeat split; congruence|]. split; [congruence|]. intros i j Hi Hj. rewrite K1 in Hi. rewrite K2 in Hj. specialize (K8 i j). specialize (L8 i j). rewrite S3 in L8.
  assert (CJ : currents x q' i j = currents x q i j /\ currents y r' i j = currents y r i j) by (unfold currents; rewrite K6, L6; auto). destruct CJ as [Cx Cy].
  destruct (inside (pl_dx q * nofZ i, pl_dx q * nofZ j)%num).
  - left. split; [intros k Hk; rewrite K4; apply K8; lia|]. split; [intros k Hk; rewrite L4, S4; apply L8; lia|]. rewrite Cx, Cy, K4.
    destruct (Hcell i j Hi Hj) as [(_ & _ & A3)|[B1 B2]]; [exact A3|]. unfold currents. rewrite !zip_zero; [now apply shuffled_zero| |].
    + intros k Hk. apply B2. rewrite Ln. unfold np. lia.
    + intros k Hk. apply B1. rewrite Hn. unfold np. lia.
  - destruct (Hcell i j Hi Hj) as [(A1 & A2 & A3)|[B1 B2]].
    + left. split; [intros k Hk; rewrite K8, K4 by lia; apply A1; lia|]. split; [intros k Hk; rewrite L8, L4 by lia; apply A2; lia|]. now rewrite Cx, Cy, K4.
    + right. split; intros k Hk; [rewrite K8, K6 by lia; apply B1; lia|rewrite L8, L6 by lia; apply B2; lia].
Qed.
Lemma twin_reset x q y r : twin x q y r -> twin x (reset_polar q) y (reset_polar r).
Proof.
  intros (H1 & H2 & H3 & H4). split; [exact H1|]. split; [exact H2|]. split; [exact H3|]. intros i j Hi Hj. right. split; intros k Hk; cbn [reset_polar pl_c pl_J t3zero t3val]; rnumg; auto.
Qed.
Lemma twin_new g x y q r : same_stuff x y -> mk_polar g (np x) = Ok q -> mk_polar g (np y) = Ok r -> twin x q y r.
Proof.
  intros Hs U V. assert (Ln : np y = np x) by (unfold np; symmetry; apply Permutation_length, Hs). rewrite Ln in V. rewrite U in V. injection V as <-.
  unfold mk_polar in U. apply bind_ok in U. destruct U as (z & Hz & U). injection U as <-. unfold t3const in Hz. destruct (_ && _); [|discriminate]. injection Hz as <-.
  split; [exact Hs|]. split; [auto|]. split; [reflexivity|]. intros i j Hi Hj. right. split; intros k Hk; cbn [pl_c pl_J t3val]; rnumg; auto.
Qed.

(** ** The maps *)
Definition twins (g : grid) (P Q : list (string * (M * polar))) : Prop :=
  Forall2 (fun e e' => fst e = fst e' /\ twin (fst (snd e)) (snd (snd e)) (fst (snd e')) (snd (snd e')) /\ pl_dt (snd (snd e)) = g_dt g) P Q.
Lemma twins_lookup g P Q nm : twins g P Q ->
  match slookup nm P, slookup nm Q with
  | Some (x, q), Some (y, r) => twin x q y r /\ pl_dt q = g_dt g
  | None, None => True
  | _, _ => False
  end.
Proof.
  induction 1 as [|[k [x q]] [k' [y r]] P Q (H1 & H2 & H3) HP IH]; cbn [slookup]; [exact Logic.I|]. cbn [fst snd] in *. subst k'. destruct (String.eqb nm k); [auto|exact IH].
Qed.
Lemma twins_assign g P Q nm x q y r : twins g P Q -> twin x q y r -> pl_dt q = g_dt g -> twins g (sassign nm (x, q) P) (sassign nm (y, r) Q).
Proof.
  intros H Ht Hd. induction H as [|[k [x0 q0]] [k' [y0 r0]] P Q (H1 & H2 & H3) HP IH]; cbn [sassign]; [constructor|]. cbn [fst snd] in *. subst k'.
  destruct (String.eqb nm k); constructor; cbn [fst snd]; auto.
Qed.
Lemma twins_sinsert g P Q nm x q y r : twins g P Q -> twin x q y r -> pl_dt q = g_dt g -> twins g (sinsert nm (x, q) P) (sinsert nm (y, r) Q).
Proof.
  intros H Ht Hd. induction H as [|[k [x0 q0]] [k' [y0 r0]] P Q (H1 & H2 & H3) HP IH]; cbn [sinsert]; [constructor; [cbn [fst snd]; auto|constructor]|]. cbn [fst snd] in *. subst k'.
  destruct (String.compare nm k); repeat (constructor; cbn [fst snd]; auto).
Qed.
Lemma insert_dt (q : polar) l inside q' : insert_polar q l inside = Ok q' -> pl_dt q' = pl_dt q.
Proof. intros H. unfold insert_polar in H. apply bind_ok in H. destruct H as (c & _ & H). injection H as <-. reflexivity. Qed.
Lemma twins_add g P Q nm x y o o' P' Q' : twins g P Q -> same_stuff x y -> obj_inside o' = obj_inside o ->
  add_polar np vals g P nm x o = Ok P' -> add_polar np vals g Q nm y o' = Ok Q' -> twins g P' Q'.
Proof.
  intros H Hs Ho U V. unfold add_polar in U, V. rewrite Ho in V. assert (L := twins_lookup g P Q nm H). destruct (slookup nm P) as [[x0 q0]|], (slookup nm Q) as [[y0 r0]|]; try contradiction.
  - destruct L as [L1 L2]. apply bind_ok in U. destruct U as (q & Hq & U). injection U as <-. apply bind_ok in V. destruct V as (r & Hr & V). injection V as <-.
    apply twins_assign; [exact H| |rewrite (insert_dt _ _ _ _ Hq); exact L2]. rewrite <- L2 in Hq, Hr. exact (twin_insert _ _ _ _ _ _ _ L1 Hq Hr).
  - apply bind_ok in U. destruct U as (q & Hq & U). apply bind_ok in U. destruct U as (q1 & Hq1 & U). injection U as <-. apply bind_ok in V. destruct V as (r & Hr & V). apply bind_ok in V. destruct V as (r1 & Hr1 & V). injection V as <-.
    assert (Dt : pl_dt q = g_dt g) by (unfold mk_polar in Hq; apply bind_ok in Hq; destruct Hq as (z & _ & Hq); injection Hq as <-; reflexivity).
    apply twins_sinsert; [exact H| |rewrite (insert_dt _ _ _ _ Hq1); exact Dt]. rewrite <- Dt in Hq1, Hr1. exact (twin_insert _ _ _ _ _ _ _ (twin_new _ _ _ _ _ Hs Hq Hr) Hq1 Hr1).
Qed.
Lemma twins_reinsert g P Q nm o o' P' Q' : twins g P Q -> obj_inside o' = obj_inside o ->
  reinsert_polar vals g P nm o = Ok P' -> reinsert_polar vals g Q nm o' = Ok Q' -> twins g P' Q'.
Proof.
  intros H Ho U V. unfold reinsert_polar in U, V. rewrite Ho in V. assert (L := twins_lookup g P Q nm H). destruct (slookup nm P) as [[x0 q0]|], (slookup nm Q) as [[y0 r0]|]; try contradiction; try discriminate.
  destruct L as [L1 L2]. apply bind_ok in U. destruct U as (q & Hq & U). injection U as <-. apply bind_ok in V. destruct V as (r & Hr & V). injection V as <-.
  apply twins_assign; [exact H| |rewrite (insert_dt _ _ _ _ Hq); exact L2]. rewrite <- L2 in Hq, Hr. exact (twin_insert _ _ _ _ _ _ _ L1 Hq Hr).
Qed.
Lemma twins_reset g P Q : twins g P Q -> twins g (map (fun '(n, (m, p)) => (n, (m, reset_polar p))) P) (map (fun '(n, (m, p)) => (n, (m, reset_polar p))) Q).
Proof.
  induction 1 as [|[k [x q]] [k' [y r]] P Q (H1 & H2 & H3) HP IH]; cbn [map]; constructor; [|exact IH]. cbn [fst snd] in *. split; [exact H1|]. split; [now apply twin_reset|exact H3].
Qed.
Lemma twins_all g prev P Q : twins g P Q -> forall E P' E' Q' F', polar_all f prev E P = Ok (P', E') -> polar_all f prev E Q = Ok (Q', F') -> twins g P' Q' /\ E' = F'.
Proof.
  induction 1 as [|[k [x q]] [k' [y r]] P Q (H1 & H2 & H3) HP IH]; intros E P' E' Q' F' U V; cbn [polar_all] in U, V.
  - injection U as <- <-. injection V as <- <-. split; [constructor|reflexivity].
  - cbn [fst snd] in *. subst k'. destruct prev as [pe|]; [|discriminate]. cbn [ofOption bind] in U, V.
    apply bind_ok in U. destruct U as ([q1 E1] & Hq & U). apply bind_ok in U. destruct U as ([P1 E2] & HP1 & U). injection U as <- <-.
    apply bind_ok in V. destruct V as ([r1 F1] & Hr & V). apply bind_ok in V. destruct V as ([Q1 F2] & HQ1 & V). injection V as <- <-.
    destruct (twin_update _ _ _ _ _ _ _ _ _ _ H2 Hq Hr) as [W <-]. destruct (IH _ _ _ _ _ HP1 HQ1) as [X1 X2]. split; [|exact X2].
    constructor; [|exact X1]. cbn [fst snd]. split; [reflexivity|]. split; [exact W|]. rewrite <- H3. apply f_cells in Hq; [apply Hq|]. destruct H2 as (_ & _ & Hn & _). rewrite Hn. lia.
Qed.
End Kind.
