(** Reciprocity. *)
From Coq Require Import ZArith Reals String List Bool Lia Lra Psatz.
From Verif Require Import Scalar Base BaseFacts VecM GridM GeometryM MaterialM PmlM DftM TfsfM PolarM
  InterpM H5M ClockM MonitorM FieldM SpecGrid GridFacts OutFacts PhysFacts SpecGeometry GeometryFacts SpecPaint PaintFacts WfFacts ReachFacts InvFacts
  SpecStep StepFacts EngineFacts YeeFacts SpecSource SourceFacts SpecMedium PolarFacts FullStep TextbookFacts SpecWave DarkFacts
  SafeFacts ExampleFacts FlipRun SpecCone ConeFacts SpecRestart RestartMap RestartFacts RestartRun SpecTfsf TfsfFacts TfsfRun
  SpecRim MediumFacts StrengthFacts SpecMaterial MediaFacts MaterialFacts SpecMedia MediaRun SpecTrace TraceFacts SpecEnergy EnergyFacts EnergyRun SpecLoss LossFacts LossRun
  ConvFacts ReverseFacts SpecRecip.
Import ListNotations.
Local Open Scope R_scope.
#[local] Existing Instance RNum.

(** ** One cell *)
Definition drawn (g : grid) (mat : Z -> Z -> material) (p p' : phys) (i j : Z) : R :=
  let mt := mat i j in
  eps_map mat i j * (Ez_of p' i j - Ez_of p i j) +
  match m_kind mt with
  | KSimple m => g_dt g * (sm_conduc m * (Ez_of p' i j + Ez_of p i j) / 2)
  | _ => g_dt g * ((J_of p' mt i j + J_of p mt i j) / 2)
  end.
Definition remembers (g : grid) (mat : Z -> Z -> material) (p p' : phys) (i j : Z) : Prop :=
  let mt := mat i j in
  match m_kind mt with
  | KSimple _ => True
  | KDebye x => forall d, db_poles x = [d] -> debye_law (dp_deps d) (dp_tau d) (g_dt g) (Ez_of p i j) (Ez_of p' i j) (J_of p mt i j) (J_of p' mt i j)
  | KDrude x => forall d, dr_poles x = [d] -> drude_law (up_omega d) (up_gamma d) (g_dt g) (Ez_of p i j) (Ez_of p' i j) (J_of p mt i j) (J_of p' mt i j)
  | KLorentz _ => False
  end.

Lemma drawn_of_law k dt c x : 0 < dt -> k / dt + x = c / (2 * dt) -> k + dt * x = / 2 * c.
Proof. intros Hd H. apply Rmult_eq_reg_l with (/ dt); [|apply Rinv_neq_0_compat; lra]. transitivity (k / dt + x); [field; lra|]. rewrite H. field. lra. Qed.

Lemma cell_laws g mat p p' i j : 0 < g_dx g -> g_dt g = g_dx g / 2 -> apart g -> (1 <= g_pml g)%Z ->
  lossy g mat p -> off_layers g p -> off_layers g p' -> phys_step p = Fine p' -> (0 <= i < g_Nx g)%Z -> (0 <= j < g_Ny g)%Z ->
  remembers g mat p p' i j /\ (~ at_edge g i j -> drawn g mat p p' i j = / 2 * curlH (Hx_of p) (Hy_of p) i j).
Proof.
  intros Hd Ht Ha B0 L O O' Hs Hi Hj. destruct (lossy_step g mat p p') as (L' & _ & Qu); auto.
  assert (Dt : 0 < g_dt g) by lra.
  assert (Law : ~ at_edge g i j -> forall C : Prop, ((1 <= i < g_Nx g - 1)%Z -> (1 <= j < g_Ny g - 1)%Z -> apart (ph_grid p) -> SpecRim.off_E (ph_tfsf p) i j ->
     undriven (ph_t p + g_dt (ph_grid p)) (ph_grid p) (ph_srcs p) Ez i j -> curl_at p i j = curlH (Hx_of p) (Hy_of p) i j / (2 * g_dt g) -> C) -> C).
  { intros He C K. unfold at_edge in He. apply K; try lia.
    - now rewrite (lo_grid _ _ _ L).
    - rewrite (lo_tfsf _ _ _ L). exact Logic.I.
    - rewrite (lo_srcs _ _ _ L). intros ? ? [].
    - rewrite (curl_free g p i j); [|exact (lo_grid _ _ _ L)|exact (lo_fl _ _ _ L)|exact Hd|lia|lia|exact Qu]. f_equal. lra. }
  destruct (lo_cell _ _ _ L i j Hi Hj) as [Ab Cl]. destruct (lo_cell _ _ _ L' i j Hi Hj) as [_ Cl'].
  unfold remembers, drawn, J_of, eps_map. cbv zeta. destruct (m_kind (mat i j)) as [m|x|x|x] eqn:Km; cbn [eps_of] in *.
  - split; [exact Logic.I|]. intros He. destruct Ab as [H1 H2]. apply (Law He). intros K1 K2 K3 K4 K5 Kc.
    assert (W := simple_law p p' i j K3 (lo_wf _ _ _ L) (lo_tame _ _ _ L) K4 Hs ltac:(rewrite (lo_grid _ _ _ L); exact K1) ltac:(rewrite (lo_grid _ _ _ L); exact K2) ltac:(rewrite (lo_grid _ _ _ L); exact Dt) K5 m ltac:(lra) H2 Cl).
    rewrite Kc, (lo_grid _ _ _ L) in W. change (Ez_at p i j) with (Ez_of p i j) in W. change (Ez_at p' i j) with (Ez_of p' i j) in W.
    apply drawn_of_law; [exact Dt|exact W].
  - destruct Ab as (H1 & d & Hp & H2 & H3). destruct Cl as ((n & q & Cl) & He). apply (Law He). intros K1 K2 K3 K4 K5 Kc.
    destruct (debye_solves p p' i j K3 (lo_wf _ _ _ L) (lo_tame _ _ _ L) K4 Hs ltac:(rewrite (lo_grid _ _ _ L); exact K1) ltac:(rewrite (lo_grid _ _ _ L); exact K2) ltac:(rewrite (lo_grid _ _ _ L); exact Dt) K5 n (m_name (mat i j)) x q) as (q' & Jx & En & Lw & Am & Jv);
      [lra|rewrite Hp; constructor; [split; lra|constructor]|exact Cl|].
    rewrite Hp in *. cbn [Datatypes.length rsum] in *. specialize (Lw 0%nat d eq_refl). specialize (Jv 0%nat d eq_refl). change (Z.of_nat 0) with 0%Z in *. cbn [Nat.sub rsum] in *.
    rewrite Kc, (lo_grid _ _ _ L) in *. change (Ez_at p i j) with (Ez_of p i j) in *. change (Ez_at p' i j) with (Ez_of p' i j) in *.
    assert (E1 := current_entry _ _ _ _ _ i j (lo_nd1 _ _ _ L) (proj1 (proj2 Cl))). assert (E2 := current_entry _ _ _ _ _ i j (lo_nd1 _ _ _ L') En).
    assert (JJ : J_at q' i j 0 = Jx 0%nat) by (rewrite Jv; rnumg; ring). rewrite E1, E2, JJ. rewrite !Rplus_0_l in Am.
    split; [intros d' Hd'; injection Hd' as <-; exact Lw|]. intros _. apply drawn_of_law; [exact Dt|]. unfold ampere in Am. rewrite Am. ring.
  - destruct Ab as (H1 & d & Hp & H2 & H3). destruct Cl as ((n & q & Cl) & He). apply (Law He). intros K1 K2 K3 K4 K5 Kc.
    destruct (drude_solves p p' i j K3 (lo_wf _ _ _ L) (lo_tame _ _ _ L) K4 Hs ltac:(rewrite (lo_grid _ _ _ L); exact K1) ltac:(rewrite (lo_grid _ _ _ L); exact K2) ltac:(rewrite (lo_grid _ _ _ L); exact Dt) K5 n (m_name (mat i j)) x q) as (q' & Jx & En & Lw & Am & Jv);
      [lra|rewrite Hp; constructor; [unfold upos; lra|constructor]|exact Cl|].
    rewrite Hp in *. cbn [Datatypes.length rsum] in *. specialize (Lw 0%nat d eq_refl). specialize (Jv 0%nat d eq_refl). change (Z.of_nat 0) with 0%Z in *. cbn [Nat.sub rsum] in *.
    rewrite Kc, (lo_grid _ _ _ L) in *. change (Ez_at p i j) with (Ez_of p i j) in *. change (Ez_at p' i j) with (Ez_of p' i j) in *.
    assert (E1 := current_entry _ _ _ _ _ i j (lo_nd2 _ _ _ L) (proj1 (proj2 Cl))). assert (E2 := current_entry _ _ _ _ _ i j (lo_nd2 _ _ _ L') En).
    assert (JJ : J_at q' i j 0 = Jx 0%nat) by (rewrite Jv; rnumg; ring). rewrite E1, E2, JJ. rewrite !Rplus_0_l in Am.
    split; [intros d' Hd'; injection Hd' as <-; exact Lw|]. intros _. apply drawn_of_law; [exact Dt|]. unfold ampere in Am. rewrite Am. ring.
  - destruct Cl.
Qed.

(** ** All cells *)
Section Pair.
Variables (g : grid) (mat : Z -> Z -> material) (n : nat).
Hypotheses (Hd : 0 < g_dx g) (Ht : g_dt g = g_dx g / 2) (Ha : apart g) (Hp : (1 <= g_pml g)%Z).
Let nx := Z.to_nat (g_Nx g). Let ny := Z.to_nat (g_Ny g).
Let sum2 (f : Z -> Z -> R) := sumup nx (fun i => sumup ny (f i)).
Record film (U : nat -> phys) : Prop := Film {
  fi_step : forall m, (m < n)%nat -> phys_step (U m) = Fine (U (S m));
  fi_lossy : forall m, (m <= n)%nat -> lossy g mat (U m);
  fi_off : forall m, (m <= n)%nat -> off_layers g (U m);
  fi_X : forall i j, Hx_of (U 0%nat) i j = 0; fi_Y : forall i j, Hy_of (U 0%nat) i j = 0;
  fi_J : forall i j, J_of (U 0%nat) (mat i j) i j = 0;
  fi_plain : in_plain g mat (Ez_of (U 0%nat)) }.
Let e (U : nat -> phys) (k : nat) := cut g (Ez_of (U k)).
Definition couple (e w : Z -> Z -> R) : R :=
  (- / 4 * sumup nx (fun i => sumup ny (fun j => (e (i + 1)%Z j - e i j) * (w (i + 1)%Z j - w i j) + (e i (j + 1)%Z - e i j) * (w i (j + 1)%Z - w i j)))).
Lemma couple_sym e1 w : couple e1 w = couple w e1.
Proof. unfold couple. f_equal. apply sum2_ext. intros. ring. Qed.

Lemma dims : (0 <= g_Nx g)%Z /\ (0 <= g_Ny g)%Z.
Proof. destruct Ha as (A & B & C). lia. Qed.
Lemma cut_in f i j : (0 <= i < Z.of_nat nx)%Z -> (0 <= j < Z.of_nat ny)%Z -> cut g f i j = f i j.
Proof. unfold nx, ny. intros Hi Hj. destruct dims. unfold cut. now replace (_ && _ && _ && _) with true by lia. Qed.

Lemma through U k w : film U -> (k <= n)%nat -> framed nx ny w ->
  sum2 (fun i j => / 2 * curlH (Hx_of (U k)) (Hy_of (U k)) i j * w i j) = nsum k (fun m => couple (e U (S m)) w).
Proof.
  intros F Hk Fw. assert (X : forall k, sum2 (fun i j => / 2 * curlH (Hx_of (U k)) (Hy_of (U k)) i j * w i j) =
    - / 2 * sum2 (fun i j => Hy_of (U k) i j * (w (i + 1)%Z j - w i j) - Hx_of (U k) i j * (w i (j + 1)%Z - w i j))).
  { intros k0. rewrite <- (Ropp_involutive (sum2 (fun i j => Hy_of _ _ _ * _ - _))). unfold sum2 at 2. rewrite <- (by_parts nx ny (Hx_of (U k0)) (Hy_of (U k0)) w Fw).
    rewrite Ropp_mult_distr_r_reverse, Ropp_mult_distr_l_reverse, Ropp_involutive. fold (sum2 (fun i j => curlH (Hx_of (U k0)) (Hy_of (U k0)) i j * w i j)). unfold sum2. rewrite <- (sum2_scal nx ny). apply sum2_ext. intros. ring. }
  rewrite X. induction k as [|k IH].
  - cbn [nsum]. unfold sum2. rewrite (sum2_ext nx ny _ (fun _ _ => 0)); [rewrite sum2_zero; ring|]. intros i j _ _. rewrite (fi_X U F), (fi_Y U F). ring.
  - cbn [nsum]. rewrite <- IH by lia. destruct (lossy_step g mat (U k) (U (S k)) Hd Ht Ha Hp) as (_ & Fa & _); [apply (fi_lossy U F); lia|apply (fi_off U F); lia|apply (fi_off U F); lia|apply (fi_step U F); lia|].
    unfold couple, sum2. rewrite <- !(sum2_scal nx ny), <- (sum2_add nx ny). apply sum2_ext. intros i j Hi Hj. destruct (Fa i j Hi Hj) as [-> ->]. unfold e. field.
Qed.

Lemma tested U V k m : film U -> film V -> (k < n)%nat -> (m <= n)%nat ->
  total g (fun i j => drawn g mat (U k) (U (S k)) i j * Ez_of (V m) i j) = nsum k (fun a => couple (e U (S a)) (e V m)).
Proof.
  intros FU FV Hk Hm. rewrite <- (through U k (e V m) FU ltac:(lia)); [|apply off_framed; [exact Hp|apply (fi_off V FV); lia]].
  unfold total, sum2. apply sum2_ext. intros i j Hi Hj. unfold e. rewrite cut_in by assumption. unfold nx, ny in Hi, Hj. destruct dims as [D1 D2]. rewrite Z2Nat.id in Hi, Hj by lia.
  destruct (cell_laws g mat (U k) (U (S k)) i j) as [_ Cl]; auto; [apply (fi_lossy U FU); lia|apply (fi_off U FU); lia|apply (fi_off U FU); lia|apply (fi_step U FU); lia|].
  assert (Ed : at_edge g i j \/ ~ at_edge g i j) by (unfold at_edge; lia). destruct Ed as [Ed|Ed]; [|now rewrite Cl].
  unfold at_edge in Ed. rewrite (proj1 (fi_off V FV m Hm i j ltac:(lia) ltac:(lia)) ltac:(lia)). ring.
Qed.

Lemma total_nsum k f : total g (fun i j => nsum k (fun m => f m i j)) = nsum k (fun m => total g (f m)).
Proof.
  induction k; cbn [nsum]; [apply (sum2_zero nx ny)|]. rewrite <- IHk. unfold total. rewrite <- (sum2_add nx ny). reflexivity.
Qed.

Definition worked (U V : nat -> phys) (i j : Z) : R := nsum n (fun m => drawn g mat (U m) (U (S m)) i j * Ez_of (V (n - m)%nat) i j).
Lemma same_work U V : film U -> film V -> total g (worked U V) = total g (worked V U).
Proof.
  intros FU FV. unfold worked. rewrite !total_nsum.
  rewrite (nsum_ext n (fun m => total g (fun i j => drawn g mat (U m) (U (S m)) i j * _)) (fun m => nsum m (fun a => couple (e U (S a)) (e V (n - m)%nat)))) by (intros k Hk; apply tested; auto; lia).
  rewrite (nsum_ext n (fun m => total g (fun i j => drawn g mat (V m) (V (S m)) i j * _)) (fun m => nsum m (fun a => couple (e V (S a)) (e U (n - m)%nat)))) by (intros k Hk; apply tested; auto; lia).
  rewrite (triangle n (fun a b => couple (e U a) (e V b))). apply nsum_ext. intros m Hm. apply nsum_ext. intros a Ha'. apply couple_sym.
Qed.

Lemma work_gap U V i j : film U -> film V -> in_grid (g_Nx g) (g_Ny g) (i, j) ->
  worked U V i j - worked V U i j = strength (g_dt g) (mat i j) * (Ez_of (V 0%nat) i j * Ez_of (U n) i j - Ez_of (U 0%nat) i j * Ez_of (V n) i j).
Proof.
  intros FU FV Hij. assert (Dt : 0 < g_dt g) by lra. set (u := fun k => Ez_of (U k) i j). set (v := fun k => Ez_of (V k) i j).
  change (Ez_of (V 0%nat) i j * Ez_of (U n) i j - Ez_of (U 0%nat) i j * Ez_of (V n) i j) with (v 0%nat * u n - u 0%nat * v n).
  assert (Hij' := Hij). destruct Hij' as [Hi Hj]. cbn in Hi, Hj.
  assert (RU : forall m, (m < n)%nat -> remembers g mat (U m) (U (S m)) i j).
  { intros m Hm. apply (cell_laws g mat (U m) (U (S m)) i j); auto; [apply (fi_lossy U FU); lia|apply (fi_off U FU); lia|apply (fi_off U FU); lia|apply (fi_step U FU); lia]. }
  assert (RV : forall m, (m < n)%nat -> remembers g mat (V m) (V (S m)) i j).
  { intros m Hm. apply (cell_laws g mat (V m) (V (S m)) i j); auto; [apply (fi_lossy V FV); lia|apply (fi_off V FV); lia|apply (fi_off V FV); lia|apply (fi_step V FV); lia]. }
  assert (Zu : ~ plain (mat i j) -> u 0%nat = 0). { intros Hn. destruct (Req_dec (u 0%nat) 0) as [K|K]; [exact K|]. exfalso. apply Hn. exact (fi_plain U FU i j Hij K). }
  assert (Zv : ~ plain (mat i j) -> v 0%nat = 0). { intros Hn. destruct (Req_dec (v 0%nat) 0) as [K|K]; [exact K|]. exfalso. apply Hn. exact (fi_plain V FV i j Hij K). }
  assert (Ab := lossy_absorbs g mat _ (fi_lossy U FU 0%nat ltac:(lia)) i j Hij).
  assert (Mem : ~ plain (mat i j) -> forall a b c d, a <> 0 ->
    (forall m, (m < n)%nat -> a * J_of (U (S m)) (mat i j) i j = b * J_of (U m) (mat i j) i j + c * u (S m) + d * u m) ->
    (forall m, (m < n)%nat -> a * J_of (V (S m)) (mat i j) i j = b * J_of (V m) (mat i j) i j + c * v (S m) + d * v m) ->
    (forall p p', drawn g mat p p' i j = eps_map mat i j * (Ez_of p' i j - Ez_of p i j) + g_dt g * ((J_of p' (mat i j) i j + J_of p (mat i j) i j) / 2)) ->
    worked U V i j - worked V U i j = 0).
  { intros Hn a b c d Na FU' FV' Dr. unfold worked.
    assert (Sp : forall X Y : nat -> phys, nsum n (fun m => drawn g mat (X m) (X (S m)) i j * Ez_of (Y (n - m)%nat) i j) =
      nsum n (fun m => (eps_map mat i j * Ez_of (X (S m)) i j - eps_map mat i j * Ez_of (X m) i j) * Ez_of (Y (n - m)%nat) i j) +
      g_dt g / 2 * nsum n (fun m => (J_of (X (S m)) (mat i j) i j + J_of (X m) (mat i j) i j) * Ez_of (Y (n - m)%nat) i j)).
    { intros X Y. rewrite <- nsum_scal, <- nsum_add. apply nsum_ext. intros m Hm. rewrite Dr. field. }
    rewrite !Sp. assert (M1 := memoryless n (eps_map mat i j) (eps_map mat i j) u v). rewrite (Zu Hn), (Zv Hn) in M1. unfold u, v in M1.
    assert (M2 := with_memory n a b c d Na u (fun k => J_of (U k) (mat i j) i j) v (fun k => J_of (V k) (mat i j) i j)
      (conj (Zu Hn) (conj (fi_J U FU i j) FU')) (conj (Zv Hn) (conj (fi_J V FV i j) FV'))). unfold u, v in M2. rewrite M2. lra. }
  unfold strength. unfold remembers in RU, RV. cbv zeta in RU, RV. destruct (m_kind (mat i j)) as [m|x|x|x] eqn:Km.
  - clear Mem RU RV. rewrite <- (memoryless n (sm_eps m + sm_conduc m * g_dt g / 2) (sm_eps m - sm_conduc m * g_dt g / 2) u v).
    unfold worked, drawn, eps_map. rewrite Km. cbn [eps_of]. f_equal; apply nsum_ext; intros k Hk; unfold u, v; field.
  - destruct Ab as (_ & d & Pd & T0 & _). rewrite (Mem ltac:(unfold plain; now rewrite Km) (dp_tau d + g_dt g / 2) (dp_tau d - g_dt g / 2) (dp_deps d) (- dp_deps d)); [ring|lra| | |].
    + intros m Hm. assert (K := RU m Hm d Pd). unfold debye_law in K. fold (u m) (u (S m)) in K. apply Rmult_eq_reg_l with (/ g_dt g); [|apply Rinv_neq_0_compat; lra]. set (J1 := J_of (U (S m)) _ _ _) in *. set (J0 := J_of (U m) _ _ _) in *.
      replace (/ g_dt g * ((dp_tau d + g_dt g / 2) * J1)) with ((dp_tau d * (J1 - J0) / g_dt g + (J1 + J0) / 2) + / g_dt g * ((dp_tau d - g_dt g / 2) * J0)) by (field; lra). rewrite K. field. lra.
    + intros m Hm. assert (K := RV m Hm d Pd). unfold debye_law in K. fold (v m) (v (S m)) in K. apply Rmult_eq_reg_l with (/ g_dt g); [|apply Rinv_neq_0_compat; lra]. set (J1 := J_of (V (S m)) _ _ _) in *. set (J0 := J_of (V m) _ _ _) in *.
      replace (/ g_dt g * ((dp_tau d + g_dt g / 2) * J1)) with ((dp_tau d * (J1 - J0) / g_dt g + (J1 + J0) / 2) + / g_dt g * ((dp_tau d - g_dt g / 2) * J0)) by (field; lra). rewrite K. field. lra.
    + intros p p'. unfold drawn. now rewrite Km.
  - destruct Ab as (_ & d & Pd & T0 & G0). rewrite (Mem ltac:(unfold plain; now rewrite Km) (1 + up_gamma d * g_dt g / 2) (1 - up_gamma d * g_dt g / 2) (up_omega d ^ 2 * g_dt g / 2) (up_omega d ^ 2 * g_dt g / 2)); [ring|nra| | |].
    + intros m Hm. assert (K := RU m Hm d Pd). unfold drude_law in K. fold (u m) (u (S m)) in K. apply Rmult_eq_reg_l with (/ g_dt g); [|apply Rinv_neq_0_compat; lra]. set (J1 := J_of (U (S m)) _ _ _) in *. set (J0 := J_of (U m) _ _ _) in *.
      replace (/ g_dt g * ((1 + up_gamma d * g_dt g / 2) * J1)) with (((J1 - J0) / g_dt g + up_gamma d * (J1 + J0) / 2) + / g_dt g * ((1 - up_gamma d * g_dt g / 2) * J0)) by (field; lra). rewrite K. field. lra.
    + intros m Hm. assert (K := RV m Hm d Pd). unfold drude_law in K. fold (v m) (v (S m)) in K. apply Rmult_eq_reg_l with (/ g_dt g); [|apply Rinv_neq_0_compat; lra]. set (J1 := J_of (V (S m)) _ _ _) in *. set (J0 := J_of (V m) _ _ _) in *.
      replace (/ g_dt g * ((1 + up_gamma d * g_dt g / 2) * J1)) with (((J1 - J0) / g_dt g + up_gamma d * (J1 + J0) / 2) + / g_dt g * ((1 - up_gamma d * g_dt g / 2) * J0)) by (field; lra). rewrite K. field. lra.
    + intros p p'. unfold drawn. now rewrite Km.
  - destruct Ab.
Qed.

Lemma reciprocal U V : film U -> film V ->
  total g (fun i j => strength (g_dt g) (mat i j) * Ez_of (U 0%nat) i j * Ez_of (V n) i j) =
  total g (fun i j => strength (g_dt g) (mat i j) * Ez_of (V 0%nat) i j * Ez_of (U n) i j).
Proof.
  intros FU FV. assert (W := same_work U V FU FV). destruct dims as [D1 D2].
  assert (K : total g (fun i j => worked U V i j + -1 * worked V U i j + strength (g_dt g) (mat i j) * Ez_of (U 0%nat) i j * Ez_of (V n) i j) = total g (fun i j => strength (g_dt g) (mat i j) * Ez_of (V 0%nat) i j * Ez_of (U n) i j)).
  { unfold total. apply sum2_ext. intros i j Hi Hj. unfold nx, ny in Hi, Hj. rewrite Z2Nat.id in Hi, Hj by lia. assert (G := work_gap U V i j FU FV (conj Hi Hj)). lra. }
  rewrite <- K. unfold total in *. fold nx ny in W |- *. rewrite !(sum2_add nx ny), (sum2_scal nx ny).
  match goal with |- _ = ?a + -1 * ?b + _ => change a with (total g (worked U V)); change b with (total g (worked V U)) end. rewrite (same_work U V FU FV). ring.
Qed.
End Pair.
