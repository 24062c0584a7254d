(** The material equations at reachable states, and for objects added by a program. *)
From Coq Require Import ZArith Reals List Bool String Lia Psatz Permutation.
From Verif Require Import Scalar Base BaseFacts VecM GridM GeometryM MaterialM PmlM DftM TfsfM PolarM
  InterpM H5M ClockM MonitorM FieldM SpecGrid GridFacts SpecGeometry GeometryFacts OutFacts PhysFacts
  SpecPaint PaintFacts WfFacts ReachFacts SafeFacts SpecStep StepFacts EngineFacts SpecSource SpecMedium PolarFacts SpecRim MediumFacts StrengthFacts
  MediaFacts SpecMedia MediaRun SpecMaterial MaterialFacts SpecTrace TraceFacts.
Import ListNotations.
Local Open Scope R_scope.
#[local] Existing Instance RNum.

(** one update of a reachable state, at an interior cell that no source drives and the TFSF
    source, if there is one, does not correct *)
Record step_at (g : grid) (s s' : field) (i j : Z) : Prop := StepAt {
  sa_apart : apart g; sa_reach : reachable g s; sa_tfsf : off_E (ph_tfsf (f_ph s)) i j; sa_update : update s = Fine s';
  sa_i : (1 <= i < g_Nx g - 1)%Z; sa_j : (1 <= j < g_Ny g - 1)%Z; sa_dt : 0 < g_dt g;
  sa_src : undriven (ph_t (f_ph s) + g_dt g) g (ph_srcs (f_ph s)) Ez i j }.

Section Step.
Variables (g : grid) (s s' : field) (i j : Z).
Hypothesis H : step_at g s s' i j.
Notation p := (f_ph s).
Notation p' := (f_ph s').
Notation dt := (g_dt g).
Notation E := (Ez_at p i j).
Notation E' := (Ez_at p' i j).
Notation curl := (curl_at p i j).

Lemma step_facts : ph_grid p = g /\ apart (ph_grid p) /\ wf_phys p /\ tame p /\ phys_step p = Fine p' /\
  (1 <= i < g_Nx (ph_grid p) - 1)%Z /\ (1 <= j < g_Ny (ph_grid p) - 1)%Z /\ 0 < g_dt (ph_grid p) /\
  undriven (ph_t p + g_dt (ph_grid p)) (ph_grid p) (ph_srcs p) Ez i j.
Proof.
  destruct H as [Ha Hr Hf Hu Hi Hj Hd Hs]. destruct (reachable_good g s (apart_roomy g Ha) Hr) as [Hw Gg]. rewrite Gg.
  split; [reflexivity|]. split; [exact Ha|]. split; [exact Hw|]. split; [exact (reachable_tame g s Hr)|].
  split; [now apply update_phys_step|]. auto.
Qed.

Lemma cell_simple m : 0 < sm_eps m -> 0 <= sm_conduc m -> simple_only p m i j ->
  conductor_law (sm_eps m) (sm_conduc m) dt E E' curl.
Proof.
  destruct step_facts as (Gg & A & B & C & D & F & F2 & F3 & F4). intros H1 H2 H3.
  assert (K := simple_law p p' i j A B C (sa_tfsf _ _ _ _ _ H) D F F2 F3 F4 m H1 H2 H3). rewrite Gg in K. exact K.
Qed.
Lemma cell_debye_all n nm x q : 0 < db_eps x -> Forall dpos (db_poles x) -> debye_only p n nm x q i j ->
  let np := List.length (db_poles x) in
  let J k := J_at q i j (Z.of_nat k) in
  exists q' Jx, entry (ph_debye p') n nm x q' /\
    (forall k d, nth_error (db_poles x) k = Some d -> debye_law (dp_deps d) (dp_tau d) dt E E' (J k) (Jx k)) /\
    ampere (db_eps x) dt E E' curl (rsum np J) (rsum np Jx) /\
    forall k d, nth_error (db_poles x) k = Some d -> J_at q' i j (Z.of_nat k) = Jx k +
      debye_beta1 dt d / dt * rsum (np - S k) (fun l => debye_Cb x dt / 2 * (1 + nth (S k + l) (debye_kappa x dt) 0) * J (S k + l)%nat).
Proof.
  destruct step_facts as (Gg & A & B & C & D & F & F2 & F3 & F4). intros H1 H2 H3.
  assert (K := debye_solves p p' i j A B C (sa_tfsf _ _ _ _ _ H) D F F2 F3 F4 n nm x q H1 H2 H3). unfold debye_share in K. rewrite Gg in K. exact K.
Qed.
Lemma cell_debye n nm x q d : 0 < db_eps x -> dpos d -> db_poles x = [d] -> debye_only p n nm x q i j ->
  exists q', entry (ph_debye p') n nm x q' /\
    ampere (db_eps x) dt E E' curl (J_at q i j 0) (J_at q' i j 0) /\
    debye_law (dp_deps d) (dp_tau d) dt E E' (J_at q i j 0) (J_at q' i j 0).
Proof.
  intros H1 H2 H3 H4. destruct (cell_debye_all n nm x q H1) as (q' & Jx & En & L & A & Q); [rewrite H3; auto|exact H4|].
  exists q'. split; [exact En|]. rewrite H3 in *. specialize (Q 0%nat d eq_refl). specialize (L 0%nat d eq_refl).
  cbn [List.length rsum Nat.sub Z.of_nat] in *. rewrite Rmult_0_r, Rplus_0_r in Q. rewrite Q.
  split; [|exact L]. rewrite !Rplus_0_l in A. exact A.
Qed.
Lemma cell_drude_all n nm x q : 0 < dr_eps x -> Forall upos (dr_poles x) -> drude_only p n nm x q i j ->
  let np := List.length (dr_poles x) in
  let J k := J_at q i j (Z.of_nat k) in
  exists q' Jx, entry (ph_drude p') n nm x q' /\
    (forall k d, nth_error (dr_poles x) k = Some d -> drude_law (up_omega d) (up_gamma d) dt E E' (J k) (Jx k)) /\
    ampere (dr_eps x) dt E E' curl (rsum np J) (rsum np Jx) /\
    forall k d, nth_error (dr_poles x) k = Some d -> J_at q' i j (Z.of_nat k) = Jx k +
      drude_beta1 dt d * rsum (np - S k) (fun l => drude_Cb x dt / 2 * (1 + nth (S k + l) (drude_kappa x dt) 0) * J (S k + l)%nat).
Proof.
  destruct step_facts as (Gg & A & B & C & D & F & F2 & F3 & F4). intros H1 H2 H3.
  assert (K := drude_solves p p' i j A B C (sa_tfsf _ _ _ _ _ H) D F F2 F3 F4 n nm x q H1 H2 H3). unfold drude_share in K. rewrite Gg in K. exact K.
Qed.
Lemma cell_drude n nm x q d : 0 < dr_eps x -> upos d -> dr_poles x = [d] -> drude_only p n nm x q i j ->
  exists q', entry (ph_drude p') n nm x q' /\
    ampere (dr_eps x) dt E E' curl (J_at q i j 0) (J_at q' i j 0) /\
    drude_law (up_omega d) (up_gamma d) dt E E' (J_at q i j 0) (J_at q' i j 0).
Proof.
  intros H1 H2 H3 H4. destruct (cell_drude_all n nm x q H1) as (q' & Jx & En & L & A & Q); [rewrite H3; auto|exact H4|].
  exists q'. split; [exact En|]. rewrite H3 in *. specialize (Q 0%nat d eq_refl). specialize (L 0%nat d eq_refl).
  cbn [List.length rsum Nat.sub Z.of_nat] in *. rewrite Rmult_0_r, Rplus_0_r in Q. rewrite Q.
  split; [|exact L]. rewrite !Rplus_0_l in A. exact A.
Qed.
Lemma cell_lorentz nm x q d : 0 < lo_eps x -> lpos d -> lo_poles x = [d] -> lorentz_only p nm x q i j ->
  exists q' e2, ph_lorentz p' = [(nm, (x, q'))] /\ ph_prevE p = Some e2 /\
    t3val (pl_pJ q') i j 0 = J_at q i j 0 /\
    resonator_law (lp_omega d) (lp_deps d) (lp_gamma d) dt (tval e2 i j) E' (t3val (pl_pJ q) i j 0) (J_at q i j 0) (J_at q' i j 0) /\
    let c := lorentz_delta1 dt d in
    lo_eps x * (E' - E) / dt = curl - (J_at q' i j 0 + J_at q i j 0) / 2 - c ^ 2 / (8 * dt * (2 * lo_eps x + c)) * tval e2 i j.
Proof.
  destruct step_facts as (Gg & A & B & C & D & F & F2 & F3 & F4). intros H1 H2 H3 H4.
  assert (K := lorentz_one_pole p p' i j A B C (sa_tfsf _ _ _ _ _ H) D F F2 F3 F4 nm x q d H1 H2 H3 H4). rewrite Gg in K. exact K.
Qed.
End Step.

(** ** Order of the poles: one step of two states that agree up to the order *)
Definition sumR (l : list R) : R := fold_right Rplus 0 l.
Lemma sumR_perm l l' : Permutation l l' -> sumR l = sumR l'.
Proof. induction 1; unfold sumR in *; cbn; lra. Qed.
Lemma rsum_list {A B} (F : A -> B -> R) (d0 : A) l : forall J : nat -> B,
  rsum (List.length l) (fun k => F (nth k l d0) (J k)) =
  sumR (map (fun a => F (fst a) (snd a)) (combine l (map J (seq 0 (List.length l))))).
Proof.
  induction l as [|a l IH]; intros J; [reflexivity|]. cbn [List.length]. rewrite rsum_S. cbn [seq map combine nth fst snd].
  unfold sumR in *. cbn [fold_right map fst snd]. rewrite <- seq_shift, map_map, <- IH. reflexivity.
Qed.
Lemma combine_fst {A B} (l : list A) (l' : list B) : List.length l = List.length l' -> map fst (combine l l') = l.
Proof. revert l'. induction l; destruct l'; cbn; intros; try discriminate; f_equal; auto. Qed.

(** the poles with their currents at a cell *)
Definition with_currents {A} (poles : list A) (q : polar) (i j : Z) : list (A * R) :=
  combine poles (map (fun k => J_at q i j (Z.of_nat k)) (seq 0 (List.length poles))).
Lemma with_currents_poles {A} (l l' : list A) q q' i j i' j' :
  Permutation (with_currents l q i j) (with_currents l' q' i' j') -> Permutation l l'.
Proof.
  intros K. apply (Permutation_map fst) in K. unfold with_currents in K. rewrite !combine_fst in K by (now rewrite map_length, seq_length). exact K.
Qed.
Lemma nsum_sumR (l : list R) : nsum l = sumR l.
Proof. rewrite nsum_rsum. rewrite (rsum_list (fun a _ => a) 0 l (fun _ => 0)). f_equal. rewrite <- map_map with (f := fst) (g := fun x => x), map_id.
  apply combine_fst. now rewrite map_length, seq_length. Qed.
Lemma nsum_perm (l l' : list R) : Permutation l l' -> nsum l = nsum l'.
Proof. intros. rewrite !nsum_sumR. now apply sumR_perm. Qed.

Lemma debye_order g s s' t t' i j n n' nm nm' x y q r : step_at g s s' i j -> step_at g t t' i j ->
  debye_only (f_ph s) n nm x q i j -> debye_only (f_ph t) n' nm' y r i j -> db_eps x = db_eps y ->
  Permutation (with_currents (db_poles x) q i j) (with_currents (db_poles y) r i j) ->
  Ez_at (f_ph s) i j = Ez_at (f_ph t) i j -> curl_at (f_ph s) i j = curl_at (f_ph t) i j ->
  Ez_at (f_ph s') i j = Ez_at (f_ph t') i j.
Proof.
  intros H1 H2 O1 O2 He Hp E C.
  destruct (step_facts _ _ _ _ _ H1) as (Gg & A & B & Cc & D & F & F2 & F3 & F4).
  destruct (step_facts _ _ _ _ _ H2) as (Gg' & A' & B' & Cc' & D' & F' & F2' & F3' & F4').
  destruct (debye_formula _ _ i j A B Cc (sa_tfsf _ _ _ _ _ H1) D F F2 F4 n nm x q O1) as (_ & _ & _ & V & _).
  destruct (debye_formula _ _ i j A' B' Cc' (sa_tfsf _ _ _ _ _ H2) D' F' F2' F4' n' nm' y r O2) as (_ & _ & _ & V' & _).
  rewrite V, V', E, C. rewrite Gg, Gg'. assert (Pp := with_currents_poles _ _ _ _ _ _ _ _ Hp).
  assert (Cb : debye_Cb x (g_dt g) = debye_Cb y (g_dt g)).
  { unfold debye_Cb, debye_beta. rewrite He. rewrite (nsum_perm (map (debye_beta1 (g_dt g)) (db_poles x)) (map (debye_beta1 (g_dt g)) (db_poles y))); [reflexivity|now apply Permutation_map]. }
  assert (Sh : forall x q c, rsum (List.length (db_poles x)) (fun k => c / 2 * (1 + nth k (debye_kappa x (g_dt g)) 0) * J_at q i j (Z.of_nat k)) =
    sumR (map (fun a => c / 2 * (1 + debye_kappa1 (g_dt g) (fst a)) * snd a) (with_currents (db_poles x) q i j))).
  { clear. intros x q c. unfold with_currents. rewrite <- (rsum_list (fun a b => c / 2 * (1 + debye_kappa1 (g_dt g) a) * b) (DPole 0 0)).
    apply rsum_ext. intros k Hk. unfold debye_kappa. destruct (nth_some (db_poles x) k Hk) as [a Ha].
    rewrite (nth_map_list _ _ _ _ _ Ha), (nth_error_nth _ _ _ Ha). reflexivity. }
  unfold debye_share. rewrite Gg, Gg', !Sh, Cb. f_equal. apply sumR_perm. now apply Permutation_map.
Qed.
Lemma drude_order g s s' t t' i j n n' nm nm' x y q r : step_at g s s' i j -> step_at g t t' i j ->
  drude_only (f_ph s) n nm x q i j -> drude_only (f_ph t) n' nm' y r i j -> dr_eps x = dr_eps y ->
  Permutation (with_currents (dr_poles x) q i j) (with_currents (dr_poles y) r i j) ->
  Ez_at (f_ph s) i j = Ez_at (f_ph t) i j -> curl_at (f_ph s) i j = curl_at (f_ph t) i j ->
  Ez_at (f_ph s') i j = Ez_at (f_ph t') i j.
Proof.
  intros H1 H2 O1 O2 He Hp E C.
  destruct (step_facts _ _ _ _ _ H1) as (Gg & A & B & Cc & D & F & F2 & F3 & F4).
  destruct (step_facts _ _ _ _ _ H2) as (Gg' & A' & B' & Cc' & D' & F' & F2' & F3' & F4').
  destruct (drude_formula _ _ i j A B Cc (sa_tfsf _ _ _ _ _ H1) D F F2 F4 n nm x q O1) as (_ & _ & _ & V & _).
  destruct (drude_formula _ _ i j A' B' Cc' (sa_tfsf _ _ _ _ _ H2) D' F' F2' F4' n' nm' y r O2) as (_ & _ & _ & V' & _).
  rewrite V, V', E, C. rewrite Gg, Gg'. assert (Pp := with_currents_poles _ _ _ _ _ _ _ _ Hp).
  assert (Cb : drude_Cb x (g_dt g) = drude_Cb y (g_dt g)).
  { unfold drude_Cb, drude_beta. rewrite He. rewrite (nsum_perm (map (drude_beta1 (g_dt g)) (dr_poles x)) (map (drude_beta1 (g_dt g)) (dr_poles y))); [reflexivity|now apply Permutation_map]. }
  assert (Ca : drude_Ca x (g_dt g) = drude_Ca y (g_dt g)).
  { unfold drude_Ca, drude_beta. rewrite He. rewrite (nsum_perm (map (drude_beta1 (g_dt g)) (dr_poles x)) (map (drude_beta1 (g_dt g)) (dr_poles y))); [reflexivity|now apply Permutation_map]. }
  assert (Sh : forall x q c, rsum (List.length (dr_poles x)) (fun k => c / 2 * (1 + nth k (drude_kappa x (g_dt g)) 0) * J_at q i j (Z.of_nat k)) =
    sumR (map (fun a => c / 2 * (1 + drude_kappa1 (g_dt g) (fst a)) * snd a) (with_currents (dr_poles x) q i j))).
  { clear. intros x q c. unfold with_currents. rewrite <- (rsum_list (fun a b => c / 2 * (1 + drude_kappa1 (g_dt g) a) * b) (UPole 0 0)).
    apply rsum_ext. intros k Hk. unfold drude_kappa. destruct (nth_some (dr_poles x) k Hk) as [a Ha].
    rewrite (nth_map_list _ _ _ _ _ Ha), (nth_error_nth _ _ _ Ha). reflexivity. }
  unfold drude_share. rewrite Gg, Gg', !Sh, Cb, Ca. f_equal. apply sumR_perm. now apply Permutation_map.
Qed.

(** Lorentz media keep two currents per pole *)
Definition with_history {A} (poles : list A) (q : polar) (i j : Z) : list (A * (R * R)) :=
  combine poles (map (fun k => (J_at q i j (Z.of_nat k), t3val (pl_pJ q) i j (Z.of_nat k))) (seq 0 (List.length poles))).
Lemma lorentz_order g s s' t t' i j nm nm' x y q r e e' : step_at g s s' i j -> step_at g t t' i j ->
  lorentz_only (f_ph s) nm x q i j -> lorentz_only (f_ph t) nm' y r i j -> lo_eps x = lo_eps y ->
  Permutation (with_history (lo_poles x) q i j) (with_history (lo_poles y) r i j) ->
  ph_prevE (f_ph s) = Some e -> ph_prevE (f_ph t) = Some e' -> tval e i j = tval e' i j ->
  Ez_at (f_ph s) i j = Ez_at (f_ph t) i j -> curl_at (f_ph s) i j = curl_at (f_ph t) i j ->
  Ez_at (f_ph s') i j = Ez_at (f_ph t') i j.
Proof.
  intros H1 H2 O1 O2 He Hp P1 P2 Pe E C.
  destruct (step_facts _ _ _ _ _ H1) as (Gg & A & B & Cc & D & F & F2 & F3 & F4).
  destruct (step_facts _ _ _ _ _ H2) as (Gg' & A' & B' & Cc' & D' & F' & F2' & F3' & F4').
  destruct (lorentz_formula _ _ i j A B Cc (sa_tfsf _ _ _ _ _ H1) D F F2 F4 nm x q O1) as (_ & e1 & _ & _ & Q & V & _).
  destruct (lorentz_formula _ _ i j A' B' Cc' (sa_tfsf _ _ _ _ _ H2) D' F' F2' F4' nm' y r O2) as (_ & e1' & _ & _ & Q' & V' & _).
  rewrite P1 in Q. injection Q as <-. rewrite P2 in Q'. injection Q' as <-.
  rewrite V, V', E, C, Pe. rewrite Gg, Gg'.
  assert (Pp : Permutation (lo_poles x) (lo_poles y)).
  { apply (Permutation_map fst) in Hp. unfold with_history in Hp. rewrite !combine_fst in Hp by (now rewrite map_length, seq_length). exact Hp. }
  assert (Sd : nsum (lorentz_delta x (g_dt g)) = nsum (lorentz_delta y (g_dt g))) by (apply nsum_perm, Permutation_map, Pp).
  assert (Cb : lorentz_Cb x (g_dt g) = lorentz_Cb y (g_dt g)) by (unfold lorentz_Cb; now rewrite He, Sd).
  assert (Ca : lorentz_Ca x (g_dt g) = lorentz_Ca y (g_dt g)) by (unfold lorentz_Ca; now rewrite He, Sd).
  assert (Cp : lorentz_Ca_prev x (g_dt g) = lorentz_Ca_prev y (g_dt g)) by (unfold lorentz_Ca_prev; now rewrite He, Sd).
  assert (Sh : forall x q c b, rsum (List.length (lo_poles x)) (fun k => c / 2 * ((1 + nth k (lorentz_alpha x (g_dt g)) 0) * J_at q i j (Z.of_nat k)
      + nth k (lorentz_beta x (g_dt g)) 0 * t3val (pl_pJ q) i j (Z.of_nat k)) - b) =
    sumR (map (fun a => c / 2 * ((1 + lorentz_alpha1 (g_dt g) (fst a)) * fst (snd a) + lorentz_beta1 (g_dt g) (fst a) * snd (snd a)) - b) (with_history (lo_poles x) q i j))).
  { clear. intros x q c b. unfold with_history.
    rewrite <- (rsum_list (fun a h => c / 2 * ((1 + lorentz_alpha1 (g_dt g) a) * fst h + lorentz_beta1 (g_dt g) a * snd h) - b) (LPole 0 0 0)).
    apply rsum_ext. intros k Hk. unfold lorentz_alpha, lorentz_beta. destruct (nth_some (lo_poles x) k Hk) as [a Ha].
    rewrite !(nth_map_list _ _ _ _ _ Ha), (nth_error_nth _ _ _ Ha). reflexivity. }
  unfold lorentz_share. rewrite Gg, Gg', !Sh, Cb, Ca, Cp. f_equal. apply sumR_perm. now apply Permutation_map.
Qed.
