(** Polarizations over the reals: which cells have a strength, and the equations solved there. *)
From Coq Require Import ZArith Reals String List Bool Lia Lra.
From Verif Require Import Scalar Base BaseFacts VecM GridM GeometryM MaterialM PmlM DftM TfsfM PolarM
  InterpM H5M ClockM MonitorM FieldM OutFacts PhysFacts PaintFacts WfFacts ReachFacts InvFacts SpecStep StepFacts
  EngineFacts YeeFacts SpecMedium PolarFacts.
Import ListNotations.
Local Open Scope Z_scope.

Section Insert.
Context {N : Num}.
Lemma insert_polar_cells q vals inside q' : 0 <= pl_n q -> insert_polar q vals inside = Ok q' ->
  pl_Nx q' = pl_Nx q /\ pl_Ny q' = pl_Ny q /\ pl_dx q' = pl_dx q /\ pl_dt q' = pl_dt q /\ pl_n q' = pl_n q /\
  pl_J q' = pl_J q /\ pl_pJ q' = pl_pJ q /\
  forall i j k, 0 <= i < pl_Nx q -> 0 <= j < pl_Ny q -> 0 <= k < pl_n q ->
    t3val (pl_c q') i j k = if inside (pl_dx q * nofZ i, pl_dx q * nofZ j)%num then nth (Z.to_nat k) vals 0%num else t3val (pl_c q) i j k.
Proof.
  intros Hn H. unfold insert_polar in H. inv_ok. cbn [pl_Nx pl_Ny pl_dx pl_dt pl_n pl_J pl_pJ pl_c with_c].
  repeat (split; [reflexivity|]). intros i j k Hi Hj. revert k.
  apply (for2_rel (fun _ => True)
    (fun i j c => forall k, t3val c i j k = t3val (pl_c q) i j k)
    (fun i j c => forall k, 0 <= k < pl_n q -> t3val c i j k = if inside (pl_dx q * nofZ i, pl_dx q * nofZ j)%num then nth (Z.to_nat k) vals 0%num else t3val (pl_c q) i j k))
    in Hr; [|exact I|auto|].
  - destruct Hr as (_ & A & _). apply A; assumption.
  - clear Hr r i j Hi Hj. intros i j c c' Hi Hj _ Hc Hb. split; [exact I|].
    destruct (inside (pl_dx q * nofZ i, pl_dx q * nofZ j)%num).
    + apply (for_up_post (fun n a => (forall k, 0 <= k < n -> t3val a i j k = nth (Z.to_nat k) vals 0%num) /\
         (forall i' j' k, ~ (i' = i /\ j' = j) -> t3val a i' j' k = t3val c i' j' k))) in Hb.
      * destruct Hb as [A B]. split; [exact A|]. intros i' j' Hne.
        split; intros P k; [rewrite B by exact Hne; apply P|intros Hk; rewrite B by exact Hne; now apply P].
      * exact Hn.
      * split; intros; [lia|reflexivity].
      * clear Hb. intros k a b Hk [A B] Hb. apply bind_ok in Hb. destruct Hb as (v & Hv & Hb). apply lget_inv in Hv. destruct Hv as [_ ->].
        apply t3set_inv in Hb. subst b. split.
        -- intros k' Hk'. destruct (Z.eq_dec k' k) as [->|]; [apply t3upd_same|rewrite t3upd_other by lia; apply A; lia].
        -- intros i' j' k' Hne. rewrite t3upd_other by tauto. now apply B.
    + injection Hb as <-. split; [intros k _; apply Hc|]. intros; auto.
Qed.

(** ** A property of every entry of a polarization map *)
Section Map.
Context {M : Type}.
Lemma slookup_In (P : list (string * (M * polar))) nm v : slookup nm P = Some v -> In (nm, v) P.
Proof.
  induction P as [|[k w] P IH]; cbn; [discriminate|]. destruct (String.eqb_spec nm k) as [->|]; intros H; [injection H as ->; auto|auto].
Qed.
Lemma sinsert_In (P : list (string * (M * polar))) nm v e : In e (sinsert nm v P) -> e = (nm, v) \/ In e P.
Proof.
  induction P as [|[k w] P IH]; cbn; [intuition|]. destruct (String.compare nm k); cbn; intuition.
Qed.
Lemma sassign_In (P : list (string * (M * polar))) nm v e : In e (sassign nm v P) -> e = (nm, v) \/ In e P.
Proof.
  induction P as [|[k w] P IH]; cbn; [intuition|]. destruct (String.eqb_spec nm k) as [->|]; cbn; intuition.
Qed.

Variables (np : M -> nat) (vals : M -> T -> list T) (g : grid) (G : string -> M -> polar -> Prop).
Definition all_entries (P : list (string * (M * polar))) : Prop := forall nm x q, In (nm, (x, q)) P -> G nm x q.

Lemma add_polar_entries P nm m o P' : all_entries P -> add_polar np vals g P nm m o = Ok P' ->
  (forall p p', mk_polar g (np m) = Ok p -> insert_polar p (vals m (g_dt g)) (obj_inside o) = Ok p' -> G nm m p') ->
  (forall x p p', G nm x p -> insert_polar p (vals x (g_dt g)) (obj_inside o) = Ok p' -> G nm x p') ->
  all_entries P'.
Proof.
  intros HP H H1 H2. unfold add_polar in H. destruct (slookup nm P) as [[m0 p]|] eqn:E; inv_ok.
  - apply slookup_In in E. intros nm' x q Hin. apply sassign_In in Hin. destruct Hin as [Hin|Hin]; [|now apply HP].
    injection Hin as -> -> ->. eapply H2; [apply HP; exact E|eassumption].
  - intros nm' x q Hin. apply sinsert_In in Hin. destruct Hin as [Hin|Hin]; [|now apply HP].
    injection Hin as -> -> ->. eapply H1; eassumption.
Qed.
Lemma reinsert_polar_entries P nm o P' : all_entries P -> reinsert_polar vals g P nm o = Ok P' ->
  (forall x p p', G nm x p -> insert_polar p (vals x (g_dt g)) (obj_inside o) = Ok p' -> G nm x p') ->
  all_entries P'.
Proof.
  intros HP H H2. unfold reinsert_polar in H. destruct (slookup nm P) as [[m0 p]|] eqn:E; inv_ok.
  apply slookup_In in E. intros nm' x q Hin. apply sassign_In in Hin. destruct Hin as [Hin|Hin]; [|now apply HP].
  injection Hin as -> -> ->. eapply H2; [apply HP; exact E|eassumption].
Qed.
Lemma polar_all_entries f prev P : forall E P' E', all_entries P -> polar_all f prev E P = Ok (P', E') ->
  (forall nm x q pe E q' E', G nm x q -> f x q pe E = Ok (q', E') -> G nm x q') -> all_entries P'.
Proof.
  induction P as [|[nm [x q]] P IH]; intros E P' E' HP H Hf; cbn [polar_all] in H.
  - injection H as <- <-. exact HP.
  - apply bind_ok in H. destruct H as (pe & _ & H). apply bind_ok in H. destruct H as ([q1 E1] & H1 & H).
    apply bind_ok in H. destruct H as ([r E2] & H2 & H). injection H as <- <-.
    intros nm' x' q' [Hin|Hin].
    + injection Hin as <- <- <-. eapply Hf; [apply HP; left; reflexivity|exact H1].
    + eapply IH; [|exact H2|exact Hf|exact Hin]. intros a b c Hc. apply HP. now right.
Qed.
Lemma reset_entries P : all_entries P -> (forall nm x q, G nm x q -> G nm x (reset_polar q)) ->
  all_entries (map (fun '(n, (m, p)) => (n, (m, reset_polar p))) P).
Proof.
  intros HP H nm x q Hin. apply in_map_iff in Hin. destruct Hin as ([n [m p]] & E & Hin). injection E as <- <- <-. apply H, HP, Hin.
Qed.
End Map.

(** a property of all entries of the three maps that does not depend on the rest of the state *)
Section Three.
Variables (g : grid) (G1 : string -> debye -> polar -> Prop) (G2 : string -> drude -> polar -> Prop) (G3 : string -> lorentz -> polar -> Prop).
Hypothesis U1 : forall nm x q pe E q' E', G1 nm x q -> debye_update x q pe E = Ok (q', E') -> G1 nm x q'.
Hypothesis U2 : forall nm x q pe E q' E', G2 nm x q -> drude_update x q pe E = Ok (q', E') -> G2 nm x q'.
Hypothesis U3 : forall nm x q pe E q' E', G3 nm x q -> lorentz_update x q pe E = Ok (q', E') -> G3 nm x q'.
Hypothesis I1 : forall nm x o q q', G1 nm x q -> insert_polar q (debye_beta x (g_dt g)) (obj_inside o) = Ok q' -> G1 nm x q'.
Hypothesis I2 : forall nm x o q q', G2 nm x q -> insert_polar q (drude_beta x (g_dt g)) (obj_inside o) = Ok q' -> G2 nm x q'.
Hypothesis I3 : forall nm x o q q', G3 nm x q -> insert_polar q (lorentz_delta x (g_dt g)) (obj_inside o) = Ok q' -> G3 nm x q'.
Hypothesis N1 : forall nm x q, mk_polar g (np_debye x) = Ok q -> G1 nm x q.
Hypothesis N2 : forall nm x q, mk_polar g (np_drude x) = Ok q -> G2 nm x q.
Hypothesis N3 : forall nm x q, mk_polar g (np_lorentz x) = Ok q -> G3 nm x q.
Hypothesis R1 : forall nm x q, G1 nm x q -> G1 nm x (reset_polar q).
Hypothesis R2 : forall nm x q, G2 nm x q -> G2 nm x (reset_polar q).
Hypothesis R3 : forall nm x q, G3 nm x q -> G3 nm x (reset_polar q).

Definition maps_ok (p : phys) : Prop :=
  ph_grid p = g /\ all_entries G1 (ph_debye p) /\ all_entries G2 (ph_drude p) /\ all_entries G3 (ph_lorentz p).

Lemma maps_polar p p' : maps_ok p -> step_polar p = Ok p' -> maps_ok p'.
Proof.
  intros (A & B & C & D) H. unfold step_polar in H. inv_ok. destruct r as [P1 E1]. inv_ok. destruct r as [P2 E2].
  inv_ok. destruct r as [P3 E3]. inv_ok. cbn in *.
  split; [exact A|]. split; [|split].
  - eapply polar_all_entries; [exact B|eassumption|exact U1].
  - eapply polar_all_entries; [exact C|eassumption|exact U2].
  - eapply polar_all_entries; [exact D|eassumption|exact U3].
Qed.
Lemma maps_insert o p p' : maps_ok p -> insert_material o p = Ok p' -> maps_ok p'.
Proof.
  intros (A & B & C & D) H. unfold insert_material in H. destruct (m_kind (o_mat o)); inv_ok; unfold maps_ok; cbn; auto.
  - split; [auto|]. split; [|auto]. eapply add_polar_entries; [exact B|eassumption| |]; rewrite A.
    + intros q q' Hq Hq'. eapply I1; [eapply N1; exact Hq|exact Hq'].
    + intros x q q' Hq Hq'. eapply I1; [exact Hq|exact Hq'].
  - split; [auto|]. split; [auto|]. split; [|auto]. eapply add_polar_entries; [exact C|eassumption| |]; rewrite A.
    + intros q q' Hq Hq'. eapply I2; [eapply N2; exact Hq|exact Hq'].
    + intros x q q' Hq Hq'. eapply I2; [exact Hq|exact Hq'].
  - split; [auto|]. split; [auto|]. split; [auto|]. eapply add_polar_entries; [exact D|eassumption| |]; rewrite A.
    + intros q q' Hq Hq'. eapply I3; [eapply N3; exact Hq|exact Hq'].
    + intros x q q' Hq Hq'. eapply I3; [exact Hq|exact Hq'].
Qed.
Lemma maps_reinsert o p p' : maps_ok p -> reinsert_material o p = Ok p' -> maps_ok p'.
Proof.
  intros (A & B & C & D) H. unfold reinsert_material in H. destruct (m_kind (o_mat o)); inv_ok; unfold maps_ok; cbn; auto.
  - split; [auto|]. split; [|auto]. eapply reinsert_polar_entries; [exact B|eassumption|]; rewrite A.
    intros x q q' Hq Hq'. eapply I1; [exact Hq|exact Hq'].
  - split; [auto|]. split; [auto|]. split; [|auto]. eapply reinsert_polar_entries; [exact C|eassumption|]; rewrite A.
    intros x q q' Hq Hq'. eapply I2; [exact Hq|exact Hq'].
  - split; [auto|]. split; [auto|]. split; [auto|]. eapply reinsert_polar_entries; [exact D|eassumption|]; rewrite A.
    intros x q q' Hq Hq'. eapply I3; [exact Hq|exact Hq'].
Qed.

Lemma maps_keeps : keeps maps_ok.
Proof.
  constructor; intros; try assumption.
  - unfold step_clock in *. inv_ok. assumption.
  - destruct (step_prev_frame p) as (_ & _ & _ & _ & _ & _ & A & B & C). assert (Gs := step_prev_static p). apply static_eq in Gs.
    unfold maps_ok. rewrite A, B, C, (proj1 Gs). assumption.
  - unfold step_E in *. inv_ok. assumption.
  - unfold step_pmlE in *. inv_ok. destruct r. inv_ok. assumption.
  - eapply maps_polar; eauto.
  - assert (Gs := step_tfsfD_static _ _ H0). apply static_eq in Gs. apply step_tfsfD_frame in H0.
    destruct H0 as (_ & _ & _ & _ & _ & _ & _ & A & B & C & _). unfold maps_ok. rewrite A, B, C, (proj1 Gs). assumption.
  - unfold step_tfsf_pulse in *. destruct (ph_tfsf p); inv_ok; assumption.
  - unfold step_H in *. inv_ok. destruct r. inv_ok. assumption.
  - unfold step_pmlH in *. inv_ok. destruct r as [[? ?] ?]. inv_ok. assumption.
  - assert (Gs := step_tfsfH_static _ _ H0). apply static_eq in Gs. apply step_tfsfH_frame in H0.
    destruct H0 as (_ & _ & _ & _ & _ & _ & A & B & C & _). unfold maps_ok. rewrite A, B, C, (proj1 Gs). assumption.
  - unfold paint_phys in *. inv_ok. assumption.
  - eapply maps_insert; eauto.
  - eapply maps_reinsert; eauto.
  - destruct H as (A & B & C & D). unfold maps_ok. cbn. split; [exact A|].
    split; [|split]; apply reset_entries; auto.
Qed.
Lemma maps_reachable s : reachable g s -> maps_ok (f_ph s).
Proof.
  apply (reachable_inv _ maps_keeps). intros p Hp. unfold mk_phys in Hp. inv_ok. unfold maps_ok, all_entries. cbn.
  split; [reflexivity|]. repeat split; intros ? ? ? [].
Qed.
End Three.
End Insert.
