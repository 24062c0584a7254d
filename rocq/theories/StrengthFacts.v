(** Which cells carry which polarization, for programs that do not move objects or wipe fields. *)
From Coq Require Import ZArith String List Bool Lia.
From Verif Require Import Scalar Base BaseFacts VecM GridM GeometryM MaterialM PmlM DftM TfsfM PolarM
  InterpM H5M ClockM MonitorM FieldM OutFacts PhysFacts PaintFacts WfFacts ReachFacts InvFacts SpecStep StepFacts
  EngineFacts YeeFacts SpecMedium PolarFacts MediumFacts.
Import ListNotations.
Local Open Scope Z_scope.

Section Strength.
Context {N : Num}.

Lemma slookup_none {A} nm (P : list (string * A)) : slookup nm P = None -> ~ In nm (map fst P).
Proof.
  induction P as [|[k v] P IH]; cbn [slookup map fst In]; [auto|]. destruct (String.eqb_spec nm k); [discriminate|].
  intros H [K|K]; [congruence|now apply IH].
Qed.
Lemma sassign_split {A} nm (w : A) P nm' v : NoDup (map fst P) -> In (nm', v) (sassign nm w P) ->
  (nm' = nm /\ v = w) \/ (nm' <> nm /\ In (nm', v) P).
Proof.
  induction P as [|[k x] P IH]; cbn [sassign map fst In]; [intros _ []|]. intros ND H. inversion_clear ND as [|? ? Hk Hd].
  destruct (String.eqb_spec nm k) as [->|Hne]; cbn [In] in H.
  - destruct H as [H|H]; [injection H as <- <-; auto|]. right. split; [|auto]. intros ->. apply Hk.
    apply (in_map fst) in H. exact H.
  - destruct H as [H|H]; [injection H as <- <-; right; auto|]. destruct (IH Hd H) as [K|[K1 K2]]; auto.
Qed.
Lemma sinsert_keys {A} nm (w : A) P k : In k (map fst (sinsert nm w P)) <-> k = nm \/ In k (map fst P).
Proof.
  induction P as [|[a x] P IH]; cbn [sinsert map fst In]; [intuition|].
  destruct (String.compare nm a) eqn:E; cbn [map fst In]; [|intuition|rewrite IH; intuition].
  apply String.compare_eq_iff in E. subst. intuition.
Qed.
Lemma sinsert_nodup {A} nm (w : A) P : NoDup (map fst P) -> ~ In nm (map fst P) -> NoDup (map fst (sinsert nm w P)).
Proof.
  induction P as [|[a x] P IH]; cbn [sinsert map fst]; intros ND Hn; [constructor; [exact Hn|constructor]|].
  inversion_clear ND as [|? ? Hk Hd]. cbn in Hn. destruct (String.compare nm a) eqn:E; cbn [map fst].
  - apply String.compare_eq_iff in E. subst. tauto.
  - constructor; [cbn; tauto|]. constructor; assumption.
  - constructor; [|apply IH; tauto]. rewrite sinsert_keys. intros [K|K]; [apply Hn; auto|tauto].
Qed.

Section Kind.
Context {M : Type}.
Variables (np : M -> nat) (vals : M -> T -> list T) (mat : obj -> option M) (g : grid).

Definition mine (nm : string) (o : obj) : bool :=
  match mat o with Some _ => String.eqb (m_name (o_mat o)) nm | None => false end.
Definition shaped (q : polar) (x : M) : Prop :=
  pl_Nx q = g_Nx g /\ pl_Ny q = g_Ny g /\ pl_dx q = g_dx g /\ pl_dt q = g_dt g /\ pl_n q = Z.of_nat (np x).
Definition covered (os : list obj) (nm : string) (i j : Z) : bool :=
  existsb (fun o => mine nm o && obj_inside o (g_dx g * nofZ i, g_dx g * nofZ j)%num) os.
Definition strong (os : list obj) (nm : string) (x : M) (q : polar) : Prop :=
  shaped q x /\ (exists o, In o os /\ mat o = Some x /\ m_name (o_mat o) = nm) /\
  forall i j k, 0 <= i < g_Nx g -> 0 <= j < g_Ny g -> 0 <= k < Z.of_nat (np x) ->
    t3val (pl_c q) i j k = if covered os nm i j then nth (Z.to_nat k) (vals x (g_dt g)) 0%num else 0%num.
Definition str_map (os : list obj) (P : list (string * (M * polar))) : Prop :=
  NoDup (map fst P) /\ (forall o x, In o os -> mat o = Some x -> In (m_name (o_mat o)) (map fst P)) /\ all_entries (strong os) P.

Lemma covered_snoc os o nm i j : covered (os ++ [o]) nm i j =
  covered os nm i j || (mine nm o && obj_inside o (g_dx g * nofZ i, g_dx g * nofZ j)%num).
Proof. unfold covered. rewrite existsb_app. cbn [existsb]. now rewrite orb_false_r. Qed.
Lemma strong_other os o nm x q : mine nm o = false -> strong os nm x q -> strong (os ++ [o]) nm x q.
Proof.
  intros Hm (S & (o0 & A & B & C) & V). split; [exact S|]. split; [exists o0; split; [apply in_or_app; auto|auto]|].
  intros i j k Hi Hj Hk. rewrite covered_snoc, Hm. cbn [andb]. rewrite orb_false_r. now apply V.
Qed.
Lemma strong_insert os o nm x q q' : mine nm o = true -> strong os nm x q ->
  insert_polar q (vals x (g_dt g)) (obj_inside o) = Ok q' -> strong (os ++ [o]) nm x q'.
Proof.
  intros Hm ((A & B & C & D & E) & (o0 & A0 & B0 & C0) & V) H. apply insert_polar_cells in H; [|lia].
  destruct H as (A' & B' & C' & D' & E' & _ & _ & W). split; [unfold shaped; rewrite A', B', C', D', E'; auto|].
  split; [exists o0; split; [apply in_or_app; auto|auto]|]. intros i j k Hi Hj Hk. rewrite W by lia. rewrite covered_snoc, Hm, C. cbn [andb].
  destruct (obj_inside o _); [now rewrite orb_true_r|rewrite orb_false_r; now apply V].
Qed.

Lemma str_add os P o m P' : str_map os P -> mat o = Some m ->
  add_polar np vals g P (m_name (o_mat o)) m o = Ok P' -> str_map (os ++ [o]) P'.
Proof.
  intros (ND & Ks & En) Hm H. unfold add_polar in H.
  assert (Mo : forall nm, mine nm o = String.eqb (m_name (o_mat o)) nm) by (intros; unfold mine; now rewrite Hm).
  destruct (slookup (m_name (o_mat o)) P) as [[m0 p]|] eqn:El; inv_ok.
  - assert (Hin := slookup_In _ _ _ El). split; [now rewrite sassign_keys|]. split.
    + intros o' x Ho Hx. rewrite sassign_keys. apply in_app_or in Ho. destruct Ho as [Ho|[<-|[]]]; [eauto|].
      apply (in_map fst) in Hin. exact Hin.
    + intros nm x q Hq. apply (sassign_split _ _ _ _ _ ND) in Hq. destruct Hq as [[-> Hv]|[Hne Hq]].
      * injection Hv as -> ->. eapply strong_insert; [rewrite Mo; apply String.eqb_refl|apply En, Hin|eassumption].
      * apply strong_other; [rewrite Mo; apply String.eqb_neq; congruence|now apply En].
  - apply slookup_none in El. split; [now apply sinsert_nodup|]. split.
    + intros o' x Ho Hx. apply sinsert_keys. apply in_app_or in Ho. destruct Ho as [Ho|[<-|[]]]; eauto.
    + intros nm x q Hq. apply sinsert_In in Hq. destruct Hq as [Hq|Hq].
      * injection Hq as -> -> ->. unfold mk_polar in Hr. apply bind_ok in Hr. destruct Hr as (z & Hz & Hr). injection Hr as <-.
        unfold t3const in Hz. destruct (_ && _); [|discriminate]. injection Hz as <-.
        match goal with H : insert_polar _ _ _ = Ok _ |- _ => apply insert_polar_cells in H; [|cbn; lia] end.
        cbn [pl_Nx pl_Ny pl_dx pl_dt pl_n pl_c pl_J pl_pJ] in *.
        match goal with H : _ /\ _ |- _ => destruct H as (A' & B' & C' & D' & E' & _ & _ & W) end.
        split; [unfold shaped; auto|]. split; [exists o; split; [apply in_or_app; right; now left|auto]|].
        intros i j k Hi Hj Hk. rewrite W by lia. rewrite covered_snoc, Mo, String.eqb_refl. cbn [andb].
        assert (Cz : covered os (m_name (o_mat o)) i j = false).
        { unfold covered. destruct (existsb _ os) eqn:E; [|reflexivity]. exfalso. apply existsb_exists in E. destruct E as (o' & Ho & E).
          apply andb_true_iff in E. destruct E as [E _]. unfold mine in E. destruct (mat o') as [x'|] eqn:Ex; [|discriminate].
          apply String.eqb_eq in E. apply El. rewrite <- E. eauto. }
        rewrite Cz. reflexivity.
      * apply strong_other; [|now apply En]. rewrite Mo. apply String.eqb_neq. intros <-. apply El.
        apply (in_map fst) in Hq. exact Hq.
Qed.
Lemma str_skip os P o : str_map os P -> mat o = None -> str_map (os ++ [o]) P.
Proof.
  intros (ND & Ks & En) Hm. split; [exact ND|]. split.
  - intros o' x Ho Hx. apply in_app_or in Ho. destruct Ho as [Ho|[<-|[]]]; [eauto|congruence].
  - intros nm x q Hq. apply strong_other; [unfold mine; now rewrite Hm|auto].
Qed.
Lemma str_absorb os P o : str_map (os ++ [o]) P -> In o os -> str_map os P.
Proof.
  intros (ND & Ks & En) Hin. split; [exact ND|]. split; [intros o' x Ho; apply Ks, in_or_app; auto|].
  intros nm x q Hq. destruct (En nm x q Hq) as (S & (o0 & A & B & C) & V). split; [exact S|]. split.
  - exists o0. split; [|auto]. apply in_app_or in A. destruct A as [A|[<-|[]]]; auto.
  - intros i j k Hi Hj Hk. rewrite V by assumption. rewrite covered_snoc.
    destruct (mine nm o && obj_inside o _) eqn:E; [|now rewrite orb_false_r]. rewrite orb_true_r.
    assert (K : covered os nm i j = true). { unfold covered. apply existsb_exists. exists o. auto. } now rewrite K.
Qed.
Lemma str_reinsert os P o P' : str_map os P -> In o os -> (exists x, mat o = Some x) ->
  reinsert_polar vals g P (m_name (o_mat o)) o = Ok P' -> str_map os P'.
Proof.
  intros (ND & Ks & En) Ho [x0 Hm] H. unfold reinsert_polar in H.
  assert (Mo : forall nm, mine nm o = String.eqb (m_name (o_mat o)) nm) by (intros; unfold mine; now rewrite Hm).
  destruct (slookup (m_name (o_mat o)) P) as [[m0 p]|] eqn:El; inv_ok.
  assert (Hin := slookup_In _ _ _ El). apply (str_absorb _ _ o); [|exact Ho]. split; [now rewrite sassign_keys|]. split.
  - intros o' x Ho' Hx. rewrite sassign_keys. apply in_app_or in Ho'. destruct Ho' as [Ho'|[<-|[]]]; eauto.
  - intros nm x q Hq. apply (sassign_split _ _ _ _ _ ND) in Hq. destruct Hq as [[-> Hv]|[Hne Hq]].
    + injection Hv as -> ->. eapply strong_insert; [rewrite Mo; apply String.eqb_refl|apply En, Hin|eassumption].
    + apply strong_other; [rewrite Mo; apply String.eqb_neq; congruence|now apply En].
Qed.

Lemma str_polar_all f pe os P : (forall x q pe E q' E', 0 <= pl_n q -> f x q pe E = Ok (q', E') -> kept q q') ->
  forall E P' E', str_map os P -> polar_all f pe E P = Ok (P', E') -> str_map os P'.
Proof.
  intros Hf E P' E' (ND & Ks & En) H.
  assert (K : map fst P' = map fst P /\ (all_entries (strong os) P -> all_entries (strong os) P')).
  { clear -Hf H. revert E P' E' H. induction P as [|[nm [x q]] P IH]; intros E P' E' H; cbn [polar_all] in H.
    - injection H as <- <-. auto.
    - apply bind_ok in H. destruct H as (pe0 & _ & H). apply bind_ok in H. destruct H as ([q1 E1] & H1 & H).
      apply bind_ok in H. destruct H as ([r E2] & H2 & H). injection H as <- <-. destruct (IH _ _ _ H2) as [K1 K2]. cbn [map fst].
      split; [now rewrite K1|]. intros A nm' x' q' [Hq|Hq].
      + injection Hq as <- <- <-. destruct (A nm x q (or_introl eq_refl)) as ((B1 & B2 & B3 & B4 & B5) & C & V).
        apply Hf in H1; [|lia]. destruct H1 as (D1 & D2 & D3 & D4 & D5 & D6). split; [unfold shaped; rewrite D1, D2, D3, D4, D5; auto|].
        split; [exact C|]. now rewrite D6.
      + apply K2; [|exact Hq]. intros a b c Hc. apply A. now right. }
  destruct K as [K1 K2]. split; [now rewrite K1|]. rewrite K1. auto.
Qed.
End Kind.

Definition mat_debye (o : obj) := match m_kind (o_mat o) with KDebye x => Some x | _ => None end.
Definition mat_drude (o : obj) := match m_kind (o_mat o) with KDrude x => Some x | _ => None end.
Definition mat_lorentz (o : obj) := match m_kind (o_mat o) with KLorentz x => Some x | _ => None end.

(** the three maps match the list of objects *)
Definition str_phys (g : grid) (os : list obj) (p : phys) : Prop :=
  ph_grid p = g /\ str_map np_debye debye_beta mat_debye g os (ph_debye p) /\
  str_map np_drude drude_beta mat_drude g os (ph_drude p) /\
  str_map np_lorentz lorentz_delta mat_lorentz g os (ph_lorentz p).

Lemma str_insert g os o p p' : str_phys g os p -> insert_material o p = Ok p' -> str_phys g (os ++ [o]) p'.
Proof.
  intros (<- & B & C & D) H. unfold insert_material in H.
  destruct (m_kind (o_mat o)) eqn:Ek; inv_ok; unfold str_phys; cbn.
  all: repeat match goal with |- _ /\ _ => split end; try reflexivity.
  all: try (apply str_skip; [assumption|unfold mat_debye, mat_drude, mat_lorentz; now rewrite Ek]).
  all: eapply str_add; [eassumption| |eassumption]; unfold mat_debye, mat_drude, mat_lorentz; now rewrite Ek.
Qed.
Lemma str_reinsert_material g os o p p' : str_phys g os p -> In o os -> reinsert_material o p = Ok p' -> str_phys g os p'.
Proof.
  intros (<- & B & C & D) Ho H. unfold reinsert_material in H.
  destruct (m_kind (o_mat o)) eqn:Ek; inv_ok; unfold str_phys; cbn.
  all: repeat match goal with |- _ /\ _ => split end; try reflexivity; try assumption.
  all: eapply str_reinsert; [eassumption|exact Ho| |eassumption]; unfold mat_debye, mat_drude, mat_lorentz; rewrite Ek; eauto.
Qed.

Lemma str_step g os p p' : str_phys g os p -> phys_step p = Fine p' -> str_phys g os p'.
Proof.
  intros Hp H. unfold phys_step in H.
  assert (SP : forall a b, str_phys g os a -> step_polar a = Ok b -> str_phys g os b).
  { clear. intros a b (A & B & C & D) H. unfold step_polar in H. inv_ok. destruct r as [P1 E1]. inv_ok. destruct r as [P2 E2].
    inv_ok. destruct r as [P3 E3]. inv_ok. unfold str_phys. cbn in *. split; [reflexivity|]. split; [|split].
    - eapply str_polar_all; [|exact B|eassumption]. intros x q pe E q' E' Hn Hu. apply debye_update_cells in Hu; [apply Hu|exact Hn].
    - eapply str_polar_all; [|exact C|eassumption]. intros x q pe E q' E' Hn Hu. apply drude_update_cells in Hu; [apply Hu|exact Hn].
    - eapply str_polar_all; [|exact D|eassumption]. intros x q pe E q' E' Hn Hu. apply lorentz_update_cells in Hu; [apply Hu|exact Hn]. }
  apply prim_fine in H. destruct H as (p0 & H0 & H). assert (Q0 : str_phys g os p0).
  { unfold step_clock in H0. inv_ok. exact Hp. }
  clear Hp H0 p. assert (Q1 : str_phys g os (step_prev p0)).
  { destruct (step_prev_frame p0) as (_ & _ & _ & _ & _ & _ & A & B & C). assert (Gs := step_prev_static p0). apply static_eq in Gs.
    unfold str_phys. rewrite A, B, C, (proj1 Gs). exact Q0. }
  apply prim_fine in H. destruct H as (p1 & H1 & H). assert (Q2 : str_phys g os p1) by (unfold step_E in H1; inv_ok; exact Q1). clear Q0 Q1 H1 p0.
  apply prim_fine in H. destruct H as (p2 & H2 & H). assert (Q3 : str_phys g os p2) by (unfold step_pmlE in H2; inv_ok; destruct r; inv_ok; exact Q2). clear Q2 H2 p1.
  apply prim_fine in H. destruct H as (p3 & H3 & H). assert (Q4 := SP _ _ Q3 H3). clear Q3 H3 p2.
  apply prim_fine in H. destruct H as (p4 & H4 & H). assert (Q5 : str_phys g os p4).
  { assert (Gs := step_tfsfD_static _ _ H4). apply static_eq in Gs. apply step_tfsfD_frame in H4.
    destruct H4 as (_ & _ & _ & _ & _ & _ & _ & A & B & C & _). unfold str_phys. rewrite A, B, C, (proj1 Gs). exact Q4. }
  clear Q4 H4 p3. apply obind_fine in H. destruct H as (p5 & H5 & H). assert (Q6 : str_phys g os p5).
  { assert (Gs := step_sources_static _ _ H5). apply static_eq in Gs. apply step_sources_frame in H5.
    destruct H5 as (_ & _ & _ & _ & _ & A & B & C & _). unfold str_phys. rewrite A, B, C, (proj1 Gs). exact Q5. }
  clear Q5 H5 p4.
  apply prim_fine in H. destruct H as (p6 & H6 & H). assert (Q7 : str_phys g os p6).
  { assert (Gs := step_tfsf_pulse_static _ _ H6). apply static_eq in Gs. apply step_tfsf_pulse_frame in H6.
    destruct H6 as (_ & _ & _ & _ & _ & A & B & C & _). unfold str_phys. rewrite A, B, C, (proj1 Gs). exact Q6. }
  clear Q6 H6 p5.
  apply prim_fine in H. destruct H as (p7 & H7 & H). assert (Q8 : str_phys g os p7) by (unfold step_H in H7; inv_ok; destruct r; inv_ok; exact Q7). clear Q7 H7 p6.
  apply prim_fine in H. destruct H as (p8 & H8 & H). assert (Q9 : str_phys g os p8) by (unfold step_pmlH in H8; inv_ok; destruct r as [[? ?] ?]; inv_ok; exact Q8). clear Q8 H8 p7.
  apply prim_fine in H. destruct H as (p9 & H9 & H). injection H as <-.
  assert (Gs := step_tfsfH_static _ _ H9). apply static_eq in Gs. apply step_tfsfH_frame in H9.
  destruct H9 as (_ & _ & _ & _ & _ & _ & A & B & C & _). unfold str_phys. rewrite A, B, C, (proj1 Gs). exact Q9.
Qed.
End Strength.
