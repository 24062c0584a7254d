(** What the polarizations take from the field of one cell, and that adding a Debye or Drude
    object does not change it. *)
From Coq Require Import ZArith Reals String List Bool Lia Lra.
From Verif Require Import Scalar Base BaseFacts VecM GridM GeometryM MaterialM PmlM DftM TfsfM PolarM
  InterpM H5M ClockM MonitorM FieldM SpecGrid GridFacts OutFacts PhysFacts PaintFacts WfFacts ReachFacts InvFacts SpecStep StepFacts
  EngineFacts YeeFacts SpecSource SourceFacts SpecMedium PolarFacts FullStep SpecRim MediumFacts SpecMaterial MediaFacts MaterialFacts SafeFacts.
Import ListNotations.
Local Open Scope R_scope.
#[local] Existing Instance RNum.

Section Loads.
Context {M : Type}.
Variables (ld : M -> polar -> R -> R) (i j : Z).
Definition past (pe : option tensor) : R := match pe with Some t => tval t i j | None => 0 end.
Fixpoint loads (e : R) (P : list (string * (M * polar))) : R :=
  match P with [] => 0 | (_, (x, q)) :: P => ld x q e + loads e P end.

Lemma loads_all f (G : string -> M -> polar -> Prop) pe :
  (forall nm x q pe E q' E', G nm x q -> f x q pe E = Ok (q', E') -> tval E' i j = tval E i j - ld x q (tval pe i j)) ->
  forall P E P' E', all_entries G P -> polar_all f pe E P = Ok (P', E') -> tval E' i j = tval E i j - loads (past pe) P.
Proof.
  intros Hf. induction P as [|[nm [x q]] P IH]; intros E P' E' HG H; cbn [polar_all loads] in *.
  - injection H as _ <-. rnum. lra.
  - apply bind_ok in H. destruct H as (pe0 & Hp & H). apply bind_ok in H. destruct H as ([q1 E1] & H1 & H).
    apply bind_ok in H. destruct H as ([r E2] & H2 & H). injection H as _ <-.
    rewrite (IH _ _ _ (entries_tl _ _ _ HG) H2). rewrite (Hf nm _ _ _ _ _ _ (HG nm x q (or_introl eq_refl)) H1).
    assert (K : past pe = tval pe0 i j). { destruct pe as [t|]; [|discriminate]. cbn in Hp. injection Hp as ->. reflexivity. }
    rewrite K. rnum. ring.
Qed.
Lemma loads_insert e nm x q P : slookup nm P = None -> ld x q e = 0 -> loads e (sinsert nm (x, q) P) = loads e P.
Proof.
  intros Hl Hz. induction P as [|[nm' [x' q']] P IH]; cbn [sinsert loads slookup] in *; [rewrite Hz; ring|].
  destruct (String.eqb_spec nm nm') as [->|Hne]; [discriminate|].
  destruct (String.compare nm nm') eqn:Ec.
  - apply String.compare_eq_iff in Ec. congruence.
  - cbn [loads]. rewrite Hz. ring.
  - cbn [loads]. now rewrite IH.
Qed.
Lemma loads_assign e nm x q q0 P : slookup nm P = Some (x, q0) -> ld x q e = ld x q0 e -> loads e (sassign nm (x, q) P) = loads e P.
Proof.
  intros Hl Hz. induction P as [|[nm' [x' q']] P IH]; cbn [sassign loads slookup] in *; [reflexivity|].
  destruct (String.eqb_spec nm nm') as [->|Hne]; cbn [loads].
  - injection Hl as -> ->. now rewrite Hz.
  - now rewrite IH.
Qed.
End Loads.

Section Kinds.
Variable g : grid.
Notation dt := (g_dt g).
Variables (i j : Z).
Hypotheses (Hi : (0 <= i < g_Nx g)%Z) (Hj : (0 <= j < g_Ny g)%Z).

Definition debye_load (x : debye) (q : polar) (_ : R) : R :=
  rsum (length (db_poles x)) (fun k => debye_Cb x dt / 2 * (1 + nth k (debye_kappa x dt) 0) * J_at q i j (Z.of_nat k)).
Definition drude_load (x : drude) (q : polar) (_ : R) : R :=
  rsum (length (dr_poles x)) (fun k => drude_Cb x dt / 2 * (1 + nth k (drude_kappa x dt) 0) * J_at q i j (Z.of_nat k)).
Definition lorentz_load (x : lorentz) (q : polar) (e2 : R) : R :=
  rsum (length (lo_poles x)) (fun k => lorentz_Cb x dt / 2 * ((1 + nth k (lorentz_alpha x dt) 0) * J_at q i j (Z.of_nat k)
    + nth k (lorentz_beta x dt) 0 * t3val (pl_pJ q) i j (Z.of_nat k)) - lorentz_Ca_prev x dt * e2).

Lemma debye_load_step nm x q pe E q' E' : tame_debye g nm x q -> debye_update x q pe E = Ok (q', E') ->
  tval E' i j = tval E i j - debye_load x q (tval pe i j).
Proof.
  intros [(A & B & C & D & F) _] H. apply debye_update_cells in H; [|lia]. destruct H as (_ & W & _).
  specialize (W i j ltac:(lia) ltac:(lia)). unfold debye_cell in W. rewrite F, D in W. unfold np_debye in W.
  eapply chain_extf in W; [apply (chain_sum _ (fun k => debye_Cb x dt / 2 * (1 + nth k (debye_kappa x dt) 0) * J_at q i j (Z.of_nat k))) in W| |intros; reflexivity].
  - exact (proj1 W).
  - cbn beta. intros k e Hk. rewrite Z2Nat.id by lia. unfold J_at. rnumg. field.
Qed.
Lemma drude_load_step nm x q pe E q' E' : tame_drude g nm x q -> drude_update x q pe E = Ok (q', E') ->
  tval E' i j = tval E i j - drude_load x q (tval pe i j).
Proof.
  intros [(A & B & C & D & F) _] H. apply drude_update_cells in H; [|lia]. destruct H as (_ & W & _).
  specialize (W i j ltac:(lia) ltac:(lia)). unfold drude_cell in W. rewrite F, D in W. unfold np_drude in W.
  eapply chain_extf in W; [apply (chain_sum _ (fun k => drude_Cb x dt / 2 * (1 + nth k (drude_kappa x dt) 0) * J_at q i j (Z.of_nat k))) in W| |intros; reflexivity].
  - exact (proj1 W).
  - cbn beta. intros k e Hk. rewrite Z2Nat.id by lia. unfold J_at. rnumg. field.
Qed.
Lemma lorentz_load_step nm x q pe E q' E' : tame_lorentz g nm x q -> lorentz_update x q pe E = Ok (q', E') ->
  tval E' i j = tval E i j - lorentz_load x q (tval pe i j).
Proof.
  intros [(A & B & C & D & F) _] H. apply lorentz_update_cells in H; [|lia]. destruct H as (_ & W & _).
  destruct (W i j ltac:(lia) ltac:(lia)) as [Wc _]. rewrite F, D in Wc. unfold np_lorentz in Wc.
  eapply chain_extf in Wc; [apply (chain_sum _ (fun k => lorentz_Cb x dt / 2 * ((1 + nth k (lorentz_alpha x dt) 0) * J_at q i j (Z.of_nat k)
    + nth k (lorentz_beta x dt) 0 * t3val (pl_pJ q) i j (Z.of_nat k)) - lorentz_Ca_prev x dt * tval pe i j)) in Wc| |intros; reflexivity].
  - exact (proj1 Wc).
  - cbn beta. intros k e Hk. rewrite Z2Nat.id by lia. unfold J_at. rnumg. field.
Qed.
End Kinds.

(** Ez of one cell after a step, in full *)
Definition back (p : phys) (i j : Z) : R := past i j (match ph_prev2E p with None => None | Some _ => ph_prevE p end).
Definition taken (p : phys) (i j : Z) : R :=
  let g := ph_grid p in
  loads (debye_load g i j) 0 (ph_debye p) + loads (drude_load g i j) 0 (ph_drude p)
  + loads (lorentz_load g i j) (back p i j) (ph_lorentz p).
Lemma loads_const {M} (ld : M -> polar -> R -> R) e e' P : (forall x q, ld x q e = ld x q e') -> loads ld e P = loads ld e' P.
Proof. intros H. induction P as [|[nm [x q]] P IH]; cbn [loads]; [reflexivity|]. now rewrite H, IH. Qed.

Lemma tf_cell f o (a b : cells) i j : a i j = b i j -> tf f o a i j = tf f o b i j.
Proof. intros H. unfold tf. now rewrite H. Qed.
Lemma step_cell p p' i j : apart (ph_grid p) -> wf_phys p -> tame p -> phys_step p = Fine p' ->
  (0 <= i < g_Nx (ph_grid p))%Z -> (0 <= j < g_Ny (ph_grid p))%Z ->
  let g := ph_grid p in
  exists Ls, Forall2 (fun r L => src_cells g (sr_kind r) L) (ph_srcs p) Ls /\
    Ez_at p' i j = lit (ph_t p + g_dt g) (combine (ph_srcs p) Ls) Ez i j (tf tfD1 (ph_tfsf p) (fun i j =>
      eE (next_e (g_Nx g) (g_Ny g) (g_pml g) (g_dx g) (med p) (hX (h_of p)) (hY (h_of p)) (e_of p)) i j - taken p i j) i j).
Proof.
  intros Ha Hw Ht Hs Hi Hj g.
  destruct (step_media p p' Ha Hw Hs) as (E0 & E1 & E2 & E3 & V0 & K1 & K2 & K3 & (Ls & HL & V3) & _).
  exists Ls. split; [exact HL|]. unfold Ez_at. rewrite V3. f_equal. apply tf_cell. destruct Ht as (_ & T1 & T2 & T3).
  rewrite (loads_all (lorentz_load g i j) i j _ _ _ (fun nm x q pe E q' E' => lorentz_load_step g i j Hi Hj nm x q pe E q' E') _ _ _ _ T3 K3).
  rewrite (loads_all (drude_load g i j) i j _ _ _ (fun nm x q pe E q' E' => drude_load_step g i j Hi Hj nm x q pe E q' E') _ _ _ _ T2 K2).
  rewrite (loads_all (debye_load g i j) i j _ _ _ (fun nm x q pe E q' E' => debye_load_step g i j Hi Hj nm x q pe E q' E') _ _ _ _ T1 K1).
  rewrite V0. unfold taken. fold g. unfold back.
  rewrite (loads_const (drude_load g i j) _ 0) by reflexivity. rewrite (loads_const (debye_load g i j) _ 0) by reflexivity. rnumg. ring.
Qed.

Lemma src_cells_fun g k L L' : src_cells g k L -> src_cells g k L' -> L = L'.
Proof.
  destruct k; cbn [src_cells].
  - intros (q & A & ->) (q' & B & ->). congruence.
  - intros (a & b & A & B & ->) (a' & b' & A' & B' & ->). rewrite A in A'. rewrite B in B'. injection A' as <-. injection B' as <-. reflexivity.
Qed.
Lemma src_cells_list g l Ls Ls' : Forall2 (fun r L => src_cells g (sr_kind r) L) l Ls -> Forall2 (fun r L => src_cells g (sr_kind r) L) l Ls' -> Ls = Ls'.
Proof.
  intros H. revert Ls'. induction H as [|r L l Ls H _ IH]; intros Ls' H'; inversion H'; subst; [reflexivity|].
  f_equal; [eapply src_cells_fun; eassumption|auto].
Qed.

(** ** Adding a Debye or Drude object *)
Section Add.
Context {M : Type}.
Variables (np : M -> nat) (vals : M -> R -> list R) (ld : M -> polar -> R -> R) (g : grid) (e : R).
Hypothesis ld_J : forall x q q', pl_J q' = pl_J q -> ld x q' e = ld x q e.
Hypothesis ld_0 : forall x q, (forall i j k, t3val (pl_J q) i j k = 0) -> ld x q e = 0.
Lemma add_polar_loads P nm m o P' : (forall nm x q, In (nm, (x, q)) P -> (0 <= pl_n q)%Z) ->
  add_polar np vals g P nm m o = Ok P' -> loads ld e P' = loads ld e P.
Proof.
  intros Hn H. unfold add_polar in H. destruct (slookup nm P) as [[m0 q0]|] eqn:El.
  - apply bind_ok in H. destruct H as (q & Hq & H). injection H as <-. apply slookup_In in El as Hin.
    apply insert_polar_cells in Hq; [|eapply Hn; exact Hin]. apply (loads_assign ld e nm m0 q q0); [exact El|]. apply ld_J. tauto.
  - apply bind_ok in H. destruct H as (q0 & H0 & H). apply bind_ok in H. destruct H as (q & Hq & H). injection H as <-.
    apply loads_insert; [exact El|]. apply ld_0.
    assert (Q0 : (0 <= pl_n q0)%Z /\ forall i j k, t3val (pl_J q0) i j k = 0).
    { unfold mk_polar in H0. apply bind_ok in H0. destruct H0 as (z & Hz & H0). injection H0 as <-. unfold t3const in Hz.
      destruct (_ && _); [|discriminate]. injection Hz as <-. cbn. split; [lia|reflexivity]. }
    apply insert_polar_cells in Hq; [|tauto]. destruct Hq as (_ & _ & _ & _ & _ & -> & _). apply Q0.
Qed.
End Add.

Lemma rsum_zero n f : (forall k, (k < n)%nat -> f k = 0) -> rsum n f = 0.
Proof. intros H. rewrite (rsum_ext n f (fun _ => 0)) by exact H. clear. induction n; cbn [rsum]; [reflexivity|]. rewrite IHn. ring. Qed.

Lemma tame_len p : tame p -> (forall nm x q, In (nm, (x, q)) (ph_debye p) -> (0 <= pl_n q)%Z) /\
  (forall nm x q, In (nm, (x, q)) (ph_drude p) -> (0 <= pl_n q)%Z).
Proof.
  intros (_ & T1 & T2 & _). split; intros nm x q H; [apply T1 in H|apply T2 in H]; destruct H as [(_ & _ & _ & _ & F) _]; lia.
Qed.

Lemma in_ibox_dec (a b c : Z * Z) : in_ibox a b c \/ ~ in_ibox a b c.
Proof.
  unfold in_ibox. destruct (Z_le_dec (fst a) (fst c)), (Z_le_dec (fst c) (fst b)), (Z_le_dec (snd a) (snd c)), (Z_le_dec (snd c) (snd b)); first [left; lia|right; lia].
Qed.
(** adding an object changes no field, memory or source; coefficients of cells outside it stay *)
Lemma add_object_eE p p2 o i j : phys_add_object o p = Ok p2 -> obj_inside o (to_real (ph_grid p) (i, j)) = false ->
  let g := ph_grid p in
  eE (next_e (g_Nx g) (g_Ny g) (g_pml g) (g_dx g) (med p2) (hX (h_of p2)) (hY (h_of p2)) (e_of p2)) i j =
  eE (next_e (g_Nx g) (g_Ny g) (g_pml g) (g_dx g) (med p) (hX (h_of p)) (hY (h_of p)) (e_of p)) i j.
Proof.
  intros H Ho g. unfold phys_add_object in H. apply bind_ok in H. destruct H as (p1 & H1 & H). apply bind_ok in H. destruct H as (p3 & H3 & H).
  injection H as <-. apply insert_material_frame in H3. destruct H3 as (_ & Ec & _ & _ & Ep & Es & Ef & _).
  unfold paint_phys in H1. apply bind_ok in H1. destruct H1 as (c & Hc & H1). injection H1 as <-. cbn in Ec, Ep, Es, Ef.
  assert (Cc : gcell c i j = gcell (ph_C p) i j).
  { apply paint_post in Hc. destruct Hc as (_ & ib & _ & Hc). destruct (Hc i j) as [C1 C2].
    destruct (in_ibox_dec (iv_a (iclip (ph_grid p) ib)) (iv_b (iclip (ph_grid p) ib)) (i, j)) as [D|D]; [|now apply C2].
    rewrite (C1 D). now rewrite Ho. }
  unfold med, e_of, h_of. cbn [ph_C ph_sc ph_pml ph_F set_ph_objs]. rewrite Ec, Ep, Es, Ef. unfold gcell in Cc. injection Cc as C1 C2 _ _.
  unfold next_e. cbn [eE]. unfold addX, addY, yeeE, med_of, memXl, memXh, memYl, memYh. cbn. rewrite C1, C2. reflexivity.
Qed.

Lemma debye_load_J g i j x q q' e : pl_J q' = pl_J q -> debye_load g i j x q' e = debye_load g i j x q e.
Proof. intros H. unfold debye_load, J_at. now rewrite H. Qed.
Lemma drude_load_J g i j x q q' e : pl_J q' = pl_J q -> drude_load g i j x q' e = drude_load g i j x q e.
Proof. intros H. unfold drude_load, J_at. now rewrite H. Qed.
Lemma debye_load_0 g i j x q e : (forall i j k, t3val (pl_J q) i j k = 0) -> debye_load g i j x q e = 0.
Proof. intros H. apply rsum_zero. intros k _. unfold J_at. rewrite H. ring. Qed.
Lemma drude_load_0 g i j x q e : (forall i j k, t3val (pl_J q) i j k = 0) -> drude_load g i j x q e = 0.
Proof. intros H. apply rsum_zero. intros k _. unfold J_at. rewrite H. ring. Qed.

Definition is_lorentz (k : mat_kind) : bool := match k with KLorentz _ => true | _ => false end.

Lemma add_object_taken p p2 o i j : tame p -> is_lorentz (m_kind (o_mat o)) = false -> (ph_lorentz p <> [] -> ph_prevE p <> None) ->
  phys_add_object o p = Ok p2 -> taken p2 i j = taken p i j.
Proof.
  intros Ht Hk Hl H. unfold phys_add_object in H. apply bind_ok in H. destruct H as (p1 & H1 & H). apply bind_ok in H. destruct H as (p3 & H3 & H).
  injection H as <-. unfold paint_phys in H1. apply bind_ok in H1. destruct H1 as (c & Hc & H1). injection H1 as <-.
  destruct (tame_len p Ht) as [N1 N2].
  unfold insert_material in H3. destruct (m_kind (o_mat o)) eqn:Ek; [| | |discriminate]; cbn [set_ph_C ph_grid ph_debye ph_drude ph_lorentz ph_F ph_prevE ph_prev2E] in H3.
  - injection H3 as <-. reflexivity.
  - apply bind_ok in H3. destruct H3 as (P & HP & H3). injection H3 as <-.
    unfold taken. cbn. rewrite (add_polar_loads _ _ (debye_load (ph_grid p) i j) _ 0 ltac:(intros; now apply debye_load_J) ltac:(intros; now apply debye_load_0) _ _ _ _ _ N1 HP).
    f_equal. unfold back. cbn. destruct (ph_lorentz p) eqn:El; [reflexivity|]. destruct (ph_prevE p); [reflexivity|]. exfalso. now apply Hl.
  - apply bind_ok in H3. destruct H3 as (P & HP & H3). injection H3 as <-.
    unfold taken. cbn. rewrite (add_polar_loads _ _ (drude_load (ph_grid p) i j) _ 0 ltac:(intros; now apply drude_load_J) ltac:(intros; now apply drude_load_0) _ _ _ _ _ N2 HP).
    f_equal. unfold back. cbn. destruct (ph_lorentz p) eqn:El; [reflexivity|]. destruct (ph_prevE p); [reflexivity|]. exfalso. now apply Hl.
Qed.

Lemma outside_unchanged g s s1 s2 o s2' i j : apart g -> reachable g s ->
  is_lorentz (m_kind (o_mat o)) = false -> exec (AddObject o) s = Fine s2 ->
  update s = Fine s1 -> update s2 = Fine s2' ->
  (0 <= i < g_Nx g)%Z -> (0 <= j < g_Ny g)%Z -> obj_inside o (to_real g (i, j)) = false ->
  Ez_at (f_ph s2') i j = Ez_at (f_ph s1) i j.
Proof.
  intros Hg Hr Hk Ha H1 H2 Hi Hj Ho.
  assert (Hr2 : reachable g s2).
  { destruct Hr as (name & s0 & l & E0 & E). exists name, s0, (l ++ [AddObject o]). split; [exact E0|].
    rewrite (SafeFacts.run_catch_app _ _ _ _ E). cbn [run_catch]. now rewrite Ha. }
  destruct (reachable_good g s (apart_roomy g Hg) Hr) as [Hw Gg]. destruct (reachable_good g s2 (apart_roomy g Hg) Hr2) as [Hw2 Gg2].
  assert (T1 := reachable_tame g s Hr). assert (T2 := reachable_tame g s2 Hr2).
  apply update_phys_step in H1, H2. apply add_object_ph in Ha.
  set (p := f_ph s) in *. set (p2 := f_ph s2) in *.
  assert (Fr : ph_tfsf p2 = ph_tfsf p /\ ph_srcs p2 = ph_srcs p /\ ph_t p2 = ph_t p).
  { unfold phys_add_object in Ha. apply bind_ok in Ha. destruct Ha as (a & A & Ha). apply bind_ok in Ha. destruct Ha as (b & B & Ha). injection Ha as <-.
    unfold paint_phys in A. apply bind_ok in A. destruct A as (c & _ & A). injection A as <-.
    unfold insert_material in B. destruct (m_kind (o_mat o)); [injection B as <-; auto|..]; apply bind_ok in B; destruct B as (P & _ & B); injection B as <-; auto. }
  destruct Fr as (F1 & F2 & F3).
  rewrite <- Gg in *.
  destruct (step_cell p _ i j Hg Hw T1 H1 Hi Hj) as (Ls & HL & V1).
  assert (Hg2 : apart (ph_grid p2)) by (rewrite Gg2; exact Hg).
  destruct (step_cell p2 _ i j Hg2 Hw2 T2 H2 ltac:(rewrite Gg2; exact Hi) ltac:(rewrite Gg2; exact Hj)) as (Ls2 & HL2 & V2).
  rewrite V1, V2. rewrite Gg2, F1, F2, F3. rewrite Gg2, F2 in HL2. rewrite (src_cells_list _ _ _ _ HL2 HL). f_equal. apply tf_cell.
  f_equal; [exact (add_object_eE p p2 o i j Ha Ho)|]. apply (add_object_taken p p2 o i j T1 Hk); [|exact Ha].
  intros Hl. destruct (step_media p _ Hg Hw H1) as (E0 & E1 & E2 & E3 & V0 & K1 & K2 & K3 & _).
  destruct (ph_lorentz p) as [|[nm [x q]] P]; [congruence|]. cbn [polar_all] in K3. destruct (ph_prevE p); [discriminate|].
  destruct (ph_prev2E p); discriminate.
Qed.
