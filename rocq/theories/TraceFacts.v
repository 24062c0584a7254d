(** Polarization strengths against ownership of cells. *)
From Coq Require Import ZArith Reals List Bool String Lia Psatz.
From Verif Require Import Scalar Base BaseFacts VecM GridM GeometryM MaterialM PmlM DftM TfsfM PolarM
  InterpM H5M ClockM MonitorM FieldM SpecGrid GridFacts SpecGeometry GeometryFacts OutFacts PhysFacts
  SpecPaint PaintFacts WfFacts ReachFacts SpecStep SpecMedium PolarFacts MediumFacts StrengthFacts SpecMedia MediaRun SpecMaterial SpecTrace.
Import ListNotations.
Local Open Scope R_scope.
#[local] Existing Instance RNum.

Lemma owner_exists os pos o : In o os -> in_obj o pos -> exists o', owns os pos o'.
Proof.
  intros Ho Io. destruct (material_at_exists os vacuum pos) as [k [(b & o' & a & E & I & N & _)|[No _]]].
  - exists o', b, a. auto.
  - exfalso. now apply (No o).
Qed.
Lemma owns_in os pos o : owns os pos o -> In o os /\ in_obj o pos.
Proof. intros (b & a & -> & I & _). split; [apply in_or_app; right; now left|exact I]. Qed.

Section Kind.
Context {M : Type}.
Variables (np : M -> nat) (vals : M -> R -> list R) (mat : obj -> option M) (mk : M -> mat_kind) (g : grid).
Hypothesis mat_mk : forall o x, mat o = Some x <-> m_kind (o_mat o) = mk x.
Hypothesis mk_inj : forall x y, mk x = mk y -> x = y.
Hypothesis mk_disp : forall x, dispersive (mk x).

Lemma str_own os P i j : str_map np vals mat g os P -> (0 <= i < g_Nx g)%Z -> (0 <= j < g_Ny g)%Z ->
  names_agree os -> one_medium os (g_dx g * IZR i, g_dx g * IZR j) ->
  own_strength mk vals (g_dt g) os (g_dx g * IZR i, g_dx g * IZR j) P i j.
Proof.
  intros (ND & Keys & S) Hi Hj Na Om. split.
  - intros o nm x Ow Em. destruct (owns_in _ _ _ Ow) as [Ho Io].
    assert (E : mat o = Some x) by (apply mat_mk; now rewrite Em).
    assert (K := Keys o x Ho E). rewrite Em in K. cbn [m_name] in K. apply in_map_iff in K. destruct K as ([nm' [x' q]] & Enm & Hin).
    cbn in Enm. subst nm'. exists q. destruct (S nm x' q Hin) as (_ & (o' & Ho' & Em' & Nm') & _).
    assert (Q : o_mat o' = o_mat o) by (apply Na; [exact Ho'|exact Ho|rewrite Em; exact Nm']).
    apply mat_mk in Em'. rewrite Q, Em in Em'. cbn in Em'. apply mk_inj in Em'. subst x'. exact Hin.
  - intros nm x q Hin k Hk. destruct (S nm x q Hin) as ((_ & _ & _ & _ & En) & (o1 & Ho1 & Em1 & Nm1) & V).
    apply mat_mk in Em1. rewrite V by lia. split.
    + intros o Ow Em. destruct (owns_in _ _ _ Ow) as [Ho Io].
      assert (C : covered mat g os nm i j = true); [|now rewrite C]. apply (covered_iff mat mk g mat_mk). exists o, x. auto.
    + intros No. destruct (covered mat g os nm i j) eqn:C; [exfalso|reflexivity].
      apply (covered_iff mat mk g mat_mk) in C. destruct C as (o & y & Ho & Em & Io).
      destruct (owner_exists os _ o Ho Io) as [o' Ow].
      assert (Q : o_mat o = o_mat o') by (apply Om; [exact Ow|exact Ho|exact Io|rewrite Em; apply mk_disp]).
      apply (No o' Ow). rewrite <- Q, (Na o o1 Ho Ho1); [|rewrite Em; cbn; now rewrite Nm1].
      destruct (o_mat o1). cbn in *. congruence.
Qed.
End Kind.

Lemma run_traceless g name s0 s l i j : grid_ok g -> mk_field g name = Ok s0 -> run l s0 = Fine s ->
  forallb (fun c => negb (repositions c)) l = true -> ~ In ClearFields l ->
  Forall (fun o => shape_ok (o_geom o)) (added l) -> (0 <= i < g_Nx g)%Z -> (0 <= j < g_Ny g)%Z ->
  names_agree (added l) -> one_medium (added l) (g_dx g * IZR i, g_dx g * IZR j) -> traceless g (f_ph s) i j.
Proof.
  intros Hg H0 Hr Hl Hc Hs Hi Hj Na Om.
  destruct (run_str g name s0 s l Hg H0 Hr Hl Hc Hs) as (Eg & S1 & S2 & S3).
  unfold traceless. destruct (painting_last_wins g name s0 l s Hg H0 Hr Hl Hs) as [-> _]. split; [|split].
  - apply (str_own np_debye debye_beta mat_debye KDebye g mat_debye_iff ltac:(congruence) (fun _ => I)); assumption.
  - apply (str_own np_drude drude_beta mat_drude KDrude g mat_drude_iff ltac:(congruence) (fun _ => I)); assumption.
  - apply (str_own np_lorentz lorentz_delta mat_lorentz KLorentz g mat_lorentz_iff ltac:(congruence) (fun _ => I)); assumption.
Qed.

(** object level: a cell outside every dispersive object *)
Lemma run_simple g name s0 s l i j m : grid_ok g -> mk_field g name = Ok s0 -> run l s0 = Fine s ->
  forallb (fun c => negb (repositions c)) l = true -> ~ In ClearFields l ->
  Forall (fun o => shape_ok (o_geom o)) (added l) -> (0 <= i < g_Nx g)%Z -> (0 <= j < g_Ny g)%Z ->
  material_at (added l) vacuum (g_dx g * IZR i, g_dx g * IZR j) (KSimple m) ->
  (forall o, In o (added l) -> in_obj o (g_dx g * IZR i, g_dx g * IZR j) -> ~ dispersive (m_kind (o_mat o))) ->
  (forall o y, In o (added l) -> m_kind (o_mat o) <> KLorentz y) ->
  simple_only (f_ph s) m i j.
Proof.
  intros Hg H0 Hr Hl Hc Hs Hi Hj Hm Hd Nl. split; [eapply run_made; eassumption|].
  destruct (run_str g name s0 s l Hg H0 Hr Hl Hc Hs) as (Eg & S1 & S2 & S3).
  split; [|split; [|eapply no_lorentz; eassumption]].
  - apply (str_none _ _ _ KDebye g mat_debye_iff _ _ i j S1 Hi Hj). intros o y Ho Io E. apply (Hd o Ho Io). rewrite E. exact I.
  - apply (str_none _ _ _ KDrude g mat_drude_iff _ _ i j S2 Hi Hj). intros o y Ho Io E. apply (Hd o Ho Io). rewrite E. exact I.
Qed.

(** ** drude_lorentz *)
Lemma drude_lorentz_shape d l :
  lo_eps (drude_lorentz d l) = dr_eps d /\
  List.length (lo_poles (drude_lorentz d l)) = (List.length (dr_poles d) + List.length (lo_poles l))%nat /\
  (forall k p, nth_error (dr_poles d) k = Some p -> forall dt, 0 <= up_gamma p -> 0 <= dt -> exists q,
     nth_error (lo_poles (drude_lorentz d l)) k = Some q /\
     nth k (lorentz_delta (drude_lorentz d l) dt) 0 = up_omega p ^ 2 * dt ^ 2 / (1 + up_gamma p * dt / 2) /\
     nth k (lorentz_beta (drude_lorentz d l) dt) 0 = (up_gamma p * dt / 2 - 1) / (up_gamma p * dt / 2 + 1) /\
     nth k (lorentz_alpha (drude_lorentz d l) dt) 0 = (2 - (/ 10 ^ 20) ^ 2 * dt ^ 2) / (1 + up_gamma p * dt / 2) /\
     lp_deps q * lp_omega q ^ 2 = up_omega p ^ 2 /\ 2 * lp_gamma q = up_gamma p) /\
  (forall k, nth_error (lo_poles (drude_lorentz d l)) (List.length (dr_poles d) + k) = nth_error (lo_poles l) k).
Proof.
  assert (Es : @small RNum = / 10 ^ 20).
  { unfold small. rnumg. lra. }
  unfold drude_lorentz. cbn [lo_eps lo_poles]. split; [reflexivity|]. split; [rewrite app_length, map_length; reflexivity|]. split.
  - intros k p Hk dt Hg Hd.
    set (q := LPole small (npow (up_omega p) 2 / npow small 2)%num (up_gamma p / 2)%num : lpole). exists q.
    set (ps := map (fun p : upole => LPole small (npow (up_omega p) 2 / npow small 2)%num (up_gamma p / 2)%num) (dr_poles d) ++ lo_poles l).
    assert (Eq : nth_error ps k = Some q).
    { unfold ps. rewrite nth_error_app1 by (rewrite map_length; apply nth_error_Some; congruence). rewrite nth_error_map, Hk. reflexivity. }
    assert (Em : forall f : lpole -> R, nth k (map f ps) 0 = f q).
    { intros f. apply nth_error_nth. rewrite nth_error_map, Eq. reflexivity. }
    assert (S0 : @small RNum <> 0) by (rewrite Es; apply Rinv_neq_0_compat; lra).
    assert (G0 : 0 <= up_gamma p * dt) by (now apply Rmult_le_pos).
    split; [exact Eq|]. unfold lorentz_delta, lorentz_beta, lorentz_alpha. cbn [lo_poles]. fold ps. rewrite !Em.
    unfold lorentz_delta1, lorentz_beta1, lorentz_alpha1, q. cbn [lp_omega lp_deps lp_gamma]. rewrite <- Es.
    rnumg. change (Z.to_nat 2) with 2%nat. set (e := @small RNum : R) in *. clearbody e.
    repeat split; field; repeat split; try exact S0; lra.
  - intros k. rewrite nth_error_app2 by (rewrite map_length; lia). f_equal. rewrite map_length. lia.
Qed.
