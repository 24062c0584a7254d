(** Monitors inside a simulation: which fields they see, and at which times. *)
From Coq Require Import ZArith Reals List Bool String Lia Lra Psatz.
From Verif Require Import Scalar Base BaseFacts VecM GridM DftM TfsfM PolarM InterpM H5M ClockM MonitorM FieldM OutFacts PhysFacts WfFacts HalfFacts ClockFacts
  GridFacts SpecDft DftFacts SpecSample SampleFacts MonFacts.
Import ListNotations.
Local Open Scope R_scope.
#[local] Existing Instance RNum.

(** *** A second update with the same time stamp changes nothing *)
Lemma surf_again g F F2 t m m' : surf_update g F t m = Ok m' -> surf_update g F2 t m' = Ok m'.
Proof.
  unfold surf_update. intros H. destruct (to_grid_surface g (sm_surf m)) as [ic| |] eqn:E; cbn [bind] in H; try discriminate.
  destruct (dft_update (surf_sample g F (sm_surf m) ic) (sm_prevE m) (sm_dft m) t) as [[d pe]| |] eqn:E2; cbn [bind] in H; try discriminate.
  injection H as <-. cbn [sm_surf sm_prevE sm_dft sm_name sm_kind sm_len]. rewrite E. cbn [bind]. rewrite (update_again _ _ _ pe _ _ _ _ E2). reflexivity.
Qed.
Lemma mapM_again {A} (f f2 : A -> res A) l r : (forall a b, f a = Ok b -> f2 b = Ok b) -> mapM f l = Ok r -> mapM f2 r = Ok r.
Proof.
  intros H. revert r. induction l as [|x l IH]; intros r E; cbn [mapM] in E.
  - injection E as <-. reflexivity.
  - destruct (f x) as [y| |] eqn:E1; cbn [bind] in E; try discriminate. destruct (mapM f l) as [r'| |]; cbn [bind] in E; try discriminate.
    injection E as <-. cbn [mapM]. rewrite (H _ _ E1). cbn [bind]. rewrite (IH r' eq_refl). reflexivity.
Qed.
Lemma mon_again g F F2 t m m' : mon_update g F t m = Ok m' -> mon_update g F2 t m' = Ok m'.
Proof.
  destruct m as [m|m|m|m|m]; cbn [mon_update]; intros H.
  - destruct (surf_update g F t m) as [x| |] eqn:E; cbn [bind] in H; try discriminate. injection H as <-. cbn [mon_update]. rewrite (surf_again _ _ F2 _ _ _ E). reflexivity.
  - destruct (box_update g F t m) as [x| |] eqn:E; cbn [bind] in H; try discriminate. injection H as <-. cbn [mon_update]. unfold box_update in *.
    destruct (mapM (surf_update g F t) (bm_sides m)) as [sd| |] eqn:E1; cbn [bind] in E; try discriminate. injection E as <-. cbn [bm_sides bm_name bm_vol bm_freq].
    rewrite (mapM_again _ (surf_update g F2 t) _ _ (fun a b => surf_again g F F2 t a b) E1). reflexivity.
  - destruct (cyl_update g F t m) as [x| |] eqn:E; cbn [bind] in H; try discriminate. injection H as <-. cbn [mon_update]. unfold cyl_update in *.
    destruct (dft_update (cyl_sample g F (cm_surf m) (cm_len m)) (cm_prevE m) (cm_dft m) t) as [[d pe]| |] eqn:E2; cbn [bind] in E; try discriminate.
    injection E as <-. cbn [cm_surf cm_prevE cm_dft cm_name cm_all cm_len]. rewrite (update_again _ _ _ pe _ _ _ _ E2). reflexivity.
  - destruct (vol_update g F t m) as [x| |] eqn:E; cbn [bind] in H; try discriminate. injection H as <-. cbn [mon_update]. unfold vol_update in *.
    destruct (to_grid_volume g (vm_vol m)) as [iv| |] eqn:E1; cbn [bind] in E; try discriminate.
    destruct (dft_update (vol_sample F iv (vm_ny m)) tt (vm_dft m) t) as [[d pe]| |] eqn:E2; cbn [bind] in E; try discriminate.
    injection E as <-. cbn [vm_vol vm_ny vm_dft vm_name vm_kind]. rewrite E1. cbn [bind]. rewrite (update_again _ _ _ tt _ _ _ _ E2). reflexivity.
  - destruct (pt_update t m) as [x| |] eqn:E; cbn [bind] in H; try discriminate. injection H as <-. cbn [mon_update]. unfold pt_update in *.
    match type of E with bind ?z _ = _ => destruct z as [[d pe]| |] eqn:E2; cbn [bind] in E; try discriminate end.
    injection E as <-. cbn [pm_name pm_pos pm_kind pm_dft]. rewrite (update_again _ _ _ tt _ _ _ _ E2). reflexivity.
Qed.
Lemma run_first c l s s2 : run (c :: l) s = Fine s2 -> exists s1, exec c s = Fine s1 /\ run l s1 = Fine s2.
Proof. cbn [run]. intros H. apply obind_fine in H. exact H. Qed.
Lemma run_last c s s1 : run [c] s = Fine s1 -> exec c s = Fine s1.
Proof. intros H. apply run_first in H. destruct H as (x & H & E). cbn [run] in E. injection E as <-. exact H. Qed.
Lemma exec_update s : exec Update s = update s.
Proof. reflexivity. Qed.
Lemma exec_clear s : exec ClearFields s = Fine (map_ph clear_fields_phys s).
Proof. reflexivity. Qed.
(** one step, clear_fields, one step: the second step is not recorded by any monitor *)
Lemma repeat_not_recorded s s1 s2 : ph_t (f_ph s) = 0 -> run [Update] s = Fine s1 -> run [ClearFields; Update] s1 = Fine s2 -> f_mons s2 = f_mons s1.
Proof.
  intros H0 R H2. assert (U1 := run_last _ _ _ R). rewrite exec_update in U1.
  apply run_first in H2. destruct H2 as (sc & K & U2). apply run_last in U2. rewrite exec_update in U2. rewrite exec_clear in K.
  assert (Kt : ph_t (f_ph sc) = 0) by (injection K as <-; reflexivity).
  assert (Kg : ph_grid (f_ph sc) = ph_grid (f_ph s1)) by (injection K as <-; reflexivity).
  assert (Km : f_mons sc = f_mons s1) by (injection K as <-; reflexivity). clear K.
  apply update_monitors in U1. destruct U1 as (p1 & P1 & Q1 & M1). apply update_monitors in U2. destruct U2 as (p2 & P2 & Q2 & M2).
  assert (G1 := phys_first_clk _ _ P1). assert (G2 := phys_first_clk _ _ P2). destruct G1 as (G1 & T1 & _), G2 as (G2 & T2 & _).
  assert (GG : ph_grid (f_ph s1) = ph_grid (f_ph s)) by (apply run_phys, phys_run_grid in R; apply R).
  assert (E : ph_t p2 = ph_t p1) by (rewrite T1, T2, H0, Kt, Kg, GG; reflexivity).
  assert (E2 : ph_grid p2 = ph_grid p1) by (rewrite G1, G2, Kg; exact GG).
  rewrite E, E2, Km in M2. apply (mapM_again _ (mon_update (ph_grid p1) (ph_F p2) (ph_t p1))) in M1; [|intros a b; apply mon_again].
  rewrite M1 in M2. now injection M2 as <-.
Qed.

(** *** The fields a monitor sees *)
(** at the m-th of n updates the monitors see the field after the electric half of that step *)
Definition seen (p : phys) (n : nat) (l : list (R * fields)) : Prop :=
  List.length l = n /\
  forall m, (m < n)%nat -> exists pb pm, phys_run (repeat Update m) p = Fine pb /\ phys_first pb = Fine pm /\
    nth_error l m = Some (ph_t pm, ph_F pm).
Lemma run_monitors : forall n s s', run (repeat Update n) s = Fine s' ->
  exists l, seen (f_ph s) n l /\ map fst l = map (fun m => ph_t (f_ph s) + INR (Datatypes.S m) * g_dt (ph_grid (f_ph s))) (seq 0 n) /\
    forall j m, nth_error (f_mons s) j = Some m -> exists m', nth_error (f_mons s') j = Some m' /\ mon_feed (ph_grid (f_ph s)) l m = Ok m'.
Proof.
  induction n as [|n IH]; intros s s' H.
  - injection H as <-. exists []. split; [split; [reflexivity|]; intros m Hm; lia|]. split; [reflexivity|]. intros j m Hm. exists m. auto.
  - cbn [repeat run exec] in H. inv_fine. match goal with K : update s = Fine ?x |- _ => rename x into s1; rename K into U end.
    destruct (IH _ _ H) as (l & [S1 S2] & T & M). assert (U0 := U). apply update_monitors in U. destruct U as (pm & P & Q & MM).
    assert (G := phys_first_clk _ _ P). destruct G as (G & T1 & _).
    assert (R : run [Update] s = Fine s1) by (cbn [run exec]; rewrite U0; reflexivity). assert (R2 := run_phys _ _ _ R).
    assert (GG := proj1 (phys_run_grid _ _ _ R2)). cbn [phys_run] in R2. inv_fine. match goal with K : phys_exec Update _ = Fine _ |- _ => rename K into PE end.
    exists ((ph_t pm, ph_F pm) :: l). split; [|split].
    + split; [cbn; congruence|]. intros [|m] Hm.
      * exists (f_ph s), pm. auto.
      * destruct (S2 m ltac:(lia)) as (pb & pm' & A1 & A2 & A3). exists pb, pm'. cbn [repeat phys_run nth_error]. rewrite PE. auto.
    + cbn [map fst seq]. f_equal; [rewrite T1; cbn [INR]; rnumg; ring|]. rewrite T, <- seq_shift, map_map. apply map_ext. intros m.
      assert (E : ph_t (f_ph s1) = ph_t (f_ph s) + g_dt (ph_grid (f_ph s))).
      { cbn [phys_exec] in PE. apply phys_step_clk in PE. destruct PE as [_ PE]. unfold clk in PE. injection PE as _ PE. exact PE. }
      rewrite E, GG. rewrite (S_INR (Datatypes.S m)). ring.
    + intros j m Hm. destruct (mapM_inv _ _ _ MM j m Hm) as (m1 & A1 & A2). destruct (M j m1 A1) as (m' & B1 & B2).
      exists m'. split; [exact B1|]. unfold mon_feed in *. cbn [foldM fst snd]. rewrite <- G, A2. cbn [bind]. rewrite G, <- GG. exact B2.
Qed.
Lemma times_later t0 dt n : 0 < dt -> later t0 (map (fun m => t0 + INR (Datatypes.S m) * dt) (seq 0 n)).
Proof.
  intros Hd. assert (G : forall k t, t < t0 + INR (Datatypes.S k) * dt -> later t (map (fun m => t0 + INR (Datatypes.S m) * dt) (seq k n))).
  { induction n as [|n IH]; intros k t Ht; cbn [seq map later]; [exact I|]. split; [exact Ht|]. apply IH. rewrite (S_INR (Datatypes.S k)). lra. }
  apply G. cbn [INR]. lra.
Qed.
Lemma mon_feed_surf g l : forall m m', mon_feed g l (MSurf m) = Ok m' -> exists x, m' = MSurf x /\ surf_feed g l m = Ok x.
Proof.
  induction l as [|[t F] l IH]; intros m m' H; unfold mon_feed, surf_feed in *; cbn [foldM mon_update fst snd] in *.
  - injection H as <-. eauto.
  - destruct (surf_update g F t m) as [x| |]; cbn [bind] in *; try discriminate. now apply IH.
Qed.
Lemma mon_feed_box g l : forall m m', mon_feed g l (MBox m) = Ok m' -> exists x, m' = MBox x /\ box_feed g l m = Ok x.
Proof.
  induction l as [|[t F] l IH]; intros m m' H; unfold mon_feed, box_feed in *; cbn [foldM mon_update fst snd] in *.
  - injection H as <-. eauto.
  - destruct (box_update g F t m) as [x| |]; cbn [bind] in *; try discriminate. now apply IH.
Qed.
Lemma mon_feed_cyl g l : forall m m', mon_feed g l (MCyl m) = Ok m' -> exists x, m' = MCyl x /\ cyl_feed g l m = Ok x.
Proof.
  induction l as [|[t F] l IH]; intros m m' H; unfold mon_feed, cyl_feed in *; cbn [foldM mon_update fst snd] in *.
  - injection H as <-. eauto.
  - destruct (cyl_update g F t m) as [x| |]; cbn [bind] in *; try discriminate. now apply IH.
Qed.
Lemma mon_feed_vol g l : forall m m', mon_feed g l (MVol m) = Ok m' -> exists x, m' = MVol x /\ vol_feed g l m = Ok x.
Proof.
  induction l as [|[t F] l IH]; intros m m' H; unfold mon_feed, vol_feed in *; cbn [foldM mon_update fst snd] in *.
  - injection H as <-. eauto.
  - destruct (vol_update g F t m) as [x| |]; cbn [bind] in *; try discriminate. now apply IH.
Qed.
