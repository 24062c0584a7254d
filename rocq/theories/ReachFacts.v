(** Every state a program can reach, exceptions included, is well-formed. *)
From Coq Require Import ZArith String List Bool Lia.
From Verif Require Import Scalar Base BaseFacts VecM GridM GeometryM MaterialM PmlM DftM TfsfM PolarM
  InterpM H5M ClockM MonitorM FieldM OutFacts PhysFacts PaintFacts WfFacts.
Import ListNotations.
Local Open Scope Z_scope.

Section Reach.
Context {N : Num}.

(** ** Maps *)
Lemma slookup_In {A} k (m : list (string * A)) v : slookup k m = Some v -> exists k', k' = k /\ In (k', v) m.
Proof.
  induction m as [|[a x] m IH]; cbn [slookup]; [discriminate|].
  destruct (String.eqb k a) eqn:E.
  - intros H. injection H as ->. apply String.eqb_eq in E. exists a. split; [congruence|now left].
  - intros H. destruct (IH H) as [k' [-> Hi]]. exists k. split; [reflexivity|now right].
Qed.
Lemma sassign_keys {A} k v (m : list (string * A)) : map fst (sassign k v m) = map fst m.
Proof.
  induction m as [|[a x] m IH]; cbn [sassign]; [reflexivity|].
  destruct (String.eqb k a); cbn; [reflexivity|]. now rewrite IH.
Qed.
Lemma sassign_Forall {A} (P : string * A -> Prop) k v m :
  (forall k', P (k', v)) -> Forall P m -> Forall P (sassign k v m).
Proof.
  intros Hv. induction 1 as [|[a x] m Hx Hm IH]; cbn [sassign]; [constructor|].
  destruct (String.eqb k a); constructor; auto.
Qed.
Lemma sinsert_Forall {A} (P : string * A -> Prop) k v m : P (k, v) -> Forall P m -> Forall P (sinsert k v m).
Proof.
  intros Hv. induction 1 as [|[a x] m Hx Hm IH]; cbn [sinsert]; [auto|].
  destruct (String.compare k a); auto.
Qed.
Lemma sinsert_lookup {A} k v (m : list (string * A)) k' :
  slookup k' m <> None -> slookup k' (sinsert k v m) <> None.
Proof.
  induction m as [|[a x] m IH]; cbn [slookup sinsert]; [congruence|]. intros H.
  destruct (String.compare k a) eqn:E; cbn [slookup]; auto.
  - destruct (String.eqb k' k); [discriminate|exact H].
  - destruct (String.eqb k' a); [discriminate|auto].
Qed.
Lemma sinsert_same {A} k v (m : list (string * A)) : slookup k (sinsert k v m) <> None.
Proof.
  induction m as [|[a x] m IH]; cbn [slookup sinsert]; [now rewrite String.eqb_refl|].
  destruct (String.compare k a) eqn:E; cbn [slookup].
  - apply String.compare_eq_iff in E. subst. now rewrite String.eqb_refl.
  - now rewrite String.eqb_refl.
  - destruct (String.eqb k a); [discriminate|exact IH].
Qed.
Lemma sassign_lookup {A} k v (m : list (string * A)) k' :
  slookup k' m <> None -> slookup k' (sassign k v m) <> None.
Proof. apply slookup_keys. symmetry. apply sassign_keys. Qed.

(** ** Polarizations *)
Lemma insert_polar_keeps n m np q vals ins q' : insert_polar q vals ins = Ok q' ->
  polar_dims n m np q -> polar_dims n m np q'.
Proof.
  unfold insert_polar. intros H. inv_ok. intros (Q1 & Q2 & Q3 & Q4 & Q5 & Q6).
  assert (Hd : t3dims n m (pl_n q) r).
  { revert Hr. apply for_up_pres; [exact Q5|]. intros i a b _ Ha. apply for_up_pres; [exact Ha|].
    intros j a' b' _ Ha'. destruct (ins _).
    - apply for_up_pres; [exact Ha'|]. intros k x y _ Hx Hy. inv_ok.
      unfold t3set in Hy. destruct (in3 x i j k); [|discriminate]. injection Hy as <-. exact Hx.
    - intros H. injection H as <-. exact Ha'. }
  repeat split; cbn; auto; try apply Q4; try apply Q6; apply Hd.
Qed.
Lemma insert_polar_total n m np q vals ins : polar_dims n m np q -> length vals = np ->
  exists q', insert_polar q vals ins = Ok q'.
Proof.
  unfold insert_polar. intros (Q1 & Q2 & Q3 & Q4 & Q5 & Q6) Hl. rewrite Q1, Q2.
  match goal with |- context [bind (for_up 0 n ?b (pl_c q)) _] =>
    destruct (for_up_total (t3dims n m (pl_n q)) b 0 n (pl_c q)) as [c [-> _]]; [exact Q5| |cbn [bind]; eauto] end.
  intros i a Hi Ha. apply for_up_total; [exact Ha|]. intros j b Hj Hb. destruct (ins _); [|eauto].
  apply for_up_total; [exact Hb|]. intros k c Hk Hc. rewrite lget_ok by lia. cbn [bind].
  rewrite (t3set_dims _ _ _ _ _ _ _ _ Hc) by lia. eexists; split; [reflexivity|exact Hc].
Qed.
Lemma mk_polar_dims g np q : mk_polar g np = Ok q -> polar_dims (g_Nx g) (g_Ny g) np q.
Proof.
  unfold mk_polar, t3const. intros H. inv_ok.
  destruct ((0 <=? g_Nx g) && (0 <=? g_Ny g) && (0 <=? Z.of_nat np)); [|discriminate].
  injection Hr as <-. repeat split.
Qed.
Lemma mk_polar_total g np : 0 <= g_Nx g -> 0 <= g_Ny g -> exists q, mk_polar g np = Ok q.
Proof.
  intros H1 H2. unfold mk_polar, t3const.
  replace (0 <=? g_Nx g) with true by lia. replace (0 <=? g_Ny g) with true by lia.
  replace (0 <=? Z.of_nat np) with true by lia. cbn. eauto.
Qed.

Lemma add_polar_keeps {M} np (vals : M -> T -> list T) g P name x o P' :
  add_polar np vals g P name x o = Ok P' -> pmap_dims (g_Nx g) (g_Ny g) np P ->
  pmap_dims (g_Nx g) (g_Ny g) np P' /\ slookup name P' <> None /\
  (forall k, slookup k P <> None -> slookup k P' <> None).
Proof.
  unfold add_polar. destruct (slookup name P) as [[m0 q]|] eqn:E; intros H HP; inv_ok.
  - split; [|split].
    + apply sassign_Forall; [|exact HP]. intros k0. cbn. destruct (slookup_In _ _ _ E) as [k' [-> Hi]].
      unfold pmap_dims in HP. rewrite Forall_forall in HP. specialize (HP _ Hi). cbn in HP. eapply insert_polar_keeps; eauto.
    + apply sassign_lookup. congruence.
    + intros k. apply sassign_lookup.
  - split; [|split].
    + apply sinsert_Forall; [|exact HP]. cbn. eapply insert_polar_keeps; [eassumption|]. now apply mk_polar_dims.
    + apply sinsert_same.
    + intros k. apply sinsert_lookup.
Qed.
Lemma reinsert_polar_keeps {M} (np : M -> nat) (vals : M -> T -> list T) g P name o P' :
  reinsert_polar vals g P name o = Ok P' -> pmap_dims (g_Nx g) (g_Ny g) np P ->
  pmap_dims (g_Nx g) (g_Ny g) np P' /\ map fst P' = map fst P.
Proof.
  unfold reinsert_polar. destruct (slookup name P) as [[m0 q]|] eqn:E; intros H HP; inv_ok. split.
  - apply sassign_Forall; [|exact HP]. intros k0. cbn. destruct (slookup_In _ _ _ E) as [k' [-> Hi]].
    unfold pmap_dims in HP. rewrite Forall_forall in HP. specialize (HP _ Hi). cbn in HP. eapply insert_polar_keeps; eauto.
  - apply sassign_keys.
Qed.
Lemma add_polar_total {M} np (vals : M -> T -> list T) g P name x o :
  (forall y dt, length (vals y dt) = np y) -> 0 <= g_Nx g -> 0 <= g_Ny g ->
  pmap_dims (g_Nx g) (g_Ny g) np P -> exists P', add_polar np vals g P name x o = Ok P'.
Proof.
  intros Hv Hx Hy HP. unfold add_polar. destruct (slookup name P) as [[m0 q]|] eqn:E.
  - destruct (slookup_In _ _ _ E) as [k' [-> Hi]]. unfold pmap_dims in HP. rewrite Forall_forall in HP.
    specialize (HP _ Hi). cbn in HP.
    destruct (insert_polar_total _ _ _ q (vals m0 (g_dt g)) (obj_inside o) HP (Hv _ _)) as [q' ->]. cbn [bind]. eauto.
  - destruct (mk_polar_total g (np x) Hx Hy) as [q Hq]. rewrite Hq. cbn [bind].
    destruct (insert_polar_total _ _ _ q (vals x (g_dt g)) (obj_inside o) (mk_polar_dims _ _ _ Hq) (Hv _ _)) as [q' ->].
    cbn [bind]. eauto.
Qed.
Lemma reinsert_polar_total {M} (np : M -> nat) (vals : M -> T -> list T) g P name o :
  (forall y dt, length (vals y dt) = np y) ->
  pmap_dims (g_Nx g) (g_Ny g) np P -> slookup name P <> None -> exists P', reinsert_polar vals g P name o = Ok P'.
Proof.
  intros Hv HP Hn. unfold reinsert_polar. destruct (slookup name P) as [[m0 q]|] eqn:E; [|congruence].
  destruct (slookup_In _ _ _ E) as [k' [-> Hi]]. unfold pmap_dims in HP. rewrite Forall_forall in HP.
  specialize (HP _ Hi). cbn in HP.
  destruct (insert_polar_total _ _ _ q (vals m0 (g_dt g)) (obj_inside o) HP (Hv _ _)) as [q' ->]. cbn [bind]. eauto.
Qed.

Lemma ensure_some o E : ensure o E <> None. Proof. destruct o; discriminate. Qed.

Lemma insert_material_wf o p p' : insert_material o p = Ok p' -> wf_phys p ->
  wf_phys p' /\ keys_ok p' o.
Proof.
  intros H Hw. unfold insert_material in H. destruct (wf_F p Hw) as (FA & FB & FC).
  destruct (m_kind (o_mat o)) as [x|x|x|x] eqn:Ek; inv_ok.
  - split; [exact Hw|]. unfold keys_ok. now rewrite Ek.
  - destruct (add_polar_keeps _ _ _ _ _ _ _ _ Hr (wf_debye p Hw)) as (D1 & D2 & D3).
    split; [|unfold keys_ok; rewrite Ek; exact D2].
    wfcon Hw; auto; try (intros; apply ensure_some).
    + unfold ensure. destruct (ph_prevE p) eqn:E; intros t' Ht; injection Ht as <-; [now apply (wf_prevE p Hw)|exact FA].
    + eapply Forall_impl; [|apply (wf_keys p Hw)]. intros a. apply keys_ok_same; cbn; auto.
  - destruct (add_polar_keeps _ _ _ _ _ _ _ _ Hr (wf_drude p Hw)) as (D1 & D2 & D3).
    split; [|unfold keys_ok; rewrite Ek; exact D2].
    wfcon Hw; auto; try (intros; apply ensure_some).
    + unfold ensure. destruct (ph_prevE p) eqn:E; intros t' Ht; injection Ht as <-; [now apply (wf_prevE p Hw)|exact FA].
    + eapply Forall_impl; [|apply (wf_keys p Hw)]. intros a. apply keys_ok_same; cbn; auto.
  - destruct (add_polar_keeps _ _ _ _ _ _ _ _ Hr (wf_lorentz p Hw)) as (D1 & D2 & D3).
    split; [|unfold keys_ok; rewrite Ek; exact D2].
    wfcon Hw; auto; try (intros; apply ensure_some).
    + unfold ensure. destruct (ph_prevE p) eqn:E; intros t' Ht; injection Ht as <-; [now apply (wf_prevE p Hw)|exact FA].
    + unfold ensure. destruct (ph_prev2E p) eqn:E; intros t' Ht; injection Ht as <-; [now apply (wf_prev2E p Hw)|exact FA].
    + eapply Forall_impl; [|apply (wf_keys p Hw)]. intros a. apply keys_ok_same; cbn; auto.
Qed.
Lemma insert_material_total o p : wf_phys p -> 0 <= g_Nx (ph_grid p) -> 0 <= g_Ny (ph_grid p) ->
  exists p', insert_material o p = Ok p'.
Proof.
  intros Hw Hx Hy. unfold insert_material. destruct (m_kind (o_mat o)) as [x|x|x|x]; [eauto| | |].
  - edestruct (add_polar_total np_debye debye_beta) as [P ->]; [|exact Hx|exact Hy|apply (wf_debye p Hw)|cbn [bind]; eauto].
    intros y dt. apply map_length.
  - edestruct (add_polar_total np_drude drude_beta) as [P ->]; [|exact Hx|exact Hy|apply (wf_drude p Hw)|cbn [bind]; eauto].
    intros y dt. apply map_length.
  - edestruct (add_polar_total np_lorentz lorentz_delta) as [P ->]; [|exact Hx|exact Hy|apply (wf_lorentz p Hw)|cbn [bind]; eauto].
    intros y dt. apply map_length.
Qed.

Lemma reinsert_material_wf o p p' : reinsert_material o p = Ok p' -> wf_phys p -> wf_phys p'.
Proof.
  intros H Hw. unfold reinsert_material in H.
  destruct (m_kind (o_mat o)) as [x|x|x|x] eqn:Ek; inv_ok; [exact Hw| | |].
  - destruct (reinsert_polar_keeps _ _ _ _ _ _ _ Hr (wf_debye p Hw)) as (D1 & D2).
    wfcon Hw; auto.
    + intros Hn. apply (wf_debye_prev p Hw). now apply (map_fst_nil r).
    + eapply Forall_impl; [|apply (wf_keys p Hw)]. intros a. apply keys_ok_same; cbn; auto.
      intros k. apply slookup_keys. auto.
  - destruct (reinsert_polar_keeps _ _ _ _ _ _ _ Hr (wf_drude p Hw)) as (D1 & D2).
    wfcon Hw; auto.
    + intros Hn. apply (wf_drude_prev p Hw). now apply (map_fst_nil r).
    + eapply Forall_impl; [|apply (wf_keys p Hw)]. intros a. apply keys_ok_same; cbn; auto.
      intros k. apply slookup_keys. auto.
  - destruct (reinsert_polar_keeps _ _ _ _ _ _ _ Hr (wf_lorentz p Hw)) as (D1 & D2).
    wfcon Hw; auto.
    + intros Hn. apply (wf_lorentz_prev p Hw). now apply (map_fst_nil r).
    + eapply Forall_impl; [|apply (wf_keys p Hw)]. intros a. apply keys_ok_same; cbn; auto.
      intros k. apply slookup_keys. auto.
Qed.
Lemma reinsert_material_total o p : wf_phys p -> keys_ok p o -> exists p', reinsert_material o p = Ok p'.
Proof.
  intros Hw Hk. unfold reinsert_material. unfold keys_ok in Hk.
  destruct (m_kind (o_mat o)) as [x|x|x|x]; [eauto| | |].
  - edestruct (reinsert_polar_total np_debye debye_beta) as [P ->]; [|apply (wf_debye p Hw)|exact Hk|cbn [bind]; eauto].
    intros y dt. apply map_length.
  - edestruct (reinsert_polar_total np_drude drude_beta) as [P ->]; [|apply (wf_drude p Hw)|exact Hk|cbn [bind]; eauto].
    intros y dt. apply map_length.
  - edestruct (reinsert_polar_total np_lorentz lorentz_delta) as [P ->]; [|apply (wf_lorentz p Hw)|exact Hk|cbn [bind]; eauto].
    intros y dt. apply map_length.
Qed.

Lemma paint_phys_wf o p p' : paint_phys o p = Ok p' -> wf_phys p -> wf_phys p'.
Proof.
  unfold paint_phys. intros H Hw. inv_ok. apply paint_post in Hr. destruct Hr as [Hd _].
  wfcon Hw. apply Hd. apply (wf_C p Hw).
Qed.
Lemma foldM_repaint_wf l : forall p p', foldM repaint_one p l = Ok p' -> wf_phys p -> wf_phys p'.
Proof.
  induction l as [|o l IH]; cbn [foldM]; intros p p' H Hw; [inv_ok; exact Hw|].
  apply bind_ok in H. destruct H as [q [Hq H]]. unfold repaint_one in Hq. inv_ok.
  apply (IH q); [exact H|]. eapply reinsert_material_wf; [exact Hq|]. eapply paint_phys_wf; eauto.
Qed.
Lemma update_material_grid_wf p p' : update_material_grid p = Ok p' -> wf_phys p -> wf_phys p'.
Proof.
  unfold update_material_grid. intros H Hw. inv_ok. eapply foldM_repaint_wf; [exact H|].
  destruct (clear_coefs_total (ph_grid p) (ph_bg p) (ph_C p) (wf_C p Hw)) as [c [Ec Hc]].
  rewrite Ec in Hr. injection Hr as <-. wfcon Hw. exact Hc.
Qed.

Lemma pmap_reset {M} n m (np : M -> nat) P : pmap_dims n m np P ->
  pmap_dims n m np (map (fun '(nm, (x, q)) => (nm, (x, reset_polar q))) P) /\
  map fst (map (fun '(nm, (x, q)) => (nm, (x, reset_polar q))) P) = map fst P.
Proof.
  induction 1 as [|[nm [x q]] P H HP [IH1 IH2]]; cbn; [split; [constructor|reflexivity]|].
  split; [|now rewrite IH2]. constructor; [|exact IH1]. exact H.
Qed.
Lemma clear_fields_wf p : wf_phys p -> wf_phys (clear_fields_phys p).
Proof.
  intros Hw. destruct (wf_F p Hw) as (A & B & C).
  destruct (pmap_reset _ _ _ _ (wf_debye p Hw)) as [R1 K1].
  destruct (pmap_reset _ _ _ _ (wf_drude p Hw)) as [R2 K2].
  destruct (pmap_reset _ _ _ _ (wf_lorentz p Hw)) as [R3 K3].
  unfold clear_fields_phys. wfcon Hw; auto.
  - intros Hn. apply (wf_debye_prev p Hw). eapply map_fst_nil; eauto.
  - intros Hn. apply (wf_drude_prev p Hw). eapply map_fst_nil; eauto.
  - intros Hn. apply (wf_lorentz_prev p Hw). eapply map_fst_nil; eauto.
  - eapply Forall_impl; [|apply (wf_keys p Hw)]. intros a. apply keys_ok_same; cbn; auto;
      intros k; apply slookup_keys; auto.
  - destruct (ph_tfsf p) as [q|] eqn:E; cbn; [|discriminate]. intros q0 H0. injection H0 as <-.
    exact (wf_tfsf p Hw q E).
Qed.

Lemma mk_tfsf_dims g tp v dt q : mk_tfsf g tp v dt = Ok q -> tfsf_dims q.
Proof.
  unfold mk_tfsf. destruct (to_grid_volume g v) as [iv| |] eqn:Ev; try discriminate. cbn [bind].
  unfold i32. destruct (in_i32 _); [|discriminate]. cbn [bind].
  unfold aconst. destruct (0 <=? _); [|discriminate]. cbn [bind].
  assert (Hd : forall d, (match tp_dft tp with
       | None => Ok None
       | Some d0 => d <- dft_add (mk_dft (d_freq d0)) "E" 1 ;; d <- dft_add d "H" 1 ;; Ok (Some d) end) = Ok (Some d) ->
       forall e, In e (d_map d) -> fst e = "E"%string \/ fst e = "H"%string).
  { destruct (tp_dft tp) as [d0|]; [|discriminate]. cbn. intros d Hd. injection Hd as <-. cbn.
    intros e [<-|[<-|[]]]; auto. }
  destruct (match tp_dft tp with None => Ok None | Some _ => _ end) as [d| |]; try discriminate.
  cbn [bind]. intros H. injection H as <-. unfold to_grid_volume in Ev. inv_ok. repeat split; cbn.
  intros d0 E0. apply Hd. congruence.
Qed.

Lemma obj_set_wf i h p : (forall o, o_mat (h o) = o_mat o) -> wf_phys p -> wf_phys (phys_on_obj i h p).
Proof.
  intros Hh Hw. unfold phys_on_obj. destruct (nth_error (ph_objs p) i) as [o|] eqn:E; [|exact Hw].
  destruct (o_dyn o); [|exact Hw]. wfcon Hw. apply upd_nth_Forall.
  - assert (Hk := nth_error_Forall _ _ _ _ (wf_keys p Hw) E). unfold keys_ok in *. cbn. now rewrite Hh.
  - eapply Forall_impl; [|apply (wf_keys p Hw)]. intros a. apply keys_ok_same; cbn; auto.
Qed.

(** ** Every call *)
Definition good (g : grid) (s : field) : Prop := wf_phys (f_ph s) /\ ph_grid (f_ph s) = g.

Lemma post_weaken {S} (P Q : S -> Prop) m : (forall s, P s -> Q s) -> post P m -> post Q m.
Proof. destruct m; cbn; auto. Qed.

Section Calls.
Variable g : grid.
Hypothesis Hg : roomy g.

Lemma on_ph_post f s : good g s -> (forall p', f (f_ph s) = Ok p' -> wf_phys p' /\ ph_grid p' = ph_grid (f_ph s)) ->
  post (good g) (on_ph f s).
Proof.
  intros [Hw Hgr] H. unfold on_ph. apply post_prim; [split; assumption|]. intros p' Hp'.
  destruct (H p' Hp') as [H1 H2]. split; cbn; [exact H1|congruence].
Qed.
Lemma start_post k s : good g s -> post (good g) (start k s).
Proof. intros H. unfold start. apply post_prim; auto. Qed.
Lemma stop_post k s : good g s -> post (good g) (stop k s).
Proof. intros H. unfold stop. apply post_prim; auto. Qed.

Lemma post_then (m : out field) k : post (good g) m -> (forall s, good g s -> post (good g) (k s)) -> post (good g) (m >>= k).
Proof. intros H1 H2. apply (post_bind (good g)); auto. Qed.

Lemma tm_ready_post i s : good g s -> post (good g) (tm_ready i s).
Proof.
  intros H. unfold tm_ready. destruct (nth_error (f_tmons s) i) as [t|]; [|exact H].
  apply post_prim; [exact H|]. intros [b e] _. destruct b; [|exact H].
  apply post_prim; [exact H|]. intros [f t'] _. exact H.
Qed.

Lemma update_post s : good g s -> post (good g) (update s).
Proof.
  intros H. unfold update.
  assert (Lstat : forall (p p' : phys), static p' = static p -> ph_grid p' = ph_grid p).
  { intros p p' Hs. apply static_eq in Hs. tauto. }
  assert (Rm : forall s, good g s -> roomy (ph_grid (f_ph s))) by (intros s0 [_ ->]; exact Hg).
  repeat apply post_then.
  - apply on_ph_post; [exact H|]. intros p' E. split; [eapply step_clock_wf; [exact E|apply H]|].
    now apply Lstat, step_clock_static.
  - intros; now apply start_post.
  - intros s0 H0. apply on_ph_post; [exact H0|]. intros p' E. injection E as <-.
    split; [apply step_prev_wf, H0|apply Lstat, step_prev_static].
  - intros s0 H0. apply on_ph_post; [exact H0|]. intros p' E.
    destruct (step_E_ok (f_ph s0) (Rm _ H0) (proj1 H0)) as [p2 [E2 W2]]. rewrite E in E2. injection E2 as <-.
    split; [exact W2|now apply Lstat, step_E_static].
  - intros s0 H0. apply on_ph_post; [exact H0|]. intros p' E.
    destruct (step_pmlE_ok (f_ph s0) (Rm _ H0) (proj1 H0)) as [p2 [E2 W2]]. rewrite E in E2. injection E2 as <-.
    split; [exact W2|now apply Lstat, step_pmlE_static].
  - intros s0 H0. apply on_ph_post; [exact H0|]. intros p' E.
    destruct (step_polar_ok (f_ph s0) (proj1 H0)) as [p2 [E2 W2]]. rewrite E in E2. injection E2 as <-.
    split; [exact W2|now apply Lstat, step_polar_static].
  - intros s0 H0. apply on_ph_post; [exact H0|]. intros p' E.
    split; [eapply step_tfsfD_wf; [exact E|apply H0]|now apply Lstat, step_tfsfD_static].
  - intros s0 [W0 G0]. unfold on_ph_out.
    assert (P1 := step_sources_post (f_ph s0) W0).
    assert (P2 : post (fun p => ph_grid p = g) (step_sources (f_ph s0))).
    { unfold step_sources. apply post_oloop; [exact G0|]. intros i p Hp. unfold pulse_src.
      destruct (nth_error (ph_srcs p) i); [|exact Hp]. apply post_prim; [exact Hp|]. intros [v tp] _.
      apply post_prim; [exact Hp|]. intros F _. exact Hp. }
    destruct (step_sources (f_ph s0)); cbn in *; auto; split; auto.
  - intros; now apply stop_post.
  - intros; now apply start_post.
  - intros s0 H0. unfold step_monitors. apply post_prim; [exact H0|]. intros l _. exact H0.
  - intros; now apply stop_post.
  - intros; now apply start_post.
  - intros s0 H0. apply on_ph_post; [exact H0|]. intros p' E.
    destruct (step_tfsf_pulse_ok (f_ph s0) (proj1 H0)) as [p2 [E2 [W2 _]]]. rewrite E in E2. injection E2 as <-.
    split; [exact W2|now apply Lstat, step_tfsf_pulse_static].
  - intros s0 H0. apply on_ph_post; [exact H0|]. intros p' E.
    destruct (step_H_ok (f_ph s0) (Rm _ H0) (proj1 H0)) as [p2 [E2 W2]]. rewrite E in E2. injection E2 as <-.
    split; [exact W2|now apply Lstat, step_H_static].
  - intros s0 H0. apply on_ph_post; [exact H0|]. intros p' E.
    destruct (step_pmlH_ok (f_ph s0) (Rm _ H0) (proj1 H0)) as [p2 [E2 W2]]. rewrite E in E2. injection E2 as <-.
    split; [exact W2|now apply Lstat, step_pmlH_static].
  - intros s0 H0. apply on_ph_post; [exact H0|]. intros p' E.
    split; [eapply step_tfsfH_wf; [exact E|apply H0]|now apply Lstat, step_tfsfH_static].
  - intros; now apply stop_post.
  - intros s0 H0. unfold step_tmons. apply post_oloop; [exact H0|]. intros i s1. apply tm_ready_post.
Qed.

Lemma add_monitor_post m s : good g s -> post (good g) (add_monitor m s).
Proof.
  intros H. unfold add_monitor. apply post_prim; [exact H|]. intros m' _.
  apply post_prim; [exact H|]. intros f _. exact H.
Qed.
Lemma write_field_post c s : good g s -> post (good g) (write_field c s).
Proof.
  intros H. unfold write_field. apply post_then; [apply post_then; [now apply start_post|]|intros; now apply stop_post].
  intros s0 H0. apply post_prim; [exact H0|]. intros f _.
  destruct c; try exact H0; (apply post_prim; [exact H0|]; intros f' _; exact H0).
Qed.
Lemma on_obj_post i h s : (forall o, o_mat (h o) = o_mat o) -> good g s -> post (good g) (on_obj i h s).
Proof.
  intros Hh H. destruct (on_obj i h s) as [s'|e s'|u] eqn:E; cbn; [|exfalso; revert E; unfold on_obj;
    destruct (nth_error _ _) as [o|]; [destruct (o_dyn o)|]; discriminate|trivial].
  apply on_obj_ph in E. split; rewrite E.
  - apply obj_set_wf; [exact Hh|apply H].
  - destruct (phys_on_obj_frame i h (f_ph s)) as [-> _]. apply H.
Qed.

Lemma add_object_post o s : good g s -> post (good g) (add_object o s).
Proof.
  intros H. unfold add_object.
  destruct (register_mat o s >>= on_ph (paint_phys o)) as [s1|e s1|u] eqn:E1; cbn [obind]; [| |exact I].
  2:{ assert (Hp : post (good g) (register_mat o s >>= on_ph (paint_phys o))); [|now rewrite E1 in Hp].
      apply post_then.
      - unfold register_mat. destruct (str_in _ _); [exact H|]. apply post_prim; [exact H|]. intros f _. exact H.
      - intros s0 H0. apply on_ph_post; [exact H0|]. intros p' E. split; [eapply paint_phys_wf; [exact E|apply H0]|].
        unfold paint_phys in E. inv_ok. reflexivity. }
  assert (H1 : good g s1).
  { assert (Hp : post (good g) (register_mat o s >>= on_ph (paint_phys o))); [|now rewrite E1 in Hp].
    apply post_then.
    - unfold register_mat. destruct (str_in _ _); [exact H|]. apply post_prim; [exact H|]. intros f _. exact H.
    - intros s0 H0. apply on_ph_post; [exact H0|]. intros p' E. split; [eapply paint_phys_wf; [exact E|apply H0]|].
      unfold paint_phys in E. inv_ok. reflexivity. }
  unfold on_ph. destruct (insert_material o (f_ph s1)) as [p2|e|u] eqn:E2; cbn [prim obind]; [|exact H1|exact I].
  destruct (insert_material_wf _ _ _ E2 (proj1 H1)) as [W2 K2].
  assert (G2 : ph_grid p2 = g) by (apply insert_material_frame in E2; destruct E2 as [-> _]; apply H1).
  destruct (write_obj _ o) as [f|e|u]; cbn [prim obind]; [|split; assumption|exact I].
  split; [|exact G2]. cbn. wfcon W2. apply Forall_app. split.
  - eapply Forall_impl; [|apply (wf_keys _ W2)]. intros a. apply keys_ok_same; cbn; auto.
  - constructor; [|constructor]. revert K2. apply keys_ok_same; cbn; auto.
Qed.

Lemma exec_post c s : good g s -> post (good g) (exec c s).
Proof.
  intros H. destruct c; cbn [exec].
  - now apply update_post.
  - apply on_ph_post; [exact H|]. intros p' E. split; [eapply update_material_grid_wf; [exact E|apply H]|].
    unfold update_material_grid in E. inv_ok. apply repaint_frame in E. tauto.
  - apply add_object_post. exact H.
  - unfold add_source. apply post_prim; [exact H|]. intros f _. split; [|apply H]. cbn. apply set_srcs_wf, H.
  - now apply add_monitor_post.
  - unfold add_tmon. apply post_prim; [exact H|]. intros f _. exact H.
  - exact H.
  - split; [|apply H]. cbn. apply clear_fields_wf, H.
  - unfold clear_materials. apply on_ph_post; [exact H|]. intros p' E. inv_ok. split; [|reflexivity].
    destruct (clear_coefs_total (ph_grid (f_ph s)) (ph_bg (f_ph s)) (ph_C (f_ph s)) (wf_C _ (proj1 H))) as [c [Ec Hc]].
    rewrite Ec in Hr. injection Hr as <-. destruct H as [H _]. wfcon H. exact Hc.
  - unfold set_tfsf. apply post_prim; [exact H|]. intros q Hq.
    assert (H' : good g (map_ph (set_ph_tfsf (Some q)) s)).
    { destruct H as [H H2]. split; [|exact H2]. cbn. wfcon H. intros q0 H0. injection H0 as <-. eapply mk_tfsf_dims; eauto. }
    apply post_prim; [exact H'|]. intros f _. exact H'.
  - now apply write_field_post.
  - now apply write_field_post.
  - unfold writeH. apply post_then; [now apply write_field_post|]. intros; now apply write_field_post.
  - unfold write_monitor_data. destruct (nth_error (f_mons s) i) as [m|]; [|exact H].
    destruct (mon_sub_name m). apply post_prim; [exact H|]. intros f _. exact H.
  - unfold write_tmon. destruct (nth_error (f_tmons s) i) as [m|]; [|exact H].
    apply post_prim; [exact H|]. intros [f m'] _. exact H.
  - now apply on_obj_post.
  - now apply on_obj_post.
  - now apply on_obj_post.
  - now apply on_obj_post.
  - unfold write_current. destruct (nth_error _ _) as [o|]; [|exact H]. destruct (o_dyn o); [|exact H].
    apply post_prim; [exact H|]. intros f _. exact H.
  - unfold get_box_monitor. destruct (nth_error _ _) as [o|]; [|exact H].
    apply post_prim; [exact H|]. intros m _. now apply add_monitor_post.
Qed.

Lemma run_catch_post l : forall s, good g s -> post (good g) (run_catch l s).
Proof.
  induction l as [|c l IH]; intros s H; cbn [run_catch]; [exact H|].
  assert (Hc := exec_post c s H). destruct (exec c s); cbn in *; auto.
Qed.
Lemma run_post l : forall s, good g s -> post (good g) (run l s).
Proof.
  induction l as [|c l IH]; intros s H; cbn [run]; [exact H|].
  apply post_then; [now apply exec_post|auto].
Qed.

Lemma mk_field_good name s : mk_field g name = Ok s -> good g s.
Proof.
  unfold mk_field. intros H. inv_ok. destruct (mk_phys_ok g Hg) as (p & E & Hw & Eg & _).
  rewrite E in Hr. injection Hr as <-. destruct (String.eqb name ""); [discriminate|].
  inv_ok. split; cbn; [exact Hw|reflexivity].
Qed.
End Calls.

(** states a program starting from a fresh Field2D can reach, exceptions caught or not *)
Definition reachable (g : grid) (s : field) : Prop :=
  exists name s0 l, mk_field g name = Ok s0 /\ run_catch l s0 = Fine s.

Lemma reachable_good g s : roomy g -> reachable g s -> good g s.
Proof.
  intros Hg (name & s0 & l & E0 & E). assert (H := mk_field_good g Hg name s0 E0).
  assert (H' := run_catch_post g Hg l s0 H). now rewrite E in H'.
Qed.

(** a call of update without monitors *)
Definition idle (s : field) : Prop := k_looping (f_clk s) = false /\ k_fourier (f_clk s) = false.

Lemma update_ok s : roomy (ph_grid (f_ph s)) -> wf_phys (f_ph s) -> placed (f_ph s) ->
  f_mons s = [] -> f_tmons s = [] -> idle s -> INT_MIN <= ph_step (f_ph s) < INT_MAX ->
  exists s', update s = Fine s' /\ phys_step (f_ph s) = Fine (f_ph s') /\ placed (f_ph s') /\
    f_mons s' = [] /\ f_tmons s' = [] /\ idle s' /\ ph_step (f_ph s') = ph_step (f_ph s) + 1 /\
    f_h5 s' = f_h5 s /\ f_mats s' = f_mats s.
Proof.
  intros Hg Hw Hp Hm Ht [Hi Hi'] Hn.
  destruct (phys_step_ok (f_ph s) Hg Hw Hp Hn) as (p' & E & _ & Hp' & Hn').
  assert (Ep := E). unfold phys_step in E. inv_fine.
  unfold update, on_ph, on_ph_out, start, stop, step_monitors, step_tmons, clock_start, clock_stop.
  repeat match goal with
  | H : ?x = Ok _ |- context [?x] => rewrite H; cbn [prim obind set_f_ph set_f_clk set_f_mons f_ph f_clk f_mons f_tmons ticking set_ticking k_looping k_fourier]
  | H : ?x = Fine _ |- context [?x] => rewrite H; cbn [prim obind set_f_ph set_f_clk set_f_mons f_ph f_clk f_mons f_tmons ticking set_ticking k_looping k_fourier]
  | _ => rewrite ?Hi, ?Hi', ?Hm, ?Ht; cbn [prim obind set_f_ph set_f_clk set_f_mons f_ph f_clk f_mons f_tmons ticking set_ticking k_looping k_fourier mapM length oloop]
  end.
  eexists. split; [reflexivity|]. cbn. rewrite ?Ep. split; [reflexivity|]. split; [exact Hp'|].
  unfold idle. cbn. auto 10.
Qed.

Lemma updates_ok n : forall s, roomy (ph_grid (f_ph s)) -> wf_phys (f_ph s) -> placed (f_ph s) ->
  f_mons s = [] -> f_tmons s = [] -> idle s -> INT_MIN <= ph_step (f_ph s) -> ph_step (f_ph s) + Z.of_nat n <= INT_MAX ->
  exists s', run (repeat Update n) s = Fine s' /\ wf_phys (f_ph s') /\ placed (f_ph s') /\
    f_mons s' = [] /\ f_tmons s' = [] /\ idle s' /\ ph_step (f_ph s') = ph_step (f_ph s) + Z.of_nat n.
Proof.
  induction n as [|n IH]; intros s Hg Hw Hp Hm Ht Hi Hn Hn'; cbn [repeat run].
  - exists s. repeat (split; [now auto|]). lia.
  - cbn [exec]. destruct (update_ok s Hg Hw Hp Hm Ht Hi) as (s1 & E & Ep & Hp1 & Hm1 & Ht1 & Hi1 & Hn1 & _); [lia|].
    rewrite E. cbn [obind].
    destruct (phys_step_ok (f_ph s) Hg Hw Hp) as (p' & E' & Hw1 & _); [lia|].
    rewrite Ep in E'. injection E' as <-.
    apply phys_step_static, static_eq in Ep. destruct Ep as (G1 & _).
    destruct (IH s1) as (s2 & E2 & R); auto; [now rewrite G1|lia|lia|].
    exists s2. split; [exact E2|]. destruct R as (R1 & R2 & R3 & R4 & R5 & R6). repeat (split; [assumption|]). lia.
Qed.
End Reach.
