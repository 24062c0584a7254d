(** Monitors on readable regions never fail. *)
From Coq Require Import ZArith Reals List Bool String Lia Lra.
From Flocq Require Import Core.Raux.
From Verif Require Import Scalar Base BaseFacts VecM GridM DftM InterpM MonitorM SpecGrid SpecInterp GridFacts InterpFacts
  SpecDft DftFacts SpecSample SampleFacts MonFacts WfFacts SpecLive.
Import ListNotations.
Local Open Scope R_scope.
#[local] Existing Instance RNum.

(** *** Reading *)
Lemma in_cells_near n u : in_cells1 n u -> forall i, near u i -> (0 <= i < n)%Z.
Proof.
  intros [H1 H2] i Hi. apply Rabs_def2 in Hi. assert (-1 < i)%Z by (apply lt_IZR; lra).
  assert (i < n)%Z by (apply lt_IZR; lra). lia.
Qed.
Definition small (g : grid) : Prop := (g_Nx g <= 2147483647)%Z /\ (g_Ny g <= 2147483647)%Z.
Lemma readable_ok g F c p : small g -> fdims (g_Nx g) (g_Ny g) F -> c = Ez \/ c = Hx \/ c = Hy -> readable g c p ->
  exists v, interpolate (g_dx g) F c p = Ok v.
Proof.
  intros [S1 S2] ((A1 & A2) & (B1 & B2) & (C1 & C2)) Hc [H1 H2]. rewrite interpolate_coords.
  assert (X := in_cells_near _ _ H1). assert (Y := in_cells_near _ _ H2).
  destruct Hc as [-> | [-> | ->]]; cbn [get_field bind cell_coords] in *; rewrite ?Rminus_0_r in *; eexists; (apply bilinear_ok; [split; rewrite ?A1, ?A2, ?B1, ?B2, ?C1, ?C2; assumption|split; lia]).
Qed.

(** *** Transforms *)
Definition alive {S} (f : sampler S) (inv : S -> Prop) (d : dft) : Prop :=
  forall key e, In (key, e) (d_map d) -> forall s, inv s -> exists gs s', f s key (List.length e) = Ok (gs, s') /\ List.length gs = List.length e /\ inv s'.
Definition outline (m : list (string * list (list (R * R)))) : list (string * nat) := map (fun ke => (fst ke, List.length (snd ke))) m.
Lemma entries_total {S} (f : sampler S) (inv : S -> Prop) ph : forall (m : list (string * list (list (R * R)))) s, inv s ->
  (forall key e, In (key, e) m -> forall s, inv s -> exists gs s', f s key (List.length e) = Ok (gs, s') /\ List.length gs = List.length e /\ inv s') ->
  exists m' s', dft_entries f ph s m = Ok (m', s') /\ inv s' /\ outline m' = outline m.
Proof.
  induction m as [|[k e] m IH]; intros s Hs H; cbn [dft_entries]; [eauto|].
  destruct (H k e (or_introl eq_refl) s Hs) as (gs & s1 & E & L & I1). change (@T RNum) with R in *. rewrite E. cbn [bind].
  destruct (IH s1 I1) as (m' & s2 & E2 & I2 & O); [intros; apply H; auto; now right|]. rewrite E2. cbn [bind].
  do 2 eexists. split; [reflexivity|]. split; [exact I2|]. cbn [outline map fst snd]. f_equal; [|exact O]. f_equal.
  unfold accum. rewrite map_length, combine_length. change (@T RNum) with R in *. lia.
Qed.
Lemma update_total {S} (f : sampler S) (inv : S -> Prop) s d t : inv s -> alive f inv d ->
  exists d' s', dft_update f s d t = Ok (d', s') /\ inv s' /\ outline (d_map d') = outline (d_map d) /\ d_freq d' = d_freq d.
Proof.
  intros Hs Ha. unfold dft_update. destruct (neqb (d_t d) t); [eexists; eexists; eauto|].
  destruct (entries_total f inv (phases (d_freq d) t) (d_map d) s Hs Ha) as (m' & s' & E & I1 & O). rewrite E. cbn [bind]. eauto 6.
Qed.
Lemma outline_In (m m' : list (string * list (list (R * R)))) key e : outline m' = outline m -> In (key, e) m' -> exists e0, In (key, e0) m /\ List.length e0 = List.length e.
Proof.
  intros O H. apply (in_map (fun ke => (fst ke, List.length (snd ke)))) in H. fold (outline m') in H. rewrite O in H. apply in_map_iff in H.
  destruct H as ([k e0] & E & H). cbn [fst snd] in E. injection E as -> E. eauto.
Qed.
Definition thin (d : dft) (n : Z) (ks : list string) : Prop := forall key e, In (key, e) (d_map d) -> In key ks /\ List.length e = Z.to_nat n.
Lemma thin_outline d d' n ks : outline (d_map d') = outline (d_map d) -> thin d n ks -> thin d' n ks.
Proof. intros O H key e Hi. destruct (outline_In _ _ _ _ O Hi) as (e0 & H0 & L). destruct (H _ _ H0) as [H1 H2]. split; [exact H1|]. change (@T RNum) with R in *. congruence. Qed.
Lemma lookup_In {A} (m : list (string * A)) key e : NoDup (map fst m) -> In (key, e) m -> slookup key m = Some e.
Proof.
  induction m as [|[k x] m IH]; cbn [map fst slookup]; intros Hn Hi; [destruct Hi|]. inversion Hn; subst.
  destruct Hi as [E|Hi].
  - injection E as -> ->. now rewrite String.eqb_refl.
  - destruct (String.eqb_spec key k); [|auto]. subst. exfalso. apply H1. now apply (in_map fst) in Hi.
Qed.
Lemma fresh_thin d n ks : fresh d n ks -> thin d n ks.
Proof.
  intros [Hn Hl] key e Hi. apply lookup_In in Hi; [|exact Hn]. rewrite Hl in Hi. destruct (in_dec string_dec key ks); [|discriminate].
  injection Hi as <-. split; [assumption|]. unfold zeros. apply repeat_length.
Qed.
Lemma adds_total n : (0 <= n)%Z -> forall ks d, exists d', foldM (fun d k => dft_add d k n) d ks = Ok d'.
Proof.
  intros Hn. induction ks as [|k ks IH]; intros d; cbn [foldM]; [eauto|]. unfold dft_add at 1. replace (n <? 0)%Z with false by lia. cbn [bind]. apply IH.
Qed.

(** *** Sampling *)
Lemma for_samples_total n f : (forall i, (0 <= i < Z.of_nat n)%Z -> exists v, f i = Ok v) -> exists l, for_samples n f = Ok l /\ List.length l = n.
Proof.
  intros H. unfold for_samples. assert (G : forall k lo, (forall i, (lo <= i < lo + Z.of_nat k)%Z -> exists v, f i = Ok v) -> exists l, mapM f (zseq lo k) = Ok l /\ List.length l = k).
  { induction k as [|k IH]; intros lo Hk; cbn [zseq mapM]; [eauto|]. destruct (Hk lo) as [v Hv]; [lia|]. rewrite Hv. cbn [bind].
    destruct (IH (lo + 1)%Z) as (l & L1 & L2); [intros; apply Hk; lia|]. rewrite L1. cbn [bind]. eexists. split; [reflexivity|]. cbn [List.length]. now f_equal. }
  apply G. intros. apply H. lia.
Qed.
Lemma sample_E_total dx F pos prevE n : List.length prevE = n -> (forall i, (0 <= i < Z.of_nat n)%Z -> exists v, interpolate dx F Ez (pos i) = Ok v) ->
  exists gs pe, sample_E dx F pos prevE n = Ok (gs, pe) /\ List.length gs = n /\ List.length pe = n.
Proof.
  intros L H. unfold sample_E. destruct (for_samples_total n _ H) as (l & E1 & L1). rewrite E1. cbn [bind].
  destruct (for_samples_total n (pget prevE)) as (l2 & E2 & L2).
  { intros i Hi. unfold pget, inr. change (@T RNum) with R in *. rewrite L. replace ((0 <=? i)%Z && (i <? Z.of_nat n)%Z) with true by lia. eauto. }
  rewrite E2. cbn [bind]. do 2 eexists. split; [reflexivity|]. rewrite map_length, combine_length, app_length, skipn_length. change (@T RNum) with R in *. lia.
Qed.

(** *** Surfaces *)
Record surf_live (g : grid) (m : surf_mon) : Prop := SurfLive {
  sl_len : List.length (sm_prevE m) = Z.to_nat (sm_len m);
  sl_thin : thin (sm_dft m) (sm_len m) ["Ez"; "Hx"; "Hy"]%string;
  sl_cells : exists ic, to_grid_surface g (sm_surf m) = Ok ic /\ forall i, (0 <= i < sm_len m)%Z -> readable3 g (surf_pos g (sm_surf m) ic i) }.
Lemma three c : c = Ez \/ c = Hx \/ c = Hy -> forall g p, readable3 g p -> readable g c p.
Proof. intros [-> | [-> | ->]] g p (A & B & C); assumption. Qed.
Lemma surf_live_update g F t m : small g -> fdims (g_Nx g) (g_Ny g) F -> surf_live g m -> exists m', surf_update g F t m = Ok m' /\ surf_live g m'.
Proof.
  intros Hg HF [L Th (ic & Ec & Hc)]. unfold surf_update. rewrite Ec. cbn [bind].
  destruct (update_total (surf_sample g F (sm_surf m) ic) (fun pe => List.length pe = Z.to_nat (sm_len m)) (sm_prevE m) (sm_dft m) t L) as (d & pe & E & L' & O & _).
  - intros key e Hi pe Hpe. destruct (Th _ _ Hi) as [Hk Le].
    assert (Rd : forall c, c = Ez \/ c = Hx \/ c = Hy -> forall i, (0 <= i < Z.of_nat (Z.to_nat (sm_len m)))%Z -> exists v, interpolate (g_dx g) F c (surf_pos g (sm_surf m) ic i) = Ok v).
    { intros c H3 i Hi'. apply readable_ok; auto. apply three; [exact H3|]. apply Hc. lia. }
    change (@T RNum) with R in *. rewrite Le. unfold surf_sample.
    destruct Hk as [<-|[<-|[<-|[]]]]; cbn [comp_name String.eqb Ascii.eqb Bool.eqb].
    + destruct (sample_E_total (g_dx g) F (surf_pos g (sm_surf m) ic) pe _ Hpe (Rd Ez ltac:(auto))) as (gs & pe' & X & L1 & L2). rewrite X. eauto 6.
    + destruct (for_samples_total _ _ (Rd Hx ltac:(auto))) as (l & X & L1). rewrite X. cbn [bind]. eauto 6.
    + destruct (for_samples_total _ _ (Rd Hy ltac:(auto))) as (l & X & L1). rewrite X. cbn [bind]. eauto 6.
  - rewrite E. cbn [bind]. eexists. split; [reflexivity|]. split; cbn [sm_prevE sm_len sm_dft sm_surf]; [exact L'| |eauto]. now apply (thin_outline (sm_dft m)).
Qed.
Lemma surf_keys_range k z key : In key (surf_keys k z) -> In key ["Ez"; "Hx"; "Hy"]%string.
Proof. destruct k; cbn; try destruct (z =? 0)%Z; cbn; tauto. Qed.
Lemma surf_live_attach g name a b sg s k freq : 0 < g_dx g -> mk_surface a b sg = Ok s -> segment_inside g a b ->
  exists m, surf_attach g (mk_surf_mon name s k freq) = Ok m /\ surf_live g m.
Proof.
  intros Hd Hs (A & B & EA & EB & Hne & HL & Hr).
  destruct (to_grid_surface_ok g a b sg s A B Hs EA EB Hne HL) as (ic & Ec & Ia & Ib & _).
  assert (En := edges_norm _ _ _ _ _ _ Hs Ec). rewrite Ia, Ib in En.
  destruct (adds_total (edges A B)) with (ks := surf_keys k (fst (is_dim ic))) (d := mk_dft freq) as [d Ed]; [unfold edges; lia|].
  unfold surf_attach. cbn [mk_surf_mon sm_surf sm_dft sm_kind sm_name]. rewrite Ec. cbn [bind]. rewrite En. cbn [bind]. rewrite Ed. cbn [bind].
  eexists. split; [reflexivity|]. split; cbn [sm_prevE sm_len sm_dft sm_surf].
  - apply repeat_length.
  - assert (F0 : fresh (mk_dft freq) (edges A B) []) by (split; [constructor|reflexivity]).
    destruct (dft_adds_fresh _ _ _ _ _ F0 Ed) as (_ & _ & A3). cbn [app] in A3. apply fresh_thin in A3.
    intros key e Hi. destruct (A3 _ _ Hi) as [H1 H2]. split; [now apply surf_keys_range in H1|exact H2].
  - exists ic. split; [exact Ec|]. intros i Hi. rewrite (surf_pos_middle _ _ _ _ _ _ _ Hd Hs Ec), Ia, Ib. auto.
Qed.

(** *** Boxes *)
Definition box_live (g : grid) (m : box_mon) : Prop := Forall (surf_live g) (bm_sides m).
Lemma mapM_total {A B} (P : A -> Prop) (Q : B -> Prop) (f : A -> res B) : (forall a, P a -> exists b, f a = Ok b /\ Q b) -> forall l, Forall P l -> exists r, mapM f l = Ok r /\ Forall Q r.
Proof.
  intros H. induction 1 as [|a l Ha Hl (r & E & Hr)]; cbn [mapM]; [eauto|]. destruct (H a Ha) as (b & Eb & Hb). rewrite Eb. cbn [bind]. rewrite E. cbn [bind]. eauto.
Qed.
Lemma box_live_update g F t m : small g -> fdims (g_Nx g) (g_Ny g) F -> box_live g m -> exists m', box_update g F t m = Ok m' /\ box_live g m'.
Proof.
  intros Hg HF H. unfold box_update. destruct (mapM_total _ _ (surf_update g F t) (fun a => surf_live_update g F t a Hg HF) _ H) as (r & E & Hr).
  rewrite E. cbn [bind]. eauto.
Qed.
Lemma box_live_attach g name v k freq m : 0 < g_dx g -> mk_box_mon name v k freq = Ok m ->
  let a := v_a v in let b := v_b v in
  segment_inside g a (fst b, snd a) -> segment_inside g (fst b, snd a) b -> segment_inside g b (fst a, snd b) -> segment_inside g (fst a, snd b) a ->
  exists m', box_attach g m = Ok m' /\ box_live g m'.
Proof.
  intros Hd Hm a b S1 S2 S3 S4. destruct (mk_box_sides _ _ _ _ _ Hm) as (_ & _ & s1 & s2 & s3 & s4 & E1 & E2 & E3 & E4 & Sd).
  unfold box_attach. rewrite Sd. unfold get_surface in *.
  destruct (surf_live_attach g (name ++ "_1") _ _ _ _ k freq Hd E1 S1) as (x1 & X1 & Y1).
  destruct (surf_live_attach g (name ++ "_2") _ _ _ _ k freq Hd E2 S2) as (x2 & X2 & Y2).
  destruct (surf_live_attach g (name ++ "_3") _ _ _ _ k freq Hd E3 S3) as (x3 & X3 & Y3).
  destruct (surf_live_attach g (name ++ "_4") _ _ _ _ k freq Hd E4 S4) as (x4 & X4 & Y4).
  cbn [mapM]. rewrite X1, X2, X3, X4. cbn [bind]. eexists. split; [reflexivity|]. unfold box_live. cbn [bm_sides]. do 4 (apply Forall_cons; [assumption|]). apply Forall_nil.
Qed.

(** *** Circles *)
Record cyl_live (g : grid) (m : cyl_mon) : Prop := CylLive {
  cl_len : List.length (cm_prevE m) = Z.to_nat (cm_len m);
  cl_thin : thin (cm_dft m) (cm_len m) ["Ez"; "Hp"; "Hr"]%string;
  cl_cells : forall i, (0 <= i < cm_len m)%Z -> readable3 g (cs_position (cm_surf m) (cyl_theta (cm_len m) i)) }.
Lemma cyl_live_update g F t m : small g -> fdims (g_Nx g) (g_Ny g) F -> cyl_live g m -> exists m', cyl_update g F t m = Ok m' /\ cyl_live g m'.
Proof.
  intros Hg HF [L Th Hc]. unfold cyl_update.
  destruct (update_total (cyl_sample g F (cm_surf m) (cm_len m)) (fun pe => List.length pe = Z.to_nat (cm_len m)) (cm_prevE m) (cm_dft m) t L) as (d & pe & E & L' & O & _).
  - intros key e Hi pe Hpe. destruct (Th _ _ Hi) as [Hk Le].
    assert (Rd : forall c, c = Ez \/ c = Hx \/ c = Hy -> forall i, (0 <= i < Z.of_nat (Z.to_nat (cm_len m)))%Z -> exists v, interpolate (g_dx g) F c (cs_position (cm_surf m) (cyl_theta (cm_len m) i)) = Ok v).
    { intros c H3 i Hi'. apply readable_ok; auto. apply three; [exact H3|]. apply Hc. lia. }
    assert (Rh : forall dir : R -> R * R, forall i, (0 <= i < Z.of_nat (Z.to_nat (cm_len m)))%Z -> exists v,
       (hx <- interpolate (g_dx g) F Hx (cs_position (cm_surf m) (cyl_theta (cm_len m) i)) ;;
        hy <- interpolate (g_dx g) F Hy (cs_position (cm_surf m) (cyl_theta (cm_len m) i)) ;; Ok (vdot (hx, hy) (dir (cyl_theta (cm_len m) i)))) = Ok v).
    { intros dir i Hi'. destruct (Rd Hx ltac:(auto) i Hi') as [x ->]. destruct (Rd Hy ltac:(auto) i Hi') as [y ->]. cbn [bind]. eauto. }
    change (@T RNum) with R in *. rewrite Le. unfold cyl_sample.
    destruct Hk as [<-|[<-|[<-|[]]]]; cbn [String.eqb Ascii.eqb Bool.eqb].
    + destruct (sample_E_total (g_dx g) F (fun i => cs_position (cm_surf m) (cyl_theta (cm_len m) i)) pe _ Hpe (Rd Ez ltac:(auto))) as (gs & pe' & X & L1 & L2). rewrite X. eauto 6.
    + destruct (for_samples_total _ _ (Rh cs_tangent)) as (l & X & L1). refine (ex_intro _ l (ex_intro _ pe _)). split; [|auto]. refine (eq_trans (f_equal (fun r => bind r _) X) _). reflexivity.
    + destruct (for_samples_total _ _ (Rh cs_normal)) as (l & X & L1). refine (ex_intro _ l (ex_intro _ pe _)). split; [|auto]. refine (eq_trans (f_equal (fun r => bind r _) X) _). reflexivity.
  - rewrite E. cbn [bind]. eexists. split; [reflexivity|]. split; cbn [cm_prevE cm_len cm_dft cm_surf]; [exact L'| |exact Hc]. now apply (thin_outline (cm_dft m)).
Qed.
Lemma cyl_live_attach g name cs all freq : circle_inside g cs -> exists m, cyl_attach g (mk_cyl_mon name cs all freq) = Ok m /\ cyl_live g m.
Proof.
  intros (n & Hn & En & Hr). unfold cyl_attach. cbn [mk_cyl_mon cm_surf cm_dft cm_all cm_name].
  match goal with |- context [nceil ?z] => change z with (2 * PI * cs_radius cs / g_dx g) end. rewrite En. cbn [ofOption bind]. replace (n <? 0)%Z with false by lia.
  destruct (adds_total n Hn (if all then ["Ez"; "Hp"; "Hr"] else ["Ez"; "Hp"])%string (mk_dft freq)) as [d Ed].
  change (@T RNum) with R in *. rewrite Ed. cbn [bind]. eexists. split; [reflexivity|]. split; cbn [cm_prevE cm_len cm_dft cm_surf].
  - apply repeat_length.
  - assert (F0 : fresh (mk_dft freq) n []) by (split; [constructor|reflexivity]).
    destruct (dft_adds_fresh _ _ _ _ _ F0 Ed) as (_ & _ & A3). cbn [app] in A3. apply fresh_thin in A3.
    intros key e Hi. destruct (A3 _ _ Hi) as [H1 H2]. split; [|exact H2]. destruct all; cbn in *; tauto.
  - intros i Hi. destruct (cyl_place cs n i) as [-> _]. auto.
Qed.

(** *** Blocks *)
Record vol_live (g : grid) (m : vol_mon) : Prop := VolLive {
  vl_cells : exists iv, to_grid_volume g (vm_vol m) = Ok iv /\ (0 < vm_ny m)%Z /\
    thin (vm_dft m) ((fst (iv_dim iv) + 1) * vm_ny m) ["Ez"; "Hx"; "Hy"]%string /\
    forall i j, (0 <= i < fst (iv_dim iv) + 1)%Z -> (0 <= j < vm_ny m)%Z -> in_grid (g_Nx g) (g_Ny g) (iadd (iv_a iv) (i, j)) }.
Lemma vol_live_update g F t m : fdims (g_Nx g) (g_Ny g) F -> vol_live g m -> exists m', vol_update g F t m = Ok m' /\ vol_live g m'.
Proof.
  intros ((A1 & A2) & (B1 & B2) & (C1 & C2)) [(iv & Ev & Hny & Th & Hc)]. unfold vol_update. rewrite Ev. cbn [bind].
  destruct (update_total (vol_sample F iv (vm_ny m)) (fun _ => True) tt (vm_dft m) t Logic.I) as (d & pe & E & L' & O & _).
  - intros key e Hi pe _. destruct (Th _ _ Hi) as [Hk Le]. change (@T RNum) with R in *. rewrite Le. unfold vol_sample.
    assert (Rd : forall f, rows f = g_Nx g -> cols f = g_Ny g -> exists l, for_samples (Z.to_nat ((fst (iv_dim iv) + 1) * vm_ny m)) (fun k => tat f (iadd (iv_a iv) (k / vm_ny m, k mod vm_ny m)%Z)) = Ok l /\
        List.length l = Z.to_nat ((fst (iv_dim iv) + 1) * vm_ny m)).
    { intros f F1 F2. apply for_samples_total. intros k Hk'.
      assert (0 <= k / vm_ny m < fst (iv_dim iv) + 1)%Z by (split; [apply Z.div_pos; lia|apply Z.div_lt_upper_bound; lia]).
      assert (0 <= k mod vm_ny m < vm_ny m)%Z by (apply Z.mod_pos_bound; lia).
      destruct (Hc _ _ H H0) as [X Y]. unfold tat. rewrite tget_in; [eauto| |]; rewrite ?F1, ?F2; lia. }
    destruct Hk as [<-|[<-|[<-|[]]]]; cbn [comp_name String.eqb Ascii.eqb Bool.eqb get_field bind].
    + destruct (Rd (fEz F) A1 A2) as (l & X & Y). rewrite X. cbn [bind]. eauto 6.
    + destruct (Rd (fHx F) B1 B2) as (l & X & Y). rewrite X. cbn [bind]. eauto 6.
    + destruct (Rd (fHy F) C1 C2) as (l & X & Y). rewrite X. cbn [bind]. eauto 6.
  - rewrite E. cbn [bind]. eexists. split; [reflexivity|]. split. exists iv. cbn [vm_vol vm_ny vm_dft]. split; [exact Ev|]. split; [exact Hny|]. split; [|exact Hc]. now apply (thin_outline (vm_dft m)).
Qed.
Lemma vol_live_attach g name v k freq : block_inside g v -> exists m, vol_attach g (mk_vol_mon name v k freq) = Ok m /\ vol_live g m.
Proof.
  intros (A & B & EA & EB & H1 & H2 & GA & GB). unfold vol_attach. cbn [mk_vol_mon vm_vol vm_dft vm_kind vm_name].
  assert (Ev : to_grid_volume g v = Ok (mk_ivolume A B)) by (unfold to_grid_volume; rewrite EA, EB; reflexivity). rewrite Ev. cbn [bind mk_ivolume iv_dim fst snd].
  set (nx := (Z.abs (fst A - fst B) + 1)%Z). set (ny := (Z.abs (snd A - snd B) + 1)%Z).
  destruct (adds_total (nx * ny) ltac:(unfold nx, ny; lia) (cart_keys k) (mk_dft freq)) as [d Ed]. rewrite Ed. cbn [bind]. eexists. split; [reflexivity|].
  split. exists (mk_ivolume A B). cbn [vm_vol vm_ny vm_dft mk_ivolume iv_dim fst snd iv_a]. split; [exact Ev|]. split; [unfold ny; lia|]. split.
  - assert (F0 : fresh (mk_dft freq) (nx * ny) []) by (split; [constructor|reflexivity]).
    destruct (dft_adds_fresh _ _ _ _ _ F0 Ed) as (_ & _ & A3). cbn [app] in A3. apply fresh_thin in A3.
    intros key e Hi. destruct (A3 _ _ Hi) as [X Y]. split; [|exact Y]. destruct k; cbn in *; tauto.
  - unfold in_grid, iadd in *. cbn [fst snd] in *. unfold nx, ny. intros. lia.
Qed.

(** *** Any of these *)
Definition mon_live (g : grid) (m : monitor) : Prop :=
  match m with MSurf m => surf_live g m | MBox m => box_live g m | MCyl m => cyl_live g m | MVol m => vol_live g m | MPt _ => False end.
Lemma mon_live_update g F t m : small g -> fdims (g_Nx g) (g_Ny g) F -> mon_live g m -> exists m', mon_update g F t m = Ok m' /\ mon_live g m'.
Proof.
  intros Hg HF. destruct m as [m|m|m|m|m]; cbn [mon_live mon_update]; intros H; [| | | |destruct H].
  - destruct (surf_live_update g F t m Hg HF H) as (x & -> & Hx). cbn [bind]. eauto.
  - destruct (box_live_update g F t m Hg HF H) as (x & -> & Hx). cbn [bind]. eauto.
  - destruct (cyl_live_update g F t m Hg HF H) as (x & -> & Hx). cbn [bind]. eauto.
  - destruct (vol_live_update g F t m HF H) as (x & -> & Hx). cbn [bind]. eauto.
Qed.
Lemma mon_live_attach g m : 0 < g_dx g -> watches g m -> exists m', mon_attach g m = Ok m' /\ mon_live g m'.
Proof.
  intros Hd H. inversion H; subst; cbn [mon_attach].
  - destruct (surf_live_attach g name a b sg s k freq Hd H0 H1) as (x & -> & Hx). cbn [bind]. eauto.
  - destruct (box_live_attach g name v k freq m0 Hd H0 H1 H2 H3 H4) as (x & -> & Hx). cbn [bind]. eauto.
  - destruct (cyl_live_attach g name cs all freq H0) as (x & -> & Hx). cbn [bind]. eauto.
  - destruct (vol_live_attach g name v k freq H0) as (x & -> & Hx). cbn [bind]. eauto.
Qed.
Lemma mon_feed_total g m : small g -> mon_live g m -> forall l, Forall (fun tF => fdims (g_Nx g) (g_Ny g) (snd tF)) l -> exists m', mon_feed g l m = Ok m' /\ mon_live g m'.
Proof.
  intros Hg Hm l Hl. revert m Hm. induction Hl as [|[t F] l HF Hl IH]; intros m Hm; cbn [mon_feed foldM]; [eauto|]. cbn [fst snd] in *.
  destruct (mon_live_update g F t m Hg HF Hm) as (m1 & E & H1). rewrite E. cbn [bind]. now apply IH.
Qed.
