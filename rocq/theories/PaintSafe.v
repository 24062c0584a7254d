(** Adding objects never leaves the arrays when the object's box is in the domain. *)
From Coq Require Import ZArith Reals List Bool String Lia Psatz.
From Verif Require Import Scalar Base BaseFacts VecM GridM GeometryM MaterialM PmlM DftM TfsfM PolarM
  InterpM H5M ClockM MonitorM FieldM SpecGrid GridFacts SpecGeometry GeometryFacts OutFacts PhysFacts
  SpecPaint PaintFacts WfFacts ReachFacts ExampleFacts.
From Verif Require Import OpsFacts.
Import ListNotations.
Local Open Scope R_scope.
#[local] Existing Instance RNum.

Definition no_ub {A} (r : res A) : Prop := forall u, r <> UB u.
Lemma no_ub_bind {A B} (r : res A) (k : A -> res B) : no_ub r -> (forall a, no_ub (k a)) -> no_ub (bind r k).
Proof. intros H1 H2. destruct r as [a|e|u]; cbn [bind]; [apply H2|discriminate|destruct (H1 u eq_refl)]. Qed.
Lemma no_ub_foldM {A B} (f : A -> B -> res A) l : (forall a b, no_ub (f a b)) -> forall a, no_ub (foldM f a l).
Proof.
  intros H. induction l as [|x l IH]; intros a; cbn [foldM]; [discriminate|].
  apply no_ub_bind; [apply H|exact IH].
Qed.
Section H5.
Context {N : Num}.
Lemma h5_group_no_ub f p : no_ub (h5_group f p).
Proof. unfold h5_group. destruct (slookup p f) as [[|]|]; discriminate. Qed.
Lemma h5_create_no_ub f p b v : no_ub (h5_create f p b v).
Proof. unfold h5_create. destruct (slookup p f) as [[|]|]; discriminate. Qed.
Lemma h5_append_no_ub f p v : no_ub (h5_append f p v).
Proof. unfold h5_append. destruct (slookup p f) as [[|[|]]|]; discriminate. Qed.
Lemma h5_groups_no_ub f l : no_ub (h5_groups f l).
Proof. apply no_ub_foldM. intros. apply h5_group_no_ub. Qed.
Lemma h5_creates_no_ub f p l : no_ub (h5_creates f p l).
Proof. apply no_ub_foldM. intros a [n v]. apply h5_create_no_ub. Qed.
Lemma h5_ops_no_ub f l : no_ub (h5_ops f l).
Proof.
  apply no_ub_foldM. intros a o. destruct o; cbn [h5_op]; [apply h5_group_no_ub|apply h5_create_no_ub|apply h5_append_no_ub|].
  destruct (h5_exists a q); [apply h5_create_no_ub|discriminate].
Qed.
Lemma write_mat_no_ub f m : no_ub (write_mat f m).
Proof. apply h5_ops_no_ub. Qed.
Lemma write_obj_no_ub f o : no_ub (write_obj f o).
Proof. apply h5_ops_no_ub. Qed.
End H5.

Lemma add_object_defined (g : grid) (o : obj) s u :
  grid_ok g -> roomy g -> good g s ->
  in_box (v_a (domain g)) (v_b (domain g)) (v_a (obj_box o)) ->
  in_box (v_a (domain g)) (v_b (domain g)) (v_b (obj_box o)) ->
  add_object o s <> Undef u.
Proof.
  intros Hg Hr Hs Ha Hb. unfold add_object, register_mat.
  assert (K : forall s1, f_ph s1 = f_ph s ->
    (on_ph (paint_phys o) s1 >>= on_ph (insert_material o) >>=
      (fun s => prim (half_written (obj_ops o) s) (write_obj (f_h5 s) o) (fun f => Fine (set_f_h5 f s))) >>=
      (fun s => Fine (map_ph (fun p => set_ph_objs (ph_objs p ++ [o]) p) s))) <> Undef u).
  { intros s1 E1. unfold on_ph at 1, paint_phys at 1. rewrite E1.
    destruct Hs as [Hw Eg]. destruct (paint_in_domain g o (ph_C (f_ph s)) Hg) as [c Ec]; auto.
    { rewrite <- Eg. apply (wf_C _ Hw). }
    rewrite Eg, Ec. cbn [bind prim obind]. unfold on_ph. cbn [f_ph set_f_ph].
    set (p1 := set_ph_C c (f_ph s)).
    assert (Hw1 : wf_phys p1).
    { apply (paint_phys_wf o (f_ph s)); [|exact Hw]. unfold paint_phys. rewrite Eg, Ec. reflexivity. }
    destruct (insert_material_total o p1 Hw1) as [p2 ->].
    { unfold p1. cbn. rewrite Eg. unfold roomy in Hr. lia. }
    { unfold p1. cbn. rewrite Eg. unfold roomy in Hr. lia. }
    cbn [prim obind f_h5 set_f_ph]. destruct (write_obj _ o) eqn:Ew; cbn [prim obind]; try discriminate.
    now apply write_obj_no_ub in Ew. }
  destruct (str_in _ _); cbn [obind]; [apply K; reflexivity|].
  cbn [f_h5 set_f_mats]. destruct (write_mat _ _) eqn:Ew; cbn [prim obind]; try discriminate.
  - apply K. reflexivity.
  - now apply write_mat_no_ub in Ew.
Qed.

Lemma add_reachable_defined (g : grid) (o : obj) s u :
  grid_ok g -> roomy g -> reachable g s ->
  in_box (v_a (domain g)) (v_b (domain g)) (v_a (obj_box o)) ->
  in_box (v_a (domain g)) (v_b (domain g)) (v_b (obj_box o)) ->
  exec (AddObject o) s <> Undef u.
Proof. intros Hg Hr Hs. apply (add_object_defined g); auto. now apply reachable_good. Qed.

(** the block that sticks out of the right side of an 8 by 8 grid *)
Lemma stray_undefined : exists (g : grid) s0 u, mk_grid 8 8 1 1 = Ok g /\ mk_field g "out" = Ok s0 /\
  exec (AddObject stray) s0 = Undef u.
Proof.
  destruct grid8 as (g & Eg & Hok & Nx & Ny & Hdx & HLx & HLy & Hp).
  assert (Hr : roomy g) by (unfold roomy; lia).
  destruct (mk_field_fresh g "out" Hr) as (p & Ep & E0); [discriminate|].
  destruct (mk_phys_ok g Hr) as (p' & Ep' & Hw & Gp & _). rewrite Ep in Ep'. injection Ep' as <-.
  destruct (stray_paint g (ph_C p) Nx Ny Hdx) as [u Hu].
  { assert (D := wf_C p Hw). rewrite Gp, Nx, Ny in D. exact D. }
  exists g, (Field p [] [] [] (fresh_h5 g) mk_clocks), u. split; [exact Eg|]. split; [exact E0|].
  cbn [exec]. unfold add_object.
  assert (Em : exists s1, register_mat stray (Field p [] [] [] (fresh_h5 g) mk_clocks) = Fine s1 /\ f_ph s1 = p).
  { eexists. split; reflexivity. }
  destruct Em as (s1 & -> & E1). cbn [obind]. unfold on_ph at 1, paint_phys at 1. rewrite E1, Gp, Hu. reflexivity.
Qed.

(** update_material_grid gives the same coefficients as a fresh field with the same objects *)
Lemma repaint_same_as_fresh (g : grid) fname s0 l s s' fname' s0' s'' :
  grid_ok g -> mk_field g fname = Ok s0 -> run l s0 = Fine s ->
  Forall (fun o => shape_ok (o_geom o)) (ph_objs (f_ph s)) ->
  exec UpdateMaterialGrid s = Fine s' ->
  mk_field g fname' = Ok s0' -> run (map AddObject (ph_objs (f_ph s))) s0' = Fine s'' ->
  forall i j, in_grid (g_Nx g) (g_Ny g) (i, j) -> cell (ph_C (f_ph s')) i j = cell (ph_C (f_ph s'')) i j.
Proof.
  intros Hg H0 Hr Hf H H0' Hr' i j Hij.
  destruct (repaint_from_poses g fname s0 l s s' Hg H0 Hr Hf H) as (_ & Sh & _).
  assert (Ea : added (map AddObject (ph_objs (f_ph s))) = ph_objs (f_ph s)).
  { generalize (ph_objs (f_ph s)). induction l0 as [|x l0 IH]; cbn; [reflexivity|]. f_equal. exact IH. }
  destruct (painting_last_wins g fname' s0' _ s'' Hg H0' Hr') as [_ Sh'].
  { generalize (ph_objs (f_ph s)). induction l0 as [|x l0 IH]; cbn; [reflexivity|]. exact IH. }
  { now rewrite Ea. }
  rewrite Ea in Sh'.
  destruct (material_at_exists (ph_objs (f_ph s)) vacuum (g_dx g * IZR i, g_dx g * IZR j)) as [k Hk].
  rewrite (Sh i j k Hij Hk), (Sh' i j k Hij Hk). reflexivity.
Qed.

(** the demo run, followed by a move of the block and a rebuild *)
Lemma update_material_grid_domain (g : grid) p :
  grid_ok g -> ph_grid p = g -> wf_phys p ->
  (forall o, In o (ph_objs p) -> in_box (v_a (domain g)) (v_b (domain g)) (v_a (obj_box o)) /\
      in_box (v_a (domain g)) (v_b (domain g)) (v_b (obj_box o))) ->
  exists p', update_material_grid p = Ok p'.
Proof.
  intros Hg Eg Hw Hb. unfold update_material_grid.
  destruct (clear_coefs_total (ph_grid p) (ph_bg p) (ph_C p) (wf_C p Hw)) as [c [Ec Hc]]. rewrite Ec. cbn [bind].
  assert (Hw1 : wf_phys (set_ph_C c p)) by (wfcon Hw; exact Hc).
  assert (Hi : incl (ph_objs p) (ph_objs (set_ph_C c p))) by (intros x Hx; exact Hx).
  assert (Eg1 : ph_grid (set_ph_C c p) = g) by exact Eg.
  revert Hw1 Hi Eg1 Hb. generalize (set_ph_C c p) as q. generalize (ph_objs p) as l.
  induction l as [|o l IH]; intros q Hw1 Hi Eg1 Hb; cbn [foldM]; [eauto|].
  destruct (Hb o) as [B1 B2]; [now left|].
  destruct (paint_in_domain g o (ph_C q) Hg) as [c' Ec']; auto; [rewrite <- Eg1; apply (wf_C q Hw1)|].
  assert (Ep : paint_phys o q = Ok (set_ph_C c' q)) by (unfold paint_phys; rewrite Eg1, Ec'; reflexivity).
  assert (Hw2 := paint_phys_wf _ _ _ Ep Hw1).
  assert (Er : repaint_one q o = reinsert_material o (set_ph_C c' q)) by (unfold repaint_one; now rewrite Ep).
  rewrite Er.
  assert (Hk1 : keys_ok (set_ph_C c' q) o).
  { assert (K := wf_keys _ Hw2). rewrite Forall_forall in K. apply K. cbn. apply Hi. now left. }
  destruct (reinsert_material_total o _ Hw2 Hk1) as [q2 E2]. rewrite E2.
  cbn [bind]. assert (Hw3 := reinsert_material_wf _ _ _ E2 Hw2).
  apply reinsert_material_frame in E2. cbn in E2. destruct E2 as (F1 & F2 & F3 & F4 & F5).
  apply IH.
  - exact Hw3.
  - rewrite F3. intros x Hx. apply Hi. now right.
  - now rewrite F1.
  - intros o' Ho'. apply Hb. now right.
Qed.

Lemma demo_moved_run : exists (g : grid) s0 s s', mk_grid 8 8 1 1 = Ok g /\ grid_ok g /\ mk_field g "out" = Ok s0 /\
  run (demo_cmds ++ [Move 1 (1, 0)]) s0 = Fine s /\ exec UpdateMaterialGrid s = Fine s' /\
  Forall (fun o => shape_ok (o_geom o)) (ph_objs (f_ph s)) /\
  ph_objs (f_ph s) = [disk; obj_move (1, 0) chip].
Proof.
  destruct demo_run as (g & s0 & s1 & Eg & Hok & Hr & Nx & Ny & Hdx & E0 & E1 & Gd & _ & _ & _ & _ & _ & _ & Ho).
  set (s := map_ph (fun p => set_ph_objs [disk; obj_move (1, 0) chip] p) s1).
  assert (Em : exec (Move 1 (1, 0)) s1 = Fine s).
  { cbn [exec]. unfold on_obj. rewrite Ho. cbn [nth_error chip o_dyn]. unfold s, map_ph. rewrite Ho. reflexivity. }
  assert (Gs : good g s).
  { assert (H := exec_post g Hr (Move 1 (1, 0)) _ Gd). now rewrite Em in H. }
  destruct disk_box as [D1 D2], chip_box as [D3 D4].
  assert (HL : g_Lx g = 7 /\ g_Ly g = 7).
  { destruct Hok as (_ & _ & _ & -> & -> & _). rewrite Nx, Ny, Hdx. rnumg. lra. }
  destruct (update_material_grid_domain g (f_ph s) Hok (proj2 Gs) (proj1 Gs)) as [p' Ep'].
  { intros o Ho'. change (ph_objs (f_ph s)) with [disk; obj_move (1, 0) chip] in Ho'. destruct HL as [HLx HLy].
    destruct Ho' as [<- | [<- | []]].
    - rewrite D1, D2. unfold in_box, domain. cbn [mk_volume v_a v_b fst snd]. rewrite HLx, HLy. rnumg. lra.
    - assert (Ea : v_a (obj_box (obj_move (1, 0) chip)) = vadd (v_a (obj_box chip)) (1, 0) /\
                   v_b (obj_box (obj_move (1, 0) chip)) = vadd (v_b (obj_box chip)) (1, 0)).
      { unfold obj_box, place_box, vol_translate, obj_move, mk_volume.
        cbn [o_geom o_pos o_theta chip v_a v_b]. unfold vadd. cbn [fst snd].
        split; apply injective_projections; cbn [fst snd]; rnumg; ring. }
      destruct Ea as [-> ->]. rewrite D3, D4. unfold in_box, domain, vadd. cbn [mk_volume v_a v_b fst snd].
      rewrite HLx, HLy. rnumg. lra. }
  exists g, s0, s, (set_f_ph p' s). split; [exact Eg|]. split; [exact Hok|]. split; [exact E0|]. split.
  { rewrite run_app, E1. cbn [obind run]. rewrite Em. reflexivity. }
  split. { cbn [exec]. unfold on_ph. rewrite Ep'. reflexivity. }
  split; [|reflexivity]. cbn. constructor; [|constructor; [|constructor]]; cbn; [lra|exact I].
Qed.
Lemma demo_moved : exists (g : grid) s0 s s', grid_ok g /\ mk_field g "out" = Ok s0 /\
  run (demo_cmds ++ [Move 1 (1, 0)]) s0 = Fine s /\ exec UpdateMaterialGrid s = Fine s' /\
  Forall (fun o => shape_ok (o_geom o)) (ph_objs (f_ph s)) /\
  ph_objs (f_ph s) = [disk; obj_move (1, 0) chip].
Proof. destruct demo_moved_run as (g & s0 & s & s' & _ & H). exists g, s0, s, s'. exact H. Qed.
