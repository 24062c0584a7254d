(** What a call that raises an exception changes of the simulation. *)
From Coq Require Import ZArith Reals String Ascii List Bool Lia.
From Verif Require Import Scalar Base BaseFacts VecM GridM GeometryM MaterialM PmlM DftM TfsfM PolarM
  InterpM H5M ClockM MonitorM FieldM ReportM OutFacts PhysFacts OpsFacts SpecGrid GridFacts SpecGeometry SpecPaint PaintFacts PaintSafe WfFacts ReachFacts InvFacts SpecSafety SafeFacts
  SpecOutput PassiveFacts EditFacts SpecFile FileFacts SpecInterrupt InterruptFacts SpecProgram ViewFacts.
Import ListNotations.
Local Open Scope Z_scope.

Section Retain.
Context {N : Num}.

Lemma same_refl s : same_but_file s s. Proof. repeat split. Qed.
Lemma prim_raise {A} s0 (r : res A) (k : A -> out field) e s' : prim s0 r k = Raise e s' -> (r = Throw e /\ s' = s0) \/ exists a, r = Ok a /\ k a = Raise e s'.
Proof. destruct r; cbn; intros H; [eauto|injection H as <- <-; auto|discriminate]. Qed.
Lemma obind_raise (m : out field) k e s' : (m >>= k) = Raise e s' -> m = Raise e s' \/ exists a, m = Fine a /\ k a = Raise e s'.
Proof. destruct m; cbn; intros H; eauto. Qed.

Lemma add_monitor_unchanged m s e s' : add_monitor m s = Raise e s' -> same_but_file s s'.
Proof.
  unfold add_monitor. intros H. apply prim_raise in H. destruct H as [[_ ->]|(m' & _ & H)]; [apply same_refl|]. apply prim_raise in H. destruct H as [[_ ->]|(f & _ & H)]; [repeat split|discriminate].
Qed.
Theorem raised_unchanged c s e s' : additive c -> exec_call c s = Raise e s' -> same_but_file s s'.
Proof.
  destruct c as [c|i q| |]; [destruct c| | |]; cbn [additive exec_call exec]; intros A H; try contradiction.
  - unfold add_source in H. apply prim_raise in H. destruct H as [[_ ->]|(f & _ & H)]; [repeat split|discriminate].
  - now apply add_monitor_unchanged in H.
  - unfold add_tmon in H. apply prim_raise in H. destruct H as [[_ ->]|(f & _ & H)]; [repeat split|discriminate].
  - unfold write_monitor_data in H. destruct (nth_error _ _) as [m|]; [|discriminate]. destruct (mon_sub_name m). cbv zeta in H. apply prim_raise in H. destruct H as [[_ ->]|(f & _ & H)]; [repeat split|discriminate].
  - unfold write_current in H. destruct (nth_error _ _) as [o|]; [|discriminate]. destruct (o_dyn o); [|discriminate]. cbv zeta in H. apply prim_raise in H. destruct H as [[_ ->]|(f & _ & H)]; [repeat split|discriminate].
  - unfold get_box_monitor in H. destruct (nth_error _ _) as [o|]; [|discriminate]. apply prim_raise in H. destruct H as [[_ ->]|(m & _ & H)]; [apply same_refl|]. now apply add_monitor_unchanged in H.
  - unfold report in H. destruct (nth_error _ _) as [m|]; [|discriminate]. destruct (mon_sub_name m). apply prim_raise in H. destruct H as [[_ ->]|(v & _ & H)]; [apply same_refl|]. cbv zeta in H. apply prim_raise in H. destruct H as [[_ ->]|(f & _ & H)]; [repeat split|discriminate].
  - unfold report_tfsf in H. destruct (ph_tfsf _) as [q|]; [|discriminate]. apply prim_raise in H. destruct H as [[_ ->]|(v & _ & H)]; [apply same_refl|discriminate].
Qed.
(** adding an object or setting a total-field source: what stays *)
Theorem raised_tfsf v tp s e s' : exec (SetTfsf v tp) s = Raise e s' ->
  f_mons s' = f_mons s /\ f_tmons s' = f_tmons s /\ f_mats s' = f_mats s /\ f_clk s' = f_clk s /\
  (f_ph s' = f_ph s \/ exists q, q_vol q = v /\ q_tp q = tp /\ f_ph s' = set_ph_tfsf (Some q) (f_ph s)).
Proof.
  cbn [exec]. unfold set_tfsf. intros H. apply prim_raise in H. destruct H as [[_ ->]|(q & Hq & H)]; [auto 10|]. cbv zeta in H. apply prim_raise in H. destruct H as [[_ ->]|(f & _ & H)]; [|discriminate].
  repeat (split; [reflexivity|]). right. exists q. assert (Eq : q_vol q = v /\ q_tp q = tp) by (unfold mk_tfsf in Hq; inv_ok; auto). tauto.
Qed.
Lemma insert_frame o p p' : insert_material o p = Ok p' -> ph_C p' = ph_C p /\ ph_F p' = ph_F p /\ ph_objs p' = ph_objs p /\ ph_srcs p' = ph_srcs p /\ ph_tfsf p' = ph_tfsf p /\ ph_t p' = ph_t p /\ ph_step p' = ph_step p.
Proof. unfold insert_material. destruct (m_kind (o_mat o)); intros H; inv_ok; try (injection H as <-); auto 10. all: rewrite <- H; cbn; auto 10. Qed.
Theorem raised_object o s e s' : exec (AddObject o) s = Raise e s' ->
  f_mons s' = f_mons s /\ f_tmons s' = f_tmons s /\ f_clk s' = f_clk s /\ ph_F (f_ph s') = ph_F (f_ph s) /\ ph_objs (f_ph s') = ph_objs (f_ph s) /\
  ph_srcs (f_ph s') = ph_srcs (f_ph s) /\ ph_tfsf (f_ph s') = ph_tfsf (f_ph s) /\ ph_t (f_ph s') = ph_t (f_ph s) /\ ph_step (f_ph s') = ph_step (f_ph s).
Proof.
  cbn [exec]. unfold add_object. intros H. apply obind_raise in H. destruct H as [H|(a & _ & H)]; [|discriminate].
  assert (R : forall x, register_mat o s = Fine x \/ register_mat o s = Raise e x -> f_mons x = f_mons s /\ f_tmons x = f_tmons s /\ f_clk x = f_clk s /\ f_ph x = f_ph s).
  { intros x Hx. unfold register_mat in Hx. destruct (str_in _ _); [destruct Hx as [Hx|Hx]; [injection Hx as <-; auto|discriminate]|]. cbv zeta in Hx. destruct (write_mat _ _); cbn [prim] in Hx; destruct Hx as [Hx|Hx]; try discriminate; [injection Hx as <-|injection Hx as _ <-]; cbn; auto. }
  apply obind_raise in H. destruct H as [H|(s3 & H & H4)].
  - apply obind_raise in H. destruct H as [H|(s2 & H & H3)].
    + apply obind_raise in H. destruct H as [H|(s1 & H & H2)].
      * destruct (R s' (or_intror H)) as (A & B & C & D). rewrite A, B, C, D. auto 10.
      * destruct (R s1 (or_introl H)) as (A & B & C & D). unfold on_ph in H2. apply prim_raise in H2. destruct H2 as [[_ ->]|(x & _ & H2)]; [rewrite A, B, C, D; auto 10|discriminate].
    + apply obind_fine in H. destruct H as (s1 & H & H2). destruct (R s1 (or_introl H)) as (A & B & C & D). unfold on_ph in H2, H3. apply prim_fine in H2. destruct H2 as (p & Hp & H2). injection H2 as <-.
      apply prim_raise in H3. destruct H3 as [[_ ->]|(x & _ & H3)]; [|discriminate]. cbn [f_mons f_tmons f_clk f_ph set_f_ph]. apply bind_ok in Hp. destruct Hp as (c & _ & Hp). injection Hp as <-. cbn. rewrite A, B, C, D. auto 10.
  - apply obind_fine in H. destruct H as (s2 & H & H3). apply obind_fine in H. destruct H as (s1 & H & H2). destruct (R s1 (or_introl H)) as (A & B & C & D).
    unfold on_ph in H2, H3. apply prim_fine in H2. destruct H2 as (p & Hp & H2). injection H2 as <-. apply prim_fine in H3. destruct H3 as (p3 & Hp3 & H3). injection H3 as <-.
    apply prim_raise in H4. destruct H4 as [[_ ->]|(x & _ & H4)]; [|discriminate]. cbn [f_mons f_tmons f_clk f_ph set_f_ph half_written set_f_h5]. apply insert_frame in Hp3. cbn [f_ph set_f_ph] in Hp3.
    apply bind_ok in Hp. destruct Hp as (c & _ & Hp). injection Hp as <-. cbn in Hp3. rewrite A, B, C. rewrite D in Hp3. destruct Hp3 as (_ & X2 & X3 & X4 & X5 & X6 & X7). auto 10.
Qed.
Lemma ops_error l : forall f e, h5_ops f l = Throw e -> e = H5Error.
Proof.
  unfold h5_ops. induction l as [|x l IH]; cbn [foldM]; intros f e Ew; [discriminate|].
  destruct (h5_op f x) as [f1|e1|u] eqn:E1; cbn [bind] in Ew; [eauto| |discriminate]. injection Ew as ->. destruct x; cbn [h5_op] in E1; unfold h5_group, h5_create, h5_append in E1.
  - destruct (slookup p f) as [[|]|]; congruence.
  - destruct (slookup p f); congruence.
  - destruct (slookup p f) as [[|[|]]|]; congruence.
  - destruct (h5_exists f q); [destruct (slookup p f); congruence|congruence].
Qed.
End Retain.

Local Open Scope R_scope.
#[local] Existing Instance RNum.
(** an object whose name is taken, of a material already known: rejected, yet painted *)
Theorem rejected_object_painted (g : grid) s (o o' : obj) s1 : grid_ok g -> roomy g -> reachable g s -> exec (AddObject o) s = Fine s1 ->
  clash (Do (AddObject o)) (Do (AddObject o')) -> m_name (o_mat o') = m_name (o_mat o) -> shape_ok (o_geom o') ->
  in_box (v_a (domain g)) (v_b (domain g)) (v_a (obj_box o')) -> in_box (v_a (domain g)) (v_b (domain g)) (v_b (obj_box o')) ->
  exists s2, exec (AddObject o') s1 = Raise H5Error s2 /\ ph_objs (f_ph s2) = ph_objs (f_ph s1) /\
    forall i j, in_grid (g_Nx g) (g_Ny g) (i, j) -> in_obj o' (g_dx g * IZR i, g_dx g * IZR j) -> cell (ph_C (f_ph s2)) i j = mat_cell (m_kind (o_mat o')) (g_dt g).
Proof.
  intros Hg Hr Hs E C Em Sh Ha Hb. assert (Hs1 : reachable g s1) by (apply (run_reachable g s [AddObject o]); [exact Hs|cbn [run obind]; now rewrite E]).
  assert (Nf := names_once _ s s1 [] s1 _ C E eq_refl). cbn [exec_call] in Nf. destruct (reachable_good g s1 Hr Hs1) as [Hw Gg].
  assert (K : str_in (m_name (o_mat o')) (f_mats s1) = true).
  { apply RecordFacts.exec_mats in E. rewrite E, Em. destruct (str_in (m_name (o_mat o)) (f_mats s)) eqn:Es; [exact Es|]. unfold str_in. rewrite existsb_app. cbn [existsb]. now rewrite String.eqb_refl, orb_true_r. }
  destruct (paint_in_domain g o' (ph_C (f_ph s1)) Hg) as [c Ec]; auto. { rewrite <- Gg. apply (wf_C _ Hw). }
  set (p1 := set_ph_C c (f_ph s1)). assert (Ep : paint_phys o' (f_ph s1) = Ok p1) by (unfold paint_phys; rewrite Gg, Ec; reflexivity).
  assert (Hw1 : wf_phys p1) by (eapply (paint_phys_wf o' (f_ph s1)); [exact Ep|exact Hw]).
  destruct (insert_material_total o' p1 Hw1) as [p2 Ei]; [unfold p1; cbn; rewrite Gg; unfold roomy in Hr; lia|unfold p1; cbn; rewrite Gg; unfold roomy in Hr; lia|].
  destruct (insert_frame _ _ _ Ei) as (C2 & _ & O2 & _). cbn [exec] in Nf |- *. unfold add_object, register_mat, on_ph in Nf |- *. rewrite K in Nf |- *. cbn [obind] in Nf |- *.
  rewrite Ep in Nf |- *. cbn [prim obind f_ph set_f_ph] in Nf |- *. rewrite Ei in Nf |- *. cbn [prim obind f_h5 set_f_ph] in Nf |- *.
  destruct (write_obj (f_h5 s1) o') as [f|e|u] eqn:Ew; cbn [prim obind] in Nf |- *; [exfalso; eapply Nf; reflexivity| |exfalso; eapply write_obj_no_ub; exact Ew].
  apply ops_error in Ew as ->. eexists. split; [reflexivity|]. cbn [half_written f_ph set_f_h5 set_f_ph]. rewrite O2, C2. split; [reflexivity|].
  intros i j Hij Hin. unfold p1. cbn [ph_C set_ph_C]. rewrite (paint_cell g o' _ _ i j Hg Sh Ec Hij). apply obj_inside_iff in Hin. change (to_real g (i, j)) with (g_dx g * IZR i, g_dx g * IZR j). rewrite Hin. reflexivity.
Qed.
(** a second total-field source: rejected, yet it replaces the first *)
Theorem second_tfsf_replaces (g : grid) s v tp s1 v' tp' : grid_ok g -> (g_Nx g <= 46341)%Z -> (g_Ny g <= 46341)%Z -> tfsf_region g v' -> ph_grid (f_ph s1) = g -> exec (SetTfsf v tp) s = Fine s1 ->
  exists s2 q, exec (SetTfsf v' tp') s1 = Raise H5Error s2 /\ ph_tfsf (f_ph s2) = Some q /\ q_vol q = v' /\ q_tp q = tp'.
Proof.
  intros G1 G2 G3 Hr Gg E. assert (M : modest g) by (repeat split; auto; apply G1). assert (Nf := names_once _ s s1 [] s1 _ (cl_tfsf v tp v' tp') E eq_refl). destruct (ViewFacts.mk_tfsf_ok g tp' v' (g_dt g) M Hr) as (q & Eq & _ & Ev & Et & _).
  cbn [exec_call exec] in Nf |- *. unfold set_tfsf in Nf |- *. rewrite Gg, Eq in Nf |- *. cbn [prim] in Nf |- *. cbv zeta in Nf |- *.
  destruct (write_tfsf _ q) as [f|e|u] eqn:Ew; cbn [prim] in Nf |- *; [exfalso; eapply Nf; reflexivity| |exfalso; eapply h5_ops_no_ub; exact Ew].
  apply ops_error in Ew as ->. do 2 eexists. split; [reflexivity|]. split; [reflexivity|]. auto.
Qed.
