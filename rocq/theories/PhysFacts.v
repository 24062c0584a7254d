(** The effect of every call on the physics alone. *)
From Coq Require Import ZArith String List Bool Lia.
From Verif Require Import Scalar Base BaseFacts VecM GridM GeometryM MaterialM PmlM DftM TfsfM PolarM
  InterpM H5M ClockM MonitorM FieldM OutFacts.
Import ListNotations.
Local Open Scope Z_scope.

Section PhysRun.
Context {N : Num}.

Definition ok_out {S} (s : S) (r : res S) : out S := prim s r (fun x => Fine x).

Definition phys_add_object (o : obj) (p : phys) : res phys :=
  p <- paint_phys o p ;; p <- insert_material o p ;; Ok (set_ph_objs (ph_objs p ++ [o]) p).
Definition phys_set_tfsf (v : volume) (tp : tprofile) (p : phys) : res phys :=
  q <- mk_tfsf (ph_grid p) tp v (g_dt (ph_grid p)) ;; Ok (set_ph_tfsf (Some q) p).
Definition phys_clear_materials (p : phys) : res phys :=
  c <- clear_coefs (ph_grid p) (ph_bg p) (ph_C p) ;; Ok (set_ph_C c p).
Definition phys_on_obj (i : nat) (h : obj -> obj) (p : phys) : phys :=
  match nth_error (ph_objs p) i with
  | Some o => if o_dyn o then set_ph_objs (upd_nth i (h o) (ph_objs p)) p else p
  | None => p
  end.

Definition phys_exec (c : cmd) (p : phys) : out phys :=
  match c with
  | Update => phys_step p
  | UpdateMaterialGrid => ok_out p (update_material_grid p)
  | AddObject o => ok_out p (phys_add_object o p)
  | AddSource r => Fine (set_ph_srcs (ph_srcs p ++ [r]) p)
  | ClearFields => Fine (clear_fields_phys p)
  | ClearMaterials => ok_out p (phys_clear_materials p)
  | SetTfsf v tp => ok_out p (phys_set_tfsf v tp p)
  | Move i dr => Fine (phys_on_obj i (obj_move dr) p)
  | Rotate i d => Fine (phys_on_obj i (obj_rotate d) p)
  | SetPosition i q => Fine (phys_on_obj i (obj_set_pos q) p)
  | SetTheta i t => Fine (phys_on_obj i (obj_set_theta t) p)
  | _ => Fine p
  end.

Fixpoint phys_run (l : list cmd) (p : phys) : out phys :=
  match l with [] => Fine p | c :: l' => phys_exec c p >>= phys_run l' end.

Lemma ok_out_ok {S} (s a : S) r : r = Ok a -> ok_out s r = Fine a.
Proof. intros ->. reflexivity. Qed.
Lemma ok_out_fine {S} (s a : S) r : ok_out s r = Fine a -> r = Ok a.
Proof. unfold ok_out. destruct r; cbn; congruence. Qed.

Lemma map_ph_ph g (s : field) : f_ph (map_ph g s) = g (f_ph s). Proof. reflexivity. Qed.

Lemma on_obj_ph i h (s s' : field) : on_obj i h s = Fine s' -> f_ph s' = phys_on_obj i h (f_ph s).
Proof.
  unfold on_obj, phys_on_obj. destruct (nth_error (ph_objs (f_ph s)) i) as [o|].
  - destruct (o_dyn o); intros H; inv_fine; reflexivity.
  - intros H; inv_fine; reflexivity.
Qed.

Lemma register_mat_ph o s s' : register_mat o s = Fine s' -> f_ph s' = f_ph s.
Proof.
  unfold register_mat. destruct (str_in _ _); intros H; inv_fine; reflexivity.
Qed.

Lemma add_object_ph o s s' : add_object o s = Fine s' -> phys_add_object o (f_ph s) = Ok (f_ph s').
Proof.
  unfold add_object. intros H. inv_fine. apply register_mat_ph in Hs2.
  apply on_ph_fine in Hs1, Hs0. destruct Hs1 as [p1 [E1 ->]], Hs0 as [p2 [E2 ->]].
  cbn [f_ph set_f_ph map_ph set_f_h5] in *. unfold phys_add_object.
  rewrite <- Hs2, E1. cbn [bind]. rewrite E2. reflexivity.
Qed.

Lemma add_monitor_ph m s s' : add_monitor m s = Fine s' -> f_ph s' = f_ph s.
Proof. unfold add_monitor. intros H. inv_fine. reflexivity. Qed.
Lemma write_field_ph c s s' : write_field c s = Fine s' -> f_ph s' = f_ph s.
Proof.
  unfold write_field. intros H. inv_fine. apply start_ph in Hs0. apply stop_ph in H.
  rewrite H, <- Hs0. destruct c; inv_fine; reflexivity.
Qed.

Lemma exec_phys c s s' : exec c s = Fine s' -> phys_exec c (f_ph s) = Fine (f_ph s').
Proof.
  destruct c; cbn [exec phys_exec]; intros H.
  - now apply update_phys_step.
  - apply on_ph_fine in H. destruct H as [p [E ->]]. now apply ok_out_ok.
  - apply ok_out_ok. now apply add_object_ph.
  - unfold add_source in H. inv_fine. reflexivity.
  - apply add_monitor_ph in H. now rewrite H.
  - unfold add_tmon in H. inv_fine. reflexivity.
  - unfold remove_monitors in H. inv_fine. reflexivity.
  - unfold clear_fields in H. inv_fine. reflexivity.
  - unfold clear_materials in H. apply on_ph_fine in H. destruct H as [p [E ->]]. now apply ok_out_ok.
  - unfold set_tfsf in H. inv_fine. apply ok_out_ok. unfold phys_set_tfsf. rewrite Hr. reflexivity.
  - apply write_field_ph in H. now rewrite H.
  - apply write_field_ph in H. now rewrite H.
  - unfold writeH in H. inv_fine. apply write_field_ph in H, Hs. now rewrite H, Hs.
  - unfold write_monitor_data in H. destruct (nth_error (f_mons s) i); inv_fine; [|reflexivity].
    destruct (mon_sub_name m). inv_fine. reflexivity.
  - unfold write_tmon in H. destruct (nth_error (f_tmons s) i); inv_fine; [|reflexivity].
    destruct r. inv_fine. reflexivity.
  - apply on_obj_ph in H. now rewrite H.
  - apply on_obj_ph in H. now rewrite H.
  - apply on_obj_ph in H. now rewrite H.
  - apply on_obj_ph in H. now rewrite H.
  - unfold write_current in H. destruct (nth_error (ph_objs (f_ph s)) i) as [o|]; [|inv_fine; reflexivity].
    destruct (o_dyn o); inv_fine; reflexivity.
  - unfold get_box_monitor in H. destruct (nth_error (ph_objs (f_ph s)) i) as [o|]; [|inv_fine; reflexivity].
    inv_fine. apply add_monitor_ph in H. now rewrite H.
Qed.

Lemma run_phys l : forall s s', run l s = Fine s' -> phys_run l (f_ph s) = Fine (f_ph s').
Proof.
  induction l as [|c l IH]; cbn [run phys_run]; intros s s' H; [inv_fine; reflexivity|].
  apply obind_fine in H. destruct H as [s1 [H1 H]]. apply exec_phys in H1. rewrite H1. cbn [obind]. auto.
Qed.

Lemma run_app l1 : forall l2 s, run (l1 ++ l2) s = run l1 s >>= run l2.
Proof.
  induction l1 as [|c l1 IH]; intros l2 s; cbn [app run obind]; [reflexivity|].
  destruct (exec c s); cbn [obind]; auto.
Qed.
Lemma phys_run_app l1 : forall l2 p, phys_run (l1 ++ l2) p = phys_run l1 p >>= phys_run l2.
Proof.
  induction l1 as [|c l1 IH]; intros l2 s; cbn [app phys_run obind]; [reflexivity|].
  destruct (phys_exec c s); cbn [obind]; auto.
Qed.

(** an invariant of the physics kept by every call of the program *)
Lemma phys_run_inv (P : phys -> Prop) l : forall p p',
  (forall c p p', In c l -> P p -> phys_exec c p = Fine p' -> P p') ->
  P p -> phys_run l p = Fine p' -> P p'.
Proof.
  induction l as [|c l IH]; cbn [phys_run]; intros p p' Hc H0 H; [inv_fine; exact H0|].
  apply obind_fine in H. destruct H as [p1 [H1 H]].
  apply (IH p1 p'); [intros; eapply Hc; [right| |]; eauto| |exact H].
  eapply Hc; [left; reflexivity|exact H0|exact H1].
Qed.

(** ** Frames of the material calls *)
Lemma insert_material_frame o p p' : insert_material o p = Ok p' ->
  ph_grid p' = ph_grid p /\ ph_C p' = ph_C p /\ ph_objs p' = ph_objs p /\ ph_bg p' = ph_bg p /\
  ph_pml p' = ph_pml p /\ ph_sc p' = ph_sc p /\ ph_F p' = ph_F p /\ ph_srcs p' = ph_srcs p /\
  ph_step p' = ph_step p /\ ph_t p' = ph_t p /\ ph_tfsf p' = ph_tfsf p.
Proof.
  unfold insert_material. destruct (m_kind (o_mat o)); intros H; inv_ok; cbn; auto 12.
Qed.
Lemma reinsert_material_frame o p p' : reinsert_material o p = Ok p' ->
  ph_grid p' = ph_grid p /\ ph_C p' = ph_C p /\ ph_objs p' = ph_objs p /\ ph_bg p' = ph_bg p /\
  ph_pml p' = ph_pml p /\ ph_sc p' = ph_sc p /\ ph_F p' = ph_F p /\ ph_srcs p' = ph_srcs p /\
  ph_step p' = ph_step p /\ ph_t p' = ph_t p /\ ph_tfsf p' = ph_tfsf p.
Proof.
  unfold reinsert_material. destruct (m_kind (o_mat o)); intros H; inv_ok; cbn; auto 12.
Qed.

Lemma phys_on_obj_frame i h p :
  ph_grid (phys_on_obj i h p) = ph_grid p /\ ph_C (phys_on_obj i h p) = ph_C p /\
  ph_bg (phys_on_obj i h p) = ph_bg p.
Proof.
  unfold phys_on_obj. destruct (nth_error (ph_objs p) i) as [o|]; [|auto].
  destruct (o_dyn o); cbn; auto.
Qed.

Lemma repaint_frame l : forall p p', foldM repaint_one p l = Ok p' ->
  ph_grid p' = ph_grid p /\ ph_objs p' = ph_objs p /\ ph_bg p' = ph_bg p /\ ph_F p' = ph_F p /\
  ph_pml p' = ph_pml p /\ ph_sc p' = ph_sc p /\ ph_srcs p' = ph_srcs p /\
  ph_step p' = ph_step p /\ ph_t p' = ph_t p /\ ph_tfsf p' = ph_tfsf p.
Proof.
  induction l as [|o l IH]; cbn [foldM]; intros p p' H; [inv_ok; auto 12|].
  apply bind_ok in H. destruct H as [q [Hq H]]. unfold repaint_one, paint_phys in Hq. inv_ok.
  apply reinsert_material_frame in Hq. apply IH in H. cbn in Hq.
  destruct Hq as (A1 & A2 & A3 & A4 & A5 & A6 & A7 & A8 & A9 & A10 & A11).
  destruct H as (B1 & B2 & B3 & B4 & B5 & B6 & B7 & B8 & B9 & B10).
  repeat split; congruence.
Qed.

(** every call keeps the grid and the background *)
Lemma phys_exec_grid c p p' : phys_exec c p = Fine p' -> ph_grid p' = ph_grid p /\ ph_bg p' = ph_bg p.
Proof.
  destruct c; cbn [phys_exec]; intros H; try (injection H as <-; cbn; auto; fail).
  - apply phys_step_static, static_eq in H. tauto.
  - apply ok_out_fine in H. unfold update_material_grid in H. inv_ok. apply repaint_frame in H. cbn in H. tauto.
  - apply ok_out_fine in H. unfold phys_add_object, paint_phys in H. inv_ok.
    apply insert_material_frame in Hr0. cbn in *. tauto.
  - apply ok_out_fine in H. unfold phys_clear_materials in H. inv_ok. auto.
  - apply ok_out_fine in H. unfold phys_set_tfsf in H. inv_ok. auto.
  - injection H as <-. destruct (phys_on_obj_frame i (obj_move dr) p); tauto.
  - injection H as <-. destruct (phys_on_obj_frame i (obj_rotate d) p); tauto.
  - injection H as <-. destruct (phys_on_obj_frame i (obj_set_pos p0) p); tauto.
  - injection H as <-. destruct (phys_on_obj_frame i (obj_set_theta t) p); tauto.
Qed.
Lemma phys_run_grid l p p' : phys_run l p = Fine p' -> ph_grid p' = ph_grid p /\ ph_bg p' = ph_bg p.
Proof.
  intros H. apply (phys_run_inv (fun q => ph_grid q = ph_grid p /\ ph_bg q = ph_bg p) l p p'); auto.
  intros c a b _ [H1 H2] Hc. apply phys_exec_grid in Hc. destruct Hc. split; congruence.
Qed.

End PhysRun.
