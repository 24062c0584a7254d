(** Sequences of file operations. *)
From Coq Require Import ZArith String List Bool.
From Verif Require Import Scalar Base VecM GridM GeometryM MaterialM PmlM DftM TfsfM PolarM
  InterpM H5M ClockM MonitorM FieldM ReportM.
Import ListNotations.
Local Open Scope Z_scope.

Section Ops.
Context {N : Num}.

Lemma bind_assoc {A B C} (m : res A) (k : A -> res B) (h : B -> res C) :
  bind (bind m k) h = bind m (fun a => bind (k a) h).
Proof. now destruct m. Qed.
Lemma bind_ret {A} (m : res A) : bind m Ok = m.
Proof. now destruct m. Qed.
Lemma bind_ext {A B} (m : res A) (k h : A -> res B) : (forall a, k a = h a) -> bind m k = bind m h.
Proof. intros H. destruct m; cbn; auto. Qed.

Lemma ops_app f a b : h5_ops f (a ++ b) = (r <- h5_ops f a ;; h5_ops r b).
Proof.
  unfold h5_ops. revert f. induction a as [|o a IH]; intros f; cbn; [reflexivity|].
  destruct (h5_op f o); cbn; [apply IH|reflexivity|reflexivity].
Qed.
Lemma ops_nil f : h5_ops f [] = Ok f.
Proof. reflexivity. Qed.
Lemma ops_cons f o l : h5_ops f (o :: l) = (r <- h5_op f o ;; h5_ops r l).
Proof. reflexivity. Qed.
Lemma ops_one f o : h5_ops f [o] = h5_op f o.
Proof. rewrite ops_cons. now destruct (h5_op f o). Qed.
Lemma ops_groups f l : h5_ops f (map OGroup l) = h5_groups f l.
Proof.
  unfold h5_ops, h5_groups. revert f. induction l as [|p l IH]; intros f; cbn; [reflexivity|].
  destruct (h5_group f p); cbn; auto.
Qed.
Lemma ops_news f g l : h5_ops f (news g l) = h5_creates f g l.
Proof.
  unfold h5_ops, h5_creates, news. revert f. induction l as [|[n v] l IH]; intros f; cbn; [reflexivity|].
  destruct (h5_create f _ _ _); cbn; auto.
Qed.
Lemma ops_pair f p q : h5_ops f [OGroup p; OGroup q] = h5_groups f [p; q].
Proof. apply (ops_groups f [p; q]). Qed.
Lemma ops_flat {A} (h : A -> list h5op) l f :
  h5_ops f (flat_map h l) = foldM (fun r x => h5_ops r (h x)) f l.
Proof.
  revert f. induction l as [|x l IH]; intros f; cbn [flat_map foldM]; [reflexivity|]. rewrite ops_app.
  destruct (h5_ops f (h x)); cbn; auto.
Qed.

(** what is left is a prefix of what was to be done *)
Lemma left_some f l : exists a b, l = a ++ b /\ h5_ops f a = Ok (h5_left f l) /\
  (b = [] \/ exists o b', b = o :: b' /\ h5_op (h5_left f l) o <> Ok (h5_left f l) /\ forall r, h5_op (h5_left f l) o <> Ok r).
Proof.
  revert f. induction l as [|o l IH]; intros f; cbn [h5_left].
  - exists [], []. auto.
  - destruct (h5_op f o) as [r|e|u] eqn:E.
    + destruct (IH r) as (a & b & -> & Ha & Hb). exists (o :: a), b. rewrite ops_cons, E. auto.
    + exists [], (o :: l). cbn. split; [reflexivity|]. split; [reflexivity|]. right. exists o, l. rewrite E.
      split; [reflexivity|]. split; intros; discriminate.
    + exists [], (o :: l). cbn. split; [reflexivity|]. split; [reflexivity|]. right. exists o, l. rewrite E.
      split; [reflexivity|]. split; intros; discriminate.
Qed.
Lemma left_ok f l r : h5_ops f l = Ok r -> h5_left f l = r.
Proof.
  revert f. induction l as [|o l IH]; intros f; cbn; [now intros [= ->]|].
  unfold h5_ops. cbn. destruct (h5_op f o); cbn; [apply IH|discriminate|discriminate].
Qed.
(** a relation that holds for each step holds for the remains *)
Lemma left_rel (Q : h5 -> h5 -> Prop) : (forall f, Q f f) -> (forall a b c, Q a b -> Q b c -> Q a c) ->
  (forall f o r, h5_op f o = Ok r -> Q f r) -> forall l f, Q f (h5_left f l).
Proof.
  intros R T S l. induction l as [|o l IH]; intros f; cbn; [apply R|].
  destruct (h5_op f o) as [r|e|u] eqn:E; [|apply R|apply R]. eapply T; [eapply S; exact E|apply IH].
Qed.

Lemma write_mat_eq f m : write_mat f m =
  (f <- h5_groups f ["materials"%string; mat_path (m_name m)] ;;
   h5_creates f (mat_path (m_name m)) (mat_items (m_kind m))).
Proof. unfold write_mat, mat_ops. rewrite ops_app, ops_pair. apply bind_ext. intros a. apply ops_news. Qed.
Lemma write_obj_eq f o : write_obj f o =
  (f <- h5_groups f (obj_groups o) ;;
   f <- h5_create f (obj_path o // "position") (o_dyn o) (vec_pay (o_pos o)) ;;
   f <- h5_create f (obj_path o // "theta") (o_dyn o) (PReal (o_theta o)) ;;
   f <- h5_creates f (obj_path o) (geom_items (o_geom o)) ;;
   if h5_exists f (mat_path (m_name (o_mat o)))
   then h5_create f (obj_path o // "material") false (PRef (mat_path (m_name (o_mat o))))
   else Throw H5Error).
Proof.
  unfold write_obj, obj_ops. rewrite ops_app, ops_groups. apply bind_ext. intros a.
  rewrite ops_app, ops_cons. cbn [h5_op]. rewrite bind_assoc. apply bind_ext. intros b. rewrite ops_one. cbn [h5_op].
  apply bind_ext. intros c. rewrite ops_app, ops_news. apply bind_ext. intros d. now rewrite ops_one.
Qed.
Lemma write_src_eq f r : write_src f r =
  (f <- h5_groups f ["sources"; "sources" // src_sub (sr_kind r); src_path r]%string ;;
   f <- h5_creates f (src_path r) (shape_items (tp_shape (sr_tp r))) ;;
   h5_creates f (src_path r)
     (match sr_kind r with
      | SPoint p => [("position"%string, vec_pay p)]
      | SLine s => surf_items s
      end)).
Proof.
  unfold write_src, src_ops. rewrite ops_app, ops_groups. apply bind_ext. intros a.
  rewrite ops_app, ops_news. apply bind_ext. intros b. apply ops_news.
Qed.

Definition write_mon1 (f : h5) (sub name : string) (items : list (string * payload))
    (freq : list T) : res h5 := h5_ops f (mon1_ops sub name items freq).
Lemma write_mon1_eq f sub name items freq : write_mon1 f sub name items freq =
  (f <- h5_groups f (mon_groups sub name) ;;
   h5_creates f (mon_dir sub name) (items ++ [("dft_frequency"%string, PReals freq)])).
Proof. unfold write_mon1, mon1_ops. rewrite ops_app, ops_groups. apply bind_ext. intros a. apply ops_news. Qed.
Definition write_surf_mon (f : h5) (m : surf_mon) : res h5 :=
  write_mon1 f "surface_monitor" (sm_name m) (surf_items (sm_surf m)) (d_freq (sm_dft m)).
Lemma write_mon_eq f m : write_mon f m =
  match m with
  | MSurf m => write_surf_mon f m
  | MBox m =>
    f <- foldM write_surf_mon f (bm_sides m) ;;
    write_mon1 f "box_monitor" (bm_name m) (vol_items (bm_vol m)) (bm_freq m)
  | MCyl m =>
    write_mon1 f "cylinder_monitor" (cm_name m)
      [("center"%string, vec_pay (cs_center (cm_surf m)));
       ("radius"%string, PReal (cs_radius (cm_surf m)))] (d_freq (cm_dft m))
  | MVol m => write_mon1 f "volume_monitor" (vm_name m) (vol_items (vm_vol m)) (d_freq (vm_dft m))
  | MPt m =>
    write_mon1 f "point_monitor" (pm_name m) [("position"%string, vec_pay (pm_pos m))]
      (d_freq (pm_dft m))
  end.
Proof.
  destruct m; try reflexivity. unfold write_mon, mon_ops. now rewrite ops_app, ops_flat.
Qed.
Lemma tm_add_eq f m : h5_ops f (tm_add_ops m) =
  (f <- h5_groups f ["fields"%string; tm_path m] ;; h5_creates f (tm_path m) (tm_items (tm_shape_ m))).
Proof. unfold tm_add_ops. rewrite ops_app, ops_pair. apply bind_ext. intros a. apply ops_news. Qed.
Lemma write_tfsf_eq f q : write_tfsf f q =
  (f <- h5_groups f ["sources"; "sources" // "tfsf"]%string ;;
   f <- h5_creates f ("sources" // "tfsf") (vol_items (q_vol q)) ;;
   match tp_dft (q_tp q) with
   | None => Ok f
   | Some d => h5_create f ("sources" // "tfsf" // "dft_frequency") false (PReals (d_freq d))
   end).
Proof.
  unfold write_tfsf, tfsf_ops. rewrite ops_app, ops_groups. apply bind_ext. intros a.
  rewrite ops_app, ops_news. apply bind_ext. intros b. destruct (tp_dft _); [apply ops_one|reflexivity].
Qed.
Lemma mon_data_eq f sub name m : h5_ops f (map OGroup (mon_groups sub name) ++ news (mon_dir sub name) (mon_items m)) =
  (f <- h5_groups f (mon_groups sub name) ;; h5_creates f (mon_dir sub name) (mon_items m)).
Proof. rewrite ops_app, ops_groups. apply bind_ext. intros a. apply ops_news. Qed.
Lemma current_eq f o : h5_ops f (map OGroup (obj_groups o) ++ [OMore (obj_path o // "position") (vec_pay (o_pos o)); OMore (obj_path o // "theta") (PReal (o_theta o))]) =
  (f <- h5_groups f (obj_groups o) ;;
   f <- h5_append f (obj_path o // "position") (vec_pay (o_pos o)) ;;
   h5_append f (obj_path o // "theta") (PReal (o_theta o))).
Proof. rewrite ops_app, ops_groups. apply bind_ext. intros a. rewrite ops_cons. apply bind_ext. intros b. apply ops_one. Qed.
Lemma tm_write1_eq g F f m c : tm_write1 g F f m c =
  (v <- tm_sample g F (tm_shape_ m) c ;;
   if existsb (comp_eqb c) (tm_dsets m) then
     f <- h5_append f (tm_path m // comp_str c) v ;; Ok (f, m)
   else
     f <- h5_groups f ["fields"%string; tm_path m] ;;
     f <- h5_create f (tm_path m // comp_str c) true v ;;
     Ok (f, TMon (tm_name m) (tm_shape_ m) (tm_fields m) (tm_every m) (c :: tm_dsets m))).
Proof.
  unfold tm_write1. apply bind_ext. intros v. unfold tm_ops, tm_noted. destruct (existsb _ _).
  - now rewrite ops_one.
  - change [OGroup "fields"; OGroup (tm_path m); ONew (tm_path m // comp_str c) true v]
      with ([OGroup "fields"; OGroup (tm_path m)] ++ [ONew (tm_path m // comp_str c) true v])%list.
    rewrite ops_app, ops_pair, bind_assoc. apply bind_ext. intros a. now rewrite ops_one.
Qed.
Lemma report_groups_eq f m sub name :
  h5_ops f (map OGroup (match m with
                        | MBox b => flat_map (fun x : surf_mon => mon_groups "surface_monitor" (sm_name x)) (bm_sides b)
                        | _ => []
                        end ++ mon_groups sub name)) =
  (f <- match m with
        | MBox b => foldM (fun f (x : surf_mon) => h5_groups f (mon_groups "surface_monitor" (sm_name x))) f (bm_sides b)
        | _ => Ok f
        end ;;
   h5_groups f (mon_groups sub name)).
Proof.
  rewrite map_app, ops_app, ops_groups. destruct m; cbn [bind]; try apply ops_groups.
  transitivity (r <- h5_groups f (flat_map (fun x : surf_mon => mon_groups "surface_monitor" (sm_name x)) (bm_sides m)) ;; h5_groups r (mon_groups sub name)).
  - apply bind_ext. intros a. apply ops_groups.
  - f_equal. generalize (bm_sides m). intros l. revert f. induction l as [|x l IH]; intros f; [reflexivity|].
    cbn [flat_map foldM]. rewrite <- ops_groups, map_app, ops_app, ops_groups.
    destruct (h5_groups f (mon_groups "surface_monitor" (sm_name x))) as [r|e|u]; cbn [bind]; [|reflexivity|reflexivity].
    rewrite ops_groups. apply IH.
Qed.

End Ops.

(** the written-out form of each sequence *)
Ltac ops_in H := repeat first
  [ rewrite write_mat_eq in H | rewrite write_obj_eq in H | rewrite write_src_eq in H
  | rewrite write_mon_eq in H | rewrite write_mon1_eq in H | rewrite tm_add_eq in H
  | rewrite write_tfsf_eq in H | rewrite mon_data_eq in H | rewrite current_eq in H
  | rewrite tm_write1_eq in H | rewrite report_groups_eq in H ].
