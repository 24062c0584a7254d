(** The output file is append-only, every record is made once and stays. *)
From Coq Require Import ZArith String Ascii List Bool Lia.
From Verif Require Import Scalar Base BaseFacts VecM GridM GeometryM MaterialM PmlM DftM TfsfM PolarM
  InterpM H5M ClockM MonitorM FieldM ReportM OutFacts PhysFacts H5Facts EditFacts SpecOutput RecordFacts SpecFile.
From Verif Require Import OpsFacts.
Import ListNotations.

Section File.
Context {N : Num}.

(** *** Append-only *)
Lemma kept_refl f : kept f f.
Proof. intros p [|[|] rows] H; auto. exists []. now rewrite app_nil_r. Qed.
Lemma kept_trans f a b : kept f a -> kept a b -> kept f b.
Proof.
  intros H K p o E. specialize (H p o E). destruct o as [|[|] rows]; [now apply (K p HGroup)| |now apply (K p (HData false rows))].
  destruct H as (m & Em). destruct (K p _ Em) as (m' & Em'). exists (m ++ m')%list. now rewrite app_assoc.
Qed.
Lemma kept_snoc f p o : slookup p f = None -> kept f (f ++ [(p, o)]).
Proof. intros H q o' E. assert (X : slookup q (f ++ [(p, o)]) = Some o') by now rewrite slookup_app, E. destruct o' as [|[|] rows]; auto. exists []. now rewrite app_nil_r. Qed.
Lemma edits_kept f f' : edits f f' -> kept f f'.
Proof.
  induction 1 as [|a b p H IH E|a b p x v H IH E|a b p v H IH E]; [apply kept_refl| | |]; (eapply kept_trans; [exact IH|]).
  - unfold h5_group in E. destruct (slookup p a) as [[|]|] eqn:Eq; inv_ok; [apply kept_refl|now apply kept_snoc].
  - unfold h5_create in E. destruct (slookup p a) eqn:Eq; inv_ok. now apply kept_snoc.
  - unfold h5_append in E. destruct (slookup p a) as [[|[|] rows]|] eqn:Eq; inv_ok. intros q o Eo. rewrite slookup_sassign by congruence.
    destruct (String.eqb_spec q p) as [->|]; [|destruct o as [|[|] r]; auto; exists []; now rewrite app_nil_r].
    rewrite Eq in Eo. injection Eo as <-. now exists [v].
Qed.

Lemma write_report_edits f d n v f' : write_report f d n v = Ok f' -> edits f f'.
Proof. unfold write_report, h5_open. intros H. destruct (slookup d f) as [[|]|]; try discriminate. now apply edits_create in H. Qed.
Lemma call_edits c s : leaves (fun a => edits (f_h5 s) (f_h5 a)) (exec_call c s).
Proof.
  destruct c as [c|i q| |]; cbn [exec_call]; [apply exec_edits| | |].
  - unfold report. destruct (nth_error _ _) as [m|]; [|constructor]. destruct (mon_sub_name m) as [sub name]. apply leaves_prim; [constructor|]. intros v _. cbv zeta.
    apply leaves_prim; [apply left_edits|]. intros f Hf. cbn. apply bind_ok in Hf. destruct Hf as (f2 & H2 & Hf). eapply edits_trans; [eapply ops_edits; exact H2|eapply write_report_edits; exact Hf].
  - unfold report_tfsf. destruct (ph_tfsf _) as [q|]; [|constructor]. apply leaves_prim; [constructor|]. intros f Hf. cbn.
    apply bind_ok in Hf. destruct Hf as (v & _ & Hf). now apply write_report_edits in Hf.
  - unfold write_monitor, start, stop. apply leaves_bind; [apply leaves_prim; [constructor|]; intros a _; constructor|].
    intros a Ha. apply leaves_prim; [exact Ha|]. intros b _. exact Ha.
Qed.
Lemma main_edits l : forall s, leaves (fun a => edits (f_h5 s) (f_h5 a)) (exec_main l s).
Proof.
  induction l as [|c l IH]; intros s; cbn [exec_main]; [constructor|]. assert (H := call_edits c s). destruct (exec_call c s) as [a|e a|u]; cbn [obind leaves] in *; auto.
  specialize (IH a). destruct (exec_main l a); cbn [leaves] in *; auto; eapply edits_trans; eassumption.
Qed.
Lemma main_catch_edits l : forall s, leaves (fun a => edits (f_h5 s) (f_h5 a)) (main_catch l s).
Proof.
  induction l as [|c l IH]; intros s; cbn [main_catch]; [constructor|]. assert (H := call_edits c s). destruct (exec_call c s) as [a|e a|u]; cbn [leaves] in *; auto.
  all: specialize (IH a); destruct (main_catch l a); cbn [leaves] in *; auto; eapply edits_trans; eassumption.
Qed.
Theorem file_kept l s : match exec_main l s with Fine a | Raise _ a => kept (f_h5 s) (f_h5 a) | Undef _ => True end.
Proof. assert (H := main_edits l s). destruct (exec_main l s); cbn [leaves] in H; auto; now apply edits_kept. Qed.
Theorem file_kept_catch l s : match main_catch l s with Fine a | Raise _ a => kept (f_h5 s) (f_h5 a) | Undef _ => True end.
Proof. assert (H := main_catch_edits l s). destruct (main_catch l s); cbn [leaves] in H; auto; now apply edits_kept. Qed.

(** *** Records *)
Lemma kept_holds f f' r : kept f f' -> holds f r -> holds f' r.
Proof.
  intros K (rows & E & F). specialize (K _ _ E). destruct r as [[p x] v]. cbn [where_ fst snd] in *. unfold holds. cbn [where_ fst snd].
  destruct x.
  - destruct K as (m & Em). exists (rows ++ m)%list. split; [exact Em|discriminate].
  - rewrite (F eq_refl) in K. exists []. auto.
Qed.
Lemma kept_absent f f' r : kept f f' -> absent f' r -> absent f r.
Proof.
  intros K A. unfold absent in *. destruct (slookup (where_ r) f) as [o|] eqn:E; [|reflexivity]. exfalso. specialize (K _ _ E).
  destruct o as [|[|] rows]; [congruence|destruct K; congruence|congruence].
Qed.
Lemma holds_absent f r r' : where_ r = where_ r' -> holds f r -> absent f r' -> False.
Proof. intros E (rows & H & _) A. unfold absent in A. congruence. Qed.

Definition made (f : h5) (l : list record) (f' : h5) : Prop :=
  edits f f' /\ NoDup (map where_ l) /\ Forall (fun r => absent f r /\ holds f' r) l.
Lemma made_nil f f' : edits f f' -> made f [] f'.
Proof. intros H. split; [exact H|]. split; constructor. Qed.
Lemma made_create f p x v f' : h5_create f p x v = Ok f' -> made f [(p, x, v)] f'.
Proof.
  intros H. split; [now apply edits_create in H|]. split; [constructor; [intros []|constructor]|]. constructor; [|constructor].
  unfold h5_create in H. destruct (slookup p f) eqn:E; inv_ok. split; [exact E|]. exists []. cbn [where_ fst snd]. split; [|reflexivity].
  rewrite slookup_app, E. cbn. now rewrite String.eqb_refl.
Qed.
Lemma NoDup_cat {A} (l1 l2 : list A) : NoDup l1 -> NoDup l2 -> (forall x, In x l1 -> In x l2 -> False) -> NoDup (l1 ++ l2).
Proof.
  induction 1 as [|x l H1 H IH]; cbn; intros H2 D; [exact H2|]. constructor.
  - rewrite in_app_iff. intros [K|K]; [auto|]. apply (D x); [now left|exact K].
  - apply IH; [exact H2|]. intros y Hy. apply D. now right.
Qed.
Lemma made_app f l1 a l2 b : made f l1 a -> made a l2 b -> made f (l1 ++ l2) b.
Proof.
  intros (E1 & N1 & F1) (E2 & N2 & F2). assert (K1 := edits_kept _ _ E1). assert (K2 := edits_kept _ _ E2).
  split; [eapply edits_trans; eassumption|]. split.
  - rewrite map_app. apply NoDup_cat; auto. intros p H1 H2. apply in_map_iff in H1, H2. destruct H1 as (r & <- & H1), H2 as (r' & Er & H2).
    rewrite Forall_forall in F1, F2. apply F1 in H1. apply F2 in H2. exact (holds_absent a r r' (eq_sym Er) (proj2 H1) (proj1 H2)).
  - apply Forall_app. split; [eapply Forall_impl; [|exact F1]|eapply Forall_impl; [|exact F2]]; cbn; intros r [A B]; split; auto.
    + eapply kept_holds; eassumption.
    + eapply kept_absent; eassumption.
Qed.
Lemma made_after f a l b : made f [] a -> made a l b -> made f l b.
Proof. exact (made_app f [] a l b). Qed.
Lemma made_groups l f f' : h5_groups f l = Ok f' -> made f [] f'.
Proof. intros H. apply made_nil. now apply edits_groups in H. Qed.
Lemma made_creates g l : forall f f', h5_creates f g l = Ok f' -> made f (map (fun '(n, v) => (g // n, false, v)) l) f'.
Proof.
  induction l as [|[n v] l IH]; cbn; intros f f' H; [injection H as <-; apply made_nil; constructor|]. apply bind_ok in H. destruct H as (a & Ha & H).
  apply (made_app f [_] a); [now apply made_create|auto].
Qed.

(** paths *)
Lemma sapp_assoc a b c : ((a ++ b) ++ c = a ++ (b ++ c))%string.
Proof. induction a as [|x a IH]; cbn; [reflexivity|now rewrite IH]. Qed.
Lemma path2 a b : path [a; b] = (a // b)%string.
Proof. reflexivity. Qed.
Lemma path_snoc l n : l <> [] -> path (l ++ [n]) = (path l // n)%string.
Proof.
  unfold path, path_cat. induction l as [|a l IH]; intros H; [congruence|]. destruct l as [|b l]; [reflexivity|].
  specialize (IH ltac:(discriminate)). cbn [app String.concat] in *. rewrite IH, !sapp_assoc. reflexivity.
Qed.
Lemma fixed_path dir l : dir <> [] -> fixed dir l = map (fun '(n, v) => (path dir // n, false, v)) l.
Proof. intros H. unfold fixed. apply map_ext. intros [n v]. now rewrite path_snoc. Qed.
Lemma made_fixed dir l f f' : dir <> [] -> h5_creates f (path dir) l = Ok f' -> made f (fixed dir l) f'.
Proof. intros H K. rewrite fixed_path by exact H. now apply made_creates. Qed.
Lemma path3 a b c : path [a; b; c] = (a // b // c)%string.
Proof. exact (path_snoc [a; b] c ltac:(discriminate)). Qed.
Lemma fixed_app dir l l' : fixed dir (l ++ l') = (fixed dir l ++ fixed dir l')%list.
Proof. apply map_app. Qed.

Lemma header_made g name s0 : mk_field g name = Ok s0 -> made [] (header g) (f_h5 s0).
Proof.
  unfold mk_field. intros H. apply bind_ok in H. destruct H as (p & _ & H). destruct (String.eqb name ""); [discriminate|].
  apply bind_ok in H. destruct H as (f & Hf & H). apply bind_ok in H. destruct H as (f' & Hf' & H). injection H as <-. cbn [f_h5].
  apply (made_after [] f); [now apply made_groups in Hf|]. change (header g) with (fixed ["grid"%string] (grid_items g)). apply made_fixed; [discriminate|exact Hf'].
Qed.
Lemma obj_path_dir o : obj_path o = path (object_dir o).
Proof. unfold obj_path, object_dir. rewrite path3. unfold obj_root. now destruct (o_dyn o), (o_geom o). Qed.
Lemma write_obj_made f o f' : write_obj f o = Ok f' -> made f (object_record o) f'.
Proof.
  rewrite write_obj_eq; unfold object_record. rewrite obj_path_dir, !path_snoc by discriminate. intros H.
  apply bind_ok in H. destruct H as (f1 & H1 & H). apply bind_ok in H. destruct H as (f2 & H2 & H). apply bind_ok in H. destruct H as (f3 & H3 & H). apply bind_ok in H. destruct H as (f4 & H4 & H).
  apply (made_after f f1); [now apply made_groups in H1|]. cbn [app].
  apply (made_app f1 [_] f2); [now apply made_create|]. apply (made_app f2 [_] f3); [now apply made_create|].
  apply (made_app f3 _ f4); [apply made_fixed; [discriminate|]; unfold geom_items, shape_record, vec_pay, two in *; exact H4|].
  destruct (h5_exists _ _); [|discriminate]. cbn [fixed map]. rewrite path_snoc by discriminate. now apply made_create.
Qed.
Lemma write_src_made f r f' : write_src f r = Ok f' -> made f (source_record r) f'.
Proof.
  rewrite write_src_eq; unfold source_record. intros H. apply bind_ok in H. destruct H as (f1 & H1 & H). apply bind_ok in H. destruct H as (f2 & H2 & H).
  apply (made_after f f1); [now apply made_groups in H1|].
  assert (P : src_path r = path ["sources"; src_sub (sr_kind r); sr_name r]%string) by (rewrite path3; reflexivity). rewrite P in H2, H. unfold src_sub in *.
  destruct (sr_kind r); rewrite fixed_app; (apply (made_app f1 _ f2); apply made_fixed; try discriminate; [exact H2|]).
  - exact H.
  - unfold surf_items, surface_items, vec_pay, two, sgnZ in *. destruct (s_sign s); exact H.
Qed.
Lemma write_mon1_made f sub name it fr f' : write_mon1 f sub name it fr = Ok f' -> made f (fixed ["monitors"%string; sub; name] (it ++ frequencies_of fr)) f'.
Proof.
  rewrite write_mon1_eq; unfold mon_dir. rewrite <- path3. intros H. apply bind_ok in H. destruct H as (f1 & H1 & H).
  apply (made_after f f1); [now apply made_groups in H1|]. apply made_fixed; [discriminate|exact H].
Qed.
Lemma surf_items_ok s : surf_items s = surface_items s.
Proof. unfold surf_items, surface_items, sgnZ. now destruct (s_sign s). Qed.
Lemma write_side_made f m f' : write_surf_mon f m = Ok f' -> made f (side_record m) f'.
Proof. unfold write_surf_mon, side_record. intros H. apply write_mon1_made in H. now rewrite surf_items_ok in H. Qed.
Lemma write_sides_made l : forall f f', foldM write_surf_mon f l = Ok f' -> made f (flat_map side_record l) f'.
Proof.
  induction l as [|m l IH]; cbn [foldM flat_map]; intros f f' H; [injection H as <-; apply made_nil; constructor|]. apply bind_ok in H. destruct H as (a & Ha & H).
  apply (made_app f _ a); [now apply write_side_made|auto].
Qed.
Lemma write_mon_made f m f' : write_mon f m = Ok f' -> made f (monitor_record m) f'.
Proof.
  rewrite write_mon_eq. destruct m; cbn [monitor_record]; intros H.
  - now apply write_side_made.
  - apply bind_ok in H. destruct H as (a & Ha & H). apply (made_app f _ a); [now apply write_sides_made|]. now apply write_mon1_made in H.
  - now apply write_mon1_made in H.
  - now apply write_mon1_made in H.
  - now apply write_mon1_made in H.
Qed.
(** attaching a monitor keeps what is recorded of it *)
Lemma dft_add_freq d k n d' : dft_add d k n = Ok d' -> d_freq d' = d_freq d.
Proof. unfold dft_add. intros H. inv_ok. destruct (n <? 0)%Z; [discriminate|]. now inv_ok. Qed.
Lemma dft_adds_freq n l : forall d d', foldM (fun d k => dft_add d k n) d l = Ok d' -> d_freq d' = d_freq d.
Proof. induction l as [|k l IH]; cbn [foldM]; intros d d' H; [congruence|]. apply bind_ok in H. destruct H as (a & Ha & H). rewrite (IH _ _ H). now apply dft_add_freq in Ha. Qed.
Lemma surf_attach_record g m m' : surf_attach g m = Ok m' -> side_record m' = side_record m.
Proof. unfold surf_attach. intros H. inv_ok. unfold side_record. cbn [sm_name sm_surf sm_dft]. apply dft_adds_freq in Hr1. now rewrite Hr1. Qed.
Lemma sides_attach_record g l : forall l', mapM (surf_attach g) l = Ok l' -> flat_map side_record l' = flat_map side_record l.
Proof.
  induction l as [|m l IH]; cbn [mapM]; intros l' H; [now injection H as <-|]. apply bind_ok in H. destruct H as (x & Hx & H). apply bind_ok in H. destruct H as (y & Hy & H). injection H as <-.
  cbn [flat_map]. rewrite (IH _ Hy). now rewrite (surf_attach_record _ _ _ Hx).
Qed.
Lemma mon_attach_record g m m' : mon_attach g m = Ok m' -> monitor_record m' = monitor_record m.
Proof.
  destruct m as [m|m|m|m|m]; cbn [mon_attach]; intros H; apply bind_ok in H; destruct H as (x & Hx & H); injection H as <-; cbn [monitor_record].
  - now apply surf_attach_record in Hx.
  - unfold box_attach in Hx. apply bind_ok in Hx. destruct Hx as (l & Hl & Hx). injection Hx as <-. cbn [bm_sides bm_name bm_vol bm_freq]. now rewrite (sides_attach_record _ _ _ Hl).
  - unfold cyl_attach in Hx. apply bind_ok in Hx. destruct Hx as (len & _ & Hx). destruct (len <? 0)%Z; [discriminate|]. inv_ok. cbn. apply dft_adds_freq in Hr. now rewrite Hr.
  - unfold vol_attach in Hx. inv_ok. cbn. apply dft_adds_freq in Hr0. now rewrite Hr0.
  - unfold pt_attach in Hx. inv_ok. cbn. apply dft_adds_freq in Hr. now rewrite Hr.
Qed.
Lemma add_monitor_made m s s' : add_monitor m s = Fine s' -> made (f_h5 s) (monitor_record m) (f_h5 s').
Proof.
  unfold add_monitor. intros H. apply prim_fine in H. destruct H as (m' & Hm & H). apply prim_fine in H. destruct H as (f & Hf & H). injection H as <-. cbn [f_h5 set_f_h5].
  rewrite <- (mon_attach_record _ _ _ Hm). now apply write_mon_made.
Qed.

(** every call makes its records *)
Theorem call_made c s s' : exec_call c s = Fine s' -> made (f_h5 s) (recorded c) (f_h5 s').
Proof.
  intros H. assert (E := call_edits c s). rewrite H in E. cbn [leaves] in E.
  destruct c as [c|i q| |]; try (apply made_nil; exact E). destruct c; try (apply made_nil; exact E); cbn [exec_call exec recorded] in *; clear E.
  - unfold add_object in H. apply obind_fine in H. destruct H as (s4 & H & H5). apply obind_fine in H. destruct H as (s3 & H & H4). apply obind_fine in H. destruct H as (s2 & H & H3). apply obind_fine in H. destruct H as (s1 & H1 & H2).
    assert (E1 : edits (f_h5 s) (f_h5 s1)).
    { unfold register_mat in H1. destruct (str_in _ _); [injection H1 as <-; constructor|]. cbv zeta in H1. apply prim_fine in H1. destruct H1 as (f & Hf & H1). injection H1 as <-. cbn in *. now apply write_mat_edits in Hf. }
    assert (E2 := on_ph_h5 (paint_phys o) s1). rewrite H2 in E2. assert (E3 := on_ph_h5 (insert_material o) s2). rewrite H3 in E3. cbn [leaves] in E2, E3.
    apply prim_fine in H4. destruct H4 as (f & Hf & H4). injection H4 as <-. injection H5 as <-. cbn [f_h5 map_ph set_f_h5 set_f_ph].
    apply (made_after _ (f_h5 s1)); [now apply made_nil|]. rewrite <- E2, <- E3. now apply write_obj_made.
  - unfold add_source in H. apply prim_fine in H. destruct H as (f & Hf & H). injection H as <-. cbn. now apply write_src_made.
  - now apply add_monitor_made.
  - unfold add_tmon in H. apply prim_fine in H. destruct H as (f & Hf & H). injection H as <-. cbn [f_h5 set_f_h5]. rewrite tm_add_eq in Hf. apply bind_ok in Hf. destruct Hf as (f1 & H1 & Hf).
    apply (made_after _ f1); [now apply made_groups in H1|]. unfold view_record. apply made_fixed; [discriminate|]. unfold tm_path in Hf. rewrite path2.
    unfold tm_items in Hf. destruct (tm_shape_ m); rewrite ?surf_items_ok in Hf; exact Hf.
  - unfold set_tfsf in H. apply prim_fine in H. destruct H as (q & Hq & H). cbv zeta in H. apply prim_fine in H. destruct H as (f & Hf & H). injection H as <-. cbn [f_h5 set_f_h5 map_ph set_f_ph] in *.
    assert (Eq : q_vol q = v /\ q_tp q = tp) by (unfold mk_tfsf in Hq; inv_ok; auto). destruct Eq as [<- <-].
    rewrite write_tfsf_eq in Hf. apply bind_ok in Hf. destruct Hf as (f1 & H1 & Hf). apply bind_ok in Hf. destruct Hf as (f2 & H2 & Hf).
    apply (made_after _ f1); [now apply made_groups in H1|]. unfold tfsf_record. rewrite fixed_app. apply (made_app _ _ f2); [apply made_fixed; [discriminate|]; exact H2|].
    destruct (tp_dft (q_tp q)); [|injection Hf as <-; apply made_nil; constructor]. unfold frequencies_of. cbn [fixed map app]. rewrite path3. now apply made_create.
Qed.

(** results *)
Theorem result_made c s s' : exec_call c s = Fine s' -> made (f_h5 s) (result_at s c) (f_h5 s').
Proof.
  intros H. assert (E := call_edits c s). rewrite H in E. cbn [leaves] in E.
  destruct c as [c|i q| |]; try (apply made_nil; exact E); [destruct c; try (apply made_nil; exact E)| |]; cbn [exec_call exec result_at] in *.
  - unfold write_monitor_data in H. destruct (nth_error (f_mons s) i) as [m|]; [|now apply made_nil]. destruct (mon_sub_name m) as [sub name] eqn:Es. apply prim_fine in H. destruct H as (f & Hf & H). injection H as <-. cbn [f_h5 set_f_h5] in *.
    rewrite mon_data_eq in Hf. apply bind_ok in Hf. destruct Hf as (f1 & H1 & Hf). unfold mon_dir in Hf. rewrite <- path3 in Hf.
    assert (X : forall d, dft_items d = map (fun e => (fst e, PCplx (List.concat (snd e)))) (d_map d)) by (intros d; unfold dft_items; apply map_ext; now intros []).
    destruct m; cbn [mon_sub_name mon_items] in *; injection Es as <- <-; rewrite ?X in Hf; try (apply made_nil; exact E);
      (apply (made_after _ f1); [now apply made_groups in H1|]; apply made_fixed; [discriminate|exact Hf]).
  - unfold report in H. destruct (nth_error (f_mons s) i) as [m|]; [|now apply made_nil]. destruct (mon_sub_name m) as [sub name] eqn:Es. apply prim_fine in H. destruct H as (v & Hv & H). apply prim_fine in H. destruct H as (f & Hf & H). injection H as <-. cbn [f_h5 set_f_h5] in *.
    rewrite Hv. apply bind_ok in Hf. destruct Hf as (f2 & H2 & Hf). assert (E2 : edits (f_h5 s) f2) by (eapply ops_edits; exact H2).
    apply (made_after _ f2); [now apply made_nil|]. unfold write_report, h5_open in Hf. destruct (slookup (mon_dir sub name) f2) as [[|]|]; try discriminate. cbn [bind] in Hf.
    unfold mon_dir in Hf. rewrite <- (path3 "monitors" sub name) in Hf. rewrite <- path_snoc in Hf by discriminate.
    destruct m; cbn [mon_sub_name] in Es; injection Es as <- <-; destruct q; now apply made_create in Hf.
  - unfold report_tfsf in H. destruct (ph_tfsf (f_ph s)) as [q|]; [|now apply made_nil]. apply prim_fine in H. destruct H as (f & Hf & H). injection H as <-. cbn [f_h5 set_f_h5] in *.
    apply bind_ok in Hf. destruct Hf as (v & Hv & Hf). rewrite Hv. unfold write_report, h5_open in Hf. destruct (slookup _ (f_h5 s)) as [[|]|]; try discriminate. cbn [bind] in Hf.
    rewrite <- path3 in Hf. now apply made_create in Hf.
Qed.
Definition records (s : field) (c : call) : list record := (recorded c ++ result_at s c)%list.
Theorem call_records c s s' : exec_call c s = Fine s' -> made (f_h5 s) (records s c) (f_h5 s').
Proof.
  intros H. unfold records. assert (A := call_made c s s' H). assert (B := result_made c s s' H).
  destruct c as [[]| | |]; cbn [recorded app] in *; try exact B; cbn [result_at]; rewrite app_nil_r; exact A.
Qed.

(** *** The statements *)
Theorem records_stay c s s1 l r : exec_call c s = Fine s1 -> In r (records s c) ->
  match main_catch l s1 with Fine a | Raise _ a => holds (f_h5 a) r | Undef _ => True end.
Proof.
  intros H Hr. destruct (call_records c s s1 H) as (_ & _ & F). rewrite Forall_forall in F. apply F in Hr. destruct Hr as [_ Hr].
  assert (K := file_kept_catch l s1). destruct (main_catch l s1); auto; eapply kept_holds; eassumption.
Qed.
Theorem header_stays g name s0 l r : mk_field g name = Ok s0 -> In r (header g) ->
  match main_catch l s0 with Fine a | Raise _ a => holds (f_h5 a) r | Undef _ => True end.
Proof.
  intros H Hr. destruct (header_made g name s0 H) as (_ & _ & F). rewrite Forall_forall in F. apply F in Hr. destruct Hr as [_ Hr].
  assert (K := file_kept_catch l s0). destruct (main_catch l s0); auto; eapply kept_holds; eassumption.
Qed.
(** a record is made once: a second call that would make it does not finish, whatever happens in between *)
Theorem records_once c s s1 l s2 c' s3 : exec_call c s = Fine s1 -> main_catch l s1 = Fine s2 -> exec_call c' s2 = Fine s3 ->
  forall r r', In r (records s c) -> In r' (records s2 c') -> where_ r <> where_ r'.
Proof.
  intros H1 H2 H3 r r' Hr Hr' E. destruct (call_records c' s2 s3 H3) as (_ & _ & F). rewrite Forall_forall in F. apply F in Hr'. destruct Hr' as [A _].
  assert (B := records_stay c s s1 l r H1 Hr). rewrite H2 in B. exact (holds_absent _ _ _ E B A).
Qed.
(** in a program that runs to its end no path is recorded twice, and at its end every record is there *)
Theorem program_records g name s0 l s : mk_field g name = Ok s0 -> exec_main l s0 = Fine s ->
  NoDup (map where_ (header g ++ flat_map recorded l)) /\ Forall (holds (f_h5 s)) (header g ++ flat_map recorded l).
Proof.
  intros H0 H. assert (M : made (f_h5 s0) (flat_map recorded l) (f_h5 s)).
  { clear H0. revert s0 H. induction l as [|c l IH]; cbn [exec_main flat_map]; intros s0 H; [injection H as <-; apply made_nil; constructor|].
    apply obind_fine in H. destruct H as (a & Ha & H). apply (made_app _ _ (f_h5 a)); [now apply call_made|auto]. }
  destruct (made_app _ _ _ _ _ (header_made g name s0 H0) M) as (_ & Nd & F). split; [exact Nd|]. eapply Forall_impl; [|exact F]. cbn. tauto.
Qed.

(** *** Materials *)
Lemma call_mats c s s' : exec_call c s = Fine s' -> incl (f_mats s') (f_mats s ++ materials_in [c]).
Proof.
  destruct c as [c|i q| |]; cbn [exec_call]; intros H.
  - apply exec_mats in H. destruct c; try (rewrite H; intros x Hx; apply in_or_app; now left). rewrite H. destruct (str_in _ _); intros x Hx; cbn; [apply in_or_app; now left|exact Hx].
  - intros x Hx. apply in_or_app. left. unfold report in H. destruct (nth_error _ _) as [m|]; [|now injection H as <-]. destruct (mon_sub_name m). apply prim_fine in H. destruct H as (v & _ & H). apply prim_fine in H. destruct H as (f & _ & H). now injection H as <-.
  - intros x Hx. apply in_or_app. left. unfold report_tfsf in H. destruct (ph_tfsf _) as [q|]; [|now injection H as <-]. apply prim_fine in H. destruct H as (f & _ & H). now injection H as <-.
  - intros x Hx. apply in_or_app. left. unfold write_monitor, start, stop in H. apply obind_fine in H. destruct H as (a & Ha & H). apply prim_fine in Ha, H. destruct Ha as (k & _ & Ha), H as (k' & _ & H). injection Ha as <-. now injection H as <-.
Qed.
Lemma main_mats l : forall s s', exec_main l s = Fine s' -> incl (f_mats s') (f_mats s ++ materials_in l).
Proof.
  induction l as [|c l IH]; cbn [exec_main]; intros s s' H; [injection H as <-; cbn; rewrite app_nil_r; apply incl_refl|]. apply obind_fine in H. destruct H as (a & Ha & H).
  apply call_mats in Ha. apply IH in H. intros x Hx. apply H in Hx. apply in_app_or in Hx. replace (materials_in (c :: l)) with (materials_in [c] ++ materials_in l)%list by (unfold materials_in; cbn [flat_map]; now rewrite app_nil_r).
  rewrite app_assoc. apply in_or_app. destruct Hx as [Hx|Hx]; [left; now apply Ha|now right].
Qed.
Lemma main_app l l' s s' : exec_main (l ++ l') s = Fine s' -> exists a, exec_main l s = Fine a /\ exec_main l' a = Fine s'.
Proof.
  revert s. induction l as [|c l IH]; cbn [app exec_main]; intros s H; [eauto|]. apply obind_fine in H. destruct H as (a & Ha & H). apply IH in H. destruct H as (b & Hb & H). exists b. rewrite Ha. auto.
Qed.
Lemma main_kept l s s' : exec_main l s = Fine s' -> kept (f_h5 s) (f_h5 s').
Proof. intros H. assert (K := file_kept l s). now rewrite H in K. Qed.
Lemma mk_field_mats g name s0 : mk_field g name = Ok s0 -> f_mats s0 = [].
Proof. unfold mk_field. intros H. inv_ok. destruct (String.eqb name ""); [discriminate|]. now inv_ok. Qed.
Theorem material_kept g name s0 l1 o l2 s : mk_field g name = Ok s0 -> exec_main (l1 ++ Do (AddObject o) :: l2) s0 = Fine s ->
  ~ In (m_name (o_mat o)) (materials_in l1) -> Forall (holds (f_h5 s)) (material_record (o_mat o)).
Proof.
  intros H0 H Hn. apply main_app in H. destruct H as (a & Ha & H). cbn [exec_main] in H. apply obind_fine in H. destruct H as (b & Hb & H). apply main_kept in H.
  assert (Nm : str_in (m_name (o_mat o)) (f_mats a) = false).
  { apply main_mats in Ha. rewrite (mk_field_mats g name s0 H0) in Ha. cbn [app] in Ha. unfold str_in. apply not_true_is_false. intros E. apply existsb_exists in E. destruct E as (x & Hx & E). apply String.eqb_eq in E. subst x. auto. }
  cbn [exec_call exec] in Hb. unfold add_object in Hb. apply obind_fine in Hb. destruct Hb as (s4 & Hb & H5). apply obind_fine in Hb. destruct Hb as (s3 & Hb & H4). apply obind_fine in Hb. destruct Hb as (s2 & Hb & H3). apply obind_fine in Hb. destruct Hb as (s1 & H1 & H2).
  unfold register_mat in H1. rewrite Nm in H1. cbv zeta in H1. apply prim_fine in H1. destruct H1 as (f & Hf & H1). injection H1 as <-.
  assert (M : made (f_h5 a) (material_record (o_mat o)) f).
  { cbn [f_h5 set_f_mats] in Hf. rewrite write_mat_eq in Hf. apply bind_ok in Hf. destruct Hf as (f1 & G1 & Hf). apply (made_after _ f1); [now apply made_groups in G1|]. unfold material_record. apply made_fixed; [discriminate|]. exact Hf. }
  destruct M as (_ & _ & F). eapply Forall_impl; [|exact F]. intros r [_ Hr]. eapply kept_holds; [exact H|].
  assert (E2 := on_ph_h5 (paint_phys o) (set_f_h5 f (set_f_mats (f_mats a ++ [m_name (o_mat o)]) a))). rewrite H2 in E2. assert (E3 := on_ph_h5 (insert_material o) s2). rewrite H3 in E3. cbn [leaves] in E2, E3.
  apply prim_fine in H4. destruct H4 as (f' & Hf' & H4). injection H4 as <-. injection H5 as <-. cbn [f_h5 map_ph set_f_h5 set_f_ph].
  apply write_obj_edits, edits_kept in Hf'. eapply kept_holds; [exact Hf'|]. rewrite E3, E2. exact Hr.
Qed.

(** *** Names *)
Lemma clash_shared c c' : clash c c' -> exists r r', In r (recorded c) /\ In r' (recorded c') /\ where_ r = where_ r'.
Proof.
  intros H. destruct H as [o o' E1 E2 E3|r r' E1 E2|m m' n H1 H2|m m' E1 E2|v tp v' tp']; cbn [recorded].
  - do 2 eexists. split; [left; reflexivity|]. split; [left; reflexivity|]. cbn [where_ fst]. unfold object_dir. rewrite E1, E2. destruct (o_geom o), (o_geom o'); try contradiction; reflexivity.
  - unfold source_record. destruct (sr_kind r), (sr_kind r'); try contradiction; destruct (tp_shape (sr_tp r)), (tp_shape (sr_tp r')); cbn [app fixed map];
      (do 2 eexists; split; [left; reflexivity|]; split; [left; reflexivity|]; cbn [where_ fst]; now rewrite E1).
  - assert (X : forall m n, In n (monitor_names m) -> exists r, In r (monitor_record m) /\ where_ r = path ["monitors"; fst n ++ "_monitor"; snd n; "dft_frequency"]%string).
    { clear. intros m n H. destruct m; cbn [monitor_names monitor_record] in *.
      - destruct H as [<-|[]]. eexists. split; [right; right; right; left; reflexivity|reflexivity].
      - apply in_app_or in H. destruct H as [H|[<-|[]]].
        + apply in_map_iff in H. destruct H as (x & <- & Hx). eexists. split; [apply in_or_app; left; apply in_flat_map; exists x; split; [exact Hx|right; right; right; left; reflexivity]|reflexivity].
        + eexists. split; [apply in_or_app; right; right; right; left; reflexivity|reflexivity].
      - destruct H as [<-|[]]. eexists. split; [right; right; left; reflexivity|reflexivity].
      - destruct H as [<-|[]]. eexists. split; [right; right; left; reflexivity|reflexivity].
      - destruct H as [<-|[]]. eexists. split; [right; left; reflexivity|reflexivity]. }
    destruct (X m n H1) as (r & A & B), (X m' n H2) as (r' & A' & B'). exists r, r'. repeat split; auto. congruence.
  - unfold view_record. destruct (tm_shape_ m), (tm_shape_ m'); try contradiction; cbn [fixed map surface_items corners];
      (do 2 eexists; split; [left; reflexivity|]; split; [left; reflexivity|]; cbn [where_ fst]; now rewrite E1).
  - do 2 eexists. split; [left; reflexivity|]. split; [left; reflexivity|]. reflexivity.
Qed.
(** after a call has finished, no later call that needs the same name does, whatever is done and caught in between *)
Theorem names_once c s s1 l s2 c' : clash c c' -> exec_call c s = Fine s1 -> main_catch l s1 = Fine s2 -> forall s3, exec_call c' s2 <> Fine s3.
Proof.
  intros Hc H1 H2 s3 H3. destruct (clash_shared c c' Hc) as (r & r' & Hr & Hr' & E).
  refine (records_once c s s1 l s2 c' s3 H1 H2 H3 r r' _ _ E); apply in_or_app; now left.
Qed.
Lemma main_then_catch l : forall s s', exec_main l s = Fine s' -> main_catch l s = Fine s'.
Proof. induction l as [|c l IH]; cbn [exec_main main_catch]; intros s s' H; [exact H|]. apply obind_fine in H. destruct H as (a & Ha & H). rewrite Ha. auto. Qed.
End File.
