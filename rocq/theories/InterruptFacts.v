(** What a call writes, in order, and what is left when an exception ends it. *)
From Coq Require Import ZArith String Ascii List Bool Lia.
From Verif Require Import Scalar Base BaseFacts VecM GridM GeometryM MaterialM PmlM DftM TfsfM PolarM
  InterpM H5M ClockM MonitorM FieldM ReportM OutFacts PhysFacts OpsFacts H5Facts SpecOutput PassiveFacts EditFacts SpecFile FileFacts SpecInterrupt.
Import ListNotations.
Local Open Scope Z_scope.

Section Interrupt.
Context {N : Num}.

Lemma datum_none f p : slookup p f = None -> datum f p = None.
Proof. unfold datum. now intros ->. Qed.
Lemma adds_nil f : adds f [] f.
Proof. split; [constructor|]. split; [intros p x v []|reflexivity]. Qed.
Lemma adds_kept_none f l f' p : adds f l f' -> kept f f' -> slookup p f' = None -> slookup p f = None.
Proof.
  intros _ K E. destruct (slookup p f) as [[|[|] rows]|] eqn:Ep; [apply K in Ep; congruence|apply K in Ep; destruct Ep; congruence|apply K in Ep; congruence|reflexivity].
Qed.
Definition grown_by (f : h5) (l : list record) (f' : h5) : Prop := kept f f' /\ adds f l f'.
Lemma grown_nil f : grown_by f [] f.
Proof. split; [apply kept_refl|apply adds_nil]. Qed.
Lemma grown_trans f l a l' b : grown_by f l a -> grown_by a l' b -> grown_by f (l ++ l') b.
Proof.
  intros (K1 & A1) (K2 & A2). split; [eapply kept_trans; eassumption|]. destruct A1 as (N1 & F1 & S1), A2 as (N2 & F2 & S2).
  assert (D : forall p, In p (map where_ l) -> In p (map where_ l') -> False).
  { intros p H1 H2. apply in_map_iff in H1, H2. destruct H1 as ([[q x] v] & <- & H1), H2 as ([[q' x'] v'] & Eq & H2). cbn [where_ fst] in *. subst q'.
    apply F1 in H1. apply F2 in H2. destruct H1 as [_ H1], H2 as [H2 _]. unfold datum in H1. rewrite H2 in H1. discriminate. }
  split; [rewrite map_app; now apply NoDup_cat|]. split.
  - intros p x v H. apply in_app_or in H. destruct H as [H|H].
    + destruct (F1 _ _ _ H) as [X Y]. split; [exact X|]. rewrite S2; [exact Y|]. intros Z. apply (D p); [|exact Z]. exact (in_map where_ _ _ H).
    + destruct (F2 _ _ _ H) as [X Y]. split; [|exact Y]. destruct (slookup p f) as [o|] eqn:E; [|reflexivity]. exfalso. apply K1 in E. destruct o as [|[|] rows]; [congruence|destruct E; congruence|congruence].
  - intros p H. rewrite map_app, in_app_iff in H. rewrite S2 by tauto. apply S1. tauto.
Qed.

(** the dataset a step makes *)
Definition op_record (o : h5op) : list record :=
  match o with OGroup _ => [] | ONew p x v => [(p, x, v)] | OLink p q => [(p, false, PRef q)] | OMore _ _ => [] end.
Definition ops_records (l : list h5op) : list record := flat_map op_record l.
Definition no_more (o : h5op) : bool := match o with OMore _ _ => false | _ => true end.
Lemma create_grown f p x v f' : h5_create f p x v = Ok f' -> grown_by f [(p, x, v)] f'.
Proof.
  intros H. split; [apply edits_kept; eapply edits_create; exact H|]. unfold h5_create in H. destruct (slookup p f) eqn:E; inv_ok.
  split; [constructor; [intros []|constructor]|]. split.
  - intros q y w [K|[]]. injection K as <- <- <-. split; [exact E|]. unfold datum. rewrite slookup_app, E. cbn [slookup]. now rewrite String.eqb_refl.
  - intros q Hq. unfold datum. rewrite slookup_app. destruct (slookup q f); [reflexivity|]. cbn [slookup]. destruct (String.eqb_spec q p) as [->|]; [|reflexivity]. exfalso. apply Hq. now left.
Qed.
Lemma group_grown f p f' : h5_group f p = Ok f' -> grown_by f [] f'.
Proof.
  intros H. split; [apply edits_kept; eapply edits_group; exact H|]. unfold h5_group in H. destruct (slookup p f) as [[|]|] eqn:E; inv_ok; [apply adds_nil|].
  split; [constructor|]. split; [intros q y w []|]. intros q _. unfold datum. rewrite slookup_app. destruct (slookup q f) eqn:Eq; [reflexivity|]. cbn [slookup]. now destruct (String.eqb q p).
Qed.
Lemma op_grown f o f' : no_more o = true -> h5_op f o = Ok f' -> grown_by f (op_record o) f'.
Proof.
  destruct o; cbn [no_more h5_op op_record]; intros X H; [now apply group_grown in H|now apply create_grown|discriminate|].
  destruct (h5_exists f q); [|discriminate]. now apply create_grown.
Qed.
Lemma ops_grown l : forallb no_more l = true -> forall f f', h5_ops f l = Ok f' -> grown_by f (ops_records l) f'.
Proof.
  unfold h5_ops. induction l as [|o l IH]; cbn [forallb foldM]; intros X f f' H; [injection H as <-; apply grown_nil|]. apply andb_true_iff in X. destruct X as [X Y].
  apply bind_ok in H. destruct H as (a & Ha & H). apply grown_trans with a; [now apply op_grown|auto].
Qed.
Lemma left_grown l : forallb no_more l = true -> forall f, exists a b, ops_records l = (a ++ b)%list /\ grown_by f a (h5_left f l).
Proof.
  induction l as [|o l IH]; cbn [forallb]; intros X f; [exists [], []; split; [reflexivity|apply grown_nil]|]. apply andb_true_iff in X. destruct X as [X Y]. cbn [h5_left].
  destruct (h5_op f o) as [f1|e|u] eqn:E.
  - destruct (IH Y f1) as (a & b & Ea & G). exists (op_record o ++ a)%list, b. split; [unfold ops_records in *; cbn [flat_map]; now rewrite Ea, app_assoc|]. apply grown_trans with f1; [now apply op_grown|exact G].
  - exists [], (ops_records (o :: l)). split; [reflexivity|apply grown_nil].
  - exists [], (ops_records (o :: l)). split; [reflexivity|apply grown_nil].
Qed.
(** a step that fails leaves something to be written, unless only groups remain *)
Lemma left_fails l : forallb no_more l = true -> forall f e, h5_ops f l = Throw e -> exists a b, ops_records l = (a ++ b)%list /\ grown_by f a (h5_left f l) /\ exists l1 l2, l = (l1 ++ l2)%list /\ b = ops_records l2 /\ l2 <> [].
Proof.
  unfold h5_ops. induction l as [|o l IH]; cbn [forallb foldM]; intros X f e H; [discriminate|]. apply andb_true_iff in X. destruct X as [X Y]. cbn [h5_left].
  destruct (h5_op f o) as [f1|e1|u] eqn:E; cbn [bind] in H; [|exists [], (ops_records (o :: l)); split; [reflexivity|]; split; [apply grown_nil|exists [], (o :: l); split; [reflexivity|split; [reflexivity|discriminate]]]|discriminate].
  destruct (IH Y f1 e H) as (a & b & Ea & G & l1 & l2 & El & Eb & Hn). exists (op_record o ++ a)%list, b. split; [unfold ops_records in *; cbn [flat_map]; now rewrite Ea, app_assoc|].
  split; [apply grown_trans with f1; [now apply op_grown|exact G]|]. exists (o :: l1), l2. split; [cbn; now rewrite El|auto].
Qed.

Lemma ops_records_app a b : ops_records (a ++ b) = (ops_records a ++ ops_records b)%list.
Proof. apply flat_map_app. Qed.
Lemma records_groups l : ops_records (map OGroup l) = [].
Proof. unfold ops_records. induction l; [reflexivity|assumption]. Qed.
Lemma records_news dir l : dir <> [] -> ops_records (news (path dir) l) = fixed dir l.
Proof. intros H. rewrite fixed_path by exact H. unfold ops_records, news. induction l as [|[n v] l IH]; [reflexivity|]. cbn [map flat_map op_record app]. now rewrite IH. Qed.
Lemma more_groups l : forallb no_more (map OGroup l) = true.
Proof. now induction l. Qed.
Lemma more_news g l : forallb no_more (news g l) = true.
Proof. unfold news. now induction l as [|[n v] l IH]. Qed.
Lemma more_app a b : forallb no_more a = true -> forallb no_more b = true -> forallb no_more (a ++ b) = true.
Proof. intros A B. now rewrite forallb_app, A, B. Qed.

Lemma mat_records m : ops_records (mat_ops m) = material_record m /\ forallb no_more (mat_ops m) = true.
Proof.
  unfold mat_ops, mat_path. rewrite <- path2. split; [|apply more_app; [reflexivity|apply more_news]]. rewrite ops_records_app, records_news by discriminate. cbn [ops_records flat_map op_record app].
  unfold material_record. f_equal.
Qed.
Lemma obj_records o : ops_records (obj_ops o) = object_record o /\ forallb no_more (obj_ops o) = true.
Proof.
  unfold obj_ops. rewrite obj_path_dir. split; [|apply more_app; [apply more_groups|apply more_app; [reflexivity|apply more_app; [apply more_news|reflexivity]]]].
  rewrite !ops_records_app, records_groups, records_news by discriminate. unfold object_record. rewrite !path_snoc by discriminate. cbn [ops_records flat_map op_record app fixed map].
  rewrite path_snoc by discriminate. repeat f_equal. 
Qed.
Lemma src_records r : ops_records (src_ops r) = source_record r /\ forallb no_more (src_ops r) = true.
Proof.
  unfold src_ops. split; [|apply more_app; [apply more_groups|apply more_app; apply more_news]]. assert (P : src_path r = path ["sources"; src_sub (sr_kind r); sr_name r]%string) by (rewrite path3; reflexivity). rewrite P.
  rewrite !ops_records_app, records_groups, !records_news by discriminate. cbn [app]. rewrite <- fixed_app. unfold source_record, src_sub. destruct (sr_kind r); [reflexivity|]. now rewrite surf_items_ok.
Qed.
Lemma mon1_records sub name it fr : ops_records (mon1_ops sub name it fr) = fixed ["monitors"%string; sub; name] (it ++ frequencies_of fr) /\ forallb no_more (mon1_ops sub name it fr) = true.
Proof.
  unfold mon1_ops, mon_dir. rewrite <- path3. split; [|apply more_app; [apply more_groups|apply more_news]]. now rewrite ops_records_app, records_groups, records_news by discriminate.
Qed.
Lemma side_records m : ops_records (surf_mon_ops m) = side_record m /\ forallb no_more (surf_mon_ops m) = true.
Proof. unfold surf_mon_ops. rewrite surf_items_ok. apply mon1_records. Qed.
Lemma mon_records m : ops_records (mon_ops m) = monitor_record m /\ forallb no_more (mon_ops m) = true.
Proof.
  destruct m as [m|m|m|m|m]; cbn [mon_ops monitor_record]; [apply side_records| |apply mon1_records|apply mon1_records|apply mon1_records].
  destruct (mon1_records "box_monitor" (bm_name m) (vol_items (bm_vol m)) (bm_freq m)) as [A B].
  assert (C : ops_records (flat_map surf_mon_ops (bm_sides m)) = flat_map side_record (bm_sides m) /\ forallb no_more (flat_map surf_mon_ops (bm_sides m)) = true).
  { induction (bm_sides m) as [|x l [I1 I2]]; [split; reflexivity|]. cbn [flat_map]. destruct (side_records x) as [X Y]. rewrite ops_records_app, X, I1. split; [reflexivity|now apply more_app]. }
  destruct C as [C D]. rewrite ops_records_app, C, A. split; [reflexivity|now apply more_app].
Qed.
Lemma view_records m : ops_records (tm_add_ops m) = view_record m /\ forallb no_more (tm_add_ops m) = true.
Proof.
  unfold tm_add_ops, tm_path. rewrite <- path2. split; [|apply more_app; [reflexivity|apply more_news]]. rewrite ops_records_app, records_news by discriminate. cbn [ops_records flat_map op_record app].
  unfold view_record, tm_items. destruct (tm_shape_ m); rewrite ?surf_items_ok; reflexivity.
Qed.
Lemma tfsf_records q : ops_records (tfsf_ops q) = tfsf_record (q_vol q) (q_tp q) /\ forallb no_more (tfsf_ops q) = true.
Proof.
  unfold tfsf_ops. split; [|apply more_app; [reflexivity|apply more_app; [apply more_news|now destruct (tp_dft _)]]]. rewrite <- path2, !ops_records_app, records_groups, records_news by discriminate.
  unfold tfsf_record. rewrite fixed_app. cbn [app]. f_equal. destruct (tp_dft (q_tp q)); [|reflexivity]. reflexivity.
Qed.
Lemma data_records sub name m : mon_sub_name m = (sub, name) -> let l := (map OGroup (mon_groups sub name) ++ news (mon_dir sub name) (mon_items m))%list in
  ops_records l = fixed ["monitors"%string; sub; name] (mon_items m) /\ forallb no_more l = true.
Proof.
  intros E l. unfold l, mon_dir. rewrite <- path3. split; [|apply more_app; [apply more_groups|apply more_news]]. now rewrite ops_records_app, records_groups, records_news by discriminate.
Qed.

(** *** One call *)
Lemma adds_of f l f' : grown_by f l f' -> adds f l f'. Proof. now intros []. Qed.
Lemma cut_all {A} (l : list A) : exists a b : list A, l = (a ++ b)%list. Proof. exists [], l. reflexivity. Qed.

(** what a call leaves in the file: all of its records, or a first part of them if it raised *)
Definition leaves_part (f : h5) (l : list record) (m : out field) : Prop :=
  match m with
  | Fine a => grown_by f l (f_h5 a)
  | Raise _ a => exists l1 l2, l = (l1 ++ l2)%list /\ grown_by f l1 (f_h5 a)
  | Undef _ => True
  end.
Lemma part_ops ops l s0 k : ops_records ops = l -> forallb no_more ops = true -> (forall f, h5_ops (f_h5 s0) ops = Ok f -> exists a, k f = Fine a /\ f_h5 a = f) ->
  leaves_part (f_h5 s0) l (prim (half_written ops s0) (h5_ops (f_h5 s0) ops) k).
Proof.
  intros <- M K. destruct (h5_ops (f_h5 s0) ops) as [f|e|u] eqn:E; cbn [prim leaves_part]; [|destruct (left_grown ops M (f_h5 s0)) as (a & b & Ea & G); exists a, b; split; [exact Ea|exact G]|exact I].
  destruct (K f eq_refl) as (a & -> & <-). cbn [leaves_part]. now apply ops_grown.
Qed.
Lemma part_same f l m : leaves (fun a => f_h5 a = f) m -> (match m with Fine _ => l = [] | _ => True end) -> leaves_part f l m.
Proof.
  destruct m as [a|e a|u]; cbn; intros H K; [subst; apply grown_nil| |exact Logic.I]. exists [], l. split; [reflexivity|]. rewrite H. apply grown_nil.
Qed.
Lemma part_then f l l' m k : leaves_part f l m -> (forall a, m = Fine a -> leaves_part (f_h5 a) l' (k a)) -> leaves_part f (l ++ l') (m >>= k).
Proof.
  destruct m as [a|e a|u]; cbn [leaves_part obind]; intros H K; [|destruct H as (l1 & l2 & -> & G); exists l1, (l2 ++ l')%list; split; [now rewrite app_assoc|exact G]|exact Logic.I].
  specialize (K a eq_refl). destruct (k a) as [b|e b|u]; cbn [leaves_part] in *; [now apply grown_trans with (f_h5 a)| |exact Logic.I].
  destruct K as (l1 & l2 & -> & G). exists (l ++ l1)%list, l2. split; [now rewrite app_assoc|now apply grown_trans with (f_h5 a)].
Qed.
Lemma part_last f l m k : leaves_part f l m -> (forall a, exists b, k a = Fine b /\ f_h5 b = f_h5 a) -> leaves_part f l (m >>= k).
Proof. intros H K. destruct m as [a|e a|u]; cbn [leaves_part obind] in *; auto. destruct (K a) as (b & -> & E). cbn [leaves_part]. now rewrite E. Qed.

Lemma part_quiet f l m k : leaves_part f l m -> (forall a, leaves (fun b => f_h5 b = f_h5 a) (k a)) -> leaves_part f l (m >>= k).
Proof.
  intros H K. destruct m as [a|e a|u]; cbn [leaves_part obind] in *; auto. specialize (K a). destruct (k a) as [b|e b|u]; cbn [leaves leaves_part] in *; auto; rewrite K; auto.
  exists l, []. split; [now rewrite app_nil_r|exact H].
Qed.
Lemma object_part o s : leaves_part (f_h5 s) (writes s (Do (AddObject o))) (add_object o s).
Proof.
  unfold add_object. cbn [writes]. apply part_last; [|intros a; eexists; split; reflexivity].
  apply part_then.
  - apply part_quiet; [apply part_quiet|intros a; apply on_ph_h5]; [|intros a; apply on_ph_h5].
    unfold register_mat, str_in. destruct (existsb _ _); [apply grown_nil|]. cbv zeta. destruct (mat_records (o_mat o)) as [A B].
    change (f_h5 s) with (f_h5 (set_f_mats (f_mats s ++ [m_name (o_mat o)]) s)) at 1. apply part_ops; auto. intros f _. eexists. split; reflexivity.
  - intros a _. destruct (obj_records o) as [A B]. apply part_ops; auto. intros f _. eexists. split; reflexivity.
Qed.
Theorem call_part c s : lasting c -> leaves_part (f_h5 s) (writes s c) (exec_call c s).
Proof.
  intros L. destruct c as [c|i q| |]; [destruct c; try contradiction; cbn [writes recorded result_at exec_call exec]; rewrite ?app_nil_r; cbn [app]| | |].
  - apply part_same; [apply on_ph_h5|]. now destruct (on_ph _ _).
  - apply object_part.
  - destruct (src_records r). apply part_ops; auto. intros f _. eexists. split; reflexivity.
  - unfold add_monitor. destruct (mon_attach _ m) as [m'|e|u] eqn:E; cbn [prim]; [|exists [], (monitor_record m); split; [reflexivity|apply grown_nil]|exact Logic.I].
    rewrite <- (mon_attach_record _ _ _ E). destruct (mon_records m'). apply part_ops; auto. intros f _. eexists. split; reflexivity.
  - destruct (view_records m). apply part_ops; auto. intros f _. eexists. split; reflexivity.
  - apply grown_nil.
  - apply grown_nil.
  - apply part_same; [apply on_ph_h5|]. unfold clear_materials. now destruct (on_ph _ _).
  - unfold set_tfsf. destruct (mk_tfsf _ tp v _) as [q|e|u] eqn:E; cbn [prim]; [|exists [], (tfsf_record v tp); split; [reflexivity|apply grown_nil]|exact Logic.I].
    assert (Eq : q_vol q = v /\ q_tp q = tp) by (unfold mk_tfsf in E; inv_ok; auto). destruct Eq as [<- <-]. cbv zeta. destruct (tfsf_records q).
    change (f_h5 s) with (f_h5 (map_ph (set_ph_tfsf (Some q)) s)) at 1. apply part_ops; auto. intros f _. eexists. split; reflexivity.
  - unfold write_monitor_data. destruct (nth_error (f_mons s) i) as [m|]; [|apply grown_nil]. destruct (mon_sub_name m) as [sub name] eqn:Es. cbv zeta. destruct (data_records sub name m Es) as [A B].
    apply part_ops; [|exact B|intros f _; eexists; split; reflexivity]. cbv zeta in A. rewrite A.
    assert (X : forall d, dft_items d = map (fun e => (fst e, PCplx (List.concat (snd e)))) (d_map d)) by (intros d; unfold dft_items; apply map_ext; now intros []).
    destruct m; cbn [mon_sub_name mon_items] in *; injection Es as <- <-; rewrite ?X; reflexivity.
  - unfold on_obj. destruct (nth_error _ _) as [o|]; [destruct (o_dyn o)|]; apply grown_nil.
  - unfold on_obj. destruct (nth_error _ _) as [o|]; [destruct (o_dyn o)|]; apply grown_nil.
  - unfold on_obj. destruct (nth_error _ _) as [o|]; [destruct (o_dyn o)|]; apply grown_nil.
  - unfold on_obj. destruct (nth_error _ _) as [o|]; [destruct (o_dyn o)|]; apply grown_nil.
  - cbn [writes recorded app result_at exec_call]. unfold report. destruct (nth_error (f_mons s) i) as [m|]; [|apply grown_nil]. destruct (mon_sub_name m) as [sub name] eqn:Es.
    destruct (mon_report _ m q) as [v|e|u] eqn:Ev; cbn [prim]; [|exists [], []; split; [reflexivity|apply grown_nil]|exact Logic.I]. cbv zeta. set (gs := (match m with MBox b => _ | _ => _ end ++ mon_groups sub name)%list).
    assert (G0 := more_groups gs). destruct (h5_ops (f_h5 s) (map OGroup gs)) as [f1|e|u] eqn:E1; cbn [bind].
    + apply (ops_grown _ G0) in E1 as G1. rewrite records_groups in G1. destruct (write_report f1 (mon_dir sub name) (report_name q) v) as [f2|e|u] eqn:E2; cbn [prim leaves_part].
      * apply (grown_trans _ [] f1); [exact G1|]. unfold write_report, h5_open in E2. destruct (slookup (mon_dir sub name) f1) as [[|]|]; try discriminate. cbn [bind] in E2.
        unfold mon_dir in E2. rewrite <- (path3 "monitors" sub name) in E2. rewrite <- path_snoc in E2 by discriminate. destruct m; cbn [mon_sub_name] in Es; injection Es as <- <-; destruct q; now apply create_grown in E2.
      * exists [], (fixed ("monitors"%string :: match m with MSurf m => ["surface_monitor"; sm_name m] | MBox m => ["box_monitor"; bm_name m] | MCyl m => ["cylinder_monitor"; cm_name m] | MVol m => ["volume_monitor"; vm_name m] | MPt m => ["point_monitor"; pm_name m] end%string)
          [(match q with QFlux => "flux" | QForce => "force" | QTorque _ => "torque" | QNtff _ _ => "ntff_point" | QCircle _ _ => "ntff_sphere" end%string, v)]).
        split; [reflexivity|]. unfold half_written. cbn [f_h5 set_f_h5]. rewrite (left_ok _ _ _ E1). exact G1.
      * exact Logic.I.
    + cbn [prim leaves_part]. destruct (left_grown _ G0 (f_h5 s)) as (a & b & Ea & G). rewrite records_groups in Ea. symmetry in Ea. apply app_eq_nil in Ea. destruct Ea as [-> ->]. eexists [], _. split; [reflexivity|exact G].
    + exact Logic.I.
  - cbn [writes recorded app result_at exec_call]. unfold report_tfsf. destruct (ph_tfsf (f_ph s)) as [q|]; [|apply grown_nil]. destruct (tfsf_flux q) as [v|e|u]; cbn [bind prim leaves_part]; [|exists [], []; split; [reflexivity|apply grown_nil]|exact Logic.I].
    destruct (write_report (f_h5 s) _ _ _) as [f2|e|u] eqn:E2; cbn [prim leaves_part f_h5 set_f_h5]; [|eexists [], _; split; [reflexivity|apply grown_nil]|exact Logic.I].
    unfold write_report, h5_open in E2. destruct (slookup _ (f_h5 s)) as [[|]|]; try discriminate. cbn [bind] in E2. rewrite <- path3 in E2. now apply create_grown in E2.
  - cbn [writes recorded app result_at exec_call]. unfold write_monitor, start, stop. destruct (clock_start _ _) as [k|e|u]; cbn [prim obind leaves_part]; [|exists [], []; split; [reflexivity|apply grown_nil]|exact Logic.I].
    destruct (clock_stop _ _) as [k'|e|u]; cbn [prim obind leaves_part]; [apply grown_nil|exists [], []; split; [reflexivity|apply grown_nil]|exact Logic.I].
Qed.
Theorem call_writes c s s' : lasting c -> exec_call c s = Fine s' -> adds (f_h5 s) (writes s c) (f_h5 s').
Proof. intros L H. assert (P := call_part c s L). rewrite H in P. exact (adds_of _ _ _ P). Qed.
Theorem interrupted_writes c s e s' : lasting c -> exec_call c s = Raise e s' -> exists a b, writes s c = (a ++ b)%list /\ adds (f_h5 s) a (f_h5 s').
Proof. intros L H. assert (P := call_part c s L). rewrite H in P. destruct P as (a & b & E & G). exists a, b. split; [exact E|exact (adds_of _ _ _ G)]. Qed.

End Interrupt.
