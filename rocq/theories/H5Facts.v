(** What each call writes to the output file, as a list of (path, row). *)
From Coq Require Import ZArith String Ascii List Bool Lia.
From Verif Require Import Scalar Base BaseFacts VecM GridM GeometryM MaterialM PmlM DftM TfsfM PolarM
  InterpM H5M ClockM MonitorM FieldM OutFacts PhysFacts ReachFacts SpecClock.
From Verif Require Import OpsFacts.
Import ListNotations.
Local Open Scope Z_scope.

Section Files.
Context {N : Num}.

Definition row : Type := string * payload.
Definition rows_at (l : list row) (p : string) : list payload :=
  map snd (filter (fun w => String.eqb p (fst w)) l).
(** [l] is the list of rows added, in order; nothing else changed *)
Definition wrote (f : h5) (l : list row) (f' : h5) : Prop :=
  forall p, data_rows f' p = (data_rows f p ++ rows_at l p)%list.

Lemma wrote_nil f : wrote f [] f.
Proof. intros p. cbn. now rewrite app_nil_r. Qed.
Lemma rows_at_app l l' p : rows_at (l ++ l') p = (rows_at l p ++ rows_at l' p)%list.
Proof. unfold rows_at. now rewrite filter_app, map_app. Qed.
Lemma wrote_app f l f1 l' f' : wrote f l f1 -> wrote f1 l' f' -> wrote f (l ++ l') f'.
Proof. intros H H' p. now rewrite H', H, rows_at_app, app_assoc. Qed.
Lemma rows_at_not l p : (forall w, In w l -> fst w <> p) -> rows_at l p = [].
Proof.
  induction l as [|w l IH]; intros H; [reflexivity|]. unfold rows_at. cbn [filter].
  destruct (String.eqb_spec p (fst w)) as [E|E]; [exfalso; apply (H w); [left; reflexivity|congruence]|].
  apply IH. intros; apply H; now right.
Qed.

Lemma slookup_app {A} k (f g : list (string * A)) :
  slookup k (f ++ g) = match slookup k f with Some v => Some v | None => slookup k g end.
Proof. induction f as [|[a x] f IH]; cbn [app slookup]; [reflexivity|]. now destruct (String.eqb k a). Qed.
Lemma slookup_sassign {A} k v (m : list (string * A)) p : slookup k m <> None ->
  slookup p (sassign k v m) = if String.eqb p k then Some v else slookup p m.
Proof.
  induction m as [|[a x] m IH]; cbn [slookup sassign]; [congruence|]. intros H.
  destruct (String.eqb_spec k a) as [->|E].
  - cbn [slookup]. now destruct (String.eqb p a).
  - cbn [slookup]. rewrite IH by exact H. destruct (String.eqb_spec p a) as [->|E']; [|reflexivity].
    destruct (String.eqb_spec a k); [congruence|reflexivity].
Qed.

Lemma h5_group_wrote f p f' : h5_group f p = Ok f' -> wrote f [] f'.
Proof.
  unfold h5_group. destruct (slookup p f) as [[|]|] eqn:E; intros H; inv_ok; [apply wrote_nil|].
  intros q. unfold data_rows. rewrite slookup_app. cbn [slookup rows_at filter map].
  destruct (slookup q f) as [[|]|]; rewrite ?app_nil_r; auto. now destruct (String.eqb q p).
Qed.
Lemma h5_groups_wrote l : forall f f', h5_groups f l = Ok f' -> wrote f [] f'.
Proof.
  induction l as [|p l IH]; cbn; intros f f' H; inv_ok; [apply wrote_nil|].
  apply (wrote_app f [] r [] f'); [now apply h5_group_wrote in Hr|now apply IH].
Qed.
Lemma h5_create_wrote f p b v f' : h5_create f p b v = Ok f' -> wrote f [(p, v)] f'.
Proof.
  unfold h5_create. destruct (slookup p f) eqn:E; intros H; inv_ok.
  intros q. unfold data_rows, rows_at. rewrite slookup_app. cbn [slookup filter map fst].
  destruct (String.eqb_spec q p) as [->|Hn]; [now rewrite E|].
  destruct (slookup q f) as [[|]|]; cbn; now rewrite ?app_nil_r.
Qed.
Lemma h5_append_wrote f p v f' : h5_append f p v = Ok f' -> wrote f [(p, v)] f'.
Proof.
  unfold h5_append. destruct (slookup p f) as [[|[|] rows]|] eqn:E; intros H; inv_ok.
  intros q. unfold data_rows, rows_at. rewrite slookup_sassign by congruence. cbn [filter map fst].
  destruct (String.eqb_spec q p) as [->|Hn]; [now rewrite E|]. cbn. now rewrite app_nil_r.
Qed.
Lemma h5_creates_wrote g l : forall f f', h5_creates f g l = Ok f' ->
  wrote f (map (fun '(n, v) => ((g // n)%string, v)) l) f'.
Proof.
  induction l as [|[n v] l IH]; cbn; intros f f' H; inv_ok; [apply wrote_nil|].
  apply (wrote_app f [((g // n)%string, v)] r); [now apply h5_create_wrote in Hr|now apply IH].
Qed.

(** existing datasets keep their extendable flag *)
Definition extendable (f : h5) (p : string) : option bool :=
  match slookup p f with Some (HData b _) => Some b | _ => None end.

(** first segment of a path *)
Fixpoint root (p : string) : string :=
  match p with
  | EmptyString => EmptyString
  | String c r => if Ascii.eqb c "/" then EmptyString else String c (root r)
  end.

Definition rooted (R : string -> Prop) (f f' : h5) : Prop :=
  exists l, wrote f l f' /\ Forall (fun w => R (root (fst w))) l.
Lemma rooted_refl R f : rooted R f f.
Proof. exists []. split; [apply wrote_nil|constructor]. Qed.
Lemma rooted_trans R f f1 f' : rooted R f f1 -> rooted R f1 f' -> rooted R f f'.
Proof. intros (l & A & B) (l' & A' & B'). exists (l ++ l')%list. split; [eapply wrote_app; eauto|now apply Forall_app]. Qed.
Lemma rooted_weak (R R' : string -> Prop) f f' : (forall r, R r -> R' r) -> rooted R f f' -> rooted R' f f'.
Proof. intros H (l & A & B). exists l. split; [exact A|]. eapply Forall_impl; [|exact B]. cbn. intros; now apply H. Qed.
Lemma rooted_rows (R : string -> Prop) f f' p : rooted R f f' -> ~ R (root p) -> data_rows f' p = data_rows f p.
Proof.
  intros (l & A & B) H. rewrite A, rows_at_not; [apply app_nil_r|]. intros w Hw E. rewrite Forall_forall in B.
  apply H. rewrite <- E. now apply B.
Qed.
Lemma rooted_group R f p f' : h5_group f p = Ok f' -> rooted R f f'.
Proof. intros H. exists []. split; [now apply h5_group_wrote in H|constructor]. Qed.
Lemma rooted_groups R f l f' : h5_groups f l = Ok f' -> rooted R f f'.
Proof. intros H. exists []. split; [now apply h5_groups_wrote in H|constructor]. Qed.
Lemma rooted_create (R : string -> Prop) f p b v f' : R (root p) -> h5_create f p b v = Ok f' -> rooted R f f'.
Proof. intros HR H. exists [(p, v)]. split; [now apply h5_create_wrote in H|repeat constructor; exact HR]. Qed.
Lemma rooted_append (R : string -> Prop) f p v f' : R (root p) -> h5_append f p v = Ok f' -> rooted R f f'.
Proof. intros HR H. exists [(p, v)]. split; [now apply h5_append_wrote in H|repeat constructor; exact HR]. Qed.
Lemma rooted_creates (R : string -> Prop) f g l f' : (forall n, R (root (g // n))) ->
  h5_creates f g l = Ok f' -> rooted R f f'.
Proof.
  intros HR H. eexists. split; [now apply h5_creates_wrote in H|]. apply Forall_map, Forall_forall. intros [n v] _. apply HR.
Qed.

Definition cmd_root (c : cmd) (r : string) : Prop :=
  match c with
  | Update | AddTimeMonitor _ | WriteTimeMonitor _ | WriteField _ | WriteE | WriteH => r = "fields"
  | AddObject o => r = "materials" \/ r = obj_root o
  | AddSource _ | SetTfsf _ _ => r = "sources"
  | AddMonitor _ | WriteMonitor _ | GetBoxMonitor _ _ _ _ => r = "monitors"
  | WriteCurrent _ => r = "dynamic_objects"
  | _ => False
  end%string.

Ltac rt := repeat first
  [ match goal with |- rooted _ ?f ?f => apply rooted_refl end
  | match goal with
    | H : h5_group ?f _ = Ok ?f' |- rooted _ ?f _ => apply (rooted_trans _ f f'); [eapply rooted_group; exact H|]
    | H : h5_groups ?f _ = Ok ?f' |- rooted _ ?f _ => apply (rooted_trans _ f f'); [eapply rooted_groups; exact H|]
    | H : h5_create ?f _ _ _ = Ok ?f' |- rooted _ ?f _ => apply (rooted_trans _ f f'); [eapply rooted_create; [|exact H]; cbn; auto|]
    | H : h5_append ?f _ _ = Ok ?f' |- rooted _ ?f _ => apply (rooted_trans _ f f'); [eapply rooted_append; [|exact H]; cbn; auto|]
    | H : h5_creates ?f _ _ = Ok ?f' |- rooted _ ?f _ => apply (rooted_trans _ f f'); [eapply rooted_creates; [|exact H]; intros; cbn; auto|]
    end ].

Lemma write_mon1_rooted f sub name it fr f' : write_mon1 f sub name it fr = Ok f' -> rooted (fun r => r = "monitors"%string) f f'.
Proof. rewrite write_mon1_eq; unfold mon_dir. intros H. inv_ok. rt. Qed.
Lemma write_mon_rooted f m f' : write_mon f m = Ok f' -> rooted (fun r => r = "monitors"%string) f f'.
Proof.
  destruct m; rewrite write_mon_eq; unfold write_surf_mon; intros H; try (eapply write_mon1_rooted; eassumption). inv_ok.
  eapply rooted_trans; [|eapply write_mon1_rooted; eassumption].
  refine (foldM_post (fun q => rooted (fun r => r = "monitors"%string) f q) _ _ _ _ (rooted_refl _ _) _ Hr).
  intros a b q _ Ha Hb. eapply rooted_trans; [exact Ha|]. unfold write_surf_mon in Hb. eapply write_mon1_rooted; eassumption.
Qed.
Lemma add_monitor_rooted m s s' : add_monitor m s = Fine s' -> rooted (fun r => r = "monitors"%string) (f_h5 s) (f_h5 s').
Proof. unfold add_monitor. intros H. inv_fine. cbn. eapply write_mon_rooted; eassumption. Qed.

(** time monitors *)
Definition tm_same (m m' : tmon) : Prop :=
  tm_name m' = tm_name m /\ tm_shape_ m' = tm_shape_ m /\ tm_fields m' = tm_fields m.
Lemma tm_write1_wrote g F f m c f' m' : tm_write1 g F f m c = Ok (f', m') ->
  tm_same m m' /\ tm_every m' = tm_every m /\
  exists v, tm_sample g F (tm_shape_ m) c = Ok v /\ wrote f [((tm_path m // comp_str c)%string, v)] f'.
Proof.
  rewrite tm_write1_eq. intros H. inv_ok. destruct (existsb _ _); inv_ok.
  - split; [now repeat split|]. split; [reflexivity|]. eexists; split; [eassumption|]. now apply h5_append_wrote in Hr0.
  - split; [now repeat split|]. split; [reflexivity|]. eexists; split; [eassumption|].
    apply h5_groups_wrote in Hr0. apply h5_create_wrote in Hr1. exact (wrote_app _ _ _ _ _ Hr0 Hr1).
Qed.

Lemma tm_write_log g F l : forall f m f' m', foldM (fun '(f, m) c => tm_write1 g F f m c) (f, m) l = Ok (f', m') ->
  tm_same m m' /\ tm_every m' = tm_every m /\
  exists vs, mapM (tm_sample g F (tm_shape_ m)) l = Ok vs /\
    wrote f (combine (map (fun c => (tm_path m // comp_str c)%string) l) vs) f'.
Proof.
  induction l as [|c l IH]; cbn [foldM mapM map]; intros f m f' m' H; inv_ok.
  - split; [now repeat split|]. split; [reflexivity|]. exists []. split; [reflexivity|apply wrote_nil].
  - destruct r as [f1 m1]. apply tm_write1_wrote in Hr. destruct Hr as ((S1 & S2 & S3) & S4 & v & Ev & W).
    apply IH in H. destruct H as ((T1 & T2 & T3) & T4 & vs & Evs & W').
    assert (Ep : tm_path m1 = tm_path m) by (unfold tm_path; now rewrite S1).
    split; [repeat split; congruence|]. split; [congruence|]. exists (v :: vs). rewrite S2 in Evs. rewrite Ev. cbn [bind]. rewrite Evs.
    split; [reflexivity|]. cbn [combine]. rewrite Ep in W'. exact (wrote_app _ _ _ _ _ W W').
Qed.

Lemma tm_write_wrote g F f m f' m' : tm_write g F f m = Ok (f', m') ->
  tm_same m m' /\ tm_every m' = tm_every m /\
  exists vs, mapM (tm_sample g F (tm_shape_ m)) (expand (tm_fields m)) = Ok vs /\
    wrote f (combine (map (fun c => (tm_path m // comp_str c)%string) (expand (tm_fields m))) vs) f'.
Proof. apply tm_write_log. Qed.
Lemma tm_write_rooted g F f m f' m' : tm_write g F f m = Ok (f', m') -> rooted (fun r => r = "fields"%string) f f'.
Proof.
  intros H. apply tm_write_wrote in H. destruct H as (_ & _ & vs & _ & W). eexists. split; [exact W|].
  apply Forall_forall. intros w Hw. destruct w as [p v]. apply in_combine_l in Hw. apply in_map_iff in Hw.
  destruct Hw as (c & <- & _). reflexivity.
Qed.

Lemma tm_ready_rooted i s s' : tm_ready i s = Fine s' -> rooted (fun r => r = "fields"%string) (f_h5 s) (f_h5 s').
Proof.
  unfold tm_ready. destruct (nth_error (f_tmons s) i); intros H; inv_fine; [|apply rooted_refl].
  destruct r as [[|] e]; inv_fine; cbn; [|apply rooted_refl]. destruct r as [f m']. inv_fine. cbn.
  eapply tm_write_rooted; eassumption.
Qed.
(** everything in update before the time monitors leaves the file alone *)
Lemma update_split s s' : update s = Fine s' -> exists s1, step_tmons s1 = Fine s' /\
  f_h5 s1 = f_h5 s /\ f_tmons s1 = f_tmons s /\ f_mats s1 = f_mats s /\ f_ph s1 = f_ph s'.
Proof.
  unfold update. intros H. apply obind_fine in H. destruct H as (s1 & H1 & H). exists s1. split; [exact H|].
  apply step_tmons_ph in H. rewrite H. clear H s'. revert H1.
  match goal with |- ?m = Fine s1 -> _ => set (mm := m) end.
  assert (K : match mm with Fine a => f_h5 a = f_h5 s /\ f_tmons a = f_tmons s /\ f_mats a = f_mats s | _ => True end).
  { subst mm.
    assert (B : forall m k, match m with Fine a => f_h5 a = f_h5 s /\ f_tmons a = f_tmons s /\ f_mats a = f_mats s | _ => True end ->
      (forall a, match k a with Fine b => f_h5 b = f_h5 a /\ f_tmons b = f_tmons a /\ f_mats b = f_mats a | _ => True end) ->
      match m >>= k with Fine a => f_h5 a = f_h5 s /\ f_tmons a = f_tmons s /\ f_mats a = f_mats s | _ => True end).
    { intros m k A Hk. destruct m; cbn [obind]; auto. specialize (Hk s0). destruct (k s0); auto. intuition congruence. }
    assert (P : forall f a, match on_ph f a with Fine b => f_h5 b = f_h5 a /\ f_tmons b = f_tmons a /\ f_mats b = f_mats a | _ => True end)
      by (intros f a; unfold on_ph; destruct (f (f_ph a)); cbn; auto).
    assert (Q : forall f a, match on_ph_out f a with Fine b => f_h5 b = f_h5 a /\ f_tmons b = f_tmons a /\ f_mats b = f_mats a | _ => True end)
      by (intros f a; unfold on_ph_out; destruct (f (f_ph a)); cbn; auto).
    assert (S1 : forall k a, match start k a with Fine b => f_h5 b = f_h5 a /\ f_tmons b = f_tmons a /\ f_mats b = f_mats a | _ => True end)
      by (intros k a; unfold start; destruct (clock_start k (f_clk a)); cbn; auto).
    assert (S2 : forall k a, match stop k a with Fine b => f_h5 b = f_h5 a /\ f_tmons b = f_tmons a /\ f_mats b = f_mats a | _ => True end)
      by (intros k a; unfold stop; destruct (clock_stop k (f_clk a)); cbn; auto).
    assert (M : forall a, match step_monitors a with Fine b => f_h5 b = f_h5 a /\ f_tmons b = f_tmons a /\ f_mats b = f_mats a | _ => True end)
      by (intros a; unfold step_monitors; destruct (mapM _ _); cbn; auto).
    repeat (apply B; [|try (intros; apply P); try (intros; apply Q); try (intros; apply S1); try (intros; apply S2); try (intros; apply M)]).
    apply P. }
  intros E. rewrite E in K. intuition.
Qed.
Lemma step_tmons_rooted s s' : step_tmons s = Fine s' -> rooted (fun r => r = "fields"%string) (f_h5 s) (f_h5 s').
Proof.
  unfold step_tmons. intros H.
  refine (oloop_pres (fun a => rooted (fun r => r = "fields"%string) (f_h5 s) (f_h5 a)) _ _ _ _ _ (rooted_refl _ _) _ H).
  intros i a b _ Ha Hb. eapply rooted_trans; [exact Ha|]. eapply tm_ready_rooted; eassumption.
Qed.
Lemma update_rooted s s' : update s = Fine s' -> rooted (fun r => r = "fields"%string) (f_h5 s) (f_h5 s').
Proof.
  intros H. apply update_split in H. destruct H as (s1 & H & E & _). rewrite <- E. now apply step_tmons_rooted.
Qed.

(** write_field *)
Lemma write_field_wrote c s s' : write_field c s = Fine s' -> exists a,
  get_field (ph_F (f_ph s)) c = Ok a /\ wrote (f_h5 s) [(("fields" // comp_str c)%string, tensor_pay a)] (f_h5 s') /\
  f_tmons s' = f_tmons s /\ f_mats s' = f_mats s /\ f_ph s' = f_ph s /\ f_mons s' = f_mons s.
Proof.
  unfold write_field, start, stop. intros H. inv_fine. cbn [set_f_clk f_h5 f_ph set_f_h5] in *.
  apply h5_group_wrote in Hr0.
  destruct c; inv_fine; cbn [set_f_clk f_h5 f_ph set_f_h5 f_tmons f_mats f_mons] in *; inv_ok.
  all: eexists; split; [eassumption|].
  all: split; [|repeat split].
  all: destruct (h5_exists _ _);
    match goal with H : h5_append _ _ _ = Ok _ |- _ => apply h5_append_wrote in H; exact (wrote_app _ _ _ _ _ Hr0 H)
                  | H : h5_create _ _ _ _ = Ok _ |- _ => apply h5_create_wrote in H; exact (wrote_app _ _ _ _ _ Hr0 H) end.
Qed.
Lemma write_field_rooted c s s' : write_field c s = Fine s' -> rooted (fun r => r = "fields"%string) (f_h5 s) (f_h5 s').
Proof. intros H. apply write_field_wrote in H. destruct H as (a & _ & W & _). eexists. split; [exact W|]. repeat constructor. Qed.

Lemma write_obj_rooted f o f' : write_obj f o = Ok f' -> rooted (fun r => r = obj_root o) f f'.
Proof.
  assert (HR : forall x, root (obj_path o // x) = obj_root o)
    by (intros x; unfold obj_path, obj_root; destruct (o_dyn o); reflexivity).
  rewrite write_obj_eq. intros H. inv_ok. destruct (h5_exists r2 _); inv_ok.
  rt; rewrite ?HR; auto. all: try (intros; now rewrite HR).
Qed.

Lemma register_mat_rooted o s s' : register_mat o s = Fine s' ->
  rooted (fun r => r = "materials"%string) (f_h5 s) (f_h5 s').
Proof.
  unfold register_mat. destruct (str_in _ _); intros H; inv_fine; [apply rooted_refl|].
  cbn [set_f_h5 set_f_mats f_h5] in *. rewrite write_mat_eq in *; unfold mat_path in *. inv_ok. rt.
Qed.
Lemma add_object_rooted o s s' : add_object o s = Fine s' ->
  rooted (fun r => r = "materials"%string \/ r = obj_root o) (f_h5 s) (f_h5 s').
Proof.
  unfold add_object. intros H. apply obind_fine in H. destruct H as (s4 & H & E). injection E as <-.
  apply obind_fine in H. destruct H as (s3 & H & E3). apply obind_fine in H. destruct H as (s2 & H & E2).
  apply obind_fine in H. destruct H as (s1 & H & E1). apply on_ph_fine in E1, E2.
  destruct E1 as (p1 & _ & ->), E2 as (p2 & _ & ->). apply register_mat_rooted in H. inv_fine.
  cbn [f_h5 set_f_ph set_f_h5 map_ph] in *. eapply rooted_trans; (eapply rooted_weak; [|eassumption || (eapply write_obj_rooted; eassumption)]); cbn; auto.
Qed.

Theorem exec_rooted c s s' : exec c s = Fine s' -> rooted (cmd_root c) (f_h5 s) (f_h5 s').
Proof.
  destruct c; cbn [exec cmd_root].
  - apply update_rooted.
  - intros H. apply on_ph_fine in H. destruct H as (p & _ & ->). apply rooted_refl.
  - apply add_object_rooted.
  - unfold add_source. intros H. apply prim_fine in H. destruct H as (f & Hf & H). injection H as <-. ops_in Hf. unfold src_path in Hf. inv_ok. cbn. rt.
  - apply add_monitor_rooted.
  - unfold add_tmon. intros H. apply prim_fine in H. destruct H as (f & Hf & H). injection H as <-. ops_in Hf. unfold tm_path in Hf. inv_ok. cbn. rt.
  - intros H. injection H as <-. apply rooted_refl.
  - intros H. injection H as <-. apply rooted_refl.
  - unfold clear_materials. intros H. apply on_ph_fine in H. destruct H as (p & _ & ->). apply rooted_refl.
  - unfold set_tfsf. intros H. inv_fine. rewrite write_tfsf_eq in *. inv_ok. cbn in *. destruct (tp_dft _); inv_ok; rt.
  - apply write_field_rooted.
  - apply write_field_rooted.
  - unfold writeH. intros H. inv_fine. eapply rooted_trans; eapply write_field_rooted; eassumption.
  - unfold write_monitor_data. destruct (nth_error _ _) as [m|]; [|intros H; inv_fine; apply rooted_refl].
    destruct (mon_sub_name m) as [sub name]. cbv zeta. intros H. apply prim_fine in H. destruct H as (f & Hf & H). injection H as <-. ops_in Hf. unfold mon_dir in Hf. inv_ok. cbn. rt.
  - unfold write_tmon. destruct (nth_error _ _); intros H; inv_fine; [|apply rooted_refl]. destruct r as [f m]. inv_fine. cbn.
    eapply tm_write_rooted; eassumption.
  - unfold on_obj. destruct (nth_error _ _); [destruct (o_dyn _)|]; intros H; inv_fine; apply rooted_refl.
  - unfold on_obj. destruct (nth_error _ _); [destruct (o_dyn _)|]; intros H; inv_fine; apply rooted_refl.
  - unfold on_obj. destruct (nth_error _ _); [destruct (o_dyn _)|]; intros H; inv_fine; apply rooted_refl.
  - unfold on_obj. destruct (nth_error _ _); [destruct (o_dyn _)|]; intros H; inv_fine; apply rooted_refl.
  - unfold write_current. destruct (nth_error _ _) as [o|]; [|intros H; inv_fine; apply rooted_refl].
    destruct (o_dyn o) eqn:Ed; intros H; [|inv_fine; apply rooted_refl]. cbv zeta in H. apply prim_fine in H. destruct H as (f & Hf & H). injection H as <-. ops_in Hf.
    unfold obj_groups, obj_path, obj_root in Hf. rewrite Ed in Hf. inv_ok. cbn. rt.
  - unfold get_box_monitor. destruct (nth_error _ _); intros H; inv_fine; [|apply rooted_refl]. eapply add_monitor_rooted; eassumption.
Qed.

End Files.
