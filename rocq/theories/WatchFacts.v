(** Elapsed time. *)
From Coq Require Import ZArith Reals List Bool String Lia Lra.
From Verif Require Import Scalar Base BaseFacts VecM GridM GeometryM MaterialM PmlM DftM TfsfM PolarM InterpM H5M ClockM MonitorM FieldM ReportM TimerM
  OutFacts SpecTimer.
Import ListNotations.

(** *** nothing but the phases touches the clocks *)
Section Keeps.
Context {N : Num}.
Definition keeps (c : clocks) (m : out field) : Prop := match m with Fine s | Raise _ s => f_clk s = c | Undef _ => True end.
Lemma keeps_bind c m k : keeps c m -> (forall s, f_clk s = c -> keeps c (k s)) -> keeps c (m >>= k).
Proof. destruct m; cbn; auto. Qed.
Lemma keeps_prim {A} c s (r : res A) k : f_clk s = c -> (forall a, keeps c (k a)) -> keeps c (prim s r k).
Proof. destruct r; cbn; auto. Qed.
Lemma keeps_oloop c body n : (forall i s, f_clk s = c -> keeps c (body i s)) -> forall lo s, f_clk s = c -> keeps c (oloop lo n body s).
Proof. intros H. induction n as [|n IH]; intros lo s Hs; cbn [oloop]; [exact Hs|]. eapply keeps_bind; [apply H; exact Hs|]. intros; now apply IH. Qed.
Lemma on_ph_keeps f s c : f_clk s = c -> keeps c (on_ph f s).
Proof. intros Hc. unfold on_ph. apply keeps_prim; [exact Hc|]. intros. exact Hc. Qed.
Lemma on_ph_out_keeps f s c : f_clk s = c -> keeps c (on_ph_out f s).
Proof. intros Hc. unfold on_ph_out. destruct (f (f_ph s)); cbn; auto. Qed.
Lemma step_monitors_keeps s c : f_clk s = c -> keeps c (step_monitors s).
Proof. intros Hc. unfold step_monitors. apply keeps_prim; [exact Hc|]. intros. exact Hc. Qed.
Lemma tm_ready_keeps i s c : f_clk s = c -> keeps c (tm_ready i s).
Proof.
  intros Hc. unfold tm_ready. destruct (nth_error (f_tmons s) i); [|exact Hc]. apply keeps_prim; [exact Hc|]. intros [b e].
  destruct b; [|exact Hc]. apply keeps_prim; [exact Hc|]. intros [f m]. exact Hc.
Qed.
Lemma step_tmons_keeps s c : f_clk s = c -> keeps c (step_tmons s).
Proof. intros Hc. unfold step_tmons. apply keeps_oloop; [intros; now apply tm_ready_keeps|exact Hc]. Qed.
Lemma write_body_keeps k s c : f_clk s = c -> keeps c (write_body k s).
Proof. intros Hc. unfold write_body. apply keeps_prim; [exact Hc|]. intros f. destruct k; try exact Hc; (apply keeps_prim; [exact Hc|]; intros; exact Hc). Qed.
Lemma on_obj_keeps i h s c : f_clk s = c -> keeps c (on_obj i h s).
Proof. intros H. unfold on_obj. destruct (nth_error _ _); [destruct (o_dyn _)|]; exact H. Qed.
Lemma add_monitor_keeps m s c : f_clk s = c -> keeps c (add_monitor m s).
Proof. intros H. unfold add_monitor. apply keeps_prim; [exact H|]. intros m'. apply keeps_prim; [exact H|]. intros. exact H. Qed.
Definition clockless (c : cmd) : Prop := match c with Update | WriteField _ | WriteE | WriteH => False | _ => True end.
Lemma exec_keeps k s c : clockless k -> f_clk s = c -> keeps c (exec k s).
Proof.
  intros K H. destruct k; cbn [exec]; try contradiction K.
  - now apply on_ph_keeps.
  - unfold add_object. eapply keeps_bind; [|intros s' E'; exact E'].
    eapply keeps_bind; [|intros s' E'; apply keeps_prim; [exact E'|]; intros; exact E'].
    eapply keeps_bind; [|intros s' E'; now apply on_ph_keeps].
    eapply keeps_bind; [|intros s' E'; now apply on_ph_keeps].
    unfold register_mat. destruct (str_in _ _); [exact H|]. apply keeps_prim; [exact H|]. intros. exact H.
  - unfold add_source, write_src. apply keeps_prim; [exact H|]. intros. exact H.
  - now apply add_monitor_keeps.
  - unfold add_tmon. apply keeps_prim; [exact H|]. intros. exact H.
  - exact H.
  - exact H.
  - unfold clear_materials. now apply on_ph_keeps.
  - unfold set_tfsf, write_tfsf. apply keeps_prim; [exact H|]. intros. apply keeps_prim; [exact H|]. intros. exact H.
  - unfold write_monitor_data. destruct (nth_error _ _); [|exact H]. destruct (mon_sub_name m). apply keeps_prim; [exact H|]. intros. exact H.
  - unfold write_tmon. destruct (nth_error _ _); [|exact H]. apply keeps_prim; [exact H|]. intros [f m]. exact H.
  - now apply on_obj_keeps.
  - now apply on_obj_keeps.
  - now apply on_obj_keeps.
  - now apply on_obj_keeps.
  - unfold write_current. destruct (nth_error _ _); [|exact H]. destruct (o_dyn o); [|exact H]. apply keeps_prim; [exact H|]. intros. exact H.
  - unfold get_box_monitor. destruct (nth_error _ _); [|exact H]. apply keeps_prim; [exact H|]. intros. now apply add_monitor_keeps.
Qed.
Lemma report_keeps i q s c : f_clk s = c -> keeps c (report i q s).
Proof. intros H. unfold report. destruct (nth_error _ _) as [m|]; [|exact H]. destruct (mon_sub_name m). apply keeps_prim; [exact H|]. intros. cbv zeta. apply keeps_prim; [exact H|]. intros. exact H. Qed.
Lemma report_tfsf_keeps s c : f_clk s = c -> keeps c (report_tfsf s).
Proof. intros H. unfold report_tfsf. destruct (ph_tfsf _); [|exact H]. apply keeps_prim; [exact H|]. intros. exact H. Qed.

(** a phase that may be played *)
Definition tame (p : phase) : Prop := match p with Work f => forall s, keeps (f_clk s) (f s) | _ => True end.
Lemma phases_tame c : Forall tame (phases c).
Proof.
  assert (W : forall f, (forall s c, f_clk s = c -> keeps c (f s)) -> tame (Work f)) by (intros f H s; now apply H).
  destruct c as [k|i q| |]; cbn [phases].
  - destruct k; cbn [phases]; unfold write_phases, update_phases; cbn [app];
      repeat match goal with |- Forall _ (_ :: _) => constructor | |- Forall _ [] => constructor | |- tame (Tick _) => exact Logic.I | |- tame (Tock _) => exact Logic.I end; apply W; intros s0 c0;
      solve [apply on_ph_keeps|apply on_ph_out_keeps|apply step_monitors_keeps|apply step_tmons_keeps|apply write_body_keeps|intros H; cbn [exec_call]; apply exec_keeps; [exact Logic.I|exact H]].
  - constructor; [|constructor]. apply W. intros s c. apply report_keeps.
  - constructor; [|constructor]. apply W. intros s c. apply report_tfsf_keeps.
  - repeat constructor.
Qed.

(** *** the run without the stop-watches *)
Definition act (p : phase) : field -> out field := match p with Tick k => start k | Tock k => stop k | Work f => f end.
Fixpoint acts (l : list phase) (s : field) : out field := match l with [] => Fine s | p :: l' => act p s >>= acts l' end.
Lemma obind_assoc {S} (m : out S) f g : m >>= f >>= g = m >>= (fun s => f s >>= g).
Proof. destruct m; reflexivity. Qed.
Lemma obind_ret {S} (m : out S) : m >>= (fun s => Fine s) = m.
Proof. destruct m; reflexivity. Qed.
Lemma obind_ext {S} (m : out S) f g : (forall s, f s = g s) -> m >>= f = m >>= g.
Proof. intros H. destruct m; cbn; auto. Qed.
Lemma acts_app l l' s : acts (l ++ l') s = acts l s >>= acts l'.
Proof. revert s. induction l as [|p l IH]; intros s; [reflexivity|]. cbn [acts app]. rewrite obind_assoc. apply obind_ext. exact IH. Qed.
Lemma write_acts c s : acts (write_phases c) s = write_field c s.
Proof.
  unfold write_phases, write_field, write_body. cbn [acts act]. destruct (start Hdf5 s) as [s1| |]; cbn [obind]; [|reflexivity..].
  apply obind_ext. intros s2. apply obind_ret.
Qed.
Lemma update_acts s : acts update_phases s = update s.
Proof.
  unfold update_phases, update. cbn [acts act].
  rewrite !obind_assoc. do 18 (apply obind_ext; intros ?). apply obind_ret.
Qed.
Lemma phases_act c s : acts (phases c) s = exec_call c s.
Proof.
  destruct c as [k|i q| |]; cbn [phases exec_call].
  - destruct k; cbn [exec]; try (cbn [acts act exec_call exec]; apply obind_ret).
    + apply update_acts.
    + apply write_acts.
    + unfold writeE. apply write_acts.
    + rewrite acts_app. unfold writeH. rewrite write_acts. apply obind_ext. intros s1. apply write_acts.
  - cbn [acts act]. apply obind_ret.
  - cbn [acts act]. apply obind_ret.
  - cbn [acts act]. unfold write_monitor. apply obind_ext. intros s1. apply obind_ret.
Qed.
End Keeps.

Local Open Scope R_scope.
#[local] Existing Instance RNum.
Section Time.
Variable now : nat -> R.

(** the stop-watches and the flags of FieldM agree *)
Definition agree (x : timed) : Prop := forall k, w_on (td_w x k) = ticking (f_clk (td_f x)) k.
Lemma ticking_set c k j b : ticking (set_ticking c k b) j = if clock_eqb j k then b else ticking c j.
Proof. destruct k, j; reflexivity. Qed.
Lemma agree_put x k w c n : agree x -> c = set_ticking (f_clk (td_f x)) k (w_on w) -> agree (Timed (set_f_clk c (td_f x)) (put_watch k w (td_w x)) n).
Proof. intros H -> j. cbn [td_w td_f set_f_clk f_clk]. unfold put_watch. rewrite ticking_set. destruct (clock_eqb j k); [reflexivity|apply H]. Qed.
Definition left_agreeing (o : out timed) : Prop := match o with Fine y | Raise _ y => agree y | Undef _ => True end.
Lemma play1_same p x : tame p -> agree x -> without (play1 now p x) = act p (td_f x) /\ left_agreeing (play1 now p x).
Proof.
  intros Ht H. destruct p as [k|k|f]; cbn [play1 act].
  - unfold start, watch_begin, clock_start. rewrite (H k). destruct (ticking (f_clk (td_f x)) k) eqn:E; cbn [prim].
    + split; [reflexivity|exact H].
    + split; [reflexivity|]. now apply agree_put.
  - unfold stop, watch_end, clock_stop. rewrite (H k). destruct (ticking (f_clk (td_f x)) k) eqn:E; cbn [prim].
    + split; [reflexivity|]. now apply agree_put.
    + split; [reflexivity|exact H].
  - assert (K := Ht (td_f x)). destruct (f (td_f x)) as [s|e s|u]; cbn [keeps without left_agreeing] in *; (split; [reflexivity|]); [| |exact Logic.I]; intros k; cbn [td_w td_f]; rewrite K; apply H.
Qed.
Lemma play_same l : forall x, Forall tame l -> agree x -> without (play now l x) = acts l (td_f x) /\ left_agreeing (play now l x).
Proof.
  induction l as [|p l IH]; intros x Ht H; [split; [reflexivity|exact H]|]. apply Forall_cons_iff in Ht. destruct Ht as [Hp Ht]. destruct (play1_same p x Hp H) as [A B].
  cbn [play acts]. rewrite <- A. destruct (play1 now p x) as [y|e y|u]; cbn [obind without left_agreeing] in *; [exact (IH y Ht B)|split; [reflexivity|exact B]|split; [reflexivity|exact Logic.I]].
Qed.
Lemma main_same l : forall x, agree x -> without (timed_main now l x) = exec_main l (td_f x).
Proof.
  induction l as [|c l IH]; intros x H; [reflexivity|]. destruct (play_same (phases c) x (phases_tame c) H) as [A B]. cbn [timed_main exec_main]. rewrite <- (phases_act c), <- A.
  destruct (play now (phases c) x) as [y|e y|u]; cbn [obind without left_agreeing] in *; [exact (IH y B)|reflexivity|reflexivity].
Qed.
Lemma call_same c x : agree x -> match exec_call c (td_f x) with
  | Fine s => exists y, play now (phases c) x = Fine y /\ td_f y = s /\ agree y
  | Raise e s => exists y, play now (phases c) x = Raise e y /\ td_f y = s /\ agree y
  | Undef u => play now (phases c) x = Undef u end.
Proof.
  intros H. destruct (play_same (phases c) x (phases_tame c) H) as [A B]. rewrite phases_act in A. rewrite <- A. destruct (play now (phases c) x) as [y|e y|u]; cbn [without left_agreeing] in *; eauto.
Qed.
Lemma started_agree g name x : started now g name x -> agree x.
Proof.
  intros (s & E & B). unfold begin_timed, new_watches, watch_begin in B. cbn [new_watch w_on bind] in B. injection B as <-.
  assert (K : f_clk s = mk_clocks). { unfold mk_field in E. destruct (mk_phys g); cbn [bind] in E; try discriminate. destruct (String.eqb name ""); [discriminate|]. inv_ok. reflexivity. }
  intros k. cbn [td_w td_f]. rewrite K. destruct k; reflexivity.
Qed.

(** *** stretches of time *)
Lemma in_order_mono lo hi hi' l : in_order lo hi l -> hi <= hi' -> in_order lo hi' l.
Proof. revert lo. induction l as [|x l IH]; intros lo; cbn [in_order]; [lra|]. intros (A & B & C) D. repeat split; [exact A|exact B|now apply IH]. Qed.
Lemma in_order_snoc lo hi hi' l k a b : in_order lo hi l -> hi <= a -> a <= b -> b <= hi' -> in_order lo hi' (l ++ [Stretch k a b]).
Proof.
  revert lo. induction l as [|x l IH]; intros lo; cbn [in_order app]; [intros A B C D; cbn [st_a st_b]; repeat split; lra|].
  intros (A & B & C) D E F. repeat split; [exact A|exact B|now apply IH].
Qed.
Lemma time_of_app k l l' : time_of k (l ++ l') = time_of k l + time_of k l'.
Proof. induction l as [|x l IH]; cbn [time_of app]; [ring|rewrite IH; ring]. Qed.
Lemma time_of_nonneg k lo hi l : in_order lo hi l -> 0 <= time_of k l.
Proof. revert lo. induction l as [|x l IH]; intros lo; cbn [in_order time_of]; [lra|]. intros (A & B & C). specialize (IH _ C). destruct (clock_eqb _ _); lra. Qed.
Lemma time_all_fits lo hi l : in_order lo hi l -> time_all l <= hi - lo.
Proof. revert lo. induction l as [|x l IH]; intros lo; cbn [in_order time_all]; [lra|]. intros (A & B & C). specialize (IH _ C). lra. Qed.
Lemma time_all_parts l : Forall (fun x => st_k x <> Self) l -> time_all l = time_of Looping l + time_of Fourier l + time_of Hdf5 l.
Proof. induction 1 as [|x l H _ IH]; cbn [time_all time_of]; [ring|]. rewrite IH. destruct (st_k x); cbn [clock_eqb]; [ring..|contradiction]. Qed.

(** stop-watches that have measured the stretches l *)
Record good (l : list stretch) (x : timed) : Prop := {
  go_order : in_order (now 0%nat) (now (pred (td_n x))) l;
  go_n : (0 < td_n x)%nat;
  go_sum : forall k, k <> Self -> w_sum (td_w x k) = time_of k l;
  go_kinds : Forall (fun s => st_k s <> Self) l;
  go_self : td_w x Self = Watch 0 (now 0%nat) true }.
Definition is_work (p : phase) : Prop := match p with Work _ => True | _ => False end.
Inductive bracketed : list phase -> list clock -> Prop :=
| br_nil : bracketed [] []
| br_work f l ks : bracketed l ks -> bracketed (Work f :: l) ks
| br_section k ws l ks : k <> Self -> Forall is_work ws -> bracketed l ks -> bracketed (Tick k :: ws ++ Tock k :: l) (k :: ks).
Lemma clock_eqb_refl k : clock_eqb k k = true. Proof. destruct k; reflexivity. Qed.
Lemma clock_eqb_neq j k : j <> k -> clock_eqb j k = false. Proof. destruct j, k; intros H; try reflexivity; contradiction. Qed.
Lemma work_good f l x : good l x -> match play1 now (Work f) x with Fine y | Raise _ y => good l y /\ td_w y = td_w x /\ td_n y = td_n x | Undef _ => True end.
Proof. intros [A B C D E]. cbn [play1]. destruct (f (td_f x)); [| |exact Logic.I]; (split; [constructor; assumption|split; reflexivity]). Qed.
Lemma play_app ps qs x : play now (ps ++ qs) x = play now ps x >>= play now qs.
Proof. revert x. induction ps as [|p ps IH]; intros x; [reflexivity|]. cbn [play app]. destruct (play1 now p x); cbn [obind]; [apply IH|reflexivity|reflexivity]. Qed.
Lemma works_good ws l : Forall is_work ws -> forall x, good l x -> match play now ws x with Fine y => good l y /\ td_w y = td_w x /\ td_n y = td_n x | Raise _ y => good l y | Undef _ => True end.
Proof.
  induction 1 as [|p ws Hp _ IH]; intros x H; cbn [play]; [auto|]. destruct p as [| |f]; try contradiction. assert (W := work_good f l x H).
  destruct (play1 now (Work f) x) as [y|e y|u]; cbn [obind]; [|exact (proj1 W)|exact Logic.I]. destruct W as (A & B & C). specialize (IH y A). destruct (play now ws y) as [z| |]; auto. rewrite <- B, <- C. exact IH.
Qed.
Hypothesis Hf : forward now.
Lemma tick_good k l x : k <> Self -> good l x -> match play1 now (Tick k) x with Fine y => good l y /\ td_w y k = Watch (time_of k l) (now (pred (td_n y))) true | Raise _ y => y = x | Undef _ => False end.
Proof.
  intros Hk [A B C D E]. cbn [play1]. unfold watch_begin, clock_start. destruct (w_on (td_w x k)); [reflexivity|]. cbn [prim]. destruct (ticking _ _); [reflexivity|]. cbn [prim].
  split; [constructor; cbn [td_n td_w pred]|cbn [td_n td_w pred]; unfold put_watch; rewrite clock_eqb_refl, (C k Hk); reflexivity].
  - eapply in_order_mono; [exact A|]. destruct (td_n x) as [|n]; [lia|apply Hf].
  - lia.
  - intros j Hj. unfold put_watch. destruct (clock_eqb j k) eqn:Ej; [|now apply C]. cbn [w_sum]. destruct j, k; try discriminate; now apply C.
  - exact D.
  - unfold put_watch. rewrite clock_eqb_neq by auto. exact E.
Qed.
Lemma tock_good k l x a : k <> Self -> good l x -> td_w x k = Watch (time_of k l) a true -> now (pred (td_n x)) = a ->
  match play1 now (Tock k) x with Fine y => exists s, st_k s = k /\ good (l ++ [s]) y | Raise _ y => y = x | Undef _ => False end.
Proof.
  intros Hk [A B C D E] Hw Ha. cbn [play1]. unfold watch_end, clock_stop. rewrite Hw. cbn [w_on w_sum w_from prim]. destruct (ticking _ _); [|reflexivity]. cbn [prim].
  destruct (td_n x) as [|n] eqn:En; [lia|]. cbn [pred] in *.
  exists (Stretch k a (now (S n))). split; [reflexivity|]. constructor; cbn [td_n td_w pred].
  - eapply in_order_snoc; [exact A|subst a; lra|subst a; apply Hf|lra].
  - lia.
  - intros j Hj. rewrite time_of_app. unfold put_watch. cbn [time_of st_k st_a st_b]. destruct (clock_eqb j k) eqn:Ej.
    + assert (j = k) by (destruct j, k; try discriminate; reflexivity). subst j. rewrite clock_eqb_refl. cbn [w_sum]. rnumg. ring.
    + replace (clock_eqb k j) with false by (destruct j, k; try discriminate; reflexivity). refine (eq_trans (C j Hj) _). change (@T RNum) with R. ring.
  - apply Forall_app. split; [exact D|]. constructor; [exact Hk|constructor].
  - unfold put_watch. rewrite clock_eqb_neq by auto. exact E.
Qed.
Lemma play_good ps ks : bracketed ps ks -> forall l x, good l x ->
  match play now ps x with Fine y => exists m, map st_k m = ks /\ good (l ++ m) y | Raise _ y => exists m, good (l ++ m) y | Undef _ => True end.
Proof.
  induction 1 as [|f ps ks _ IH|k ws ps ks Hk Hw _ IH]; intros l x H.
  - exists []. rewrite app_nil_r. split; [reflexivity|exact H].
  - cbn [play]. assert (W := work_good f l x H). destruct (play1 now (Work f) x) as [y|e y|u]; cbn [obind]; [|exists []; rewrite app_nil_r; apply W|exact Logic.I]. exact (IH l y (proj1 W)).
  - cbn [play]. assert (W := tick_good k l x Hk H). destruct (play1 now (Tick k) x) as [y|e y|u]; cbn [obind]; [|exists []; subst y; now rewrite app_nil_r|exact Logic.I]. destruct W as [Gy Wy].
    rewrite play_app. assert (V := works_good ws l Hw y Gy). destruct (play now ws y) as [z|e z|u]; cbn [obind]; [|exists []; now rewrite app_nil_r|exact Logic.I]. destruct V as (Gz & Ez & En).
    cbn [play]. assert (Q := tock_good k l z (now (pred (td_n y))) Hk Gz). rewrite Ez, En in Q. specialize (Q Wy eq_refl).
    destruct (play1 now (Tock k) z) as [w|e w|u]; cbn [obind]; [|exists []; subst w; now rewrite app_nil_r|exact Logic.I]. destruct Q as (s & Es & Gw).
    specialize (IH (l ++ [s]) w Gw). destruct (play now ps w) as [v|e v|u]; [| |exact Logic.I].
    + destruct IH as (m & Em & Gm). exists (s :: m). split; [cbn [map]; congruence|]. rewrite <- app_assoc in Gm. exact Gm.
    + destruct IH as (m & Gm). exists (s :: m). rewrite <- app_assoc in Gm. exact Gm.
Qed.
Lemma write_bracketed c ps ks : bracketed ps ks -> bracketed (write_phases c ++ ps) (Hdf5 :: ks).
Proof. intros H. apply (br_section Hdf5 [Work (write_body c)]); [discriminate|repeat constructor|exact H]. Qed.
Lemma phases_bracketed c : bracketed (phases c) (measures c).
Proof.
  assert (W1 : forall c, bracketed (write_phases c) [Hdf5]) by (intros k; rewrite <- (app_nil_r (write_phases k)); apply write_bracketed; constructor).
  destruct c as [k|i q| |]; cbn [phases measures]; [|repeat constructor..|apply (br_section Hdf5 []); [discriminate|constructor|constructor]].
  destruct k; try (repeat constructor; fail); [|apply W1|apply W1|apply write_bracketed, W1].
  unfold update_phases. constructor.
  apply (br_section Looping [Work (on_ph (fun p => Ok (step_prev p))); Work (on_ph step_E); Work (on_ph step_pmlE); Work (on_ph step_polar); Work (on_ph step_tfsfD); Work (on_ph_out step_sources)]); [discriminate|repeat constructor|].
  apply (br_section Fourier [Work step_monitors]); [discriminate|repeat constructor|].
  apply (br_section Looping [Work (on_ph step_tfsf_pulse); Work (on_ph step_H); Work (on_ph step_pmlH); Work (on_ph step_tfsfH)]); [discriminate|repeat constructor|]. repeat constructor.
Qed.
Lemma main_good c : forall l x y, good l x -> timed_main now c x = Fine y -> exists m, map st_k m = flat_map measures c /\ good (l ++ m) y.
Proof.
  induction c as [|c cs IH]; intros l x y H E; cbn [timed_main] in E.
  - injection E as <-. exists []. rewrite app_nil_r. split; [reflexivity|exact H].
  - assert (P := play_good _ _ (phases_bracketed c) l x H). destruct (play now (phases c) x) as [z| |]; cbn [obind] in E; try discriminate. destruct P as (m & Em & Gm).
    destruct (IH _ _ _ Gm E) as (m' & Em' & Gm'). exists (m ++ m'). split; [cbn [flat_map]; now rewrite map_app, Em, Em'|]. now rewrite app_assoc.
Qed.
Lemma caught_good c : forall l x y, good l x -> caught_main now c x = Fine y -> exists m, good (l ++ m) y.
Proof.
  induction c as [|c cs IH]; intros l x y H E; cbn [caught_main] in E.
  - injection E as <-. exists []. now rewrite app_nil_r.
  - assert (P := play_good _ _ (phases_bracketed c) l x H). assert (Q : exists z m, good (l ++ m) z /\ caught_main now cs z = Fine y).
    { destruct (play now (phases c) x) as [z|e z|u]; [| |discriminate]; [destruct P as (m & _ & Gm)|destruct P as (m & Gm)]; eauto. }
    destruct Q as (z & m & Gm & Ez). destruct (IH _ _ _ Gm Ez) as (m' & Gm'). exists (m ++ m'). now rewrite app_assoc.
Qed.
Lemma started_good g name x : started now g name x -> good [] x.
Proof.
  intros (s & _ & B). unfold begin_timed, new_watches, watch_begin in B. cbn [new_watch w_on bind] in B. injection B as <-.
  constructor; cbn [td_n td_w pred in_order]; [lra|lia| |constructor|reflexivity]. intros k Hk. unfold put_watch. rewrite (clock_eqb_neq k Self Hk). reflexivity.
Qed.
Lemma good_report l x : good l x -> exists rep, end_timed now x = Ok rep /\ says l (now 0%nat) (now (td_n x)) rep /\ in_order (now 0%nat) (now (td_n x)) l.
Proof.
  intros [A B C D E]. unfold end_timed, watch_end. rewrite E. cbn [w_on bind w_sum w_from]. eexists. split; [reflexivity|]. split.
  - unfold says, time_report, put_watch. cbn [clock_eqb w_sum]. rewrite !C by discriminate. rewrite (time_all_parts l D). rnumg.
    set (hi := now (td_n x)). set (lo := now 0%nat). change (@T RNum) with R.
    replace (0 + (hi - lo)) with (hi - lo) by ring. replace (hi - lo - time_of Hdf5 l - time_of Fourier l - time_of Looping l) with (hi - lo - (time_of Looping l + time_of Fourier l + time_of Hdf5 l)) by ring. reflexivity.
  - eapply in_order_mono; [exact A|]. destruct (td_n x) as [|n]; [lia|]. apply Hf.
Qed.
Lemma timed_report g name x l y : started now g name x -> timed_main now l x = Fine y ->
  exists m rep, map st_k m = flat_map measures l /\ in_order (now 0%nat) (now (td_n y)) m /\ end_timed now y = Ok rep /\ says m (now 0%nat) (now (td_n y)) rep.
Proof.
  intros S E. destruct (main_good l [] x y (started_good _ _ _ S) E) as (m & Em & G). destruct (good_report _ _ G) as (rep & A & B & C). exists m, rep. auto.
Qed.
Lemma caught_report g name x l y : started now g name x -> caught_main now l x = Fine y ->
  exists m rep, Forall (fun s => st_k s <> Self) m /\ in_order (now 0%nat) (now (td_n y)) m /\ end_timed now y = Ok rep /\ says m (now 0%nat) (now (td_n y)) rep.
Proof.
  intros S E. destruct (caught_good l [] x y (started_good _ _ _ S) E) as (m & G). destruct (good_report _ _ G) as (rep & A & B & C). exists m, rep. split; [exact (go_kinds _ _ G)|auto].
Qed.
End Time.
Lemma report_adds_up l lo hi rep : in_order lo hi l -> Forall (fun x => st_k x <> Self) l -> says l lo hi rep ->
  exists a b c d e : R, map snd rep = [a; b; c; d; e] /\ 0 <= a /\ 0 <= b /\ 0 <= c /\ 0 <= d /\ a + b + c + d = e /\ e = hi - lo.
Proof.
  intros H K ->. cbn [map snd]. do 5 eexists. split; [reflexivity|]. assert (A := time_of_nonneg Looping _ _ _ H). assert (B := time_of_nonneg Fourier _ _ _ H). assert (C := time_of_nonneg Hdf5 _ _ _ H).
  assert (D := time_all_fits _ _ _ H). rewrite (time_all_parts l K) in *. repeat split; lra.
Qed.
Lemma measures_kinds l m : map st_k m = flat_map measures l -> Forall (fun s => st_k s <> Self) m.
Proof.
  intros H. assert (Q : Forall (fun k => k <> Self) (map st_k m)).
  { rewrite H. apply Forall_flat_map. apply Forall_forall. intros c _. destruct c as [k| | |]; [destruct k| | |]; cbn [measures]; repeat constructor; discriminate. }
  apply Forall_forall. intros s Hs. exact (proj1 (Forall_forall _ _) Q (st_k s) (in_map st_k m s Hs)).
Qed.
