(** flux, force, torque and ntff as sums over samples *)
From Coq Require Import ZArith Reals List Bool String Lia Lra Psatz.
From Verif Require Import Scalar Base BaseFacts VecM GridM DftM InterpM MonitorM OutFacts GridFacts
  SpecDft DftFacts SpecSample SampleFacts MonFacts SpecStress.
Import ListNotations.
Local Open Scope R_scope.
#[local] Existing Instance RNum.

(** *** Sums *)
Lemma total_ext n f g : (forall i, (i < n)%nat -> f i = g i) -> total n f = total n g.
Proof. intros H. induction n as [|n IH]; cbn [total]; [reflexivity|]. rewrite IH, H by (intros; try apply H; lia). reflexivity. Qed.
Lemma total_scale n c f : total n (fun i => c * f i) = c * total n f.
Proof. induction n as [|n IH]; cbn [total]; [ring|]. rewrite IH. ring. Qed.
Lemma total_plus n f g : total n (fun i => f i + g i) = total n f + total n g.
Proof. induction n as [|n IH]; cbn [total]; [ring|]. rewrite IH. ring. Qed.
Lemma total2_ext n f g : (forall i, (i < n)%nat -> f i = g i) -> total2 n f = total2 n g.
Proof. intros H. unfold total2. f_equal; apply total_ext; intros i Hi; now rewrite H. Qed.
Lemma total2_S n f : total2 (S n) f = plus2 (total2 n f) (f n).
Proof. reflexivity. Qed.

Lemma fold_left_ext {A X} (f g : A -> X -> A) l a : (forall a x, f a x = g a x) -> fold_left f l a = fold_left g l a.
Proof. intros H. revert a. induction l as [|x l IH]; intros a; cbn; [reflexivity|]. now rewrite H. Qed.
Lemma fold_left_map {A X Y} (f : A -> X -> A) (g : Y -> X) l a : fold_left f (map g l) a = fold_left (fun a y => f a (g y)) l a.
Proof. revert a. induction l as [|x l IH]; intros a; cbn; auto. Qed.
Lemma fold_seq_total f n : fold_left (fun a i => a + f i) (seq 0 n) 0 = total n f.
Proof.
  induction n as [|n IH]; cbn [total]; [reflexivity|]. rewrite seq_S, fold_left_app, IH. cbn. ring.
Qed.
Lemma fold_seq_total2 f n : fold_left (fun a i => plus2 a (f i)) (seq 0 n) (0, 0) = total2 n f.
Proof.
  induction n as [|n IH]; [reflexivity|]. rewrite seq_S, fold_left_app, IH, total2_S. reflexivity.
Qed.

(** a fold whose every step works frequency by frequency *)
Lemma fold_cols {A X Y} (op : A -> X -> Y -> A) (row : X -> list Y) dy nf : forall l F0,
  (forall x, In x l -> List.length (row x) = nf) -> List.length F0 = nf ->
  List.length (fold_left (fun F x => map (fun fy => op (fst fy) x (snd fy)) (combine F (row x))) l F0) = nf /\
  forall k f0, nth_error F0 k = Some f0 ->
    nth_error (fold_left (fun F x => map (fun fy => op (fst fy) x (snd fy)) (combine F (row x))) l F0) k =
    Some (fold_left (fun f x => op f x (nth k (row x) dy)) l f0).
Proof.
  induction l as [|x l IH]; intros F0 Hr Hl; cbn [fold_left].
  - split; [exact Hl|]. auto.
  - assert (Hx := Hr x (or_introl eq_refl)).
    destruct (IH (map (fun fy => op (fst fy) x (snd fy)) (combine F0 (row x)))) as [A1 A2].
    + intros y Hy. apply Hr. now right.
    + rewrite map_length, combine_length. lia.
    + split; [exact A1|]. intros k f0 Hk.
      assert (k < nf)%nat by (rewrite <- Hl; apply nth_error_Some; congruence).
      apply A2. rewrite nth_error_map, (nth_error_combine _ _ _ f0 (nth k (row x) dy) Hk); [reflexivity|].
      apply nth_error_nth'. lia.
Qed.

(** *** Reading the coefficients *)
Lemma cval_nth d key (e : list (list (R * R))) i k : slookup key (d_map d) = Some e -> cval d key i k = nth k (nth i e []) (0, 0).
Proof.
  intros H. unfold cval, coef. change (@T RNum) with R. rewrite H. destruct (nth_error e i) as [row|] eqn:E.
  - rewrite (nth_error_nth _ _ [] E). destruct (nth_error row k) as [z|] eqn:E2.
    + now rewrite (nth_error_nth _ _ (0, 0) E2).
    + apply nth_error_None in E2. now rewrite nth_overflow.
  - apply nth_error_None in E. rewrite (nth_overflow e) by exact E. now destruct k.
Qed.
Lemma recorded_get d n ks key : recorded d n ks -> In key ks ->
  exists e : list (list (R * R)), dft_get d key = Ok e /\ slookup key (d_map d) = Some e /\ List.length e = n /\
    (forall i, (i < n)%nat -> List.length (nth i e []) = List.length (d_freq d)).
Proof.
  intros [[Hn Hr] H] Hk. destruct (H _ Hk) as (e & E & L). exists e. unfold dft_get. rewrite E. split; [reflexivity|]. split; [reflexivity|]. split; [exact L|].
  intros i Hi. apply (Hr key e); [exact E|]. apply nth_In. change (@T RNum) with R in L. lia.
Qed.
Lemma list_as_map {A} (l : list A) d : l = map (fun i => nth i l d) (seq 0 (List.length l)).
Proof.
  apply (nth_ext _ _ d (nth 0 l d)); [now rewrite map_length, seq_length|]. intros n Hn.
  rewrite (map_nth (fun i => nth i l d)), seq_nth by exact Hn. reflexivity.
Qed.
Lemma combine_map {X A B} (f : X -> A) (g : X -> B) l : combine (map f l) (map g l) = map (fun x => (f x, g x)) l.
Proof. induction l as [|x l IH]; cbn; [reflexivity|]. now rewrite IH. Qed.
Lemma zseq_map n : zseq 0 n = map Z.of_nat (seq 0 n).
Proof.
  apply (nth_ext _ _ 0%Z (Z.of_nat 0)); [now rewrite map_length, seq_length, zseq_length|]. rewrite zseq_length. intros i Hi.
  rewrite (map_nth Z.of_nat), seq_nth, zseq_nth by exact Hi. lia.
Qed.
Lemma rows2 {A B} (E : list A) (H : list B) n da db : List.length E = n -> List.length H = n ->
  combine E H = map (fun i => (nth i E da, nth i H db)) (seq 0 n).
Proof.
  intros <- L. rewrite (list_as_map E da) at 1. rewrite (list_as_map H db) at 1. rewrite L. apply combine_map.
Qed.
Lemma rows3 {A B} (E : list A) (H : list B) n da db : List.length E = n -> List.length H = n ->
  combine (zseq 0 n) (combine E H) = map (fun i => (Z.of_nat i, (nth i E da, nth i H db))) (seq 0 n).
Proof. intros H1 H2. rewrite (rows2 E H n da db H1 H2), zseq_map. apply combine_map. Qed.
Lemma rows4 {A B C} (E : list A) (H : list B) (K : list C) n da db dc : List.length E = n -> List.length H = n -> List.length K = n ->
  combine (zseq 0 n) (zip3 E H K) = map (fun i => (Z.of_nat i, (nth i E da, (nth i H db, nth i K dc)))) (seq 0 n).
Proof.
  intros H1 H2 H3. unfold zip3. rewrite (rows2 H K n db dc H2 H3). rewrite (list_as_map E da) at 1. rewrite H1, combine_map, zseq_map. apply combine_map.
Qed.
Lemma in_seq0 n i : In i (seq 0 n) <-> (i < n)%nat.
Proof. rewrite in_seq. lia. Qed.

Lemma cols_sum {Y} (row : nat -> list Y) dy g nf n (F : list R) : (forall i, (i < n)%nat -> List.length (row i) = nf) ->
  F = fold_left (fun F i => map (fun fy => fst fy + g i (snd fy)) (combine F (row i))) (seq 0 n) (repeat 0 nf) ->
  List.length F = nf /\ forall k, (k < nf)%nat -> nth_error F k = Some (total n (fun i => g i (nth k (row i) dy))).
Proof.
  intros H ->. destruct (fold_cols (fun f (i : nat) y => f + g i y) row dy nf (seq 0 n) (repeat 0 nf)) as [A1 A2].
  { intros i Hi. apply in_seq0 in Hi. auto. }
  { apply repeat_length. }
  split; [exact A1|]. intros k Hk. rewrite (A2 k 0) by now apply nth_error_repeat. now rewrite fold_seq_total.
Qed.
Lemma cols_sum2 {Y} (row : nat -> list Y) dy g nf n (F : list (R * R)) : (forall i, (i < n)%nat -> List.length (row i) = nf) ->
  F = fold_left (fun F i => map (fun fy => plus2 (fst fy) (g i (snd fy))) (combine F (row i))) (seq 0 n) (repeat (0, 0) nf) ->
  List.length F = nf /\ forall k, (k < nf)%nat -> nth_error F k = Some (total2 n (fun i => g i (nth k (row i) dy))).
Proof.
  intros H ->. destruct (fold_cols (fun f (i : nat) y => plus2 f (g i y)) row dy nf (seq 0 n) (repeat (0, 0) nf)) as [A1 A2].
  { intros i Hi. apply in_seq0 in Hi. auto. }
  { apply repeat_length. }
  split; [exact A1|]. intros k Hk. rewrite (A2 k (0, 0)) by now apply nth_error_repeat. now rewrite fold_seq_total2.
Qed.

(** *** Flux *)
Definition sgnR (sg : sign) : R := match sg with Positive => 1 | Negative => -1 end.
Lemma sgn_num sg : nofZ (sgnZ sg) = sgnR sg.
Proof. destruct sg; reflexivity. Qed.
Lemma flux_sum d n ks ke kh (E H : dentry) (da : R) sg : recorded d n ks -> In ke ks -> In kh ks -> dft_get d ke = Ok E -> dft_get d kh = Ok H ->
  List.length (compute_flux (List.length (d_freq d)) E H da sg) = List.length (d_freq d) /\
  forall k, (k < List.length (d_freq d))%nat -> nth_error (compute_flux (List.length (d_freq d)) E H da sg) k =
    Some (total n (fun i => re_prod (cval d ke i k) (cval d kh i k)) * (da * sgnR sg)).
Proof.
  intros Hr He Hh GE GH. destruct (recorded_get _ _ _ _ Hr He) as (E' & G1 & L1 & N1 & R1). destruct (recorded_get _ _ _ _ Hr Hh) as (H' & G2 & L2 & N2 & R2).
  rewrite G1 in GE. rewrite G2 in GH. injection GE as <-. injection GH as <-. unfold compute_flux.
  match goal with |- context [map ?f ?F] => set (FF := F); set (ff := f) end.
  destruct (cols_sum (fun i => combine (nth i E' []) (nth i H' [])) ((0, 0), (0, 0)) (fun _ y => re_prod (fst y) (snd y)) (List.length (d_freq d)) n FF) as [A1 A2].
  { intros i Hi. rewrite combine_length, R1, R2 by exact Hi. lia. }
  { unfold FF. change (@T RNum) with R. rewrite (rows2 E' H' n [] [] N1 N2), fold_left_map. apply fold_left_ext. intros F i. unfold flux_row. apply map_ext. intros [s [[er ei] [hr hi]]]. reflexivity. }
  split; [rewrite map_length; exact A1|]. intros k Hk. rewrite nth_error_map. refine (eq_trans (f_equal (option_map ff) (A2 k Hk)) _).
  cbn [option_map]. unfold ff. rewrite sgn_num. do 2 f_equal. rnumg. f_equal. apply total_ext. intros i Hi.
  rewrite combine_nth by now rewrite R1, R2. cbn [fst snd]. now rewrite (cval_nth _ _ _ _ _ L1), (cval_nth _ _ _ _ _ L2).
Qed.
Lemma total_const n c f : total n (fun i => f i * c) = total n f * c.
Proof. induction n as [|n IH]; cbn [total]; [ring|]. rewrite IH. ring. Qed.

(** *** The keys and directions of a surface *)
Lemma surf_vertical (a b : R * R) sg s : mk_surface a b sg = Ok s ->
  neqb (fst (s_dim s)) 0%num = (if Req_EM_T (fst a) (fst b) then true else false).
Proof.
  intros H. unfold mk_surface in H. inv_ok. cbn [s_dim fst vabs vsub]. rnumg. match goal with |- context [Req_EM_T ?x ?y] => destruct (Req_EM_T x y) as [E|E] end.
  - apply Reqb_true. rewrite E. replace (fst b - fst b) with 0 by ring. apply Rabs_R0.
  - apply Reqb_false. intros X. apply E. apply Rabs_zero in X. lra.
Qed.
Lemma tang_key_is (a b : R * R) sg s : mk_surface a b sg = Ok s -> tang_key s = h_along a b.
Proof. intros H. unfold tang_key, h_along, vertical. rewrite (surf_vertical _ _ _ _ H). now destruct Req_EM_T. Qed.
Lemma norm_key_is (a b : R * R) sg s : mk_surface a b sg = Ok s -> norm_key s = h_across a b.
Proof. intros H. unfold norm_key, h_across, vertical. rewrite (surf_vertical _ _ _ _ H). now destruct Req_EM_T. Qed.
Lemma surf_axis (a b : R * R) sg s : mk_surface a b sg = Ok s -> fst a <> fst b -> snd a = snd b.
Proof. intros H N. assert (X : exists s, mk_surface a b sg = Ok s) by eauto. apply mk_surface_iff in X. tauto. Qed.
Lemma surf_normal_is (a b : R * R) sg s : mk_surface a b sg = Ok s -> vabs (s_normal s) = (if vertical a b then (1, 0) else (0, 1)).
Proof.
  intros H. assert (V := surf_vertical _ _ _ _ H). unfold vertical. unfold mk_surface in H. inv_ok. cbn [s_dim s_normal] in *. rewrite V in *.
  destruct (Req_EM_T (fst a) (fst b)).
  - inv_ok. unfold vabs. cbn [fst snd]. destruct sg; rnumg; f_equal; rewrite ?Rmult_1_r, ?Rmult_0_r, ?Rabs_R0; auto; cbn [sgnZ]; unfold Rabs; destruct Rcase_abs; lra.
  - destruct (neqb (snd (vabs (vsub a b))) 0%num); [|discriminate]. inv_ok. unfold vabs. cbn [fst snd]. destruct sg; rnumg; f_equal; rewrite ?Rmult_1_r, ?Rmult_0_r, ?Rabs_R0; auto; cbn [sgnZ]; unfold Rabs; destruct Rcase_abs; lra.
Qed.
Lemma surf_tangent_is (a b : R * R) sg s : mk_surface a b sg = Ok s -> s_tangent s = direction a b.
Proof. intros H. rewrite (mk_surface_dir _ _ _ _ H). reflexivity. Qed.
Lemma sqrt_own d : sqrt (d * d) = Rabs d.
Proof. apply sqrt_Rsqr_abs. Qed.
Lemma direction_vertical a b : fst a = fst b -> snd a <> snd b -> direction a b = (0, (snd b - snd a) / Rabs (snd b - snd a)).
Proof.
  intros E N. unfold direction. rewrite E. replace ((fst b - fst b) * (fst b - fst b) + (snd b - snd a) * (snd b - snd a)) with ((snd b - snd a) * (snd b - snd a)) by ring.
  rewrite sqrt_own. f_equal. unfold Rdiv. ring.
Qed.
Lemma direction_horizontal a b : snd a = snd b -> fst a <> fst b -> direction a b = ((fst b - fst a) / Rabs (fst b - fst a), 0).
Proof.
  intros E N. unfold direction. rewrite E. replace ((fst b - fst a) * (fst b - fst a) + (snd b - snd b) * (snd b - snd b)) with ((fst b - fst a) * (fst b - fst a)) by ring.
  rewrite sqrt_own. f_equal. unfold Rdiv. ring.
Qed.
Lemma unit_abs d : d <> 0 -> Rabs (d / Rabs d) = 1.
Proof.
  intros H. unfold Rdiv. rewrite Rabs_mult, Rabs_inv, Rabs_Rabsolu. apply Rinv_r. now apply Rabs_no_R0.
Qed.
Lemma surf_tangent_abs (a b : R * R) sg s : mk_surface a b sg = Ok s -> a <> b -> vabs (s_tangent s) = (if vertical a b then (0, 1) else (1, 0)).
Proof.
  intros H N. rewrite (surf_tangent_is _ _ _ _ H). unfold vertical, vabs. destruct (Req_EM_T (fst a) (fst b)) as [E|E].
  - assert (snd a <> snd b) by (intros X; apply N; destruct a, b; cbn in *; congruence).
    rewrite direction_vertical by assumption. cbn [fst snd]. rnumg. f_equal; [apply Rabs_R0|]. apply unit_abs. lra.
  - rewrite direction_horizontal by (auto; eapply surf_axis; eauto). cbn [fst snd]. rnumg. f_equal; [|apply Rabs_R0]. apply unit_abs. lra.
Qed.
Lemma side_normal_is a b sg : side_normal a b sg = (if vertical a b then (sgnR sg, 0) else (0, sgnR sg)).
Proof. unfold side_normal, vertical. destruct Req_EM_T; reflexivity. Qed.

(** *** Flux of a surface *)
Lemma surf_flux_sum (a b : R * R) sg s m n (dx : R) : mk_surface a b sg = Ok s -> sm_surf m = s -> recorded (sm_dft m) n ["Ez"%string; h_along a b] ->
  exists fl : list R, surf_flux dx m = Ok fl /\ List.length fl = List.length (d_freq (sm_dft m)) /\
    forall k, (k < List.length (d_freq (sm_dft m)))%nat -> nth_error fl k =
      Some (total n (fun i => dot2 (poynting (cval (sm_dft m) "Ez" i k) (cval (sm_dft m) "Hx" i k) (cval (sm_dft m) "Hy" i k)) (side_normal a b sg) * dx)).
Proof.
  intros Hs <- Hr. unfold surf_flux. rewrite (tang_key_is _ _ _ _ Hs), (surf_vertical _ _ _ _ Hs).
  destruct (mk_surface_fields _ _ _ _ Hs) as (_ & _ & Sg). rewrite Sg.
  destruct (recorded_get _ _ _ "Ez" Hr (or_introl eq_refl)) as (E & G1 & _). destruct (recorded_get _ _ _ (h_along a b) Hr (or_intror (or_introl eq_refl))) as (H & G2 & _).
  rewrite G1, G2. cbn [bind]. eexists. split; [reflexivity|].
  match goal with |- context [compute_flux _ _ _ ?z _] => destruct (flux_sum _ _ _ _ _ E H z sg Hr (or_introl eq_refl) (or_intror (or_introl eq_refl)) G1 G2) as [A1 A2] end.
  split; [exact A1|]. intros k Hk. refine (eq_trans (A2 k Hk) _). f_equal. refine (eq_trans (eq_sym (total_const n _ _)) _). apply total_ext. intros i Hi. rewrite side_normal_is.
  unfold h_along, vertical, dot2, poynting, re_prod. destruct (Req_EM_T (fst a) (fst b)); cbn [fst snd]; rnumg; ring.
Qed.

(** *** Force and torque *)
Lemma force_sum d n ks ke kt kn (E Ht Hn : dentry) tan nrm (da : R) sg : recorded d n ks -> In ke ks -> In kt ks -> In kn ks ->
  dft_get d ke = Ok E -> dft_get d kt = Ok Ht -> dft_get d kn = Ok Hn ->
  List.length (compute_force (List.length (d_freq d)) E Ht Hn tan nrm da sg) = List.length (d_freq d) /\
  forall k, (k < List.length (d_freq d))%nat -> nth_error (compute_force (List.length (d_freq d)) E Ht Hn tan nrm da sg) k =
    Some (total2 n (fun i => force_term (tan (Z.of_nat i)) (nrm (Z.of_nat i)) da sg (cval d ke i k) (cval d kt i k) (cval d kn i k))).
Proof.
  intros Hr He Ht0 Hn0 GE GT GN. destruct (recorded_get _ _ _ _ Hr He) as (E' & G1 & L1 & N1 & R1). destruct (recorded_get _ _ _ _ Hr Ht0) as (H' & G2 & L2 & N2 & R2).
  destruct (recorded_get _ _ _ _ Hr Hn0) as (K' & G3 & L3 & N3 & R3).
  rewrite G1 in GE. rewrite G2 in GT. rewrite G3 in GN. injection GE as <-. injection GT as <-. injection GN as <-. unfold compute_force.
  match goal with |- List.length ?F = _ /\ _ => set (FF := F) end.
  destruct (cols_sum2 (fun i => combine (nth i E' []) (combine (nth i H' []) (nth i K' []))) ((0, 0), ((0, 0), (0, 0)))
     (fun i y => force_term (tan (Z.of_nat i)) (nrm (Z.of_nat i)) da sg (fst y) (fst (snd y)) (snd (snd y))) (List.length (d_freq d)) n FF) as [A1 A2].
  { intros i Hi. rewrite !combine_length, R1, R2, R3 by exact Hi. lia. }
  { unfold FF. change (@T RNum) with R. rewrite N1, (rows4 E' H' K' n [] [] [] N1 N2 N3), fold_left_map. apply fold_left_ext. intros F i. unfold zip3. apply map_ext. intros [s [e [t0 n0]]]. reflexivity. }
  split; [exact A1|]. intros k Hk. refine (eq_trans (A2 k Hk) _). f_equal. apply total2_ext. intros i Hi.
  rewrite !combine_nth by (rewrite ?combine_length, ?R1, ?R2, ?R3 by exact Hi; lia). cbn [fst snd]. now rewrite (cval_nth _ _ _ _ _ L1), (cval_nth _ _ _ _ _ L2), (cval_nth _ _ _ _ _ L3).
Qed.
Lemma torque_sum d n ks ke kt kn (E Ht Hn : dentry) pos tan nrm (da : R) sg : recorded d n ks -> In ke ks -> In kt ks -> In kn ks ->
  dft_get d ke = Ok E -> dft_get d kt = Ok Ht -> dft_get d kn = Ok Hn ->
  List.length (compute_torque (List.length (d_freq d)) E Ht Hn pos tan nrm da sg) = List.length (d_freq d) /\
  forall k, (k < List.length (d_freq d))%nat -> nth_error (compute_torque (List.length (d_freq d)) E Ht Hn pos tan nrm da sg) k =
    Some (total n (fun i => torque_term (pos (Z.of_nat i)) (tan (Z.of_nat i)) (nrm (Z.of_nat i)) da sg (cval d ke i k) (cval d kt i k) (cval d kn i k))).
Proof.
  intros Hr He Ht0 Hn0 GE GT GN. destruct (recorded_get _ _ _ _ Hr He) as (E' & G1 & L1 & N1 & R1). destruct (recorded_get _ _ _ _ Hr Ht0) as (H' & G2 & L2 & N2 & R2).
  destruct (recorded_get _ _ _ _ Hr Hn0) as (K' & G3 & L3 & N3 & R3).
  rewrite G1 in GE. rewrite G2 in GT. rewrite G3 in GN. injection GE as <-. injection GT as <-. injection GN as <-. unfold compute_torque.
  match goal with |- List.length ?F = _ /\ _ => set (FF := F) end.
  destruct (cols_sum (fun i => combine (nth i E' []) (combine (nth i H' []) (nth i K' []))) ((0, 0), ((0, 0), (0, 0)))
     (fun i y => torque_term (pos (Z.of_nat i)) (tan (Z.of_nat i)) (nrm (Z.of_nat i)) da sg (fst y) (fst (snd y)) (snd (snd y))) (List.length (d_freq d)) n FF) as [A1 A2].
  { intros i Hi. rewrite !combine_length, R1, R2, R3 by exact Hi. lia. }
  { unfold FF. change (@T RNum) with R. rewrite N1, (rows4 E' H' K' n [] [] [] N1 N2 N3), fold_left_map. apply fold_left_ext. intros F i. unfold zip3. apply map_ext. intros [s [e [t0 n0]]]. reflexivity. }
  split; [exact A1|]. intros k Hk. refine (eq_trans (A2 k Hk) _). f_equal. apply total_ext. intros i Hi.
  rewrite !combine_nth by (rewrite ?combine_length, ?R1, ?R2, ?R3 by exact Hi; lia). cbn [fst snd]. now rewrite (cval_nth _ _ _ _ _ L1), (cval_nth _ _ _ _ _ L2), (cval_nth _ _ _ _ _ L3).
Qed.
Lemma torque_is_moment pos tan nrm (da : R) sg ez ht hn : torque_term pos tan nrm da sg ez ht hn = cross2 pos (force_term tan nrm da sg ez ht hn).
Proof. unfold torque_term, force_term, cross2, vadd, vscale. cbn [fst snd]. rnumg. ring. Qed.
(** the force on a piece of area: T . n in the frame (tan, nrm) *)
Lemma force_plain a b (da : R) sg ez hx hy :
  force_term (if vertical a b then (0, 1) else (1, 0)) (if vertical a b then (1, 0) else (0, 1)) da sg ez
    (if vertical a b then hy else hx) (if vertical a b then hx else hy) = scale2 da (traction ez hx hy (side_normal a b sg)).
Proof.
  rewrite side_normal_is. unfold force_term, stress_force, scale2, traction, t_xx, t_xy, t_yx, t_yy, energy, re_prod, cnorm, re_conj_mul, re_mul_conj.
  destruct (vertical a b), sg; cbn [fst snd sgnZ sgnR]; rnumg; f_equal; field.
Qed.
Lemma force_circle th (da : R) ez hp hr :
  force_term (cs_tangent th) (cs_normal th) da Positive ez hp hr = scale2 da (traction ez (cart_x th hp hr) (cart_y th hp hr) (e_r th)).
Proof.
  assert (S := sin2_cos2 th). unfold Rsqr in S.
  unfold force_term, stress_force, scale2, traction, t_xx, t_xy, t_yx, t_yy, energy, re_prod, cnorm, re_conj_mul, re_mul_conj, cart_x, cart_y, plus2, scale2, e_phi, e_r, cs_tangent, cs_normal.
  cbn [fst snd sgnZ]. rnumg. set (c := cos th) in *. set (s := sin th) in *. clearbody c s. destruct ez as [e1 e2], hp as [p1 p2], hr as [r1 r2]. cbn [fst snd].
  assert (W1 : (c * p1 + s * r1) * (c * p1 + s * r1) = p1 * p1 + r1 * r1 - (- s * p1 + c * r1) * (- s * p1 + c * r1)).
  { replace (p1 * p1 + r1 * r1) with ((p1 * p1 + r1 * r1) * (s * s + c * c)) by (rewrite S; ring). ring. }
  assert (W2 : (c * p2 + s * r2) * (c * p2 + s * r2) = p2 * p2 + r2 * r2 - (- s * p2 + c * r2) * (- s * p2 + c * r2)).
  { replace (p2 * p2 + r2 * r2) with ((p2 * p2 + r2 * r2) * (s * s + c * c)) by (rewrite S; ring). ring. }
  assert (V1 : (c * p1 + s * r1) * s = r1 - (- s * p1 + c * r1) * c).
  { replace r1 with (r1 * (s * s + c * c)) at 2 by (rewrite S; ring). ring. }
  assert (V2 : (c * p2 + s * r2) * s = r2 - (- s * p2 + c * r2) * c).
  { replace r2 with (r2 * (s * s + c * c)) at 2 by (rewrite S; ring). ring. }
  f_equal.
  - set (h1 := - s * p1 + c * r1) in *. set (h2 := - s * p2 + c * r2) in *. set (k1 := c * p1 + s * r1) in *. set (k2 := c * p2 + s * r2) in *.
    transitivity (da * (h1 * r1 + h2 * r2 - (p1 * p1 + r1 * r1 + (p2 * p2 + r2 * r2) + (e1 * e1 + e2 * e2)) / 2 * c)).
    + unfold h1, h2. field.
    + f_equal. replace ((h1 * k1 + h2 * k2) * s) with (h1 * (k1 * s) + h2 * (k2 * s)) by ring. rewrite V1, V2, W1, W2. field.
  - set (h1 := - s * p1 + c * r1) in *. set (h2 := - s * p2 + c * r2) in *. set (k1 := c * p1 + s * r1) in *. set (k2 := c * p2 + s * r2) in *.
    transitivity (da * (k1 * r1 + k2 * r2 - (p1 * p1 + r1 * r1 + (p2 * p2 + r2 * r2) + (e1 * e1 + e2 * e2)) / 2 * s)).
    + unfold k1, k2. field.
    + f_equal. assert (V1' : r1 = k1 * s + h1 * c) by lra. assert (V2' : r2 = k2 * s + h2 * c) by lra.
      transitivity (k1 * r1 + k2 * r2 - (h1 * h1 + h2 * h2 + (k1 * k1 + k2 * k2) + (e1 * e1 + e2 * e2)) / 2 * s); [rewrite W1, W2; field|].
      rewrite V1', V2'. field.
Qed.
Lemma along_in a b : In (h_along a b) hxy.
Proof. unfold h_along. destruct vertical; cbn; auto. Qed.
Lemma across_in a b : In (h_across a b) hxy.
Proof. unfold h_across. destruct vertical; cbn; auto. Qed.
Lemma surf_term a b sg (s : surface) d (dx : R) i k : mk_surface a b sg = Ok s -> a <> b ->
  force_term (vabs (s_tangent s)) (vabs (s_normal s)) dx sg (cval d "Ez" i k) (cval d (h_along a b) i k) (cval d (h_across a b) i k) =
  pull d (side_normal a b sg) dx i k.
Proof.
  intros Hs N. rewrite (surf_tangent_abs _ _ _ _ Hs N), (surf_normal_is _ _ _ _ Hs). unfold pull. rewrite <- force_plain. unfold h_along, h_across.
  destruct (vertical a b); reflexivity.
Qed.
Lemma surf_force_sum (a b : R * R) sg s m n (dx : R) : mk_surface a b sg = Ok s -> a <> b -> sm_surf m = s -> recorded (sm_dft m) n hxy ->
  exists fl : list (R * R), surf_force dx m = Ok fl /\ List.length fl = List.length (d_freq (sm_dft m)) /\
    forall k, (k < List.length (d_freq (sm_dft m)))%nat -> nth_error fl k = Some (total2 n (fun i => pull (sm_dft m) (side_normal a b sg) dx i k)).
Proof.
  intros Hs N <- Hr. unfold surf_force. rewrite (tang_key_is _ _ _ _ Hs), (norm_key_is _ _ _ _ Hs).
  destruct (mk_surface_fields _ _ _ _ Hs) as (_ & _ & Sg). rewrite Sg.
  assert (I1 : In "Ez"%string hxy) by (cbn; auto). assert (I2 := along_in a b). assert (I3 := across_in a b).
  destruct (recorded_get _ _ _ _ Hr I1) as (E & G1 & _). destruct (recorded_get _ _ _ _ Hr I2) as (Ht & G2 & _). destruct (recorded_get _ _ _ _ Hr I3) as (Hn & G3 & _).
  rewrite G1, G2, G3. cbn [bind]. eexists. split; [reflexivity|].
  match goal with |- context [compute_force _ _ _ _ ?x ?y ?z _] => destruct (force_sum _ _ _ _ _ _ E Ht Hn x y z sg Hr I1 I2 I3 G1 G2 G3) as [A1 A2] end.
  split; [exact A1|]. intros k Hk. refine (eq_trans (A2 k Hk) _). f_equal. apply total2_ext. intros i Hi. now apply surf_term.
Qed.
Lemma surf_torque_sum (a b : R * R) sg s m n (dx : R) (c : R * R) : mk_surface a b sg = Ok s -> a <> b -> sm_surf m = s -> recorded (sm_dft m) n hxy ->
  exists fl : list R, surf_torque dx c m = Ok fl /\ List.length fl = List.length (d_freq (sm_dft m)) /\
    forall k, (k < List.length (d_freq (sm_dft m)))%nat -> nth_error fl k = Some (total n (fun i => cross2 (minus2 (arm a b dx i) c) (pull (sm_dft m) (side_normal a b sg) dx i k))).
Proof.
  intros Hs N <- Hr. unfold surf_torque. rewrite (tang_key_is _ _ _ _ Hs), (norm_key_is _ _ _ _ Hs).
  destruct (mk_surface_fields _ _ _ _ Hs) as (Ea & _ & Sg). rewrite Sg.
  assert (I1 : In "Ez"%string hxy) by (cbn; auto). assert (I2 := along_in a b). assert (I3 := across_in a b).
  destruct (recorded_get _ _ _ _ Hr I1) as (E & G1 & _). destruct (recorded_get _ _ _ _ Hr I2) as (Ht & G2 & _). destruct (recorded_get _ _ _ _ Hr I3) as (Hn & G3 & _).
  rewrite G1, G2, G3. cbn [bind]. eexists. split; [reflexivity|].
  match goal with |- context [compute_torque _ _ _ _ ?w ?x ?y ?z _] => destruct (torque_sum _ _ _ _ _ _ E Ht Hn w x y z sg Hr I1 I2 I3 G1 G2 G3) as [A1 A2] end.
  split; [exact A1|]. intros k Hk. refine (eq_trans (A2 k Hk) _). f_equal. apply total_ext. intros i Hi. rewrite torque_is_moment, (surf_term _ _ _ _ _ _ _ _ Hs N). f_equal.
  rewrite Ea, (surf_tangent_is _ _ _ _ Hs). unfold minus2, arm, plus2, scale2, vsub, vadd, vscale. cbn [fst snd]. rewrite INR_IZR_INZ. rnumg. f_equal; field.
Qed.
(** torque about another point *)
Lemma moment_shift n (r : nat -> R * R) (f : nat -> R * R) (c c' : R * R) :
  total n (fun i => cross2 (minus2 (r i) c') (f i)) - total n (fun i => cross2 (minus2 (r i) c) (f i)) = cross2 (minus2 c c') (total2 n f).
Proof.
  unfold total2, cross2, minus2. cbn [fst snd]. induction n as [|n IH]; cbn [total]; [ring|].
  transitivity ((total n (fun i => (fst (r i) - fst c') * snd (f i) - (snd (r i) - snd c') * fst (f i)) - total n (fun i => (fst (r i) - fst c) * snd (f i) - (snd (r i) - snd c) * fst (f i)))
    + ((fst c - fst c') * snd (f n) - (snd c - snd c') * fst (f n))); [ring|]. rewrite IH. ring.
Qed.

Lemma cyl_flux_sum m n : recorded (cm_dft m) n ["Ez"; "Hp"]%string -> cm_len m = Z.of_nat n ->
  exists fl : list R, cyl_flux m = Ok fl /\ List.length fl = List.length (d_freq (cm_dft m)) /\
    forall k, (k < List.length (d_freq (cm_dft m)))%nat -> nth_error fl k =
      Some (total n (fun i => let th := arc_middle (Z.of_nat n) (Z.of_nat i) in let hp := cval (cm_dft m) "Hp" i k in let hr := cval (cm_dft m) "Hr" i k in
        dot2 (poynting (cval (cm_dft m) "Ez" i k) (cart_x th hp hr) (cart_y th hp hr)) (e_r th) * (2 * PI * cs_radius (cm_surf m) / INR n))).
Proof.
  intros Hr Hl. unfold cyl_flux.
  destruct (recorded_get _ _ _ "Ez" Hr (or_introl eq_refl)) as (E & G1 & _). destruct (recorded_get _ _ _ "Hp" Hr (or_intror (or_introl eq_refl))) as (H & G2 & _).
  rewrite G1, G2. cbn [bind]. eexists. split; [reflexivity|].
  destruct (flux_sum _ _ _ _ _ E H (cyl_da m) Negative Hr (or_introl eq_refl) (or_intror (or_introl eq_refl)) G1 G2) as [A1 A2].
  split; [exact A1|]. intros k Hk. refine (eq_trans (A2 k Hk) _). f_equal. refine (eq_trans (eq_sym (total_const n _ _)) _). apply total_ext. intros i Hi. cbn zeta.
  unfold cyl_da. rewrite Hl. rnumg. rewrite <- INR_IZR_INZ. cbn [sgnR].
  set (th := arc_middle (Z.of_nat n) (Z.of_nat i)). assert (S := sin2_cos2 th). unfold Rsqr in S.
  match goal with |- ?x * (?da * -1) = ?y * ?da => replace y with (- x); [ring|] end.
  unfold dot2, poynting, re_prod, cart_x, cart_y, plus2, scale2, e_phi, e_r. cbn [fst snd]. rnumg. set (c := cos th) in *. set (s := sin th) in *.
  set (e1 := fst (cval (cm_dft m) "Ez" i k)). set (e2 := snd (cval (cm_dft m) "Ez" i k)). set (p1 := fst (cval (cm_dft m) "Hp" i k)). set (p2 := snd (cval (cm_dft m) "Hp" i k)).
  set (r1 := fst (cval (cm_dft m) "Hr" i k)). set (r2 := snd (cval (cm_dft m) "Hr" i k)).
  transitivity (- ((e1 * p1 + e2 * p2) * (s * s + c * c))); [rewrite S; ring|ring].
Qed.
Lemma cyl_theta_middle n i : cyl_theta n i = arc_middle n i.
Proof. unfold cyl_theta, arc_middle. rnumg. do 3 f_equal. field. Qed.
Lemma cyl_force_sum m n : recorded (cm_dft m) n hpr -> cm_len m = Z.of_nat n ->
  exists fl : list (R * R), cyl_force m = Ok fl /\ List.length fl = List.length (d_freq (cm_dft m)) /\
    forall k, (k < List.length (d_freq (cm_dft m)))%nat -> nth_error fl k =
      Some (total2 n (fun i => circle_pull (cm_dft m) n (2 * PI * cs_radius (cm_surf m) / INR n) i k)).
Proof.
  intros Hr Hl. unfold cyl_force.
  assert (I1 : In "Ez"%string hpr) by (cbn; auto). assert (I2 : In "Hp"%string hpr) by (cbn; auto). assert (I3 : In "Hr"%string hpr) by (cbn; auto).
  destruct (recorded_get _ _ _ _ Hr I1) as (E & G1 & _). destruct (recorded_get _ _ _ _ Hr I2) as (Ht & G2 & _). destruct (recorded_get _ _ _ _ Hr I3) as (Hn & G3 & _).
  rewrite G1, G2, G3. cbn [bind]. eexists. split; [reflexivity|].
  match goal with |- context [compute_force _ _ _ _ ?x ?y ?z ?w] => destruct (force_sum _ _ _ _ _ _ E Ht Hn x y z w Hr I1 I2 I3 G1 G2 G3) as [A1 A2] end.
  split; [exact A1|]. intros k Hk. refine (eq_trans (A2 k Hk) _). f_equal. apply total2_ext. intros i Hi. rewrite force_circle. unfold circle_pull. cbn zeta.
  rewrite cyl_theta_middle, Hl. unfold cyl_da. rewrite Hl. rnumg. rewrite <- INR_IZR_INZ. reflexivity.
Qed.
Lemma cyl_torque_sum m n : recorded (cm_dft m) n hpr -> cm_len m = Z.of_nat n ->
  exists fl : list R, cyl_torque m = Ok fl /\ List.length fl = List.length (d_freq (cm_dft m)) /\
    forall k, (k < List.length (d_freq (cm_dft m)))%nat -> nth_error fl k =
      Some (total n (fun i => cross2 (minus2 (on_circle (cs_center (cm_surf m)) (cs_radius (cm_surf m)) (arc_middle (Z.of_nat n) (Z.of_nat i))) (cs_center (cm_surf m)))
        (circle_pull (cm_dft m) n (2 * PI * cs_radius (cm_surf m) / INR n) i k))).
Proof.
  intros Hr Hl. unfold cyl_torque.
  assert (I1 : In "Ez"%string hpr) by (cbn; auto). assert (I2 : In "Hp"%string hpr) by (cbn; auto). assert (I3 : In "Hr"%string hpr) by (cbn; auto).
  destruct (recorded_get _ _ _ _ Hr I1) as (E & G1 & _). destruct (recorded_get _ _ _ _ Hr I2) as (Ht & G2 & _). destruct (recorded_get _ _ _ _ Hr I3) as (Hn & G3 & _).
  rewrite G1, G2, G3. cbn [bind]. eexists. split; [reflexivity|].
  match goal with |- context [compute_torque _ _ _ _ ?v ?x ?y ?z ?w] => destruct (torque_sum _ _ _ _ _ _ E Ht Hn v x y z w Hr I1 I2 I3 G1 G2 G3) as [A1 A2] end.
  split; [exact A1|]. intros k Hk. refine (eq_trans (A2 k Hk) _). f_equal. apply total_ext. intros i Hi. rewrite torque_is_moment, force_circle. unfold circle_pull. cbn zeta.
  rewrite cyl_theta_middle, Hl. unfold cyl_da. rewrite Hl. f_equal.
  - unfold minus2, on_circle, vsub, cs_position, vadd, vscale, cs_normal. cbn [fst snd]. rnumg. f_equal; ring.
  - rnumg. rewrite <- INR_IZR_INZ. reflexivity.
Qed.

(** *** Recorded contents *)
Lemma update_recorded {S} K (f : sampler S) s d t d' s' n ks : isolated K f -> fills f -> recorded d n ks -> dft_update f s d t = Ok (d', s') ->
  recorded d' n ks /\ d_freq d' = d_freq d.
Proof.
  intros Hi Hf [Hs Hk] H. destruct (Req_dec (d_t d) t) as [E|E].
  - unfold dft_update in H. rewrite (proj2 (neqb_R _ _) E) in H. injection H as <- <-. split; [split; assumption|reflexivity].
  - destruct (update_isolated K f s d t d' s' Hi Hf Hs E H) as (_ & A2 & A3 & _ & A5 & _). split; [|exact A2]. split; [exact A3|].
    intros key Ik. destruct (Hk _ Ik) as (e & E1 & E2). destruct (A5 _ _ E1) as (gs & e' & _ & _ & B3 & B4 & _). exists e'. split; [exact B3|congruence].
Qed.
Lemma surf_feed_recorded g n ks : forall l m m', surf_feed g l m = Ok m' -> recorded (sm_dft m) n ks ->
  recorded (sm_dft m') n ks /\ d_freq (sm_dft m') = d_freq (sm_dft m) /\ sm_surf m' = sm_surf m /\ sm_len m' = sm_len m.
Proof.
  induction l as [|[t F] l IH]; intros m m' H Hr; unfold surf_feed in *; cbn [foldM fst snd] in *.
  - injection H as <-. auto.
  - destruct (surf_update g F t m) as [m1| |] eqn:E; cbn [bind] in H; try discriminate. unfold surf_update in E.
    destruct (to_grid_surface g (sm_surf m)) as [ic| |]; cbn [bind] in E; try discriminate.
    destruct (dft_update (surf_sample g F (sm_surf m) ic) (sm_prevE m) (sm_dft m) t) as [[d pe]| |] eqn:E2; cbn [bind] in E; try discriminate. injection E as <-.
    destruct (update_recorded _ _ _ _ _ _ _ _ _ (surf_isolated _ _ _ _) (surf_fills _ _ _ _) Hr E2) as [R1 R2].
    destruct (IH _ _ H R1) as (B1 & B2 & B3 & B4). cbn [sm_dft sm_surf sm_len] in *. split; [exact B1|]. split; [congruence|]. split; assumption.
Qed.
Lemma cyl_feed_recorded g n ks : forall l m m', cyl_feed g l m = Ok m' -> recorded (cm_dft m) n ks ->
  recorded (cm_dft m') n ks /\ d_freq (cm_dft m') = d_freq (cm_dft m) /\ cm_surf m' = cm_surf m /\ cm_len m' = cm_len m.
Proof.
  induction l as [|[t F] l IH]; intros m m' H Hr; unfold cyl_feed in *; cbn [foldM fst snd] in *.
  - injection H as <-. auto.
  - destruct (cyl_update g F t m) as [m1| |] eqn:E; cbn [bind] in H; try discriminate. unfold cyl_update in E.
    destruct (dft_update (cyl_sample g F (cm_surf m) (cm_len m)) (cm_prevE m) (cm_dft m) t) as [[d pe]| |] eqn:E2; cbn [bind] in E; try discriminate. injection E as <-.
    destruct (update_recorded _ _ _ _ _ _ _ _ _ (cyl_isolated _ _ _ _) (cyl_fills _ _ _ _) Hr E2) as [R1 R2].
    destruct (IH _ _ H R1) as (B1 & B2 & B3 & B4). cbn [cm_dft cm_surf cm_len] in *. split; [exact B1|]. split; [congruence|]. split; assumption.
Qed.
Lemma fresh_recorded d n ks : fresh d n ks -> recorded d (Z.to_nat n) ks.
Proof.
  intros H. split; [exact (fresh_shaped _ _ _ H)|]. intros key Hk. destruct H as [_ H]. rewrite H. destruct (in_dec string_dec key ks); [|contradiction].
  eexists. split; [reflexivity|]. unfold zeros. apply repeat_length.
Qed.
Lemma recorded_incl d n ks ks2 : (forall k, In k ks2 -> In k ks) -> recorded d n ks -> recorded d n ks2.
Proof. intros H [A B]. split; [exact A|]. intros key Hk. auto. Qed.
Lemma surf_recorded g (a b : R * R) sg s name k freq m0 m l : mk_surface a b sg = Ok s ->
  surf_attach g (mk_surf_mon name s k freq) = Ok m0 -> surf_feed g l m0 = Ok m ->
  sm_surf m = s /\ a <> b /\ d_freq (sm_dft m) = freq /\
  (k = DTangent \/ k = DAll -> recorded (sm_dft m) (Z.to_nat (sm_len m)) ["Ez"%string; h_along a b]) /\
  (k = DAll -> recorded (sm_dft m) (Z.to_nat (sm_len m)) hxy).
Proof.
  intros Hs Ha Hf. destruct (surf_attach_fresh g _ _ (eq_refl : d_map (sm_dft (mk_surf_mon name s k freq)) = []) Ha) as (ic & I1 & I2 & I3 & I4 & I5 & I6 & I7 & I8).
  cbn [mk_surf_mon sm_surf sm_kind sm_dft mk_dft d_t d_freq] in *.
  destruct (surface_cells _ _ _ _ _ _ Hs I1) as (C1 & C2 & C3 & C4 & _ & C5 & _).
  destruct (surf_feed_recorded _ _ _ _ _ _ Hf (fresh_recorded _ _ _ I8)) as (B1 & B2 & B3 & B4). rewrite <- B4 in B1.
  split; [congruence|]. split; [intros ->; apply C3; congruence|]. split; [congruence|]. split.
  - intros K. apply (recorded_incl _ _ _ _) with (2 := B1). intros key [<- | [<- | []]].
    + destruct K as [-> | ->]; cbn; [destruct (fst (is_dim ic) =? 0)%Z; cbn; auto|auto].
    + destruct K as [-> | ->]; cbn [surf_keys]; [|apply along_in]. rewrite C5. cbn [fst].
      destruct (to_grid_coord g a b _ _ C1 C2) as [Q1 Q2]. unfold h_along, vertical. destruct (Req_EM_T (fst a) (fst b)) as [E|E].
      * rewrite (Q1 E). rewrite Z.sub_diag. cbn. auto.
      * assert (E2 := Q2 (surf_axis _ _ _ _ Hs E)). replace (Z.abs (fst (is_b ic) - fst (is_a ic)) =? 0)%Z with false; [cbn; auto|].
        symmetry. apply Z.eqb_neq. intros X. apply C3. destruct (is_a ic), (is_b ic). cbn in *. f_equal; lia.
  - intros ->. exact B1.
Qed.
Lemma cyl_recorded g cs all name freq m0 m l : cyl_attach g (mk_cyl_mon name cs all freq) = Ok m0 -> cyl_feed g l m0 = Ok m ->
  cm_surf m = cs /\ d_freq (cm_dft m) = freq /\ cm_len m = Z.of_nat (Z.to_nat (cm_len m)) /\
  recorded (cm_dft m) (Z.to_nat (cm_len m)) ["Ez"; "Hp"]%string /\ (all = true -> recorded (cm_dft m) (Z.to_nat (cm_len m)) hpr).
Proof.
  intros Ha Hf. destruct (cyl_attach_fresh g _ _ (eq_refl : d_map (cm_dft (mk_cyl_mon name cs all freq)) = []) Ha) as (I1 & I2 & I3 & I4 & I5 & I6 & I7).
  cbn [mk_cyl_mon cm_surf cm_all cm_dft mk_dft d_t d_freq] in *.
  destruct (cyl_feed_recorded _ _ _ _ _ _ Hf (fresh_recorded _ _ _ I7)) as (B1 & B2 & B3 & B4). rewrite <- B4 in B1, I2.
  split; [congruence|]. split; [congruence|]. split; [lia|]. split.
  - apply (recorded_incl _ _ _ _) with (2 := B1). intros key [<- | [<- | []]]; destruct all; cbn; auto.
  - intros ->. exact B1.
Qed.

(** *** Boxes *)
Lemma nth_error_add (u v : list R) k a b : nth_error u k = Some a -> nth_error v k = Some b -> nth_error (ladd u v) k = Some (a + b).
Proof. intros H1 H2. unfold ladd. rewrite nth_error_map. change (@T RNum) with R. rewrite (nth_error_combine _ _ _ _ _ H1 H2). reflexivity. Qed.
Lemma sides_sum {M} (q : M -> res (list R)) (v : M -> nat -> R) nf : forall sides (acc : list R),
  (forall s, In s sides -> exists f, q s = Ok f /\ List.length f = nf /\ forall k, (k < nf)%nat -> nth_error f k = Some (v s k)) -> List.length acc = nf ->
  exists r, foldM (fun S s => f <- q s ;; Ok (ladd S f)) acc sides = Ok r /\ List.length r = nf /\
    forall k a, (k < nf)%nat -> nth_error acc k = Some a -> nth_error r k = Some (fold_left (fun x s => x + v s k) sides a).
Proof.
  induction sides as [|s sides IH]; intros acc Hq Hl; cbn [foldM fold_left].
  - exists acc. auto.
  - destruct (Hq s (or_introl eq_refl)) as (f & E & L & V). rewrite E. cbn [bind].
    destruct (IH (ladd acc f)) as (r & R1 & R2 & R3).
    + intros x Hx. apply Hq. now right.
    + unfold ladd. rewrite map_length. change (@T RNum) with R. rewrite combine_length. lia.
    + exists r. split; [exact R1|]. split; [exact R2|]. intros k x Hk Hx. apply R3; [exact Hk|]. apply nth_error_add; auto.
Qed.
Lemma sides_sum2 {M} (q : M -> res (list (R * R))) (v : M -> nat -> R * R) (op : R * R -> R * R -> R * R) nf : (forall x y, op x y = plus2 x y) -> forall sides (acc : list (R * R)),
  (forall s, In s sides -> exists f, q s = Ok f /\ List.length f = nf /\ forall k, (k < nf)%nat -> nth_error f k = Some (v s k)) -> List.length acc = nf ->
  exists r, foldM (fun S s => f <- q s ;; Ok (map (fun '(x, y) => op x y) (combine S f))) acc sides = Ok r /\ List.length r = nf /\
    forall k a, (k < nf)%nat -> nth_error acc k = Some a -> nth_error r k = Some (fold_left (fun x s => plus2 x (v s k)) sides a).
Proof.
  intros Hop. induction sides as [|s sides IH]; intros acc Hq Hl; cbn [foldM fold_left].
  - exists acc. auto.
  - destruct (Hq s (or_introl eq_refl)) as (f & E & L & V). rewrite E. cbn [bind].
    destruct (IH (map (fun '(x, y) => op x y) (combine acc f))) as (r & R1 & R2 & R3).
    + intros x Hx. apply Hq. now right.
    + rewrite map_length, combine_length. lia.
    + exists r. split; [exact R1|]. split; [exact R2|]. intros k x Hk Hx. apply R3; [exact Hk|].
      rewrite nth_error_map, (nth_error_combine _ _ _ _ _ Hx (V k Hk)). cbn. now rewrite Hop.
Qed.
Lemma side_looks a b j : (j < 4)%nat -> fst (fst (side_ends a b j)) <> snd (fst (side_ends a b j)) ->
  side_normal (fst (fst (side_ends a b j))) (snd (fst (side_ends a b j))) (snd (side_ends a b j)) = looks j.
Proof.
  intros Hj N. unfold side_normal. destruct j as [|[|[|[|j]]]]; [..|lia]; cbn [side_ends fst snd looks] in *;
    destruct Req_EM_T as [E|E]; try reflexivity; exfalso; try (apply N; destruct a, b; cbn in *; congruence); apply E; reflexivity.
Qed.
Lemma mk_box_side name v k freq m : mk_box_mon name v k freq = Ok m -> forall j, (j < 4)%nat ->
  exists nm s, let e := side_ends (v_a v) (v_b v) j in mk_surface (fst (fst e)) (snd (fst e)) (snd e) = Ok s /\
    nth_error (bm_sides m) j = Some (mk_surf_mon nm s k freq).
Proof.
  intros H. destruct (mk_box_sides _ _ _ _ _ H) as (_ & _ & s1 & s2 & s3 & s4 & H1 & H2 & H3 & H4 & ->).
  intros j Hj. destruct j as [|[|[|[|j]]]]; [..|lia]; do 2 eexists; cbn zeta; (split; [|reflexivity]); eassumption.
Qed.
(** every side of a box monitor after any number of updates *)
Lemma box_side g name v k freq m0 m1 m l : mk_box_mon name v k freq = Ok m0 -> box_attach g m0 = Ok m1 -> box_feed g l m1 = Ok m ->
  bm_freq m = freq /\ List.length (bm_sides m) = 4%nat /\
  forall j, (j < 4)%nat -> exists x nm s x0, let e := side_ends (v_a v) (v_b v) j in
    nth_error (bm_sides m) j = Some x /\ mk_surface (fst (fst e)) (snd (fst e)) (snd e) = Ok s /\
    surf_attach g (mk_surf_mon nm s k freq) = Ok x0 /\ surf_feed g l x0 = Ok x.
Proof.
  intros H0 H1 H2. destruct (box_feed_sides _ _ _ _ H2) as [L2 S2]. assert (H1' := H1). unfold box_attach in H1'.
  destruct (mapM (surf_attach g) (bm_sides m0)) as [sd| |] eqn:E1; cbn [bind] in H1'; try discriminate. injection H1' as <-. cbn [bm_sides] in *.
  destruct (mk_box_sides _ _ _ _ _ H0) as (_ & F0 & s1 & s2 & s3 & s4 & _ & _ & _ & _ & Sd).
  split.
  - assert (X : forall l m m', box_feed g l m = Ok m' -> bm_freq m' = bm_freq m).
    { clear. induction l as [|[t F] l IH]; intros m m' H; unfold box_feed in *; cbn [foldM fst snd] in *; [now injection H as <-|].
      destruct (box_update g F t m) as [m1| |] eqn:E; cbn [bind] in H; try discriminate. rewrite (IH _ _ H). unfold box_update in E. inv_ok. reflexivity. }
    rewrite (X _ _ _ H2). cbn. exact F0.
  - split; [rewrite L2, (mapM_length _ _ _ E1), Sd; reflexivity|]. intros j Hj. destruct (mk_box_side _ _ _ _ _ H0 j Hj) as (nm & s & Es & Ns). cbn zeta in *.
    destruct (mapM_inv _ _ _ E1 _ _ Ns) as (x0 & X1 & X2). destruct (S2 _ _ X1) as (x & Y1 & Y2). exists x, nm, s, x0. auto.
Qed.

Definition side_dir (s : surf_mon) : R * R := side_normal (s_a (sm_surf s)) (s_b (sm_surf s)) (s_sign (sm_surf s)).
Lemma side_dir_is v j s x : let e := side_ends (v_a v) (v_b v) j in (j < 4)%nat -> mk_surface (fst (fst e)) (snd (fst e)) (snd e) = Ok s ->
  sm_surf x = s -> fst (fst e) <> snd (fst e) -> side_dir x = looks j.
Proof.
  cbn zeta. intros Hj Hs <- N. unfold side_dir. destruct (mk_surface_fields _ _ _ _ Hs) as (-> & -> & ->). now apply side_looks.
Qed.
Lemma four_sides {A} (l : list A) (d : A) : List.length l = 4%nat -> l = [nth 0 l d; nth 1 l d; nth 2 l d; nth 3 l d].
Proof. destruct l as [|x0 [|x1 [|x2 [|x3 [|]]]]]; cbn; intros H; try discriminate. reflexivity. Qed.
Lemma in_sides {A} (l : list A) x : List.length l = 4%nat -> In x l -> exists j, (j < 4)%nat /\ nth_error l j = Some x.
Proof. intros L H. apply In_nth_error in H. destruct H as [j H]. exists j. split; [|exact H]. rewrite <- L. apply nth_error_Some. congruence. Qed.
Lemma box_sides_are g name v k freq l m : box_ran g name v k freq l m -> bm_freq m = freq /\ List.length (bm_sides m) = 4%nat /\
  forall j x, (j < 4)%nat -> nth_error (bm_sides m) j = Some x -> side_dir x = looks j /\ d_freq (sm_dft x) = freq /\
    exists s, let e := side_ends (v_a v) (v_b v) j in mk_surface (fst (fst e)) (snd (fst e)) (snd e) = Ok s /\ sm_surf x = s /\ fst (fst e) <> snd (fst e) /\
    (k = DTangent \/ k = DAll -> recorded (sm_dft x) (Z.to_nat (sm_len x)) ["Ez"%string; h_along (fst (fst e)) (snd (fst e))]) /\
    (k = DAll -> recorded (sm_dft x) (Z.to_nat (sm_len x)) hxy).
Proof.
  intros (m0 & m1 & H0 & H1 & H2). destruct (box_side _ _ _ _ _ _ _ _ _ H0 H1 H2) as (A1 & A2 & A3). split; [exact A1|]. split; [exact A2|].
  intros j x Hj Hx. destruct (A3 j Hj) as (x' & nm & s & x0 & B1 & B2 & B3 & B4). rewrite B1 in Hx. injection Hx as ->.
  destruct (surf_recorded _ _ _ _ _ _ _ _ _ _ _ B2 B3 B4) as (C1 & C2 & C3 & C4 & C5).
  split; [exact (side_dir_is v j s x Hj B2 C1 C2)|]. split; [exact C3|]. exists s. cbn zeta. auto.
Qed.
Lemma box_flux_sum g name v k freq l m (dx : R) : box_ran g name v k freq l m -> k = DTangent \/ k = DAll ->
  exists (x : nat -> surf_mon) (fl : list R), (forall j, (j < 4)%nat -> nth_error (bm_sides m) j = Some (x j)) /\ box_flux dx m = Ok fl /\ List.length fl = List.length freq /\
    forall kf, (kf < List.length freq)%nat -> nth_error fl kf = Some (total 4 (fun j => outflow (sm_dft (x j)) (Z.to_nat (sm_len (x j))) (looks j) dx kf)).
Proof.
  intros H Hk. destruct (box_sides_are _ _ _ _ _ _ _ H) as (F & L & S).
  destruct (sides_sum (surf_flux dx) (fun s kf => outflow (sm_dft s) (Z.to_nat (sm_len s)) (side_dir s) dx kf) (List.length freq) (bm_sides m) (repeat 0 (List.length freq))) as (r & R1 & R2 & R3).
  - intros x Hx. destruct (in_sides _ _ L Hx) as (j & Hj & Nj). destruct (S j x Hj Nj) as (D & Fx & s & Es & Ex & _ & Rx & _).
    destruct (surf_flux_sum _ _ _ _ x (Z.to_nat (sm_len x)) dx Es Ex (Rx Hk)) as (fl & Q1 & Q2 & Q3). rewrite Fx in *. exists fl. split; [exact Q1|]. split; [exact Q2|].
    intros kf Hkf. rewrite (Q3 kf Hkf). f_equal. unfold outflow. destruct (mk_surface_fields _ _ _ _ Es) as (Ea & Eb & Eg). unfold side_dir. rewrite Ex, Ea, Eb, Eg. reflexivity.
  - apply repeat_length.
  - destruct (bm_sides m) as [|x0 [|x1 [|x2 [|x3 [|]]]]] eqn:E; try discriminate.
    exists (fun j => match j with 0%nat => x0 | 1%nat => x1 | 2%nat => x2 | _ => x3 end), r. split; [intros j Hj; destruct j as [|[|[|[|j]]]]; [reflexivity..|lia]|].
    unfold box_flux. rewrite E. split; [exact (eq_trans (f_equal (fun z => foldM _ (repeat 0 z) _) (f_equal (@List.length R) F)) R1)|]. split; [exact R2|].
    intros kf Hkf. refine (eq_trans (R3 kf 0 Hkf (nth_error_repeat 0 Hkf)) _). cbn [fold_left total]. f_equal.
    rewrite (proj1 (S 0%nat x0 ltac:(lia) eq_refl)), (proj1 (S 1%nat x1 ltac:(lia) eq_refl)), (proj1 (S 2%nat x2 ltac:(lia) eq_refl)), (proj1 (S 3%nat x3 ltac:(lia) eq_refl)). reflexivity.
Qed.
Lemma box_force_sum g name v freq l m (dx : R) : box_ran g name v DAll freq l m ->
  exists (x : nat -> surf_mon) (fl : list (R * R)), (forall j, (j < 4)%nat -> nth_error (bm_sides m) j = Some (x j)) /\ box_force dx m = Ok fl /\ List.length fl = List.length freq /\
    forall kf, (kf < List.length freq)%nat -> nth_error fl kf = Some (total2 4 (fun j => total2 (Z.to_nat (sm_len (x j))) (fun i => pull (sm_dft (x j)) (looks j) dx i kf))).
Proof.
  intros H. destruct (box_sides_are _ _ _ _ _ _ _ H) as (F & L & S).
  destruct (sides_sum2 (surf_force dx) (fun s kf => total2 (Z.to_nat (sm_len s)) (fun i => pull (sm_dft s) (side_dir s) dx i kf)) vadd (List.length freq) (fun x y => eq_refl) (bm_sides m) (repeat (0, 0) (List.length freq))) as (r & R1 & R2 & R3).
  - intros x Hx. destruct (in_sides _ _ L Hx) as (j & Hj & Nj). destruct (S j x Hj Nj) as (D & Fx & s & Es & Ex & Nx & _ & Rx).
    destruct (surf_force_sum _ _ _ _ x (Z.to_nat (sm_len x)) dx Es Nx Ex (Rx eq_refl)) as (fl & Q1 & Q2 & Q3). rewrite Fx in *. exists fl. split; [exact Q1|]. split; [exact Q2|].
    intros kf Hkf. rewrite (Q3 kf Hkf). f_equal. destruct (mk_surface_fields _ _ _ _ Es) as (Ea & Eb & Eg). unfold side_dir. rewrite Ex, Ea, Eb, Eg. reflexivity.
  - apply repeat_length.
  - destruct (bm_sides m) as [|x0 [|x1 [|x2 [|x3 [|]]]]] eqn:E; try discriminate.
    exists (fun j => match j with 0%nat => x0 | 1%nat => x1 | 2%nat => x2 | _ => x3 end), r. split; [intros j Hj; destruct j as [|[|[|[|j]]]]; [reflexivity..|lia]|].
    unfold box_force. rewrite E. split; [exact (eq_trans (f_equal (fun z => foldM _ (repeat (0, 0) z) _) (f_equal (@List.length R) F)) R1)|]. split; [exact R2|].
    intros kf Hkf. refine (eq_trans (R3 kf (0, 0) Hkf (nth_error_repeat (0, 0) Hkf)) _). cbn [fold_left]. f_equal.
    rewrite (proj1 (S 0%nat x0 ltac:(lia) eq_refl)), (proj1 (S 1%nat x1 ltac:(lia) eq_refl)), (proj1 (S 2%nat x2 ltac:(lia) eq_refl)), (proj1 (S 3%nat x3 ltac:(lia) eq_refl)). reflexivity.
Qed.
Lemma box_torque_sum g name v freq l m (dx : R) : box_ran g name v DAll freq l m ->
  exists (x : nat -> surf_mon) (fl : list R), (forall j, (j < 4)%nat -> nth_error (bm_sides m) j = Some (x j)) /\ box_torque dx m = Ok fl /\ List.length fl = List.length freq /\
    forall kf, (kf < List.length freq)%nat -> nth_error fl kf = Some (total 4 (fun j => total (Z.to_nat (sm_len (x j)))
      (fun i => cross2 (minus2 (side_arm v dx j i) (middle v)) (pull (sm_dft (x j)) (looks j) dx i kf)))).
Proof.
  intros H. destruct (box_sides_are _ _ _ _ _ _ _ H) as (F & L & S).
  assert (Vm : bm_vol m = v).
  { destruct H as (m0 & m1 & H0 & H1 & H2). destruct (mk_box_sides _ _ _ _ _ H0) as (V0 & _). unfold box_attach in H1. inv_ok.
    assert (X : forall l m m', box_feed g l m = Ok m' -> bm_vol m' = bm_vol m).
    { clear. induction l as [|[t F] l IH]; intros m m' H; unfold box_feed in *; cbn [foldM fst snd] in *; [now injection H as <-|].
      destruct (box_update g F t m) as [m1| |] eqn:E; cbn [bind] in H; try discriminate. rewrite (IH _ _ H). unfold box_update in E. inv_ok. reflexivity. }
    rewrite (X _ _ _ H2). reflexivity. }
  destruct (sides_sum (surf_torque dx (middle v)) (fun s kf => total (Z.to_nat (sm_len s)) (fun i => cross2 (minus2 (arm (s_a (sm_surf s)) (s_b (sm_surf s)) dx i) (middle v)) (pull (sm_dft s) (side_dir s) dx i kf)))
     (List.length freq) (bm_sides m) (repeat 0 (List.length freq))) as (r & R1 & R2 & R3).
  - intros x Hx. destruct (in_sides _ _ L Hx) as (j & Hj & Nj). destruct (S j x Hj Nj) as (D & Fx & s & Es & Ex & Nx & _ & Rx).
    destruct (surf_torque_sum _ _ _ _ x (Z.to_nat (sm_len x)) dx (middle v) Es Nx Ex (Rx eq_refl)) as (fl & Q1 & Q2 & Q3). rewrite Fx in *. exists fl. split; [exact Q1|]. split; [exact Q2|].
    intros kf Hkf. rewrite (Q3 kf Hkf). f_equal. destruct (mk_surface_fields _ _ _ _ Es) as (Ea & Eb & Eg). unfold side_dir. rewrite Ex, Ea, Eb, Eg. reflexivity.
  - apply repeat_length.
  - destruct (bm_sides m) as [|x0 [|x1 [|x2 [|x3 [|]]]]] eqn:E; try discriminate.
    exists (fun j => match j with 0%nat => x0 | 1%nat => x1 | 2%nat => x2 | _ => x3 end), r. split; [intros j Hj; destruct j as [|[|[|[|j]]]]; [reflexivity..|lia]|].
    unfold box_torque. rewrite E, Vm. split; [exact (eq_trans (f_equal (fun z => foldM _ (repeat 0 z) _) (f_equal (@List.length R) F)) R1)|]. split; [exact R2|].
    intros kf Hkf. refine (eq_trans (R3 kf 0 Hkf (nth_error_repeat 0 Hkf)) _). cbn [fold_left total]. f_equal.
    destruct (S 0%nat x0 ltac:(lia) eq_refl) as (D0 & _ & s0 & Es0 & Ex0 & _). destruct (S 1%nat x1 ltac:(lia) eq_refl) as (D1 & _ & s1 & Es1 & Ex1 & _).
    destruct (S 2%nat x2 ltac:(lia) eq_refl) as (D2 & _ & s2 & Es2 & Ex2 & _). destruct (S 3%nat x3 ltac:(lia) eq_refl) as (D3 & _ & s3 & Es3 & Ex3 & _).
    destruct (mk_surface_fields _ _ _ _ Es0) as (A0 & B0 & _). destruct (mk_surface_fields _ _ _ _ Es1) as (A1 & B1 & _). destruct (mk_surface_fields _ _ _ _ Es2) as (A2 & B2 & _). destruct (mk_surface_fields _ _ _ _ Es3) as (A3 & B3 & _).
    rewrite D0, D1, D2, D3, Ex0, Ex1, Ex2, Ex3, A0, B0, A1, B1, A2, B2, A3, B3. reflexivity.
Qed.
(** the sides of a box with ordered corners look away from its middle *)
Lemma looks_outward v j q : (j < 4)%nat -> fst (v_a v) <= fst (v_b v) -> snd (v_a v) <= snd (v_b v) -> 0 <= q <= 1 ->
  0 <= dot2 (minus2 (plus2 (fst (fst (side_ends (v_a v) (v_b v) j))) (scale2 q (minus2 (snd (fst (side_ends (v_a v) (v_b v) j))) (fst (fst (side_ends (v_a v) (v_b v) j)))))) (middle v)) (looks j).
Proof.
  intros Hj Hx Hy Hq. destruct (v_a v) as [a0 a1] eqn:Ea, (v_b v) as [b0 b1] eqn:Eb. change (@T RNum) with R in *. cbn [fst snd] in *.
  destruct j as [|[|[|[|j]]]]; [..|lia]; unfold dot2, minus2, plus2, scale2, middle, looks, side_ends; rewrite ?Ea, ?Eb; cbn [fst snd]; lra.
Qed.
