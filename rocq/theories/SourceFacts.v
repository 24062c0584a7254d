(** Sources: which cells they touch and what they add there. *)
From Coq Require Import ZArith String List Bool Lia.
From Verif Require Import Scalar Base BaseFacts VecM GridM GeometryM MaterialM PmlM DftM TfsfM PolarM
  InterpM H5M ClockM MonitorM FieldM SpecGrid GridFacts OutFacts PhysFacts WfFacts SpecSource PolarFacts.
Import ListNotations.
Local Open Scope Z_scope.

Lemma mk_isurface_inv (a b : ivec) sg l : mk_isurface a b sg = Ok l ->
  a <> b /\ (fst a = fst b \/ snd a = snd b) /\ (Z.abs (fst b - fst a) + Z.abs (snd b - snd a) <= 46340)%Z /\
  is_a l = a /\ is_b l = b /\ is_sign l = sg /\ is_dim l = (Z.abs (fst b - fst a), Z.abs (snd b - snd a)) /\
  is_tangent l = (Z.sgn (fst b - fst a), Z.sgn (snd b - snd a)).
Proof.
  intros H. assert (K : a <> b /\ (fst a = fst b \/ snd a = snd b) /\ (Z.abs (fst b - fst a) + Z.abs (snd b - snd a) <= 46340)%Z).
  { unfold mk_isurface in H. apply bind_ok in H. destruct H as (d0 & H0 & H). apply bind_ok in H. destruct H as (d1 & H1 & H).
    unfold i32 in H0, H1. destruct (in_i32 (fst a - fst b)); [|discriminate]. destruct (in_i32 (snd a - snd b)); [|discriminate].
    injection H0 as <-. injection H1 as <-. apply bind_ok in H. destruct H as (nm & Hn & H). cbn [fst snd] in *.
    assert (Hax : fst a = fst b \/ snd a = snd b).
    { destruct (Z.abs (fst a - fst b) =? 0) eqn:E; [left; lia|]. destruct (Z.abs (snd a - snd b) =? 0) eqn:E2; [right; lia|discriminate]. }
    apply bind_ok in H. destruct H as (n & Hi & H). unfold inorm in Hi. apply bind_ok in Hi. destruct Hi as (q & Hq & Hi).
    unfold i32 in Hq. destruct (in_i32 _) eqn:Eq; [|discriminate]. injection Hq as <-. injection Hi as <-. cbn [fst snd] in *.
    unfold in_i32 in Eq. apply andb_true_iff in Eq. destruct Eq as [_ Eq]. apply Z.leb_le in Eq. unfold INT_MAX in Eq.
    split; [intros ->; rewrite !Z.sub_diag in H; cbn in H; discriminate|]. split; [exact Hax|]. nia. }
  destruct K as (K1 & K2 & K3). destruct (mk_isurface_axis a b sg K2 K1 K3) as (l' & El & A & B & C & D & _ & E).
  rewrite H in El. injection El as <-. auto 10.
Qed.

Section Src.
Context {N : Num}.

Lemma walk_line n : forall (q st : Z * Z) lo,
  walk n (fst q + lo * fst st, snd q + lo * snd st) st = map (fun k => iadd q (iscale k st)) (zseq lo n).
Proof.
  induction n as [|n IH]; intros q st lo; [reflexivity|]. cbn [walk zseq map fst snd]. rewrite <- IH. apply (f_equal2 (@cons (Z * Z))); [reflexivity|].
  apply (f_equal (fun x => walk n x st)). f_equal; ring.
Qed.
Lemma src_cells_line g s l : to_grid_surface g s = Ok l -> src_cells g (SLine s) (line_cells l).
Proof.
  unfold to_grid_surface. intros H. apply bind_ok in H. destruct H as (a & Ha & H). apply bind_ok in H. destruct H as (b & Hb & H).
  apply mk_isurface_inv in H. destruct H as (_ & _ & _ & Ia & Ib & _ & Id & It).
  exists a, b. split; [exact Ha|]. split; [exact Hb|]. unfold line_cells. rewrite Ia, Id, It. cbn [fst snd].
  unfold zrange. rewrite Z.sub_0_r. rewrite <- walk_line. cbn [Z.mul]. rewrite !Z.add_0_r. now destruct a.
Qed.

Lemma field_add_cells F c v q F' : field_add F c v q = Ok F' -> field_comp c /\
  forall c' i j, field_comp c' -> fval F' c' i j = if comp_eqb c c' && ((fst q =? i) && (snd q =? j)) then (fval F c' i j + v)%num else fval F c' i j.
Proof.
  unfold field_add. intros H. apply bind_ok in H. destruct H as (a & Ha & H). apply bind_ok in H. destruct H as (b & Hb & H).
  injection H as <-. unfold tadd in Hb. apply bind_ok in Hb. destruct Hb as (x & Hx & Hb).
  apply tget_inv in Hx. destruct Hx as (_ & _ & ->). apply tset_inv in Hb. destruct Hb as (_ & _ & ->).
  assert (T : forall i j, tval (tupd a (fst q) (snd q) (tval a (fst q) (snd q) + v)%num) i j =
     if (fst q =? i) && (snd q =? j) then (tval a i j + v)%num else tval a i j).
  { intros i j. destruct ((fst q =? i) && (snd q =? j)) eqn:E.
    - apply andb_true_iff in E. destruct E as [E1 E2]. apply Z.eqb_eq in E1, E2. subst. apply tupd_same.
    - apply tupd_other. intros [-> ->]. rewrite !Z.eqb_refl in E. discriminate. }
  destruct c; try discriminate Ha; injection Ha as <-.
  all: split; [unfold field_comp; auto|]; intros c' i j [-> | [-> | ->]]; cbn [put_field fval fEz fHx fHy comp_eqb andb]; auto.
Qed.

Lemma pulse_field_cells g c k v F F' : pulse_field g c k v F = Ok F' ->
  exists L, src_cells g k L /\ (L <> [] -> field_comp c) /\ forall c' i j, field_comp c' ->
    fval F' c' i j = if comp_eqb c c' then add_at v L i j (fval F c' i j) else fval F c' i j.
Proof.
  unfold pulse_field. destruct k as [q|s]; intros H; apply bind_ok in H.
  - destruct H as (ip & Hip & H). apply field_add_cells in H. destruct H as [Hc H]. exists [ip].
    split; [cbn; eauto|]. split; [auto|]. intros c' i j Hc'. rewrite H by exact Hc'. unfold add_at. cbn [fold_left].
    destruct (comp_eqb c c'); reflexivity.
  - destruct H as (l & Hl & H). exists (line_cells l). split; [now apply src_cells_line|]. clear Hl. revert F H.
    induction (line_cells l) as [|q L IH]; intros F H; cbn [foldM] in H.
    + injection H as <-. split; [intros K; now destruct K|]. intros c' i j _. unfold add_at. cbn. now destruct (comp_eqb c c').
    + apply bind_ok in H. destruct H as (F1 & H1 & H). apply field_add_cells in H1. destruct H1 as [Hc H1].
      destruct (IH F1 H) as [_ IH']. split; [auto|]. intros c' i j Hc'. rewrite IH' by exact Hc'. rewrite H1 by exact Hc'.
      unfold add_at. cbn [fold_left]. destruct (comp_eqb c c'); reflexivity.
Qed.

(** what a source is apart from the running transform of its profile *)
Definition src_core (r : source) := (sr_name r, sr_c r, sr_kind r, tp_shape (sr_tp r)).
Lemma response_val tp t v tp' : response tp t = Ok (v, tp') -> v = shape_val (tp_shape tp) t /\ tp_shape tp' = tp_shape tp.
Proof.
  unfold response, tp_update. intros H. apply bind_ok in H. destruct H as (q & Hq & H). injection H as <- <-. split; [reflexivity|].
  destruct (tp_dft tp); [|now injection Hq as <-]. apply bind_ok in Hq. destruct Hq as ([d0 u0] & _ & Hq). injection Hq as <-. reflexivity.
Qed.

Definition lit (t : T) (RL : list (source * list (Z * Z))) (c : comp) (i j : Z) (x : T) : T :=
  fold_left (fun x '(r, L) => if comp_eqb (sr_c r) c then add_at (shape_val (tp_shape (sr_tp r)) t) L i j x else x) RL x.

Lemma upd_nth_map {A B} (f : A -> B) v l n x : nth_error l n = Some x -> f v = f x -> map f (upd_nth n v l) = map f l.
Proof.
  revert n. induction l as [|a l IH]; intros [|n] H E; cbn in *; try discriminate.
  - injection H as ->. now rewrite E.
  - f_equal. now apply IH.
Qed.

Lemma step_sources_cells p p' : step_sources p = Fine p' ->
  exists Ls, Forall2 (fun r L => src_cells (ph_grid p) (sr_kind r) L /\ (L <> [] -> field_comp (sr_c r))) (ph_srcs p) Ls /\
  map src_core (ph_srcs p') = map src_core (ph_srcs p) /\
  forall c i j, field_comp c -> fval (ph_F p') c i j = lit (ph_t p) (combine (ph_srcs p) Ls) c i j (fval (ph_F p) c i j).
Proof.
  unfold step_sources. intros H.
  apply (oloop_post (fun n q => ph_grid q = ph_grid p /\ ph_t q = ph_t p /\ map src_core (ph_srcs q) = map src_core (ph_srcs p) /\
    exists Ls, Forall2 (fun r L => src_cells (ph_grid p) (sr_kind r) L /\ (L <> [] -> field_comp (sr_c r))) (firstn n (ph_srcs p)) Ls /\
    forall c i j, field_comp c -> fval (ph_F q) c i j = lit (ph_t p) (combine (firstn n (ph_srcs p)) Ls) c i j (fval (ph_F p) c i j))) in H.
  - cbn [Nat.add] in H. rewrite firstn_all in H. destruct H as (_ & _ & E & Ls & A & B). eauto.
  - cbn [firstn]. repeat split; auto. exists []. split; [constructor|]. reflexivity.
  - clear H p'. intros n q q' Hn (G & Tm & Co & Ls & F2 & V) Hb.
    destruct (nth_error (ph_srcs p) n) as [r|] eqn:Er; [|apply nth_error_None in Er; lia].
    unfold pulse_src in Hb. destruct (nth_error (ph_srcs q) n) as [r'|] eqn:Er'.
    2:{ apply (f_equal (@length _)) in Co. rewrite !map_length in Co. apply nth_error_None in Er'. lia. }
    assert (Cr : src_core r' = src_core r).
    { apply (map_nth_error src_core) in Er, Er'. rewrite Co in Er'. congruence. }
    destruct (response (sr_tp r') (ph_t q)) as [[v tp]|e|u] eqn:Ev; cbn [prim] in Hb; try discriminate.
    apply response_val in Ev. destruct Ev as [Ev Et]. cbn [ph_grid ph_F set_ph_srcs] in Hb.
    destruct (pulse_field (ph_grid q) (sr_c r') (sr_kind r') v (ph_F q)) as [F'|e|u] eqn:Ep; cbn [prim] in Hb; try discriminate.
    injection Hb as <-. cbn [ph_grid ph_t ph_srcs ph_F set_ph_F set_ph_srcs].
    split; [exact G|]. split; [exact Tm|]. split.
    { rewrite (upd_nth_map src_core _ _ _ _ Er'); [exact Co|]. unfold src_core. cbn. now rewrite Et. }
    apply pulse_field_cells in Ep. destruct Ep as (L & Hs & Hc & HF).
    unfold src_core in Cr. injection Cr as _ C1 C2 C3. rewrite C1 in *. rewrite C2 in *. rewrite C3 in Ev. rewrite G in Hs. rewrite Tm in Ev.
    assert (Fn : firstn (S n) (ph_srcs p) = firstn n (ph_srcs p) ++ [r]).
    { clear -Er. revert n Er. induction (ph_srcs p) as [|x l IH]; intros [|n] E; cbn in *; try discriminate; [congruence|]. f_equal. auto. }
    exists (Ls ++ [L]). rewrite Fn. split.
    + apply Forall2_app; [exact F2|]. constructor; [auto|constructor].
    + intros c i j Hcc. rewrite HF, V by exact Hcc. assert (Hlen : length (firstn n (ph_srcs p)) = length Ls) by (clear -F2; induction F2; cbn; congruence).
      assert (Cb : forall (A B : Type) (a a' : list A) (b b' : list B), length a = length b -> combine (a ++ a') (b ++ b') = combine a b ++ combine a' b').
      { intros A B a. induction a as [|x a IH]; intros a' [|y b] b' Hl; cbn in *; try discriminate; [reflexivity|]. f_equal. auto. }
      rewrite Cb by exact Hlen. unfold lit. rewrite fold_left_app. cbn [combine fold_left]. rewrite Ev. reflexivity.
Qed.

Lemma Forall2_combine {A B} (R : A -> B -> Prop) l m a b : Forall2 R l m -> In (a, b) (combine l m) -> In a l /\ R a b.
Proof. induction 1; cbn; [intros []|]. intros [K|K]; [injection K as <- <-; auto|]. destruct (IHForall2 K). auto. Qed.

(** a cell no source of that component reaches *)
Lemma add_at_miss v L i j x : ~ In (i, j) L -> add_at v L i j x = x.
Proof.
  unfold add_at. revert x. induction L as [|q L IH]; intros x H; cbn [fold_left]; [reflexivity|].
  destruct ((fst q =? i) && (snd q =? j)) eqn:E.
  - exfalso. apply H. left. apply andb_true_iff in E. destruct E as [E1 E2]. apply Z.eqb_eq in E1, E2. destruct q. cbn in *. congruence.
  - apply IH. intros K. apply H. now right.
Qed.
Lemma lit_miss t RL c i j x : (forall r L, In (r, L) RL -> sr_c r = c -> ~ In (i, j) L) -> lit t RL c i j x = x.
Proof.
  unfold lit. revert x. induction RL as [|[r L] RL IH]; intros x H; cbn [fold_left]; [reflexivity|].
  rewrite IH by (intros; eapply H; [right; eassumption|assumption]).
  destruct (comp_eqb (sr_c r) c) eqn:E; [|reflexivity].
  apply add_at_miss. apply (H r L); [now left|]. destruct (sr_c r), c; cbn in E; congruence.
Qed.
End Src.
