(** Any number of updates in doubles against as many exact steps (C88). *)
From Coq Require Import ZArith Reals List String Bool Lia Psatz.
From Flocq Require Import Core.Core IEEE754.BinarySingleNaN.
From Verif Require Import Scalar Base BaseFacts VecM GridM GeometryM MaterialM PmlM DftM TfsfM PolarM InterpM H5M ClockM
  MonitorM FieldM OutFacts PhysFacts WfFacts ReachFacts SpecStep StepFacts YeeFacts TextbookFacts FullStep Float FloatFacts SpecRound RoundFacts RoundStep.
Import ListNotations.
Local Open Scope Z_scope.

Section Steps.
Variable L : libm.
Variables (a n m th : Z) (dx : @T (B64 L)) (md : @medium (B64 L)).
Hypothesis a0 : 0 <= a.
Hypothesis fit : moderate_med a n m th dx md.

(** the facts kept from step to step *)
Definition raw (k : nat) (x : f64) (v c : R) : Prop := is_finite x = true /\ (Rabs (B2R x - v) <= (w k - 1) * c)%R /\ (Rabs v <= c)%R.
Definition craw k (x : @cells (B64 L)) (y : @cells RNum) (z : @cells Magnitude) : Prop := forall i j, raw k (x i j) (y i j) (z i j).
Definition sraw k (u : @emag (B64 L) * @hmag (B64 L)) (v : @emag RNum * @hmag RNum) (c : @emag Magnitude * @hmag Magnitude) : Prop :=
  (craw k (eE (fst u)) (eE (fst v)) (eE (fst c)) /\ craw k (eXl (fst u)) (eXl (fst v)) (eXl (fst c)) /\ craw k (eXh (fst u)) (eXh (fst v)) (eXh (fst c)) /\
   craw k (eYl (fst u)) (eYl (fst v)) (eYl (fst c)) /\ craw k (eYh (fst u)) (eYh (fst v)) (eYh (fst c))) /\
  (craw k (hX (snd u)) (hX (snd v)) (hX (snd c)) /\ craw k (hXl (snd u)) (hXl (snd v)) (hXl (snd c)) /\ craw k (hXh (snd u)) (hXh (snd v)) (hXh (snd c)) /\
   craw k (hY (snd u)) (hY (snd v)) (hY (snd c)) /\ craw k (hYl (snd u)) (hYl (snd v)) (hYl (snd c)) /\ craw k (hYh (snd u)) (hYh (snd v)) (hYh (snd c))).

Definition below (e : Z) (x : @T Magnitude) : Prop := ((x : R) <= bpow radix2 e)%R.

Lemma to_close k e u v c : 0 <= e -> sraw k u v c -> every_cell (below e) c -> sclose L k e u v c.
Proof.
  intros He ((A1 & A2 & A3 & A4 & A5) & (B1 & B2 & B3 & B4 & B5 & B6)) [C D].
  assert (P : forall x y z, raw k x y z -> below e z -> close k e x y z).
  { intros x y z (F & G & H) K. split; [exact He|]. intros _ _. auto. }
  refine (conj (conj _ (conj _ (conj _ (conj _ _)))) (conj _ (conj _ (conj _ (conj _ (conj _ _)))))); intros i j; apply P; auto;
    try (destruct (C i j) as (C1 & C2 & C3 & C4 & C5); assumption); destruct (D i j) as (D1 & D2 & D3 & D4 & D5 & D6); assumption.
Qed.
Lemma of_close k e u v c : (w k <= 4)%R -> e <= 1000 -> sclose L k e u v c -> sraw k u v c /\ every_cell (below e) c.
Proof.
  intros W He ((A1 & A2 & A3 & A4 & A5) & (B1 & B2 & B3 & B4 & B5 & B6)).
  assert (P : forall x y z, close k e x y z -> raw k x y z /\ below e z).
  { intros x y z [_ H]. destruct (H W He) as (F & G & K & M). split; [split; [exact F|split; [exact G|exact K]]|exact M]. }
  split; [split|split]; [refine (conj _ (conj _ (conj _ (conj _ _)))); intros i j; apply P; auto
    |refine (conj _ (conj _ (conj _ (conj _ (conj _ _))))); intros i j; apply P; auto
    |intros i j; refine (conj _ (conj _ (conj _ (conj _ _)))); eapply P; auto
    |intros i j; refine (conj _ (conj _ (conj _ (conj _ (conj _ _))))); eapply P; auto].
Qed.

Lemma raw_start u : every_cell (fun x : @T (B64 L) => is_finite (x : f64) = true) u -> sraw 0 u (image (value L) u) (image (size L) u).
Proof.
  intros [A B]. assert (P : forall x : f64, is_finite x = true -> raw 0 x (value L x) (size L x)).
  { intros x F. split; [exact F|]. unfold value, size. replace (B2R x - B2R x)%R with 0%R by ring. rewrite Rabs_R0. cbn. split; lra. }
  split; [refine (conj _ (conj _ (conj _ (conj _ _))))|refine (conj _ (conj _ (conj _ (conj _ (conj _ _)))))]; intros i j; apply P;
    try (destruct (A i j) as (A1 & A2 & A3 & A4 & A5); assumption); destruct (B i j) as (B1 & B2 & B3 & B4 & B5 & B6); assumption.
Qed.

Lemma steps_raw e u N : 0 <= e -> e + (6 * a + 21) <= 1000 -> Z.of_nat (13 * N) <= 2 ^ 53 ->
  every_cell (fun x : @T (B64 L) => is_finite (x : f64) = true) u ->
  (forall k, (k < N)%nat -> every_cell (below e) (steps n m th (size L dx) (image_med (size L) md) k (image (size L) u))) ->
  sraw (13 * N) (steps n m th dx md N u) (steps n m th (value L dx) (image_med (value L) md) N (image (value L) u))
    (steps n m th (size L dx) (image_med (size L) md) N (image (size L) u)).
Proof.
  intros He Ha. induction N as [|N IH]; intros HN F M; [apply raw_start, F|].
  cbn [steps].
  assert (H : sraw (13 * N) (steps n m th dx md N u) (steps n m th (value L dx) (image_med (value L) md) N (image (value L) u))
    (steps n m th (size L dx) (image_med (size L) md) N (image (size L) u))) by (apply IH; [lia|exact F|intros k Hk; apply M; lia]).
  apply (to_close _ e) in H; [|exact He|apply M; lia].
  apply (step_close L a n m th dx md a0 fit) in H; [|exact He].
  replace (13 * S N)%nat with (13 * N + 13)%nat by lia.
  apply of_close with (2 := Ha) in H; [apply H|]. apply w_bound. lia.
Qed.

(** magnitudes of few steps *)
Lemma magnitudes e u N : 0 <= e -> e + Z.of_nat N * (6 * a + 21) <= 1000 -> Z.of_nat (13 * N) <= 2 ^ 53 ->
  every_cell (fun x : @T (B64 L) => is_finite (x : f64) = true) u -> every_cell (below e) (image (size L) u) ->
  forall k, (k <= N)%nat -> every_cell (below (e + Z.of_nat k * (6 * a + 21))) (steps n m th (size L dx) (image_med (size L) md) k (image (size L) u)) /\
    sraw (13 * k) (steps n m th dx md k u) (steps n m th (value L dx) (image_med (value L) md) k (image (value L) u))
      (steps n m th (size L dx) (image_med (size L) md) k (image (size L) u)).
Proof.
  intros He HE HN F B. induction k as [|k IH]; intros Hk.
  - cbn [steps]. split; [replace (e + Z.of_nat 0 * (6 * a + 21)) with e by lia; exact B|apply raw_start, F].
  - destruct IH as [I1 I2]; [lia|]. cbn [steps].
    apply (to_close _ (e + Z.of_nat k * (6 * a + 21))) in I2; [|lia|exact I1].
    apply (step_close L a n m th dx md a0 fit) in I2; [|lia].
    replace (13 * S k)%nat with (13 * k + 13)%nat by lia.
    replace (e + Z.of_nat (S k) * (6 * a + 21)) with (e + Z.of_nat k * (6 * a + 21) + (6 * a + 21)) by lia.
    apply of_close in I2; [destruct I2; auto| |nia]. apply w_bound. lia.
Qed.
End Steps.

(** ** programs *)
Section Run.
Context {N : Num}.
Lemma steps_same n m th dx md k u v : same_e (fst u) (fst v) -> same_h (snd u) (snd v) ->
  same_e (fst (steps n m th dx md k u)) (fst (steps n m th dx md k v)) /\ same_h (snd (steps n m th dx md k u)) (snd (steps n m th dx md k v)).
Proof.
  intros A B. induction k as [|k [IH1 IH2]]; [auto|]. cbn [steps]. unfold yee_step. cbv zeta. cbn [fst snd].
  set (p := steps n m th dx md k u) in *. set (q := steps n m th dx md k v) in *.
  assert (E : same_e (next_e n m th dx md (hX (snd p)) (hY (snd p)) (fst p)) (next_e n m th dx md (hX (snd q)) (hY (snd q)) (fst q))).
  { apply next_e_same; [apply IH2|apply IH2|exact IH1]. }
  split; [exact E|]. apply next_h_same; [apply E|exact IH2].
Qed.
Lemma steps_front n m th dx md k u : steps n m th dx md (S k) u = steps n m th dx md k (yee_step n m th dx md u).
Proof. induction k as [|k IH]; [reflexivity|]. cbn [steps] in *. now rewrite IH. Qed.

Lemma plain_run k : forall p p', apart (ph_grid p) -> wf_phys p -> plain p -> phys_run (repeat Update k) p = Fine p' ->
  let g := ph_grid p in let u := steps (g_Nx g) (g_Ny g) (g_pml g) (g_dx g) (med p) k (e_of p, h_of p) in
  same_e (e_of p') (fst u) /\ same_h (h_of p') (snd u).
Proof.
  induction k as [|k IH]; intros p p' Ha Hw Hp H; cbn [repeat phys_run] in H.
  - injection H as <-. cbn. split; [apply same_e_refl|apply same_h_refl].
  - apply obind_fine in H. destruct H as (p1 & H1 & H). cbn [phys_exec] in H1.
    destruct (plain_step p p1 Ha Hw Hp H1) as (A & B & C).
    destruct (full_step p p1 Ha Hw H1) as (E0 & E1 & E2 & E3 & Ls & u & h & [A1 A2 A3 A4 A5 A6 A7 A8 A9 A10 A11 A12 A13 A14 A15 A16]).
    assert (G := proj1 (proj1 (static_eq _ _) A13)). apply med_static in A13. cbv zeta.
    rewrite steps_front. unfold textbook in A, B. cbv zeta in A, B.
    assert (X := steps_same (g_Nx (ph_grid p)) (g_Ny (ph_grid p)) (g_pml (ph_grid p)) (g_dx (ph_grid p)) (med p) k (e_of p1, h_of p1)
      (yee_step (g_Nx (ph_grid p)) (g_Ny (ph_grid p)) (g_pml (ph_grid p)) (g_dx (ph_grid p)) (med p) (e_of p, h_of p)) A B).
    destruct X as [X1 X2].
    destruct (IH p1 p') as [Y1 Y2]; try assumption; [now rewrite G|].
    rewrite G, A13 in Y1, Y2. split; [eapply same_e_trans; eassumption|eapply same_h_trans; eassumption].
Qed.
End Run.

Section Program.
Variable L : libm.
Lemma within_of r (u u' : @emag (B64 L) * @hmag (B64 L)) v c k : same_e (fst u') (fst u) -> same_h (snd u') (snd u) -> r = (w k - 1)%R ->
  sraw L k u v c -> within_cells r u' v c.
Proof.
  intros (E1 & E2 & E3 & E4 & E5) (H1 & H2 & H3 & H4 & H5 & H6) -> ((A1 & A2 & A3 & A4 & A5) & (B1 & B2 & B3 & B4 & B5 & B6)).
  assert (P : forall x y z, raw k x y z -> is_finite x = true /\ (Rabs (B2R x - y) <= (w k - 1) * z)%R) by (intros x y z (P & Q & _); auto).
  unfold within_cells. cbv zeta. split; intros i j.
  - rewrite E1, E2, E3, E4, E5. refine (conj _ (conj _ (conj _ (conj _ _)))); apply P; auto.
  - rewrite H1, H2, H3, H4, H5, H6. refine (conj _ (conj _ (conj _ (conj _ (conj _ _))))); apply P; auto.
Qed.

Lemma updates_within a e k (s s' : @field (B64 L)) : let g := ph_grid (f_ph s) in
  let u := (e_of (f_ph s), h_of (f_ph s)) in let md := med (f_ph s) in
  0 <= a -> 0 <= e -> e + (6 * a + 21) <= 1000 -> Z.of_nat (13 * k) <= 2 ^ 53 ->
  apart g -> wf_phys (f_ph s) -> plain (f_ph s) ->
  moderate_med a (g_Nx g) (g_Ny g) (g_pml g) (g_dx g) md -> every_cell (fun x : @T (B64 L) => is_finite (x : f64) = true) u ->
  (forall i, (i < k)%nat -> every_cell (fun x : @T Magnitude => ((x : R) <= bpow radix2 e)%R)
     (steps (g_Nx g) (g_Ny g) (g_pml g) (size L (g_dx g)) (image_med (size L) md) i (image (size L) u))) ->
  run (repeat Update k) s = Fine s' ->
  within_cells ((1 + unit_error) ^ (13 * k) - 1)%R (e_of (f_ph s'), h_of (f_ph s'))
    (steps (g_Nx g) (g_Ny g) (g_pml g) (value L (g_dx g)) (image_med (value L) md) k (image (value L) u))
    (steps (g_Nx g) (g_Ny g) (g_pml g) (size L (g_dx g)) (image_med (size L) md) k (image (size L) u)).
Proof.
  intros g u md Ha He HE Hk Hap Hw Hp Hm Hf Hb H. apply run_phys in H.
  destruct (plain_run k (f_ph s) (f_ph s') Hap Hw Hp H) as [X Y].
  apply (within_of _ (steps (g_Nx g) (g_Ny g) (g_pml g) (g_dx g) md k u) _ _ _ (13 * k)); [exact X|exact Y|reflexivity|].
  apply (steps_raw L a _ _ _ _ _ Ha Hm e); assumption.
Qed.

Lemma short_within a e k (s s' : @field (B64 L)) : let g := ph_grid (f_ph s) in
  let u := (e_of (f_ph s), h_of (f_ph s)) in let md := med (f_ph s) in
  0 <= a -> 0 <= e -> e + Z.of_nat k * (6 * a + 21) <= 1000 ->
  apart g -> wf_phys (f_ph s) -> plain (f_ph s) ->
  moderate_med a (g_Nx g) (g_Ny g) (g_pml g) (g_dx g) md ->
  every_cell (fun x : @T (B64 L) => is_finite (x : f64) = true /\ (Rabs (B2R (x : f64)) <= bpow radix2 e)%R) u ->
  run (repeat Update k) s = Fine s' ->
  within_cells ((1 + unit_error) ^ (13 * k) - 1)%R (e_of (f_ph s'), h_of (f_ph s'))
    (steps (g_Nx g) (g_Ny g) (g_pml g) (value L (g_dx g)) (image_med (value L) md) k (image (value L) u))
    (steps (g_Nx g) (g_Ny g) (g_pml g) (size L (g_dx g)) (image_med (size L) md) k (image (size L) u)).
Proof.
  intros g u md Ha He HE Hap Hw Hp Hm Hf H. apply run_phys in H.
  destruct (plain_run k (f_ph s) (f_ph s') Hap Hw Hp H) as [X Y].
  apply (within_of _ (steps (g_Nx g) (g_Ny g) (g_pml g) (g_dx g) md k u) _ _ _ (13 * k)); [exact X|exact Y|reflexivity|].
  destruct Hf as [Hf1 Hf2].
  refine (proj2 (magnitudes L a _ _ _ _ _ Ha Hm e u k He HE _ _ _ k (Nat.le_refl k))).
  - nia.
  - split; intros i j; [destruct (Hf1 i j) as ((F1 & _) & (F2 & _) & (F3 & _) & (F4 & _) & (F5 & _)); auto|
      destruct (Hf2 i j) as ((F1 & _) & (F2 & _) & (F3 & _) & (F4 & _) & (F5 & _) & (F6 & _)); auto 10].
  - split; intros i j; unfold below, image, image_e, image_h, size; cbn [fst snd eE eXl eXh eYl eYh hX hXl hXh hY hYl hYh];
      [destruct (Hf1 i j) as ((_ & F1) & (_ & F2) & (_ & F3) & (_ & F4) & (_ & F5)); auto|
      destruct (Hf2 i j) as ((_ & F1) & (_ & F2) & (_ & F3) & (_ & F4) & (_ & F5) & (_ & F6)); auto 10].
Qed.
End Program.
