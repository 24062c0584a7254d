(** Time reversal. *)
From Coq Require Import ZArith Reals String List Bool Lia Lra Psatz.
From Verif Require Import Scalar Base BaseFacts VecM GridM GeometryM MaterialM PmlM DftM TfsfM PolarM
  InterpM H5M ClockM MonitorM FieldM SpecGrid GridFacts OutFacts PhysFacts SpecPaint PaintFacts WfFacts ReachFacts InvFacts
  SpecStep StepFacts EngineFacts YeeFacts SpecSource SourceFacts PolarFacts FullStep TextbookFacts SpecWave DarkFacts
  SafeFacts SpecTfsf TfsfFacts TfsfRun SpecEnergy EnergyFacts EnergyRun LossRun SpecReverse.
Import ListNotations.
Local Open Scope Z_scope.
#[local] Existing Instance RNum.

Definition off_E (g : grid) (e : Z -> Z -> R) : Prop := forall i j, 0 <= i < g_Nx g -> 0 <= j < g_Ny g ->
  i <= g_pml g \/ g_Nx g - 1 - g_pml g <= i \/ j <= g_pml g \/ g_Ny g - 1 - g_pml g <= j -> e i j = 0%R.
Definition off_H (g : grid) (x y : Z -> Z -> R) : Prop := forall i j, 0 <= i < g_Nx g -> 0 <= j < g_Ny g ->
  (j <= g_pml g \/ g_Ny g - 2 - g_pml g <= j -> x i j = 0%R) /\ (i <= g_pml g \/ g_Nx g - 2 - g_pml g <= i -> y i j = 0%R).
Lemma off_both g p : off_layers g p <-> off_E g (Ez_of p) /\ off_H g (Hx_of p) (Hy_of p).
Proof.
  unfold off_layers, off_E, off_H. split; [intros H|intros [H1 H2]].
  - split; intros i j Hi Hj; destruct (H i j Hi Hj) as (A & B & C); auto.
  - intros i j Hi Hj. destruct (H2 i j Hi Hj) as [A B]. auto.
Qed.

(** the step of [coast_step], half by half *)
Lemma coast_halves g eps p p' : (0 < g_dx g)%R -> g_dt g = (g_dx g / 2)%R -> apart g -> 1 <= g_pml g ->
  coasting g eps p -> off_H g (Hx_of p) (Hy_of p) -> phys_step p = Fine p' ->
  (forall i j, Ez_of p' i j = if core (g_Nx g) (g_Ny g) i j then (Ez_of p i j + / (2 * eps i j) * curlH (Hx_of p) (Hy_of p) i j)%R else Ez_of p i j) /\
  (off_E g (Ez_of p') -> coasting g eps p' /\ forall i j,
    Hx_of p' i j = (if core (g_Nx g) (g_Ny g) i j then (Hx_of p i j - / 2 * (Ez_of p' i (j + 1)%Z - Ez_of p' i j))%R else Hx_of p i j) /\
    Hy_of p' i j = (if core (g_Nx g) (g_Ny g) i j then (Hy_of p i j + / 2 * (Ez_of p' (i + 1)%Z j - Ez_of p' i j))%R else Hy_of p i j)).
Proof.
  intros Hd Ht Ha B0 L O Hs. destruct L as [co_grid0 co_wf0 co_gl0 co_fl0 co_bare0 co_srcs0 co_tfsf0 co_e0 co_h0].
  destruct (full_step p p') as (F0 & F1 & F2 & E3 & Ls & u & h & C); [now rewrite co_grid0|exact co_wf0|exact Hs|]. destruct C.
  rewrite co_grid0 in *. destruct co_bare0 as (D1 & D2 & D3). rewrite D1 in cw_debye. rewrite D2 in cw_drude. rewrite D3 in cw_lorentz.
  cbn [polar_all] in *. injection cw_debye as P1 K1. injection cw_drude as P2 K2. injection cw_lorentz as P3 K3.
  assert (EE : forall i j, tval E3 i j = eE u i j) by (intros; rewrite <- K3, <- K2, <- K1; apply cw_E0).
  rewrite co_srcs0 in *. cbn [combine] in *. rewrite co_tfsf0 in *. cbn [line] in cw_line. injection cw_line as Tl.
  destruct (e_coast g eps (med p) (hX (h_of p)) (hY (h_of p)) (e_of p)) as [Qu Vu]; auto; [lra| | |].
  { intros i j Hi Hj H. apply (O i j Hi Hj). exact H. }
  { intros i j Hi Hj H. apply (O i j Hi Hj). exact H. }
  unfold grid_next_e in cw_u. rewrite co_grid0 in cw_u. rewrite <- cw_u in Qu, Vu.
  destruct cw_e as (Ve & Me1 & Me2 & Me3 & Me4). destruct cw_h as (Vx & Mh1 & Mh2 & Vy & Mh3 & Mh4). cbn [eE hX hY with_xy eXl eXh eYl eYh hXl hXh hYl hYh] in *.
  rewrite <- Tl in *. cbn [tf] in *.
  assert (AE : forall i j, Ez_of p' i j = eE u i j). { intros i j. unfold Ez_of. change (tval (fEz (ph_F p')) i j) with (eE (e_of p') i j). rewrite (Ve i j). unfold lits, lit. cbn [fold_left tf]. apply EE. }
  split. { intros i j. rewrite AE. apply Vu. }
  intros O'. unfold grid_next_h in cw_hm. rewrite co_grid0 in cw_hm.
  destruct (h_coast g (med p) (eE (e_of p')) (with_xy (lits (ph_t p + g_dt g)%num [] Hx (hX (h_of p))) (lits (ph_t p + g_dt g)%num [] Hy (hY (h_of p))) (h_of p))) as [Qh Vh]; auto; [eapply glassy_airy; eassumption|lra|].
  rewrite <- cw_hm in Qh, Vh. cbn [with_xy hX hY] in Vh. unfold lits, lit in Vh. cbn [fold_left] in Vh.
  assert (S' := cw_static). apply static_eq in S'. destruct S' as (G' & C' & _ & _ & _ & Co' & Sc').
  assert (Md : med p' = med p) by (unfold med; now rewrite C', Co', Sc').
  split.
  - constructor; rewrite ?Md; auto; try congruence.
    + now destruct (ph_srcs p').
    + intros i j. rewrite Me1, Me2, Me3, Me4. apply Qu.
    + intros i j. cbn [h_of hXl hXh hYl hYh] in *. rewrite Mh1, Mh2, Mh3, Mh4. apply Qh.
  - intros i j. destruct (Vh i j) as [V1 V2].
    assert (X : Hx_of p' i j = hX h i j) by apply Vx. assert (Y : Hy_of p' i j = hY h i j) by apply Vy. rewrite X, Y. split; assumption.
Qed.

Definition mirrors (x x' y : phys) : Prop := forall i j, Ez_of y i j = Ez_of x' i j /\
  Hx_of y i j = (- Hx_of x i j)%R /\ Hy_of y i j = (- Hy_of x i j)%R.

Section Back.
Variables (g : grid) (eps : Z -> Z -> R).
Hypotheses (Hd : (0 < g_dx g)%R) (Ht : g_dt g = (g_dx g / 2)%R) (Ha : apart g) (Hp : 1 <= g_pml g).

Lemma back_E x x' y y' : coasting g eps x -> coasting g eps y -> off_layers g x -> phys_step x = Fine x' -> mirrors x x' y -> phys_step y = Fine y' ->
  forall i j, Ez_of y' i j = Ez_of x i j.
Proof.
  intros Cx Cy Ox Sx M Sy i j. apply off_both in Ox. destruct Ox as [Oe Oh].
  destruct (coast_halves g eps x x') as [Ex _]; auto.
  destruct (coast_halves g eps y y') as [Ey _]; auto.
  { intros a b Ia Ib. destruct (M a b) as (_ & -> & ->). destruct (Oh a b Ia Ib) as [A B]. split; intros K; [rewrite A by exact K|rewrite B by exact K]; ring. }
  rewrite Ey. destruct (M i j) as (-> & _). rewrite Ex. destruct (core _ _ i j); [|reflexivity].
  unfold curlH. destruct (M i j) as (_ & -> & ->). destruct (M (i - 1) j) as (_ & _ & ->). destruct (M i (j - 1)) as (_ & -> & _). ring.
Qed.

Lemma back_step w x x' y y' : coasting g eps w -> coasting g eps x -> coasting g eps y -> off_layers g w -> off_layers g x -> phys_step w = Fine x -> phys_step x = Fine x' ->
  mirrors x x' y -> phys_step y = Fine y' -> coasting g eps y' /\ mirrors w x y'.
Proof.
  intros Cw Cx Cy Ow Ox Sw Sx M Sy. assert (BE := back_E x x' y y' Cx Cy Ox Sx M Sy).
  apply off_both in Ox. destruct Ox as [Oe Oh]. apply off_both in Ow. destruct Ow as [Owe Owh].
  destruct (coast_halves g eps y y') as [_ Hy']; auto.
  { intros a b Ia Ib. destruct (M a b) as (_ & -> & ->). destruct (Oh a b Ia Ib) as [A B]. split; intros K; [rewrite A by exact K|rewrite B by exact K]; ring. }
  destruct Hy' as [Cy' Hy']. { intros i j Hi Hj K. rewrite BE. now apply Oe. }
  destruct (coast_halves g eps w x) as [_ Hx]; auto. destruct (Hx Oe) as [_ Vx].
  split; [exact Cy'|]. intros i j. destruct (Hy' i j) as [-> ->]. destruct (Vx i j) as [X Y]. rewrite !BE.
  destruct (M i j) as (_ & -> & ->). rewrite X, Y. split; [reflexivity|]. destruct (core _ _ i j); split; ring.
Qed.
End Back.

Lemma run_updates_split n m (a : field) c : run (repeat Update (n + m)) a = Fine c -> exists b, run (repeat Update n) a = Fine b /\ run (repeat Update m) b = Fine c.
Proof. rewrite repeat_app, run_app. intros H. apply obind_fine in H. destruct H as (b & A & B). eauto. Qed.
Lemma run_update_last n (a : field) c : run (repeat Update (S n)) a = Fine c -> exists b, run (repeat Update n) a = Fine b /\ exec Update b = Fine c.
Proof.
  replace (S n) with (n + 1)%nat by lia. intros H. apply run_updates_split in H. destruct H as (b & A & B). exists b. split; [exact A|].
  cbn [repeat run] in B. destruct (exec Update b); try discriminate. exact B.
Qed.

Section Film.
Variables (Lx Ly rs : R) (pml : Z) (g : grid) (s : field) (os : list obj) (eps ez hx hy : Z -> Z -> R).
Hypotheses (HLx : (0 < Lx)%R) (HLy : (0 < Ly)%R) (Hrs : (0 < rs)%R) (Hpml : 0 <= pml) (Eg : mk_grid Lx Ly rs pml = Ok g) (Ha : apart g).
Hypotheses (Hr : reachable g s) (Sr : ph_srcs (f_ph s) = []) (Tf : ph_tfsf (f_ph s) = None).
Hypotheses (Ba : ph_debye (f_ph s) = [] /\ ph_drude (f_ph s) = [] /\ ph_lorentz (f_ph s) = []).
Hypotheses (Hc : Forall (fun o => clear_material (m_kind (o_mat o))) os) (Hs : grid_shows g os vacuum (ph_C (f_ph s))) (He : permittivity g os eps).
Let a := poke ez hx hy s.

Lemma film_grid : (0 < g_dx g)%R /\ g_dt g = (g_dx g / 2)%R /\ 1 <= g_pml g.
Proof.
  assert (Gok := mk_grid_ok Lx Ly rs pml g HLx HLy Hrs Eg). destruct Gok as (Hd & _ & _ & _ & _ & Ht2). split; [exact Hd|]. split; [lra|].
  now apply (layers_there Lx Ly rs pml).
Qed.

Lemma film_coasts n : (forall k x, (k <= n)%nat -> run (repeat Update k) a = Fine x -> off_layers g (f_ph x)) ->
  forall k x, (k <= n)%nat -> run (repeat Update k) a = Fine x -> coasting g eps (f_ph x).
Proof.
  intros Of. destruct film_grid as (Hd & Ht & Hp). induction k as [|k IH]; intros x Hk R.
  - cbn in R. injection R as <-. now apply (poked_coasting g s ez hx hy os eps).
  - assert (R' := R). apply run_update_last in R. destruct R as (b & Rb & Eb). apply exec_phys in Eb. cbn [phys_exec] in Eb.
    assert (Cb := IH b ltac:(lia) Rb). assert (Ob := Of k b ltac:(lia) Rb). assert (Ox := Of (S k) x Hk R').
    apply off_both in Ob. apply off_both in Ox. destruct (coast_halves g eps (f_ph b) (f_ph x)) as [_ K]; auto; [apply Ob|]. apply (K (proj1 Ox)).
Qed.

Lemma film_back n x y z : run (repeat Update n) a = Fine x -> exec Update x = Fine y ->
  (forall k w, (k <= S n)%nat -> run (repeat Update k) a = Fine w -> off_layers g (f_ph w)) ->
  coasting g eps (f_ph z) ->
  forall k y', (k <= n)%nat -> run (repeat Update k) (turn x y z) = Fine y' -> coasting g eps (f_ph y') /\ shows_back a (n - k) y'.
Proof.
  intros Rx Ey Of Cz. destruct film_grid as (Hd & Ht & Hp).
  assert (Ry : run (repeat Update (S n)) a = Fine y). { replace (S n) with (n + 1)%nat by lia. rewrite repeat_app, run_app, Rx. cbn [obind repeat run]. rewrite Ey. reflexivity. }
  induction k as [|k IH]; intros y' Hk R.
  - cbn in R. injection R as <-. split.
    + destruct Cz. constructor; try assumption. destruct co_wf. constructor; assumption.
    + replace (n - 0)%nat with n by lia. intros x1 x2 R1 R2 i j. rewrite Rx in R1. injection R1 as <-. rewrite Ry in R2. injection R2 as <-.
      unfold turn, Ez_of, Hx_of, Hy_of. cbn. auto.
  - apply run_update_last in R. destruct R as (b & Rb & Eb). destruct (IH b ltac:(lia) Rb) as [Cb Sb].
    replace n with ((n - S k) + (1 + k))%nat in Rx by lia. apply run_updates_split in Rx. destruct Rx as (w & Rw & Rx).
    apply run_updates_split in Rx. destruct Rx as (w1 & Rw1 & Rx).
    assert (K1 : run (repeat Update (n - k)) a = Fine w1). { replace (n - k)%nat with ((n - S k) + 1)%nat by lia. rewrite repeat_app, run_app, Rw. exact Rw1. }
    assert (K2 : exists w2, run (repeat Update 1) w1 = Fine w2).
    { destruct k as [|k]. - cbn in Rx. injection Rx as ->. exists y. cbn [repeat run]. rewrite Ey. reflexivity.
      - change (S k) with (1 + k)%nat in Rx. apply run_updates_split in Rx. destruct Rx as (w2 & Rw2 & _). eauto. }
    destruct K2 as (w2 & Rw2).
    assert (K2 : run (repeat Update (S (n - k))) a = Fine w2). { replace (S (n - k))%nat with ((n - k) + 1)%nat by lia. rewrite repeat_app, run_app, K1. exact Rw2. }
    assert (Of1 : forall k x, (k <= n)%nat -> run (repeat Update k) a = Fine x -> off_layers g (f_ph x)) by (intros; apply (Of k0); auto; lia).
    assert (One : forall p q : field, run (repeat Update 1) p = Fine q -> phys_step (f_ph p) = Fine (f_ph q)).
    { intros p q Hpq. apply run_phys in Hpq. cbn in Hpq. destruct (phys_step (f_ph p)); try discriminate. exact Hpq. }
    assert (M : mirrors (f_ph w1) (f_ph w2) (f_ph b)) by (intros i j; exact (Sb w1 w2 K1 K2 i j)).
    destruct (back_step g eps Hd Ht Ha Hp (f_ph w) (f_ph w1) (f_ph w2) (f_ph b) (f_ph y')) as [Cy My]; auto.
    + apply (film_coasts n Of1 (n - S k)); [lia|exact Rw].
    + apply (film_coasts n Of1 (n - k)); [lia|exact K1].
    + apply (Of1 (n - S k)%nat); [lia|exact Rw].
    + apply (Of1 (n - k)%nat); [lia|exact K1].
    + exact (exec_phys _ _ _ Eb).
    + split; [exact Cy|]. intros x1 x2 R1 R2 i j. rewrite Rw in R1. injection R1 as <-. replace (S (n - S k)) with (n - k)%nat in R2 by lia. rewrite K1 in R2. injection R2 as <-. apply My.
Qed.

Lemma film_reverses n x y : run (repeat Update n) a = Fine x -> exec Update x = Fine y ->
  (forall k w, (k <= S n)%nat -> run (repeat Update k) a = Fine w -> off_layers g (f_ph w)) ->
  forall k y', run (repeat Update k) (turn x y y) = Fine y' ->
  ((k <= n)%nat -> shows_back a (n - k) y') /\ (k = S n -> forall i j, Ez_of (f_ph y') i j = ez i j).
Proof.
  intros Rx Ey Of k y' R. destruct film_grid as (Hd & Ht & Hp).
  assert (Ry : run (repeat Update (S n)) a = Fine y). { replace (S n) with (n + 1)%nat by lia. rewrite repeat_app, run_app, Rx. cbn [obind repeat run]. rewrite Ey. reflexivity. }
  assert (Cy := film_coasts (S n) Of (S n) y ltac:(lia) Ry).
  split; [intros Hk; exact (proj2 (film_back n x y y Rx Ey Of Cy k y' Hk R))|].
  intros -> i j. apply run_update_last in R. destruct R as (b & Rb & Eb). destruct (film_back n x y y Rx Ey Of Cy n b ltac:(lia) Rb) as [Cb Sb].
  replace (n - n)%nat with 0%nat in Sb by lia.
  assert (Ew : exists w, exec Update a = Fine w).
  { destruct n; [cbn in Rx; injection Rx as <-; eauto|]. cbn [repeat run] in Rx. destruct (exec Update a) eqn:E; try discriminate. eauto. }
  destruct Ew as (w & Ew). assert (Rw : run (repeat Update 1) a = Fine w) by (cbn [repeat run]; rewrite Ew; reflexivity).
  change (ez i j) with (Ez_of (f_ph a) i j).
  apply (back_E g eps Hd Ht Ha Hp (f_ph a) (f_ph w) (f_ph b) (f_ph y')); auto.
  - apply (film_coasts (S n) Of 0%nat a); [lia|reflexivity].
  - apply (Of 0%nat); [lia|reflexivity].
  - exact (exec_phys _ _ _ Ew).
  - intros p q. exact (Sb a w eq_refl Rw p q).
  - exact (exec_phys _ _ _ Eb).
Qed.
End Film.
