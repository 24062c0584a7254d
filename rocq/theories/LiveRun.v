(** Runs with monitors on readable regions. *)
From Coq Require Import ZArith Reals List Bool String Lia Lra.
From Flocq Require Import Core.Raux.
From Verif Require Import Scalar Base BaseFacts VecM GridM GeometryM MaterialM PmlM DftM TfsfM PolarM
  InterpM H5M ClockM MonitorM FieldM SpecGrid GridFacts OutFacts PhysFacts PaintFacts WfFacts ReachFacts InvFacts SpecSafety SafeFacts
  YeeFacts HalfFacts SpecDft SpecSample SpecLive LiveFacts.
From Verif Require Import OpsFacts.
Import ListNotations.
Local Open Scope Z_scope.

Section First.
Context {N : Num}.
Lemma phys_first_wf p pm : roomy (ph_grid p) -> wf_phys p -> phys_first p = Fine pm -> wf_phys pm.
Proof.
  intros Hg Hw H. assert (Lstat : forall (p p' : phys), static p' = static p -> ph_grid p' = ph_grid p) by (intros a b Hs; apply static_eq in Hs; tauto).
  unfold phys_first in H.
  apply prim_fine in H. destruct H as (p0 & E0 & H). apply prim_fine in H. destruct H as (p1 & E1 & H).
  apply prim_fine in H. destruct H as (p2 & E2 & H). apply prim_fine in H. destruct H as (p3 & E3 & H). apply prim_fine in H. destruct H as (p4 & E4 & H).
  assert (W0 : wf_phys (step_prev p0)) by (eapply step_prev_wf, step_clock_wf; [exact E0|exact Hw]).
  assert (G0 : ph_grid (step_prev p0) = ph_grid p) by (apply Lstat; rewrite step_prev_static; now apply step_clock_static in E0).
  destruct (step_E_ok (step_prev p0)) as (q1 & Q1 & W1); [now rewrite G0|exact W0|]. rewrite E1 in Q1. injection Q1 as <-.
  assert (G1 : ph_grid p1 = ph_grid p) by (rewrite <- G0; now apply Lstat, step_E_static).
  destruct (step_pmlE_ok p1) as (q2 & Q2 & W2); [now rewrite G1|exact W1|]. rewrite E2 in Q2. injection Q2 as <-.
  destruct (step_polar_ok p2 W2) as (q3 & Q3 & W3). rewrite E3 in Q3. injection Q3 as <-.
  apply step_tfsfD_wf in E4; [|exact W3]. assert (P := step_sources_post p4 E4). now rewrite H in P.
Qed.
End First.

Local Open Scope R_scope.
#[local] Existing Instance RNum.

Lemma update_live s : roomy (ph_grid (f_ph s)) -> small (ph_grid (f_ph s)) -> wf_phys (f_ph s) -> placed (f_ph s) ->
  Forall (mon_live (ph_grid (f_ph s))) (f_mons s) -> f_tmons s = [] -> idle s -> (INT_MIN <= ph_step (f_ph s) < INT_MAX)%Z ->
  exists s', update s = Fine s' /\ phys_step (f_ph s) = Fine (f_ph s') /\ wf_phys (f_ph s') /\ placed (f_ph s') /\
    Forall (mon_live (ph_grid (f_ph s))) (f_mons s') /\ f_tmons s' = [] /\ idle s' /\ ph_step (f_ph s') = (ph_step (f_ph s) + 1)%Z.
Proof.
  intros Hg Hsm Hw Hp Hm Ht [Hi Hi'] Hn.
  destruct (phys_step_ok (f_ph s) Hg Hw Hp Hn) as (p' & E & Hw' & Hp' & Hn').
  assert (Eh := E). rewrite phys_step_halves in Eh. apply obind_fine in Eh. destruct Eh as (pm & E1 & E2).
  assert (Wm := phys_first_wf _ _ Hg Hw E1). assert (Gm := phys_first_clk _ _ E1). destruct Gm as (Gm & _ & _).
  assert (HF := wf_F pm Wm). rewrite Gm in HF.
  destruct (mapM_total (mon_live (ph_grid (f_ph s))) (mon_live (ph_grid (f_ph s))) (mon_update (ph_grid pm) (ph_F pm) (ph_t pm))) with (l := f_mons s) as (ms & Em & Lm);
    [intros m Hm0; rewrite Gm; now apply mon_live_update|exact Hm|].
  unfold phys_first in E1. unfold phys_second in E2. inv_fine.
  unfold update, on_ph, on_ph_out, start, stop, step_monitors, step_tmons, clock_start, clock_stop.
  repeat match goal with
  | H : ?x = Ok _ |- context [?x] => rewrite H; cbn [prim obind set_f_ph set_f_clk set_f_mons f_ph f_clk f_mons f_tmons ticking set_ticking k_looping k_fourier]
  | H : ?x = Fine _ |- context [?x] => rewrite H; cbn [prim obind set_f_ph set_f_clk set_f_mons f_ph f_clk f_mons f_tmons ticking set_ticking k_looping k_fourier]
  | _ => rewrite ?Hi, ?Hi', ?Ht; cbn [prim obind set_f_ph set_f_clk set_f_mons f_ph f_clk f_mons f_tmons ticking set_ticking k_looping k_fourier List.length oloop]
  end.
  eexists. split; [reflexivity|]. cbn [f_ph set_f_ph set_f_clk set_f_mons f_mons f_tmons f_clk]. 
  split; [reflexivity|]. split; [exact Hw'|]. split; [exact Hp'|]. split; [exact Lm|]. split; [exact Ht|]. split; [split; reflexivity|]. exact Hn'.
Qed.

Lemma updates_live n : forall s, roomy (ph_grid (f_ph s)) -> small (ph_grid (f_ph s)) -> wf_phys (f_ph s) -> placed (f_ph s) ->
  Forall (mon_live (ph_grid (f_ph s))) (f_mons s) -> f_tmons s = [] -> idle s -> (INT_MIN <= ph_step (f_ph s))%Z -> (ph_step (f_ph s) + Z.of_nat n <= INT_MAX)%Z ->
  exists s', run (repeat Update n) s = Fine s' /\ ph_step (f_ph s') = (ph_step (f_ph s) + Z.of_nat n)%Z.
Proof.
  induction n as [|n IH]; intros s Hg Hsm Hw Hp Hm Ht Hi Hn Hn'; cbn [repeat run].
  - exists s. split; [reflexivity|]. lia.
  - cbn [exec]. destruct (update_live s Hg Hsm Hw Hp Hm Ht Hi) as (s1 & E & Ep & Hw1 & Hp1 & Hm1 & Ht1 & Hi1 & Hn1); [lia|].
    rewrite E. cbn [obind]. apply phys_step_static, static_eq in Ep. destruct Ep as (G1 & _).
    destruct (IH s1) as (s2 & E2 & R2); auto; rewrite ?G1; auto; try lia. exists s2. split; [exact E2|]. lia.
Qed.

(** adding monitors: only the output file can refuse *)
Definition nub {A} (r : res A) : Prop := forall u, r <> UB u.
Lemma nub_bind {A B} (r : res A) (k : A -> res B) : nub r -> (forall a, nub (k a)) -> nub (bind r k).
Proof. intros H K u. destruct r; cbn [bind]; [apply K|discriminate|now elim (H u0)]. Qed.
Lemma nub_foldM {A B} (f : A -> B -> res A) : (forall a b, nub (f a b)) -> forall l a, nub (foldM f a l).
Proof. intros H. induction l as [|b l IH]; intros a; cbn [foldM]; [discriminate|]. apply nub_bind; auto. Qed.
Lemma nub_group f p : nub (h5_group f p).
Proof. intros u. unfold h5_group. destruct (slookup p f) as [[]|]; discriminate. Qed.
Lemma nub_create f p b v : nub (h5_create f p b v).
Proof. intros u. unfold h5_create. destruct (slookup p f) as [|]; discriminate. Qed.
Lemma nub_mon1 f a b i fr : nub (write_mon1 f a b i fr).
Proof.
  rewrite write_mon1_eq. apply nub_bind; [apply nub_foldM, nub_group|]. intros f1. apply nub_foldM. intros f2 [n v]. apply nub_create.
Qed.
Lemma nub_mon f m : nub (write_mon f m).
Proof.
  destruct m as [m|m|m|m|m]; rewrite write_mon_eq; try apply nub_mon1.
  apply nub_bind; [|intros; apply nub_mon1]. apply nub_foldM. intros; apply nub_mon1.
Qed.

Lemma add_live g m s : 0 < g_dx g -> ph_grid (f_ph s) = g -> watches g m ->
  (exists e f, add_monitor m s = Raise e (set_f_h5 f s)) \/
  exists s', add_monitor m s = Fine s' /\ f_ph s' = f_ph s /\ f_tmons s' = f_tmons s /\ f_clk s' = f_clk s /\
    exists m', f_mons s' = f_mons s ++ [m'] /\ mon_live g m'.
Proof.
  intros Hd Hg Hm. unfold add_monitor. rewrite Hg. destruct (mon_live_attach g m Hd Hm) as (m' & E & L). rewrite E. cbn [prim].
  destruct (write_mon (f_h5 s) m') as [f|e|u] eqn:Ew; cbn [prim].
  - right. eexists. split; [reflexivity|]. repeat (split; [reflexivity|]). eexists. split; [reflexivity|exact L].
  - left. unfold half_written. eauto.
  - now elim (nub_mon _ _ _ Ew).
Qed.
Lemma adds_live g : 0 < g_dx g -> forall ms s s', ph_grid (f_ph s) = g -> Forall (watches g) ms -> run (map AddMonitor ms) s = Fine s' ->
  Forall (mon_live g) (f_mons s) ->
  f_ph s' = f_ph s /\ f_tmons s' = f_tmons s /\ f_clk s' = f_clk s /\ Forall (mon_live g) (f_mons s').
Proof.
  intros Hd. induction ms as [|m ms IH]; intros s s' Hg Hm H Hl; cbn [map run] in H.
  - injection H as <-. auto.
  - inversion Hm; subst. cbn [exec] in H. destruct (add_live _ m s Hd eq_refl H2) as [(e & f & E)|(s1 & E & P & Q & K & m' & M & L)]; rewrite E in H; cbn [obind] in H; [discriminate|].
    destruct (IH s1 s') as (A & B & C & D); auto; [now rewrite P|rewrite M; apply Forall_app; auto|].
    rewrite A, B, C, P, Q, K. auto.
Qed.

Lemma watched_safe g s ms s1 n : big_enough g -> small g -> 0 < g_dx g -> reachable g s -> sources_inside (f_ph s) -> stopped s ->
  f_mons s = [] -> f_tmons s = [] -> Forall (watches g) ms -> run (map AddMonitor ms) s = Fine s1 ->
  (INT_MIN <= ph_step (f_ph s))%Z -> (ph_step (f_ph s) + Z.of_nat n <= INT_MAX)%Z ->
  exists s', run (repeat Update n) s1 = Fine s'.
Proof.
  intros Hg Hsm Hd Hr Hs Hk Hm Ht Hw E Hn Hn'. destruct (reachable_good g s Hg Hr) as [Hwf Eg].
  destruct (adds_live g Hd ms s s1 Eg Hw E) as (P & Q & K & L); [rewrite Hm; constructor|].
  destruct (updates_live n s1) as (s' & E' & _); rewrite ?P, ?Q, ?Eg; auto; [now apply sources_inside_placed|unfold idle; rewrite K; exact Hk|]. eauto.
Qed.

(** *** The interior *)
Definition mid (g : grid) (u : R) (n : Z) : Prop := IZR (g_pml g) <= u <= IZR n - 1 - IZR (g_pml g).
Lemma inside_mid g p : grid_ok g -> inside g p -> mid g (fst p / g_dx g) (g_Nx g) /\ mid g (snd p / g_dx g) (g_Ny g).
Proof.
  intros (Hd & _ & _ & Lx & Ly & _) [H1 H2]. unfold interior, mk_volume in *. cbn [v_a v_b fst snd] in *. rnum. rewrite Lx in H1. rewrite Ly in H2.
  assert (Q : forall u a b : R, g_dx g * a <= u <= g_dx g * b -> a <= u / g_dx g <= b).
  { intros u a b [A B]. split; [apply Rmult_le_reg_l with (g_dx g)|apply Rmult_le_reg_l with (g_dx g)]; auto; replace (g_dx g * (u / g_dx g)) with u by (field; apply Rgt_not_eq; exact Hd); lra. }
  split; apply Q; lra.
Qed.
Lemma mid_readable g (p : R * R) : 0 < g_dx g -> (0 <= g_pml g)%Z -> g_dx g <= IZR (g_pml g) -> mid g (fst p / g_dx g) (g_Nx g) -> mid g (snd p / g_dx g) (g_Ny g) -> readable3 g p.
Proof.
  intros Hd Hp Hs [A1 A2] [B1 B2]. apply IZR_le in Hp. unfold readable3, readable, in_cells1. cbv iota. unfold vec. change (@T RNum) with R in *. repeat split; lra.
Qed.
Lemma mid_round g u n i : mid g u n -> nearest_away u i -> (g_pml g <= i <= n - 1 - g_pml g)%Z.
Proof.
  intros [H1 H2] Hi. assert (A : Rabs (u - IZR i) <= / 2) by (apply Hi). apply Rabs_le_inv in A.
  assert (g_pml g - 1 < i)%Z by (apply lt_IZR; rewrite minus_IZR; lra).
  assert (i < n - 1 - g_pml g + 1)%Z by (apply lt_IZR; rewrite plus_IZR, !minus_IZR; lra). lia.
Qed.
Lemma inside_cell g p : grid_ok g -> (0 <= g_pml g)%Z -> inside g p -> exists i j, to_grid g p = Ok (i, j) /\
  (g_pml g <= i <= g_Nx g - 1 - g_pml g)%Z /\ (g_pml g <= j <= g_Ny g - 1 - g_pml g)%Z.
Proof.
  intros Hok Hp Hi. destruct (inside_mid g p Hok Hi) as [M1 M2]. destruct Hok as (_ & N1 & N2 & _).
  assert (R1 := mid_round _ _ _ _ M1 (Rround_nearest _)). assert (R2 := mid_round _ _ _ _ M2 (Rround_nearest _)).
  do 2 eexists. split; [|split; [exact R1|exact R2]]. unfold INT_MAX in *. apply to_grid_total; try apply Rround_nearest; unfold is_int32; lia.
Qed.
Definition handy (g : grid) : Prop := grid_ok g /\ (0 <= g_pml g)%Z /\ (g_Nx g <= 46341)%Z /\ (g_Ny g <= 46341)%Z /\ g_dx g <= IZR (g_pml g).
Lemma inside_segment g (a b : R * R) : handy g -> fst a = fst b \/ snd a = snd b -> inside g a -> inside g b -> apart g a b -> segment_inside g a b.
Proof.
  intros (Hok & Hp & N1 & N2 & Hs) Hax Ha Hb Hne. destruct (inside_cell g a Hok Hp Ha) as (i & j & EA & I1 & J1). destruct (inside_cell g b Hok Hp Hb) as (k & l & EB & K1 & L1).
  destruct (to_grid_coord g a b _ _ EA EB) as [C1 C2]. cbn [fst snd] in *.
  assert (D : i = k \/ j = l) by (destruct Hax; auto). unfold apart in Hne. rewrite EA, EB in Hne.
  exists (i, j), (k, l). split; [exact EA|]. split; [exact EB|]. split; [congruence|]. unfold edges. cbn [fst snd]. split; [destruct D as [-> | ->]; lia|].
  intros n Hn. assert (Hd : 0 < g_dx g) by apply Hok.
  assert (Q : forall u v N : Z, (0 <= n < Z.abs (v - u))%Z \/ u = v -> (g_pml g <= u <= N - 1 - g_pml g)%Z -> (g_pml g <= v <= N - 1 - g_pml g)%Z ->
     mid g ((IZR u + (IZR n + / 2) * IZR (Z.sgn (v - u))) * g_dx g / g_dx g) N).
  { intros u v N Hv Hu1 Hv1. replace ((IZR u + (IZR n + / 2) * IZR (Z.sgn (v - u))) * g_dx g / g_dx g) with (IZR u + (IZR n + / 2) * IZR (Z.sgn (v - u))) by (field; apply Rgt_not_eq; exact Hd).
    unfold mid. destruct Hu1 as [U1 U2], Hv1 as [V1 V2]. apply IZR_le in U1, U2, V1, V2. rewrite !minus_IZR in *.
    destruct (Z.lt_trichotomy u v) as [H|[H|H]].
    - rewrite Z.sgn_pos by lia. destruct Hv as [Hv|Hv]; [|lia]. assert (H1 : (u + n + 1 <= v)%Z) by lia. apply IZR_le in H1. rewrite !plus_IZR in H1. assert (0 <= IZR n) by (apply IZR_le; lia). lra.
    - subst v. rewrite Z.sub_diag. cbn [Z.sgn]. lra.
    - rewrite Z.sgn_neg by lia. destruct Hv as [Hv|Hv]; [|lia]. assert (H1 : (v + n + 1 <= u)%Z) by lia. apply IZR_le in H1. rewrite !plus_IZR in H1. assert (0 <= IZR n) by (apply IZR_le; lia). lra. }
  apply mid_readable; auto; unfold edge_middle; cbn [fst snd]; apply Q; auto; destruct D as [-> | ->]; lia.
Qed.
Lemma axis_of (a b : R * R) sg s : mk_surface a b sg = Ok s -> fst a = fst b \/ snd a = snd b.
Proof. intros H. apply (mk_surface_iff a b sg). eauto. Qed.
Lemma inside_corner g (a b : R * R) : inside g a -> inside g b -> inside g (fst b, snd a).
Proof. intros [A1 A2] [B1 B2]. split; cbn [fst snd]; assumption. Qed.
Lemma apart_sym g a b : apart g a b -> apart g b a.
Proof. unfold apart. auto. Qed.
Lemma inside_round g (p : R * R) : grid_ok g -> (0 <= g_pml g)%Z -> inside g p -> to_grid g p = Ok (Rround (fst p / g_dx g), Rround (snd p / g_dx g)).
Proof.
  intros Hok Hp Hi. destruct (inside_cell g p Hok Hp Hi) as (i & j & E & _). assert (Hd : 0 < g_dx g) by apply Hok.
  destruct (to_grid_nearest g p i j Hd E) as [H1 H2]. rewrite E. f_equal. f_equal; (eapply nearest_away_unique; [eassumption|apply Rround_nearest]).
Qed.
Lemma inside_box g v : handy g -> inside g (v_a v) -> inside g (v_b v) -> apart g (v_a v) (fst (v_b v), snd (v_a v)) -> apart g (v_a v) (fst (v_a v), snd (v_b v)) ->
  let a := v_a v in let b := v_b v in
  segment_inside g a (fst b, snd a) /\ segment_inside g (fst b, snd a) b /\ segment_inside g b (fst a, snd b) /\ segment_inside g (fst a, snd b) a.
Proof.
  intros Hh Ha Hb X Y a b. assert (Hok : grid_ok g) by apply Hh. assert (Hp : (0 <= g_pml g)%Z) by apply Hh.
  fold a b in Ha, Hb, X, Y. clearbody a b. clear v.
  assert (C1 := inside_corner g a b Ha Hb). assert (C2 := inside_corner g b a Hb Ha).
  assert (Z1 : Rround (fst a / g_dx g) <> Rround (fst b / g_dx g)).
  { intros E. apply X. rewrite (inside_round g a), (inside_round g (fst b, snd a)) by assumption. cbn [fst snd]. f_equal. apply injective_projections; [first [exact E | reflexivity]|first [exact E | reflexivity]]. }
  assert (Z2 : Rround (snd a / g_dx g) <> Rround (snd b / g_dx g)).
  { intros E. apply Y. rewrite (inside_round g a), (inside_round g (fst a, snd b)) by assumption. cbn [fst snd]. f_equal. apply injective_projections; [first [exact E | reflexivity]|first [exact E | reflexivity]]. }
  split; [|split; [|split]]; apply inside_segment; auto; unfold apart; rewrite !inside_round by assumption; cbn [fst snd]; intros E; injection E as E;
    first [now apply Z1 | now apply Z2 | now apply Z1; symmetry | now apply Z2; symmetry | idtac].
Qed.
Lemma inside_circle g cs : handy g -> 0 <= cs_radius cs ->
  inside g (fst (cs_center cs) - cs_radius cs, snd (cs_center cs) - cs_radius cs) -> inside g (fst (cs_center cs) + cs_radius cs, snd (cs_center cs) + cs_radius cs) -> circle_inside g cs.
Proof.
  intros (Hok & Hp & N1 & N2 & Hs) Hr Hlo Hhi. assert (Hd : 0 < g_dx g) by apply Hok.
  destruct cs as [c r]. unfold vec in c. change (@T RNum) with R in *. cbn [cs_center cs_radius] in *.
  destruct (inside_mid g _ Hok Hlo) as [[A1 _] [B1 _]]. destruct (inside_mid g _ Hok Hhi) as [[_ A2] [_ B2]]. cbn [fst snd] in *.
  assert (Hr2 : 2 * (r / g_dx g) <= IZR (g_Nx g) - 1).
  { apply IZR_le in Hp. replace (2 * (r / g_dx g)) with ((fst c + r) / g_dx g - (fst c - r) / g_dx g) by (field; apply Rgt_not_eq; exact Hd). lra. }
  assert (Hr0 : 0 <= r / g_dx g) by (apply Rmult_le_pos; [exact Hr|left; now apply Rinv_0_lt_compat]).
  assert (P4 := PI_4). assert (P0 := PI_RGT_0). apply IZR_le in N1.
  set (n := Zceil (2 * PI * r / g_dx g)).
  assert (Hv : 0 <= 2 * PI * r / g_dx g <= 200000).
  { replace (2 * PI * r / g_dx g) with (PI * (2 * (r / g_dx g))) by (field; apply Rgt_not_eq; exact Hd).
    split; [apply Rmult_le_pos; lra|]. apply Rle_trans with (4 * (IZR (g_Nx g) - 1)); [|lra]. apply Rmult_le_compat; lra. }
  assert (Hn : (0 <= n <= 200000)%Z).
  { split.
    - assert (X := Zceil_ub (2 * PI * r / g_dx g)). fold n in X. assert (-1 < n)%Z by (apply lt_IZR; lra). lia.
    - assert (X := Zceil_lb (2 * PI * r / g_dx g)). assert (X2 := Zceil_ub (2 * PI * r / g_dx g)). fold n in X, X2. assert (n < 200001)%Z by (apply lt_IZR; lra). lia. }
  exists n. split; [lia|]. split; [cbn [cs_radius]; rnumg; fold n; apply cast_i32_ok; unfold INT_MIN, INT_MAX; lia|].
  intros i Hi. cbn [cs_center cs_radius]. generalize (arc_middle n i). intros th. unfold on_circle.
  assert (C := COS_bound th). assert (S := SIN_bound th).
  assert (Q : forall u k : R, -1 <= k <= 1 -> (u - r) / g_dx g <= (u + r * k) / g_dx g <= (u + r) / g_dx g).
  { intros u k Hk. assert (0 <= / g_dx g) by (left; now apply Rinv_0_lt_compat). split; apply Rmult_le_compat_r; auto; nra. }
  apply mid_readable; auto; unfold mid; cbn [fst snd].
  - destruct (Q (fst c) (cos th) C). split; [exact (Rle_trans _ _ _ A1 H)|exact (Rle_trans _ _ _ H0 A2)].
  - destruct (Q (snd c) (sin th) S). split; [exact (Rle_trans _ _ _ B1 H)|exact (Rle_trans _ _ _ H0 B2)].
Qed.
Lemma inside_block g v : handy g -> inside g (v_a v) -> inside g (v_b v) -> fst (v_a v) <= fst (v_b v) -> snd (v_a v) <= snd (v_b v) -> block_inside g v.
Proof.
  intros (Hok & Hp & N1 & N2 & Hs) Ha Hb H1 H2. assert (Hd : 0 < g_dx g) by apply Hok.
  destruct (inside_cell g _ Hok Hp Ha) as (i & j & EA & I1 & J1). destruct (inside_cell g _ Hok Hp Hb) as (k & l & EB & K1 & L1).
  destruct (to_grid_mono g _ _ _ _ _ _ Hd EA EB) as [M1 M2].
  exists (i, j), (k, l). unfold in_grid. cbn [fst snd]. repeat (split; [first [assumption | now apply M1 | now apply M2 | lia]|]). lia.
Qed.
Lemma within_watches g m : handy g -> within g m -> watches g m.
Proof.
  intros Hh H. inversion H; subst.
  - eapply watch_surface; [eassumption|]. apply inside_segment; auto. eapply axis_of; eassumption.
  - destruct (inside_box g v Hh H1 H2 H3 H4) as (S1 & S2 & S3 & S4). eapply watch_box; eassumption.
  - apply watch_circle. now apply inside_circle.
  - apply watch_block. now apply inside_block.
Qed.
Lemma within_safe g s ms s1 n : big_enough g -> handy g -> reachable g s -> sources_inside (f_ph s) -> stopped s ->
  f_mons s = [] -> f_tmons s = [] -> Forall (within g) ms -> run (map AddMonitor ms) s = Fine s1 ->
  (INT_MIN <= ph_step (f_ph s))%Z -> (ph_step (f_ph s) + Z.of_nat n <= INT_MAX)%Z ->
  exists s', run (repeat Update n) s1 = Fine s'.
Proof.
  intros Hg Hh Hr Hs Hk Hm Ht Hw. assert (Hh2 := Hh). destruct Hh2 as ((Hd & _) & _ & N1 & N2 & _). apply (watched_safe g s ms s1 n); auto.
  - split; lia.
  - eapply Forall_impl; [|exact Hw]. intros m. now apply within_watches.
Qed.
Lemma within_added g m s : handy g -> ph_grid (f_ph s) = g -> within g m -> (exists e s', add_monitor m s = Raise e s' /\ f_ph s' = f_ph s /\ f_mons s' = f_mons s /\ f_tmons s' = f_tmons s /\ f_clk s' = f_clk s) \/ exists s', add_monitor m s = Fine s'.
Proof.
  intros Hh Hg Hm. destruct (add_live g m s) as [(e & f & H)|(s' & H & _)]; [apply Hh|exact Hg|now apply within_watches| |eauto].
  left. exists e. eexists. split; [exact H|]. repeat split.
Qed.
