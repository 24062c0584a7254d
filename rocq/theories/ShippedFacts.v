(** The shipped programs follow the rules. *)
From Coq Require Import ZArith Reals List Bool String Ascii Lia Lra.
From Flocq Require Import Core.Raux.
From Verif Require Import Scalar Base BaseFacts VecM GridM GeometryM MaterialM PmlM DftM TfsfM PolarM
  InterpM H5M ClockM MonitorM FieldM ReportM ShippedM SpecGrid GridFacts OutFacts PhysFacts PaintFacts WfFacts ReachFacts InvFacts SpecSafety SafeFacts
  SpecDft SpecSample SpecLive LiveFacts LiveRun ExampleFacts ExampleSrc SpecProgram SegFacts ViewFacts ShelfFacts ProgFacts.
Import ListNotations.
Local Open Scope R_scope.
#[local] Existing Instance RNum.

(** *** Loops *)
Lemma with_step_twice a b L : with_step a (with_step b L) = with_step a L.
Proof. reflexivity. Qed.
Lemma with_step_self L : with_step (l_step L) L = L.
Proof. now destruct L. Qed.
Lemma updates_wf g l : forall n L, (l_step L + Z.of_nat n <= 2147483647)%Z -> well_formed g (with_step (l_step L + Z.of_nat n) L) l -> well_formed g L (repeat (Do Update) n ++ l).
Proof.
  induction n as [|n IH]; intros L Hn H; cbn [repeat app].
  - now rewrite Z.add_0_r, with_step_self in H.
  - apply wfp_call with (with_step (l_step L + 1) L); [cbn [allowed]; lia|constructor|]. apply IH; cbn [with_step l_step]; [lia|].
    rewrite with_step_twice. now replace (l_step L + 1 + Z.of_nat n)%Z with (l_step L + Z.of_nat (S n))%Z by lia.
Qed.
Lemma steps_wf g n L l : (0 <= n)%Z -> (l_step L + n <= 2147483647)%Z -> well_formed g (with_step (l_step L + n) L) l -> well_formed g L (steps n ++ l).
Proof. intros H0 H1 H2. apply updates_wf; rewrite Z2Nat.id; assumption. Qed.
Lemma writes_wf g : forall n L, (l_step L + Z.of_nat n <= 2147483647)%Z -> well_formed g L (List.concat (repeat [Do Update; Do WriteE] n)).
Proof.
  induction n as [|n IH]; intros L Hn; cbn [repeat List.concat app]; [constructor|].
  apply wfp_call with (with_step (l_step L + 1) L); [cbn [allowed]; lia|constructor|].
  apply wfp_call with (with_step (l_step L + 1) L); [exact Logic.I|constructor|]. apply IH. cbn [with_step l_step]. lia.
Qed.

(** *** The grids *)
Record grid120 (p : Z) (g : grid) : Prop := Grid120 {
  g_made : shipped_grid p = Ok g; g_handy : handy g; g_roomy : roomy g; g_n1 : g_Nx g = 240%Z; g_n2 : g_Ny g = 240%Z;
  g_step : g_dx g = / 2; g_l1 : g_Lx g = 239 / 2; g_l2 : g_Ly g = 239 / 2; g_layer : g_pml g = (p + 1)%Z }.
Lemma shipped_grid_ok p : (0 <= p <= 100)%Z -> exists g, grid120 p g.
Proof.
  intros Hp. destruct (mk_grid_spec 120 120 2 p) as (g & E & (A1 & A2) & (B1 & B2) & _ & C & Hd & L1 & L2 & _ & _ & _ & _ & P); try (unfold INT_MAX; lra).
  assert (Dx : g_dx g = / 2) by (change (@T RNum) with R in *; lra).
  assert (Q : forall k, IZR k - 1 < 120 * 2 <= IZR k -> k = 240%Z).
  { intros k [H1 H2]. assert (X : (k < 241)%Z) by (apply lt_IZR; lra). assert (Y : (240 <= k)%Z) by (apply le_IZR; lra). lia. }
  assert (Nx := Q _ (conj A1 A2)). assert (Ny := Q _ (conj B1 B2)).
  assert (Ok1 : grid_ok g) by (apply (mk_grid_ok 120 120 2 p); auto; lra).
  exists g. rewrite Nx in L1. rewrite Ny in L2. rewrite Dx in L1, L2.
  constructor; auto; try (change (@T RNum) with R in *; lra).
  - unfold handy. rewrite Nx, Ny, Dx, P. split; [exact Ok1|]. split; [lia|]. split; [lia|]. split; [lia|]. apply Rle_trans with 1; [lra|]. apply (IZR_le 1). lia.
  - unfold roomy. rewrite Nx, Ny, P. lia.
Qed.
Section On.
Variables (p : Z) (g : grid).
Hypothesis Hp : (0 <= p <= 20)%Z.
Hypothesis G : grid120 p g.
Lemma half_cell i j x y : x = IZR i / 2 -> y = IZR j / 2 -> (0 <= i < 240)%Z -> (0 <= j < 240)%Z -> to_grid g (x, y) = Ok (i, j).
Proof.
  intros -> -> Hi Hj. rewrite <- (round_trip_R g i j); [|rewrite (g_step _ _ G); lra|unfold is_int32; lia|unfold is_int32; lia].
  unfold to_real. cbn [fst snd]. f_equal. rewrite (g_step _ _ G). rnumg. apply injective_projections; cbn [fst snd]; lra.
Qed.
Lemma deep x y : IZR (p + 1) / 2 <= x <= (239 - IZR (p + 1)) / 2 -> IZR (p + 1) / 2 <= y <= (239 - IZR (p + 1)) / 2 -> inside g (x, y).
Proof.
  intros Hx Hy. unfold inside, in_box, interior, mk_volume. cbn [v_a v_b fst snd]. rewrite (g_l1 _ _ G), (g_l2 _ _ G), (g_step _ _ G), (g_layer _ _ G). rnumg. lra.
Qed.
Lemma apart_cells i j k l a b : fst a = IZR i / 2 -> snd a = IZR j / 2 -> fst b = IZR k / 2 -> snd b = IZR l / 2 -> (0 <= i < 240)%Z -> (0 <= j < 240)%Z -> (0 <= k < 240)%Z -> (0 <= l < 240)%Z ->
  (i, j) <> (k, l) -> apart g a b.
Proof.
  intros A1 A2 A3 A4 Hi Hj Hk Hl Hne. unfold apart. destruct a as [a1 a2], b as [b1 b2]. cbn [fst snd] in *. rewrite (half_cell i j a1 a2), (half_cell k l b1 b2) by assumption. congruence.
Qed.
(** a square box around (c, c) with corners at lo/2 and hi/2 *)
Lemma square_watched name v k fr m lo hi : mk_box_mon name v k fr = Ok m -> v_a v = (IZR lo / 2, IZR lo / 2) -> v_b v = (IZR hi / 2, IZR hi / 2) ->
  (p + 1 <= lo < hi)%Z -> (hi <= 238 - p)%Z -> watches g (MBox m).
Proof.
  intros E A B H1 H2. assert (Q1 : (p + 1 <= lo)%Z) by lia. apply IZR_le in Q1. assert (Q2 : IZR hi <= 239 - IZR (p + 1)) by (rewrite <- minus_IZR; apply IZR_le; lia). assert (Q3 : IZR lo < IZR hi) by (apply IZR_lt; lia).
  apply within_watches; [apply G|]. apply (within_box g name v k fr m); auto; rewrite ?A, ?B.
  - apply deep; lra.
  - apply deep; lra.
  - apply (apart_cells lo lo hi lo); cbn [fst snd]; try reflexivity; try lia. intros X. injection X as X. lia.
  - apply (apart_cells lo lo lo hi); cbn [fst snd]; try reflexivity; try lia. intros X. injection X as X. lia.
Qed.
Lemma square_box name v k fr lo hi : v_a v = (IZR lo / 2, IZR lo / 2) -> v_b v = (IZR hi / 2, IZR hi / 2) -> (lo < hi)%Z ->
  exists m, mk_box_mon name v k fr = Ok m /\ bm_name m = name /\ map sm_name (bm_sides m) = [name ++ "_1"; name ++ "_2"; name ++ "_3"; name ++ "_4"]%string /\ Forall (fun x => sm_kind x = k) (bm_sides m).
Proof.
  intros A B H. apply IZR_lt in H. destruct (box_sides_loop v) as (s1 & s2 & s3 & s4 & E1 & E2 & E3 & E4 & _); [rewrite A, B; cbn; lra|rewrite A, B; cbn; lra|].
  unfold mk_box_mon. rewrite E1, E2, E3, E4. cbn [bind]. eexists. split; [reflexivity|]. split; [reflexivity|]. split; [reflexivity|]. repeat constructor.
Qed.
Lemma circle_watched name r : (0 <= r)%Z -> (p + 1 + 2 * r <= 118)%Z -> watches g (circle name r).
Proof.
  intros H0 Hr. apply IZR_le in H0. assert (Q : IZR (p + 1) + 2 * IZR r <= 118) by (rewrite <- mult_IZR, <- plus_IZR; apply IZR_le; lia).
  apply within_watches; [apply G|]. apply within_circle; cbn [cs_center cs_radius point fst snd]; rnumg; [lra| |]; apply deep; lra.
Qed.
Lemma around_corners x l lo hi : (2 * x - l = lo)%Z -> (2 * x + l = hi)%Z -> v_a (around x x l) = (IZR lo / 2, IZR lo / 2) /\ v_b (around x x l) = (IZR hi / 2, IZR hi / 2).
Proof.
  intros <- <-. unfold around, mk_volume_c, point, vsub, vadd, vdivs. cbn [v_a v_b fst snd]. rnumg. rewrite minus_IZR, plus_IZR, mult_IZR. split; apply injective_projections; cbn [fst snd]; lra.
Qed.
Lemma region_ok x l : (1 <= 2 * x - l < 240)%Z -> (1 <= 2 * x + l < 240)%Z -> tfsf_region g (around x x l).
Proof.
  intros H1 H2. destruct (around_corners x l _ _ eq_refl eq_refl) as [A B]. exists (2 * x - l, 2 * x - l)%Z, (2 * x + l, 2 * x + l)%Z. rewrite A, B, (g_n1 _ _ G), (g_n2 _ _ G). cbn [fst snd].
  split; [apply half_cell; auto; lia|]. split; [apply half_cell; auto; lia|]. lia.
Qed.
Lemma rod_domain a b k : in_domain g (rod a b k).
Proof.
  unfold in_domain, obj_box, place_box, rod, geom_box, stored_box, vol_translate, mk_volume, point, in_box, vadd. cbn [o_geom o_pos v_a v_b fst snd]. rnumg. rewrite (g_l1 _ _ G), (g_l2 _ _ G). lra.
Qed.
Lemma source_at n x y tp : (0 <= 2 * x < 240)%Z -> (0 <= 2 * y < 240)%Z -> source_inside g (Source n Ez (SPoint (point x y)) tp).
Proof.
  intros Hx Hy. split; [now left|]. cbn [sr_kind]. exists (2 * x, 2 * y)%Z. rewrite (g_n1 _ _ G), (g_n2 _ _ G). split; [|unfold in_grid; cbn [fst snd]; lia].
  apply half_cell; auto; rewrite mult_IZR; rnumg; lra.
Qed.
End On.

(** *** Names *)
Lemma proper_cat a b : proper a -> ~ In "/"%char (list_ascii_of_string b) -> proper (a ++ b).
Proof.
  intros [H1 H2] H3. split; [destruct a; [now elim H1|discriminate]|]. clear H1. induction a as [|c a IH]; cbn [append list_ascii_of_string] in *; [exact H3|].
  intros [X|X]; [apply H2; now left|]. apply IH; [intros Y; apply H2; now right|exact X].
Qed.
Lemma cat_inj a b c : (a ++ b = a ++ c)%string -> b = c.
Proof. induction a as [|x a IH]; cbn [append]; [auto|]. intros H. injection H. auto. Qed.
Lemma box_names n m : proper n -> bm_name m = n -> map sm_name (bm_sides m) = [n ++ "_1"; n ++ "_2"; n ++ "_3"; n ++ "_4"]%string ->
  Forall (fun d => proper (snd d)) (mon_dirs (MBox m)) /\ NoDup (mon_dirs (MBox m)) /\
  mon_dirs (MBox m) = [("surface_monitor", n ++ "_1"); ("surface_monitor", n ++ "_2"); ("surface_monitor", n ++ "_3"); ("surface_monitor", n ++ "_4"); ("box_monitor", n)]%string.
Proof.
  intros Hn E1 E2. assert (D : mon_dirs (MBox m) = [("surface_monitor", n ++ "_1"); ("surface_monitor", n ++ "_2"); ("surface_monitor", n ++ "_3"); ("surface_monitor", n ++ "_4"); ("box_monitor", n)]%string).
  { cbn [mon_dirs]. rewrite <- (map_map sm_name (fun x => ("surface_monitor"%string, x))), E1, E2. reflexivity. }
  rewrite D. split; [|split; [|reflexivity]].
  - repeat constructor; cbn [snd]; try apply Hn; try (apply proper_cat; [exact Hn|]; cbn; intuition discriminate).
  - repeat constructor; cbn [In]; intros X; repeat (destruct X as [X|X]; [try discriminate; injection X as X; apply cat_inj in X; discriminate|]); exact X.
Qed.
Ltac names := split; [discriminate|cbn; intuition discriminate].


Lemma ship p g file l : grid120 p g -> file <> ""%string -> well_formed g blank l -> exists s0 s, mk_field g file = Ok s0 /\ exec_main l s0 = Fine s.
Proof.
  intros G Hf Hl. destruct (mk_field_fresh g file (g_roomy _ _ G)) as (ph & _ & E0); [exact Hf|]. eexists.
  destruct (programs_run g file (Field ph [] [] [] (fresh_h5 g) mk_clocks) l) as [s E]; try apply G; try (rewrite ?(g_n1 _ _ G), ?(g_n2 _ _ G); lia); [exact E0|exact Hl|]. exists s. eauto.
Qed.
Lemma kinds_two l : Forall (fun x : surf_mon => sm_kind x = DTangent) l -> Forall (fun x => sm_kind x = DTangent \/ sm_kind x = DAll) l.
Proof. apply Forall_impl. tauto. Qed.
Ltac led := cbn [with_step with_srcs with_mons with_objs with_tfsf with_views with_results l_mons l_srcs l_dirs l_objs l_views l_results l_tfsf l_tfsf_result l_step blank app sr_kind sr_name nth_error].
Lemma tp_made s fr : exists tp, tp_with_freq s fr = Ok tp /\ has_dft tp = true.
Proof. unfold tp_with_freq, dft_add. cbn [Z.ltb Z.compare bind]. eexists. split; reflexivity. Qed.

Theorem simple_runs src : proper src -> exists g s0 l s, shipped_grid 20 = Ok g /\ mk_field g "out.h5" = Ok s0 /\ simple_main src = Ok l /\ exec_main l s0 = Fine s.
Proof.
  intros Hs. destruct (shipped_grid_ok 20) as [g G]; [lia|]. assert (Hp : (0 <= 20 <= 20)%Z) by lia.
  destruct (around_corners 60 20 100 140 eq_refl eq_refl) as [A1 B1]. destruct (around_corners 95 20 170 210 eq_refl eq_refl) as [A2 B2].
  destruct (square_box "m1" _ DTangent (frequencies 500) _ _ A1 B1 ltac:(lia)) as (m1 & E1 & N1 & S1 & K1).
  destruct (square_box "m2" _ DTangent (frequencies 500) _ _ A2 B2 ltac:(lia)) as (m2 & E2 & N2 & S2 & K2).
  destruct (box_names "m1" m1 ltac:(names) N1 S1) as (P1 & U1 & D1). destruct (box_names "m2" m2 ltac:(names) N2 S2) as (P2 & U2 & D2).
  unfold simple_main. rewrite E1, E2. cbn [bind]. apply kinds_two in K1, K2.
  match goal with |- context [Ok (?x ++ steps 4000 ++ ?y)%list] => destruct (ship 20 g "out.h5" (x ++ steps 4000 ++ y) G) as (s0 & s & F1 & F2); [discriminate| |exists g, s0, (x ++ steps 4000 ++ y)%list, s; split; [apply G|auto]] end.
  cbn [app]. eapply wfp_call; [|apply en_monitor|].
  { split; [eapply (square_watched 20 g Hp G); [exact E1|exact A1|exact B1|lia|lia]|]. split; [exact P1|]. split; [exact U1|]. intros d _ []. }
  eapply wfp_call; [|apply en_monitor|].
  { split; [eapply (square_watched 20 g Hp G); [exact E2|exact A2|exact B2|lia|lia]|]. split; [exact P2|]. split; [exact U2|]. rewrite D1, D2. cbn. intros d Hd Hd'. intuition (subst; discriminate). }
  eapply wfp_call; [|apply en_source|]. { split; [exact Hs|]. split; [apply (source_at 20 g G); lia|]. cbn. tauto. }
  apply steps_wf; [lia|cbn; lia|]. led.
  eapply wfp_call; [|apply en_report; reflexivity|]. { intros m Hm. injection Hm as <-. split; [exact K1|]. intros []. }
  eapply wfp_call; [|apply en_report; reflexivity|]. { intros m Hm. injection Hm as <-. split; [exact K2|]. cbn. unfold result. cbn [mon_sub_name]. rewrite N1, N2. intuition discriminate. }
  apply wfp_end.
Qed.

Theorem emag_runs src : proper src -> exists g s0 l s, shipped_grid 10 = Ok g /\ mk_field g "out.h5" = Ok s0 /\ emag_main src = Ok l /\ exec_main l s0 = Fine s.
Proof.
  intros Hs. destruct (shipped_grid_ok 10) as [g G]; [lia|]. unfold emag_main.
  match goal with |- context [Ok (?x :: ?y)] => destruct (ship 10 g "out.h5" (x :: y) G) as (s0 & s & F1 & F2); [discriminate| |exists g, s0, (x :: y)%list, s; split; [apply G|auto]] end.
  eapply wfp_call; [|apply en_source|]. { split; [exact Hs|]. split; [apply (source_at 10 g G); lia|]. cbn. tauto. }
  apply writes_wf. rewrite Z2Nat.id by lia. cbn. lia.
Qed.

(** the rod, the source and the circles *)
Lemma rod_allowed p g L a b k : grid120 p g -> proper a -> proper b -> l_objs L = [] -> allowed g L (Do (AddObject (rod a b k))).
Proof. intros G Ha Hb Hl. split; [exact Ha|]. split; [exact Hb|]. split; [apply (rod_domain p g G)|]. rewrite Hl. constructor. Qed.
Lemma circle_allowed p g L n r : grid120 p g -> proper n -> (0 <= r)%Z -> (p + 1 + 2 * r <= 118)%Z -> ~ In ("cylinder_monitor"%string, n) (l_dirs L) -> allowed g L (Do (AddMonitor (circle n r))).
Proof.
  intros G Hn Hr Hr' Hi. split; [now apply (circle_watched p g G)|]. split; [repeat constructor; apply Hn|]. split; [repeat constructor; intros []|]. intros d [<-|[]]. exact Hi.
Qed.

Theorem mie_runs ob mat view : proper ob -> proper mat -> proper view -> ~ In view ["Ez"; "Hx"; "Hy"]%string ->
  exists g s0 l s, shipped_grid 5 = Ok g /\ mk_field g "scat.h5" = Ok s0 /\ mie_main ob mat view = Ok l /\ exec_main l s0 = Fine s.
Proof.
  intros H1 H2 H3 H4. destruct (shipped_grid_ok 5) as [g G]; [lia|]. assert (Hp : (0 <= 5 <= 20)%Z) by lia. unfold mie_main. destruct (tp_made (pulse 100 80) (frequencies 200)) as (tp & -> & Ht). cbn [bind].
  match goal with |- context [Ok (?x ++ steps 4000 ++ ?y)%list] => destruct (ship 5 g "scat.h5" (x ++ steps 4000 ++ y) G) as (s0 & s & F1 & F2); [discriminate| |exists g, s0, (x ++ steps 4000 ++ y)%list, s; split; [apply G|auto]] end.
  cbn [app]. eapply wfp_call; [|apply en_tfsf|]. { split; [reflexivity|]. apply (region_ok 5 g G); lia. } rewrite Ht.
  eapply wfp_call; [|apply en_object|]. { now apply (rod_allowed 5). }
  eapply wfp_call; [|apply en_monitor|]. { apply (circle_allowed 5 _ _ _ _ G); [names|lia|lia|intros []]. }
  eapply wfp_call; [|apply en_monitor|]. { apply (circle_allowed 5 _ _ _ _ G); [names|lia|lia|]. cbn. intuition discriminate. }
  eapply wfp_call; [|apply en_view|].
  { split; [|intros []]. split; [exact H3|]. split; [exact H4|]. split; [|split; [exists 10%Z; split; [lia|reflexivity]|reflexivity]]. cbn [tm_shape_ viewable].
    destruct (around_corners 60 65 55 185 eq_refl eq_refl) as [A B]. apply inside_block; [apply G| | | |]; rewrite ?A, ?B; cbn [fst snd]; try (change (@T RNum) with R in *; lra); apply (deep 5 g G); change (IZR (5 + 1)) with 6; lra. }
  apply steps_wf; [lia|cbn; lia|]. led.
  eapply wfp_call; [|apply en_report_tfsf|]. { intros b Hb. injection Hb as <-. auto. }
  eapply wfp_call; [|apply en_report; reflexivity|]. { intros m Hm. injection Hm as <-. split; [exact Logic.I|]. intros []. }
  eapply wfp_call; [|apply en_report; reflexivity|]. { intros m Hm. injection Hm as <-. split; [exact Logic.I|]. cbn. intuition discriminate. }
  apply wfp_end.
Qed.

Theorem mie_simple_runs ob mat : proper ob -> proper mat ->
  exists g s0 l s, shipped_grid 8 = Ok g /\ mk_field g "scat.h5" = Ok s0 /\ mie_simple_main ob mat = Ok l /\ exec_main l s0 = Fine s.
Proof.
  intros H1 H2. destruct (shipped_grid_ok 8) as [g G]; [lia|]. assert (Hp : (0 <= 8 <= 20)%Z) by lia. unfold mie_simple_main. destruct (tp_made (pulse 100 80) (frequencies 200)) as (tp & -> & Ht). cbn [bind].
  match goal with |- context [Ok (?x ++ steps 8000 ++ ?y)%list] => destruct (ship 8 g "scat.h5" (x ++ steps 8000 ++ y) G) as (s0 & s & F1 & F2); [discriminate| |exists g, s0, (x ++ steps 8000 ++ y)%list, s; split; [apply G|auto]] end.
  cbn [app]. eapply wfp_call; [|apply en_tfsf|]. { split; [reflexivity|]. apply (region_ok 8 g G); lia. } rewrite Ht.
  eapply wfp_call; [|apply en_object|]. { now apply (rod_allowed 8). }
  eapply wfp_call; [|apply en_monitor|]. { apply (circle_allowed 8 _ _ _ _ G); [names|lia|lia|intros []]. }
  eapply wfp_call; [|apply en_monitor|]. { apply (circle_allowed 8 _ _ _ _ G); [names|lia|lia|]. cbn. intuition discriminate. }
  apply steps_wf; [lia|cbn; lia|]. led.
  eapply wfp_call; [|apply en_report_tfsf|]. { intros b Hb. injection Hb as <-. auto. }
  eapply wfp_call; [|apply en_report; reflexivity|]. { intros m Hm. injection Hm as <-. split; [exact Logic.I|]. intros []. }
  eapply wfp_call; [|apply en_report; reflexivity|]. { intros m Hm. injection Hm as <-. split; [exact Logic.I|]. cbn. intuition discriminate. }
  apply wfp_end.
Qed.

Theorem mie_drude_runs ob mat omega gamma : proper ob -> proper mat ->
  exists g s0 l s, shipped_grid 8 = Ok g /\ mk_field g "scat.h5" = Ok s0 /\ mie_drude_main ob mat omega gamma = Ok l /\ exec_main l s0 = Fine s.
Proof.
  intros H1 H2. destruct (shipped_grid_ok 8) as [g G]; [lia|]. assert (Hp : (0 <= 8 <= 20)%Z) by lia. unfold mie_drude_main. destruct (tp_made (pulse 100 200) (frequencies 200)) as (tp & -> & Ht). cbn [bind].
  destruct (around_corners 60 80 40 200 eq_refl eq_refl) as [A B]. destruct (square_box "scat" _ DTangent (frequencies 200) _ _ A B ltac:(lia)) as (m & E & N & Sd & K). rewrite E. cbn [bind].
  destruct (box_names "scat" m ltac:(names) N Sd) as (P & U & D). apply kinds_two in K.
  match goal with |- context [Ok (?x ++ steps 8000 ++ ?y)%list] => destruct (ship 8 g "scat.h5" (x ++ steps 8000 ++ y) G) as (s0 & s & F1 & F2); [discriminate| |exists g, s0, (x ++ steps 8000 ++ y)%list, s; split; [apply G|auto]] end.
  cbn [app]. eapply wfp_call; [|apply en_tfsf|]. { split; [reflexivity|]. apply (region_ok 8 g G); lia. } rewrite Ht.
  eapply wfp_call; [|apply en_monitor|].
  { split; [eapply (square_watched 8 g Hp G); [exact E|exact A|exact B|lia|lia]|]. split; [exact P|]. split; [exact U|]. intros d _ []. }
  eapply wfp_call; [|apply en_object|]. { now apply (rod_allowed 8). }
  apply steps_wf; [lia|cbn; lia|]. led.
  eapply wfp_call; [|apply en_report; reflexivity|]. { intros x Hx. injection Hx as <-. split; [exact K|]. intros []. }
  eapply wfp_call; [|apply en_report_tfsf|]. { intros b Hb. injection Hb as <-. auto. }
  apply wfp_end.
Qed.

Theorem force_rules ob mat box : proper ob -> proper mat -> proper box ->
  exists g l, grid120 8 g /\ force_main ob mat box = Ok l /\ well_formed g blank l.
Proof.
  intros H1 H2 H3. destruct (shipped_grid_ok 8) as [g G]; [lia|]. assert (Hp : (0 <= 8 <= 20)%Z) by lia. unfold force_main. destruct (tp_made (pulse 100 80) (frequencies 200)) as (tp & -> & Ht). cbn [bind].
  set (o := rod ob mat (KSimple (Simple 2%num 1%num 0%num))). set (v := vol_pad (obj_box o) (IZR 1)).
  assert (A : v_a v = (IZR 78 / 2, IZR 78 / 2)) by (apply injective_projections; cbn; rnumg; lra).
  assert (B : v_b v = (IZR 162 / 2, IZR 162 / 2)) by (apply injective_projections; cbn; rnumg; lra).
  destruct (square_box box v DAll (frequencies 200) _ _ A B ltac:(lia)) as (m & E & N & Sd & K).
  destruct (box_names box m H3 N Sd) as (P & U & D).
  eexists g, _. split; [exact G|]. split; [reflexivity|].
  cbn [app]. eapply wfp_call; [|apply en_tfsf|]. { split; [reflexivity|]. apply (region_ok 8 g G); lia. } rewrite Ht.
  eapply wfp_call; [|apply en_object|]. { now apply (rod_allowed 8). }
  assert (Sr : surrounding o box (frequencies 200) 1 (MBox m)) by (exists m; split; [exact E|reflexivity]).
  eapply wfp_call; [|apply (en_box _ 0 box (frequencies 200) 1 o (MBox m)); [reflexivity|exact Sr]|].
  { intros o' Ho. injection Ho as <-. exists (MBox m). split; [exact Sr|].
    split; [eapply (square_watched 8 g Hp G); [exact E|exact A|exact B|lia|lia]|]. split; [exact P|]. split; [exact U|]. intros d _ []. }
  apply steps_wf; [lia|cbn; lia|]. led.
  eapply wfp_call; [|apply en_report_tfsf|]. { intros b Hb. injection Hb as <-. auto. }
  eapply wfp_call; [|apply en_report; reflexivity|]. { intros x Hx. injection Hx as <-. split; [exact K|]. intros []. }
  eapply wfp_call; [|apply en_report; reflexivity|]. { intros x Hx. injection Hx as <-. split; [exact K|]. cbn. intuition discriminate. }
  apply wfp_end.
Qed.

Theorem force_runs ob mat box : proper ob -> proper mat -> proper box ->
  exists g s0 l s, shipped_grid 8 = Ok g /\ mk_field g "scat.h5" = Ok s0 /\ force_main ob mat box = Ok l /\ exec_main l s0 = Fine s.
Proof.
  intros H1 H2 H3. destruct (force_rules ob mat box H1 H2 H3) as (g & l & G & E & W). destruct (ship 8 g "scat.h5" l G) as (s0 & s & A & B); [discriminate|exact W|].
  exists g, s0, l, s. split; [apply G|auto].
Qed.

(** a program with every other kind of call *)
Definition mover : obj := Obj "mover" true (Cylinder 20) (Material "glass" (KSimple (Simple 2 1 0))) (60, 60) 0.
Definition tour (tp : tprofile) : list call :=
  [Do (AddObject mover); Do (Move 0 (1, 0)); Do (Rotate 0 1); Do (SetPosition 0 (50, 60)); Do (SetTheta 0 2); Do UpdateMaterialGrid; Do ClearMaterials;
   Do (AddSource (Source "lamp" Ez (SPoint (point 30 30)) (TProfile (pulse 200 80) None))); Do (SetTfsf (around 60 60 65) tp);
   Do (AddMonitor (circle "ring" 25)); Do (AddTimeMonitor (TMon "view" (TPoint (point 30 40)) Ez (mk_every 1) [])); Do Update; Do (WriteField Hx); Do WriteE; Do WriteH;
   Do (WriteMonitor 0); Do (WriteTimeMonitor 0); Do (WriteCurrent 0); Report 0 QFlux; ReportTfsf; WriteMonitorCall; Do ClearFields; Do RemoveMonitors; Report 0 QFlux; Do Update].
Theorem tour_rules : exists g tp, grid120 5 g /\ tp_with_freq (pulse 100 80) [1] = Ok tp /\ well_formed g blank (tour tp).
Proof.
  destruct (shipped_grid_ok 5) as [g G]; [lia|]. destruct (tp_made (pulse 100 80) [1]) as (tp & Et & Ht). exists g, tp. split; [exact G|]. split; [exact Et|]. unfold tour.
  assert (Dm : in_domain g mover) by (unfold in_domain, obj_box, place_box, mover, geom_box, stored_box, vol_translate, mk_volume, in_box, vadd; cbn [o_geom o_pos v_a v_b fst snd]; rnumg; rewrite (g_l1 _ _ G), (g_l2 _ _ G); lra).
  eapply wfp_call; [|apply en_object|]. { split; [names|]. split; [names|]. split; [exact Dm|constructor]. }
  eapply wfp_call; [exact Logic.I|apply en_move|]. eapply wfp_call; [exact Logic.I|apply en_rotate|]. eapply wfp_call; [exact Logic.I|apply en_pos|]. eapply wfp_call; [exact Logic.I|apply en_theta|].
  led. unfold moved. cbn [nth_error mover o_dyn upd_nth obj_move obj_rotate obj_set_pos obj_set_theta o_name o_geom o_mat o_pos o_theta].
  eapply wfp_call; [|apply en_regrid|].
  { constructor; [|constructor]. unfold obj_set_theta, obj_set_pos, obj_rotate, obj_move, mover. cbn [o_name o_dyn o_geom o_mat o_pos o_theta]. unfold in_domain, obj_box, place_box, geom_box, stored_box, vol_translate, mk_volume, in_box, vadd; cbn [o_geom o_pos v_a v_b fst snd]; rnumg; rewrite (g_l1 _ _ G), (g_l2 _ _ G); lra. }
  eapply wfp_call; [exact Logic.I|apply en_unpaint|].
  eapply wfp_call; [|apply en_source|]. { split; [names|]. split; [apply (source_at 5 g G); lia|]. intros []. }
  eapply wfp_call; [|apply en_tfsf|]. { split; [reflexivity|]. apply (region_ok 5 g G); lia. } rewrite Ht.
  eapply wfp_call; [|apply en_monitor|]. { apply (circle_allowed 5 _ _ _ _ G); [names|lia|lia|intros []]. }
  eapply wfp_call; [|apply en_view|].
  { split; [|intros []]. split; [names|]. split; [cbn; intuition discriminate|]. split; [|split; [exists 1%Z; split; [lia|reflexivity]|reflexivity]]. cbn [tm_shape_ viewable].
    exists (60, 80)%Z. rewrite (g_n1 _ _ G), (g_n2 _ _ G). split; [|unfold in_grid; cbn [fst snd]; lia]. apply (half_cell 5 g G); try lia; unfold point; rnumg; lra. }
  eapply wfp_call; [|apply en_update|]. { cbn. lia. }
  eapply wfp_call; [|apply en_field|]. { right. now left. }
  eapply wfp_call; [exact Logic.I|apply en_E|]. eapply wfp_call; [exact Logic.I|apply en_H|].
  eapply wfp_call; [|apply en_transform; reflexivity|]. { intros m _. right. intros []. }
  eapply wfp_call; [exact Logic.I|apply en_tm|]. eapply wfp_call; [exact Logic.I|apply en_current|].
  eapply wfp_call; [|apply en_report; reflexivity|]. { intros m Hm. injection Hm as <-. split; [exact Logic.I|]. cbn. intuition discriminate. }
  eapply wfp_call; [|apply en_report_tfsf|]. { intros b Hb. injection Hb as <-. auto. }
  eapply wfp_call; [exact Logic.I|apply en_clock|]. eapply wfp_call; [exact Logic.I|apply en_clear|]. eapply wfp_call; [exact Logic.I|apply en_remove|].
  eapply wfp_call; [|apply en_noreport; reflexivity|]. { intros m Hm. discriminate. }
  eapply wfp_call; [|apply en_update|]. { cbn. lia. }
  apply wfp_end.
Qed.
