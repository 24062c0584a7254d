(** A lamp switched on for one step, the simulation cleared and started again: one run that comes
    back exactly and one that does not. *)
From Coq Require Import ZArith Reals List Bool String Lia Lra.
From Verif Require Import Scalar Base BaseFacts VecM GridM GeometryM MaterialM PmlM DftM TfsfM PolarM
  InterpM H5M ClockM MonitorM FieldM SpecGrid GridFacts OutFacts PhysFacts PaintFacts
  WfFacts ReachFacts SafetyFacts SpecSafety SafeFacts SpecStep StepFacts SpecSource SourceFacts ExampleFacts ExampleSrc FullStep
  EngineFacts SpecWave DarkFacts SpecCone PaintSafe SumRun FlipRun TextbookFacts PmlFacts RestartMap SpecRestart RestartFacts.
Import ListNotations.
Local Open Scope Z_scope.
#[local] Existing Instance RNum.

Section Ex.
Record unlit (p : phys) : Prop := Unlit {
  un_F : z2 (fEz (ph_F p)) /\ z2 (fHx (ph_F p)) /\ z2 (fHy (ph_F p));
  un_m : z2 (Ezx1 (p_psi (ph_pml p))) /\ z2 (Ezx2 (p_psi (ph_pml p))) /\ z2 (Ezy1 (p_psi (ph_pml p))) /\ z2 (Ezy2 (p_psi (ph_pml p)));
  un_prev : zo (ph_prevE p) /\ zo (ph_prev2E p);
  un_P : zP (ph_debye p) /\ zP (ph_drude p) /\ zP (ph_lorentz p) }.

Definition bulb (a b : Z) : source := Source "lamp" Ez (SPoint (IZR a, IZR b)) (TProfile (Continuous (1 / 2)%R) None).
Definition glow (a b : Z) : cells := fun i j => if (i =? a) && (j =? b) then 1%R else 0%R.

Lemma bulb_val : shape_val (Continuous (1 / 2)%R) (0 + / 2)%R = 1%R.
Proof. unfold shape_val. rnumg. replace (2 * PI * (1 / 2) * (0 + / 2))%R with (PI / 2)%R by field. apply sin_PI2. Qed.

Lemma bulb_step p p' a b : apart (ph_grid p) -> wf_phys p -> unlit p -> ph_tfsf p = None -> map src_core (ph_srcs p) = map src_core [bulb a b] -> ph_t p = 0%R ->
  g_dt (ph_grid p) = (/ 2)%R -> g_dx (ph_grid p) = 1%R -> is_int32 a -> is_int32 b -> phys_step p = Fine p' ->
  (forall i j, tval (fEz (ph_F p')) i j = glow a b i j) /\
  (z2 (Ezx1 (p_psi (ph_pml p'))) /\ z2 (Ezx2 (p_psi (ph_pml p'))) /\ z2 (Ezy1 (p_psi (ph_pml p'))) /\ z2 (Ezy2 (p_psi (ph_pml p')))) /\
  exists e : cells, (forall i j, e i j = glow a b i j) /\ same_h (h_of p') (grid_next_h p (h_of p) e).
Proof.
  intros Ha Hw [(F1 & F2 & F3) (M1 & M2 & M3 & M4) (V1 & V2) (P1 & P2 & P3)] Ht Hs H0 Hdt Hdx Ia Ib H.
  destruct (full_step p p' Ha Hw H) as (E0 & E1 & E2 & E3 & Ls & u & h & []). rewrite Ht in *.
  destruct (ph_srcs p) as [|r [|r' Sr]]; try discriminate. injection Hs as R1 R2 R3 R4.
  assert (Lx : Ls = [[(a, b)]]).
  { inversion cw_cells as [|? L ? Ls' [K _] K']; subst. inversion K'; subst. rewrite R3 in K. cbn [src_cells] in K. destruct K as (c & Ec & ->).
    rewrite to_grid_int in Ec by assumption. injection Ec as <-. reflexivity. }
  subst Ls. unfold z2 in *.
  assert (U : (forall i j, eE u i j = 0%R) /\ (forall i j, eXl u i j = 0%R) /\ (forall i j, eXh u i j = 0%R) /\ (forall i j, eYl u i j = 0%R) /\ (forall i j, eYh u i j = 0%R)).
  { assert (A1 : forall i j, memXl (g_Ny (ph_grid p)) (g_pml (ph_grid p)) (g_dx (ph_grid p)) (med p) (hY (h_of p)) (eXl (e_of p)) i j = 0%R).
    { intros i j. unfold memXl, recur. cbn [h_of e_of hY eXl]. rewrite !F3, !M1. destruct (_ && _); rnumg; change (@T RNum) with R; unfold Rdiv; ring. }
    assert (A2 : forall i j, memXh (g_Nx (ph_grid p)) (g_Ny (ph_grid p)) (g_pml (ph_grid p)) (g_dx (ph_grid p)) (med p) (hY (h_of p)) (eXh (e_of p)) i j = 0%R).
    { intros i j. unfold memXh, recur. cbn [h_of e_of hY eXh]. rewrite !F3, !M2. destruct (_ && _); rnumg; change (@T RNum) with R; unfold Rdiv; ring. }
    assert (A3 : forall i j, memYl (g_Nx (ph_grid p)) (g_pml (ph_grid p)) (g_dx (ph_grid p)) (med p) (hX (h_of p)) (eYl (e_of p)) i j = 0%R).
    { intros i j. unfold memYl, recur. cbn [h_of e_of hX eYl]. rewrite !F2, !M3. destruct (_ && _); rnumg; change (@T RNum) with R; unfold Rdiv; ring. }
    assert (A4 : forall i j, memYh (g_Nx (ph_grid p)) (g_Ny (ph_grid p)) (g_pml (ph_grid p)) (g_dx (ph_grid p)) (med p) (hX (h_of p)) (eYh (e_of p)) i j = 0%R).
    { intros i j. unfold memYh, recur. cbn [h_of e_of hX eYh]. rewrite !F2, !M4. destruct (_ && _); rnumg; change (@T RNum) with R; unfold Rdiv; ring. }
    rewrite cw_u. unfold grid_next_e, next_e. cbn [eE eXl eXh eYl eYh]. split; [|auto].
    intros i j. destruct (core _ _ i j); [|cbn [e_of eE]; apply F1]. unfold addX, addY, yeeE. rewrite !A1, !A2, !A3, !A4. cbn [h_of e_of hX hY eE]. rewrite !F1, !F2, !F3.
    repeat match goal with |- context[if ?x then _ else _] => destruct x end; rnumg; change (@T RNum) with R; unfold Rdiv; ring. }
  destruct U as (U1 & U2 & U3 & U4 & U5).
  assert (Zs : forall t, saved (ph_prevE p) (fEz (ph_F p)) = Some t -> z2 t).
  { intros t Q. unfold saved in Q. destruct (ph_prevE p); [injection Q as <-; exact F1|discriminate]. }
  assert (Zh : forall t, shifted (ph_prev2E p) (ph_prevE p) = Some t -> z2 t).
  { intros t Q. unfold shifted in Q. destruct (ph_prev2E p); [exact (V1 t Q)|discriminate]. }
  destruct (polar_all_dark debye_update _ debye_dark Zs _ _ _ _ P1 ltac:(intros i j; rewrite cw_E0; apply U1) cw_debye) as [_ Q1].
  destruct (polar_all_dark drude_update _ drude_dark Zs _ _ _ _ P2 Q1 cw_drude) as [_ Q2].
  destruct (polar_all_dark lorentz_update _ lorentz_dark Zh _ _ _ _ P3 Q2 cw_lorentz) as [_ Q3].
  destruct cw_e as (C1 & C2 & C3 & C4 & C5). cbn [eE eXl eXh eYl eYh e_of] in C1, C2, C3, C4, C5.
  assert (G : forall i j, tval (fEz (ph_F p')) i j = glow a b i j).
  { intros i j. rewrite C1. unfold lits, lit. cbn [combine fold_left]. rewrite R2, R4. cbn [comp_eqb]. unfold tf. rewrite Q3, H0, Hdt. unfold add_at. cbn [fold_left fst snd].
    change (@nadd RNum) with Rplus. rewrite bulb_val. unfold glow. rewrite (Z.eqb_sym i a), (Z.eqb_sym j b). destruct ((a =? i) && (b =? j)); lra. }
  split; [exact G|]. split; [repeat split; intros i j; first [rewrite C2; apply U2|rewrite C3; apply U3|rewrite C4; apply U4|rewrite C5; apply U5]|].
  exists (eE (e_of p')). split; [exact G|].
  assert (L : line None = Ok None) by reflexivity. rewrite L in cw_line. injection cw_line as cw_line. rewrite <- cw_line in cw_h. rewrite cw_hm in cw_h. unfold lits, lit in cw_h. cbn [combine fold_left] in cw_h. rewrite R2 in cw_h. exact cw_h.
Qed.

(** ** One step, clear, and on *)
Lemma turn (g : grid) s a b n : grid_ok g -> apart g -> reachable g s -> g_dx g = 1%R -> 0 <= a < g_Nx g -> 0 <= b < g_Ny g -> is_int32 a -> is_int32 b ->
  ph_srcs (f_ph s) = [bulb a b] -> ph_tfsf (f_ph s) = None -> f_mons s = [] -> f_tmons s = [] -> f_clk s = mk_clocks -> ph_step (f_ph s) = 0 ->
  (forall o, In o (ph_objs (f_ph s)) -> in_box (v_a (domain g)) (v_b (domain g)) (v_a (obj_box o)) /\ in_box (v_a (domain g)) (v_b (domain g)) (v_b (obj_box o))) ->
  (n < 1000)%nat ->
  exists sB s1 sn fn, run [Update] s = Fine sB /\ run [ClearFields; UpdateMaterialGrid] sB = Fine s1 /\
    run (repeat Update n) s1 = Fine sn /\ run (repeat Update n) s = Fine fn /\ map src_core (ph_srcs (f_ph sB)) = map src_core [bulb a b] /\ ph_objs (f_ph sB) = ph_objs (f_ph s) /\
    ph_tfsf (f_ph sB) = None.
Proof.
  intros Hok Ha Hr Hd Ka Kb Ia Ib Hs Ht Hm Htm Hc H0 Ho Hn. destruct (reachable_good g s (apart_roomy _ Ha) Hr) as [W G].
  assert (Pl : placed (f_ph s)).
  { apply sources_inside_placed. split; [|rewrite Ht; discriminate]. rewrite Hs, G. intros r [<-|[]]. split; [now left|]. cbn [sr_kind bulb]. exists (a, b).
    split; [now apply to_grid_int|split; assumption]. }
  assert (Id : idle s) by (unfold idle; rewrite Hc; split; reflexivity).
  destruct (update_ok s ltac:(rewrite G; now apply apart_roomy) W Pl Hm Htm Id ltac:(rewrite H0; unfold INT_MIN, INT_MAX; lia))
    as (sB & EB & SB & PB & MB & TB & IB & NB & _ & _).
  assert (RB : run [Update] s = Fine sB) by (cbn [run exec]; rewrite EB; reflexivity).
  assert (HB : reachable g sB) by (exact (SafeFacts.run_reachable g s _ sB Hr RB)).
  destruct (reachable_good g sB (apart_roomy _ Ha) HB) as [WB GB].
  destruct (full_step (f_ph s) (f_ph sB) ltac:(rewrite G; exact Ha) W SB) as (E0 & E1 & E2 & E3 & Ls & u & h & []).
  apply static_eq in cw_static. destruct cw_static as (_ & _ & Eo & _). rewrite Ht in cw_line.
  assert (TfB : ph_tfsf (f_ph sB) = None) by (change (line None) with (@Ok (option tfsf) None) in cw_line; now injection cw_line as <-).
  destruct (update_material_grid_domain g (clear_fields_phys (f_ph sB)) Hok GB (clear_fields_wf _ WB)) as [p1 E1'].
  { change (ph_objs (clear_fields_phys (f_ph sB))) with (ph_objs (f_ph sB)). rewrite Eo. exact Ho. }
  assert (W1 := update_material_grid_wf _ _ E1' (clear_fields_wf _ WB)). assert (C1 := clear_facts _ _ E1').
  destruct C1 as ((C1 & C2 & C3 & C4 & C5 & C6 & C7) & _).
  set (s1 := set_f_ph p1 (map_ph clear_fields_phys sB)).
  assert (R1 : run [ClearFields; UpdateMaterialGrid] sB = Fine s1).
  { cbn [run exec]. unfold clear_fields. cbn [obind]. unfold on_ph. change (f_ph (map_ph clear_fields_phys sB)) with (clear_fields_phys (f_ph sB)). rewrite E1'. reflexivity. }
  destruct (updates_ok n s1) as (sn & En & _); try assumption.
  - change (f_ph s1) with p1. rewrite C1, GB. now apply apart_roomy.
  - change (f_ph s1) with p1. destruct PB as [PB1 PB2]. split; [rewrite C1, C5; exact PB1|]. rewrite C3, TfB. discriminate.
  - change (f_ph s1) with p1. rewrite C7. unfold INT_MIN. lia.
  - change (f_ph s1) with p1. rewrite C7. unfold INT_MAX. lia.
  - destruct (updates_ok n s) as (fn & Ef & _); try assumption.
    + rewrite G. now apply apart_roomy.
    + rewrite H0. unfold INT_MIN. lia.
    + rewrite H0. unfold INT_MAX. lia.
    + exists sB, s1, sn, fn. repeat (split; [assumption|]). split; [rewrite cw_srcs, Hs; reflexivity|]. split; assumption.
Qed.

Lemma in_grid_box o (g : grid) : In o [disk; chip] -> g_Lx g = 7%R -> g_Ly g = 7%R ->
  in_box (v_a (domain g)) (v_b (domain g)) (v_a (obj_box o)) /\ in_box (v_a (domain g)) (v_b (domain g)) (v_b (obj_box o)).
Proof.
  destruct disk_box as [D1 D2], chip_box as [D3 D4]. intros [<-|[<-|[]]] Lx Ly; rewrite ?D1, ?D2, ?D3, ?D4; unfold in_box, domain; cbn [mk_volume v_a v_b fst snd]; rewrite Lx, Ly; rnumg; lra.
Qed.

Lemma grid8_dt (g : grid) : mk_grid 8%R 8%R 1%R 1 = Ok g -> g_dt g = (/ 2)%R.
Proof.
  intros Eg. destruct (mk_grid_spec 8 8 1 1) as [g' [E H]]; try lra; try (unfold INT_MAX; lra). rewrite Eg in E. injection E as <-.
  destruct H as (H1 & H2 & _ & Hd & Hp & HL & HLy & _ & _ & _ & Ht & Hm). lra.
Qed.

(** magnetic memories stay empty where Ez does not vary across the layer *)
Lemma un_mem p p' (e : cells) : g_Nx (ph_grid p) = 8 -> g_Ny (ph_grid p) = 8 -> g_pml (ph_grid p) = 2 ->
  z2 (Hxy1 (p_psi (ph_pml p))) /\ z2 (Hxy2 (p_psi (ph_pml p))) /\ z2 (Hyx1 (p_psi (ph_pml p))) /\ z2 (Hyx2 (p_psi (ph_pml p))) ->
  (forall i, (e i 2%Z - e i 1%Z)%R = 0%R) /\ (forall i, (e i 6%Z - e i 5%Z)%R = 0%R) /\ (forall j, (e 2%Z j - e 1%Z j)%R = 0%R) /\ (forall j, (e 6%Z j - e 5%Z j)%R = 0%R) ->
  same_h (h_of p') (grid_next_h p (h_of p) e) ->
  z2 (Hxy1 (p_psi (ph_pml p'))) /\ z2 (Hxy2 (p_psi (ph_pml p'))) /\ z2 (Hyx1 (p_psi (ph_pml p'))) /\ z2 (Hyx2 (p_psi (ph_pml p'))).
Proof.
  intros Nx Ny Hp (M1 & M2 & M3 & M4) (D1 & D2 & D3 & D4) (_ & S1 & S2 & _ & S3 & S4). unfold z2 in *.
  unfold grid_next_h, next_h in S1, S2, S3, S4. rewrite Nx, Ny, Hp in S1, S2, S3, S4. cbn [h_of hXl hXh hYl hYh] in S1, S2, S3, S4.
  repeat split; intros i j; [rewrite S1|rewrite S2|rewrite S3|rewrite S4]; unfold memHxl, memHxh, memHyl, memHyh; rewrite ?M1, ?M2, ?M3, ?M4.
  all: destruct (_ && _) eqn:G; [|reflexivity]; unfold recur; change (@nsub RNum) with Rminus.
  - replace j with 1 by lia. change (1 + 1) with 2. rewrite D1. rnumg. change (@T RNum) with R. unfold Rdiv. ring.
  - replace j with 1 by lia. change (8 - 1 - 1) with 6. change (6 - 1) with 5. rewrite D2. rnumg. change (@T RNum) with R. unfold Rdiv. ring.
  - replace i with 1 by lia. change (1 + 1) with 2. rewrite D3. rnumg. change (@T RNum) with R. unfold Rdiv. ring.
  - replace i with 1 by lia. change (8 - 1 - 1) with 6. change (6 - 1) with 5. rewrite D4. rnumg. change (@T RNum) with R. unfold Rdiv. ring.
Qed.

Lemma restart_case n : (n < 1000)%nat -> exists (g : grid) s0 l s s1 sf s1' sf',
  mk_grid 8%R 8%R 1%R 1 = Ok g /\ apart g /\ mk_field g "out" = Ok s0 /\ run l s0 = Fine s /\ ph_tfsf (f_ph s) = None /\ nothing_left (f_ph s) /\
  map src_core [demo_lamp] = map src_core (ph_srcs (f_ph s)) /\
  run [ClearFields; UpdateMaterialGrid] s = Fine s1 /\
  run (map AddObject (ph_objs (f_ph s)) ++ map AddSource [demo_lamp]) s0 = Fine sf /\
  run (repeat Update n) s1 = Fine s1' /\ run (repeat Update n) sf = Fine sf' /\
  l = [AddObject disk; AddObject chip; AddSource demo_lamp; Update] /\ tval (fEz (ph_F (f_ph s))) 3 3 = 1%R.
Proof.
  intros Hn. destruct demo_full as (g & s0 & s & Eg & Hok & Hr & Nx & Ny & Dx & E0 & El & Gd & Hm & Htm & Hc & Hs & Hst & Ht & Ho & (f & Hf)).
  destruct grid8 as (g' & Eg' & _ & _ & _ & _ & HLx & HLy & Hp). rewrite Eg in Eg'. injection Eg' as <-.
  assert (Ha : apart g) by (unfold apart; lia).
  assert (R0 : reachable g s0) by (exists "out"%string, s0, []; split; [exact E0|reflexivity]).
  assert (R : reachable g s) by (exact (SafeFacts.run_reachable g s0 _ s R0 El)).
  assert (A := add_run [demo_lamp] s f Hf). set (sA := map_ph _ _) in A. assert (RA : reachable g sA) by (exact (SafeFacts.run_reachable g s _ sA R A)).
  destruct (reachable_good g sA Hr RA) as [WA GA].
  assert (SA : ph_srcs (f_ph sA) = [bulb 3 3]) by (cbn; rewrite Hs; reflexivity).
  destruct (turn g sA 3 3 n) as (sB & s1 & sn & fn & T1 & T2 & T3 & T4 & T5 & T6 & T7); try assumption; try lia; try (unfold is_int32; lia); try (cbn; assumption).
  { change (ph_objs (f_ph sA)) with (ph_objs (f_ph s)). rewrite Ho. intros o Io. now apply in_grid_box. }
  exists g, s0, [AddObject disk; AddObject chip; AddSource demo_lamp; Update], sB, s1, sA, sn, fn.
  assert (El2 : run [AddObject disk; AddObject chip; AddSource demo_lamp; Update] s0 = Fine sB).
  { change [AddObject disk; AddObject chip; AddSource demo_lamp; Update] with (demo_cmds ++ (map AddSource [demo_lamp] ++ [Update])). rewrite !run_app, El. cbn [obind]. rewrite run_app, A. cbn [obind]. exact T1. }
  repeat (split; [assumption|]). change (ph_objs (f_ph sA)) with (ph_objs (f_ph s)) in T6.
  assert (Dk : dark (f_ph s)) by (now apply (stays_dark g)). destruct Dk.
  assert (Ph := run_phys _ _ _ T1). apply run_cons in Ph. destruct Ph as (pB & Ph & Q). apply run_nil in Q. rewrite Q in Ph. clear pB Q.
  destruct (bulb_step (f_ph sA) (f_ph sB) 3 3) as (B1 & (B2 & B3 & B4 & B5) & e & He & Sh); try assumption; try (rewrite SA; reflexivity); try (unfold is_int32; lia); try (rewrite GA; assumption).
  { split; [exact (conj d_E (conj d_X d_Y))|exact (conj d_x1 (conj d_x2 (conj d_y1 d_y2)))|exact (conj d_prev d_prev2)|exact (conj d_debye (conj d_drude d_lorentz))]. }
  { change (ph_t (f_ph sA)) with (ph_t (f_ph s)). apply run_phys in El. change demo_cmds with (map AddObject [disk; chip]) in El.
    apply adds_maps in El. destruct El as (_ & _ & _ & _ & (_ & _ & _ & _ & Q & _) & _). rewrite Q. exact (proj1 (proj2 (proj1 (fresh_facts g _ s0 E0)))). }
  { rewrite GA. now apply grid8_dt. }
  split.
  { split.
    - destruct (un_mem (f_ph sA) (f_ph sB) e) as (K1 & K2 & K3 & K4); try assumption; try (rewrite GA; assumption).
      + exact (conj d_hx1 (conj d_hx2 (conj d_hy1 d_hy2))).
      + split; [|split; [|split]]; intros; rewrite !He; unfold glow; repeat match goal with |- context[?a =? ?b] => destruct (Z.eqb_spec a b); try lia end; cbn [andb]; lra.
      + repeat split; assumption.
    - left. destruct (run_built g _ s0 sB Ha R0 (fresh_built g _ s0 E0) El2) as [_ _ _ _ Q]. rewrite T6, Ho in Q. cbn in Q. destruct (ph_prev2E (f_ph sB)); [discriminate|reflexivity]. }
  split; [now symmetry|]. split; [exact T2|]. split; [rewrite T6, Ho, run_app; change (map AddObject [disk; chip]) with demo_cmds; rewrite El; exact A|].
  repeat (split; [assumption|]). split; [reflexivity|]. rewrite B1. reflexivity.
Qed.

(** ** The PML remembers *)
Definition Hx11 (s : field) : R := tval (fHx (ph_F (f_ph s))) 1 1.
Lemma glow11 (e : cells) : (forall i j, e i j = glow 1 1 i j) -> (e 1%Z 2%Z - e 1%Z 1%Z = -1)%R.
Proof. intros H. rewrite !H. unfold glow. cbn. lra. Qed.

Lemma restart_fails : exists (g : grid) s0 l s s1 sf s1' sf',
  mk_grid 8%R 8%R 1%R 1 = Ok g /\ apart g /\ mk_field g "out" = Ok s0 /\ run l s0 = Fine s /\ ph_tfsf (f_ph s) = None /\
  map src_core [bulb 1 1] = map src_core (ph_srcs (f_ph s)) /\
  run [ClearFields; UpdateMaterialGrid] s = Fine s1 /\
  run (map AddObject (ph_objs (f_ph s)) ++ map AddSource [bulb 1 1]) s0 = Fine sf /\
  run (repeat Update 1) s1 = Fine s1' /\ run (repeat Update 1) sf = Fine sf' /\
  l = [AddSource (bulb 1 1); Update] /\ ~ agree_field (f_ph s1') (f_ph sf') 1 1.
Proof.
  destruct grid8 as (g & Eg & Hok & Nx & Ny & Dx & HLx & HLy & Hp).
  assert (Ha : apart g) by (unfold apart; lia). assert (Hr := apart_roomy _ Ha). assert (Dt := grid8_dt g Eg).
  destruct (mk_field_fresh g "out" Hr) as (p & Ep & E0); [discriminate|].
  destruct (mk_phys_ok g Hr) as (p' & Ep' & Hw & Gp & Sp & Tp & Op & Np). rewrite Ep in Ep'. injection Ep' as <-.
  set (s0 := Field p [] [] [] (fresh_h5 g) mk_clocks) in *.
  assert (R0 : reachable g s0) by (exists "out"%string, s0, []; split; [exact E0|reflexivity]).
  assert (Hf : exists f, foldM write_src (f_h5 s0) [bulb 1 1] = Ok f) by (eexists; reflexivity). destruct Hf as [f Hf].
  assert (A := add_run [bulb 1 1] s0 f Hf). set (sA := map_ph _ _) in A. assert (RA : reachable g sA) by (exact (SafeFacts.run_reachable g s0 _ sA R0 A)).
  destruct (reachable_good g sA Hr RA) as [WA GA].
  assert (SA : ph_srcs (f_ph sA) = [bulb 1 1]) by (cbn; rewrite Sp; reflexivity).
  destruct (turn g sA 1 1 1) as (sB & s1 & sn & fn & T1 & T2 & T3 & T4 & T5 & T6 & T7); try assumption; try lia; try (unfold is_int32; lia); try reflexivity; try (cbn; assumption).
  { change (ph_objs (f_ph sA)) with (ph_objs p). rewrite Op. intros o []. }
  change (repeat Update 1) with [Update] in *. rewrite T1 in T4. injection T4 as <-.
  change (ph_objs (f_ph sA)) with (ph_objs p) in T6. rewrite Op in T6.
  assert (El : run [AddSource (bulb 1 1); Update] s0 = Fine sB).
  { change [AddSource (bulb 1 1); Update] with (map AddSource [bulb 1 1] ++ [Update]). rewrite run_app, A. exact T1. }
  exists g, s0, [AddSource (bulb 1 1); Update], sB, s1, sA, sn, sB.
  repeat (split; [assumption|]). split; [now symmetry|]. split; [exact T2|]. split; [rewrite T6; exact A|]. repeat (split; [assumption|]). split; [reflexivity|].
  (* the two steps *)
  assert (RB : reachable g sB) by (exact (SafeFacts.run_reachable g s0 _ sB R0 El)). assert (R1 : reachable g s1) by (exact (SafeFacts.run_reachable g sB _ s1 RB T2)).
  destruct (reachable_good g s1 Hr R1) as [W1 G1].
  assert (B1 := run_built g ([AddSource (bulb 1 1); Update] ++ [ClearFields; UpdateMaterialGrid]) s0 s1 Ha R0 (fresh_built g _ s0 E0) ltac:(rewrite run_app, El; exact T2)).
  destruct (fresh_facts g _ s0 E0) as ((X1 & X2 & X3 & X4 & X5) & (Y1 & Y2 & Y3) & Yc & ((Ym1 & Ym2 & Ym3 & Ym4) & (Yh1 & Yh2 & Yh3 & Yh4)) & (Yd & Yr & Yl & Yp)).
  destruct (fresh_state g p Hr Ep) as (Dk & _). destruct Dk.
  assert (Ph := run_phys _ _ _ T1). apply run_cons in Ph. destruct Ph as (pB & Ph & Q). apply run_nil in Q. rewrite Q in Ph. clear pB Q.
  assert (Pn := run_phys _ _ _ T3). apply run_cons in Pn. destruct Pn as (pB & Pn & Q). apply run_nil in Q. rewrite Q in Pn. clear pB Q.
  destruct (bulb_step (f_ph sA) (f_ph sB) 1 1) as (K1 & (K2 & K3 & K4 & K5) & e & He & Sh); try assumption; try (rewrite SA; reflexivity); try (unfold is_int32; lia); try (rewrite GA; assumption).
  { split; [exact (conj d_E (conj d_X d_Y))|exact (conj d_x1 (conj d_x2 (conj d_y1 d_y2)))|exact (conj d_prev d_prev2)|exact (conj d_debye (conj d_drude d_lorentz))]. }
  assert (C := clear_facts _ _ (clear_run _ _ (run_phys _ _ _ T2))).
  assert (GB : ph_grid (f_ph sB) = g) by apply (reachable_good g sB Hr RB). rewrite GB, T6 in C.
  destruct C as ((F1 & F2 & F3 & F4 & F5 & F6 & F7) & (Z1 & Z2 & Z3) & (c & Mc & Hc) & _ & M5 & M6). cbn [foldM] in Mc. injection Mc as Mc.
  destruct B1 as [Q1 Q2 Q3 Q4 Q5]. rewrite F4 in Q1, Q2, Q3, Q4, Q5. cbn in Q1, Q2, Q3, Q4, Q5.
  assert (Nil : forall M (P : list (string * (M * polar))), toc P = [] -> P = []) by (intros M [|? ?] HP; [reflexivity|discriminate]).
  apply Nil in Q1, Q2, Q3.
  assert (V1 : ph_prevE (f_ph s1) = None) by (destruct (ph_prevE (f_ph s1)); [discriminate|reflexivity]).
  assert (V2 : ph_prev2E (f_ph s1) = None) by (destruct (ph_prev2E (f_ph s1)); [discriminate|reflexivity]).
  destruct (bulb_step (f_ph s1) (f_ph sn) 1 1) as (_ & _ & e' & He' & Sh'); try assumption; try (unfold is_int32; lia); try (rewrite G1; assumption).
  { split; [exact (conj Z1 (conj Z2 Z3))|rewrite F6; exact (conj K2 (conj K3 (conj K4 K5)))|rewrite V1, V2; split; intros t Q; discriminate Q|].
    rewrite Q1, Q2, Q3. repeat split; destruct H. }
  { rewrite F3, T7. reflexivity. }
  { rewrite F5. exact T5. }
  (* coefficients *)
  destruct (reachable_coefs g sA Ha RA) as (Ca & Cs & _). destruct (reachable_coefs g s1 Ha R1) as (Ca1 & Cs1 & _).
  destruct (Ca 1 ltac:(lia)) as (_ & (_ & _ & b1 & c1)). destruct (Ca1 1 ltac:(lia)) as (_ & (_ & _ & b2 & c2)).
  destruct (Cs 1 ltac:(lia)) as (_ & (_ & s11 & _)). destruct (Cs1 1 ltac:(lia)) as (_ & (_ & s12 & _)).
  assert (Db1 : mDb (med (f_ph sA)) 1 1 = (/ 2)%R /\ mDb (med (f_ph s1)) 1 1 = (/ 2)%R).
  { destruct (reachable_engine g sB RB) as (co & sc & _ & _ & En). unfold engine in En. injection En as _ En _ _ _.
    assert (Y := Yc 1 1 ltac:(lia) ltac:(lia)). assert (Y' := Hc 1 1 ltac:(lia) ltac:(lia)). rewrite Mc in Y'. rewrite En in Y'. unfold gcell, gmat_cell in Y, Y'.
    injection Y as _ _ _ Y. injection Y' as _ _ _ Y'. unfold med, med_of. cbn [mDb]. change (ph_C (f_ph sA)) with (ph_C p). rewrite Y, Y', Dt. cbn. rnumg. split; lra. }
  destruct Db1 as [Db1 Db2].
  assert (Cb : (0 < bHy (med (f_ph sA)) 1 < 1)%R /\ (cHy (med (f_ph sA)) 1 < 0)%R).
  { rewrite b1, c1. change (cpml_b (g_pml g) (g_dx g) (g_dt g) (nofZ 1 + half)%num) with (b_func (mk_pml_par g) (nofZ 1 + half)%num).
    change (cpml_c (g_pml g) (g_dx g) (g_dt g) (nofZ 1 + half)%num) with (c_func (mk_pml_par g) (nofZ 1 + half)%num).
    set (t := (nofZ 1 + half)%num). assert (Tv : t = (3 / 2)%R) by (unfold t; rnumg; lra). clearbody t. subst t.
    assert (P1 : (2 <= p_th (mk_pml_par g))%Z) by (cbn; lia). assert (P2 : (0 < p_dt (mk_pml_par g))%R) by (cbn; rewrite Dt; lra).
    assert (P3 : (0 < p_sigmax (mk_pml_par g))%R) by (cbn; rewrite Dx; rnumg; lra). assert (P4 : (0 < p_amax (mk_pml_par g))%R) by (cbn; rnumg; lra).
    assert (P5 : (0 < p_dx (mk_pml_par g))%R) by (cbn; rewrite Dx; lra).
    assert (P6 : (1 <= 3 / 2 <= IZR (p_th (mk_pml_par g)))%R) by (cbn; rewrite Hp; lra).
    destruct (coef_bounds (mk_pml_par g) P1 P2 eq_refl eq_refl eq_refl P3 P4 (3 / 2)%R P6) as (Bb & _).
    destruct (profile (mk_pml_par g) P1 eq_refl eq_refl P3 P4 (3 / 2)%R P6) as (_ & _ & SA' & Sg & _).
    specialize (Sg ltac:(cbn; rewrite Hp; lra)). split; [exact Bb|].
    rewrite c_eq by reflexivity. set (sg := sig_func _ _) in *. set (al := a_func _ _) in *. set (bb := b_func _ _) in *. change (@T RNum) with R in *.
    assert (0 < sg / (sg + al))%R by (apply Rdiv_lt_0_compat; assumption).
    assert (sg / (sg + al) * (bb - 1) < sg / (sg + al) * 0)%R by (apply Rmult_lt_compat_l; lra). rnumg. lra. }
  intros (_ & Ax & _).
  destruct Sh as (Sx & Sl & _). destruct Sh' as (Sx' & _).
  cbn [h_of hX hXl] in Sx, Sl, Sx'. specialize (Sx 1 1). specialize (Sl 1 1). specialize (Sx' 1 1). rewrite Sx, Sx' in Ax.
  unfold grid_next_h, next_h in Ax, Sl. cbn [hX hXl] in Ax, Sl. rewrite GA, G1, Nx, Ny, Hp in Ax. rewrite GA, Nx, Hp in Sl.
  unfold core, addHx, yeeHx, memHxl in Ax. unfold memHxl in Sl. change (1 <=? 1) with true in *. change (1 <? 8 - 1) with true in *. change (1 <? 2) with true in *. cbn [andb] in Ax, Sl.
  cbn [h_of hX hXl] in Ax, Sl. change (1 + 1)%Z with 2%Z in *.
  change (Hxy1 (p_psi (ph_pml (f_ph sA)))) with (Hxy1 (p_psi (ph_pml p))) in *. change (fHx (ph_F (f_ph sA))) with (fHx (ph_F p)) in *.
  unfold z2 in *. rewrite F6, Sl, (Z2 1 1) in Ax. unfold recur in Ax. rewrite d_hx1, d_X in Ax. change (@nsub RNum) with Rminus in Ax.
  rewrite (glow11 e He), (glow11 e' He'), Db1, Db2, b2, c2, s12, <- b1, <- c1, <- s11, Dx in Ax. rnum. change (@T RNum) with R in *.
  set (b := bHy (med (f_ph sA)) 1) in *. set (cc := cHy (med (f_ph sA)) 1) in *.
  assert (Z : (b * cc = 0)%R) by lra. destruct Cb as [Cb Cc]. assert (b * cc < b * 0)%R by (apply Rmult_lt_compat_l; lra). lra.
Qed.
End Ex.
