(** Programs of simple materials without sources stay dark in double arithmetic (C18). *)
From Coq Require Import ZArith Reals List String Bool Lia Psatz.
From Flocq Require Import Core.Core IEEE754.BinarySingleNaN.
From Verif Require Import Scalar Base BaseFacts VecM GridM GeometryM MaterialM PmlM DftM TfsfM PolarM InterpM H5M ClockM
  MonitorM FieldM OutFacts PhysFacts WfFacts ReachFacts SafeFacts SpecStep StepFacts YeeFacts TextbookFacts SpecSource SourceFacts SnapFacts FullStep
  Float FloatFacts SpecDouble DoubleFacts SpecDark DarkRun SpecRound RoundFacts RoundStep RoundRun SpecLoose LooseFacts SpecDriven DrivenFacts
  SpecWhole SpecSolid SolidFacts WholeFacts SpecDusk.
Import ListNotations.
Local Open Scope Z_scope.

(** ** one step from zero *)
Section Zero.
Variable L : libm.
Variables (a n m th : Z) (dx : @T (B64 L)) (md : @medium (B64 L)).
Hypothesis Hm : moderate_med a n m th dx md.
Notation z2 c := (forall i j, zero64 (c i j : f64)).

Lemma divisor_dvs s : divisor a s -> divisor64 s.
Proof. unfold divisor. intros H. assert (P := bpow_gt_0 radix2 (- a)). destruct s; cbn in *; try exact Logic.I; rewrite Rabs_R0 in H; lra. Qed.
Lemma recur_zero b c q d : finite64 b -> finite64 c -> zero64 q -> zero64 d -> zero64 (@recur (B64 L) dx b c q d).
Proof.
  intros Hb Hc Hq Hd. unfold recur. apply zero64_add; [now apply zero64_mul|]. apply zero64_div; [now apply zero64_mul|]. apply divisor_dvs, Hm.
Qed.
Ltac rng := repeat match goal with K : _ && _ = true |- _ => apply andb_prop in K; destruct K end;
  repeat match goal with K : (_ <=? _) = true |- _ => apply Z.leb_le in K | K : (_ <? _) = true |- _ => apply Z.ltb_lt in K
                       | K : (_ <=? _) = false |- _ => apply Z.leb_gt in K | K : (_ <? _) = false |- _ => apply Z.ltb_ge in K end.
Lemma next_e_zero (hx hy : @cells (B64 L)) (u : @emag (B64 L)) : z2 hx -> z2 hy -> z2 (eE u) -> z2 (eXl u) -> z2 (eXh u) -> z2 (eYl u) -> z2 (eYh u) ->
  let v := @next_e (B64 L) n m th dx md hx hy u in z2 (eE v) /\ z2 (eXl v) /\ z2 (eXh v) /\ z2 (eYl v) /\ z2 (eYh v).
Proof.
  intros Zx Zy Z0 Z1 Z2 Z3 Z4. destruct Hm as (M1 & M2 & M3 & M4 & M5 & M6). cbv zeta. unfold next_e. cbn [eE eXl eXh eYl eYh].
  assert (A1 : z2 (@memXl (B64 L) m th dx md hy (eXl u))).
  { intros i j. unfold memXl. destruct (_ && _) eqn:E; [|apply Z1]. rng. destruct (M5 i ltac:(lia)) as ((F1 & _) & (F2 & _) & _).
    apply recur_zero; [exact F1|exact F2|apply Z1|apply zero64_sub; apply Zy]. }
  assert (A2 : z2 (@memXh (B64 L) n m th dx md hy (eXh u))).
  { intros i j. unfold memXh. destruct (_ && _) eqn:E; [|apply Z2]. rng. destruct (M5 i ltac:(lia)) as ((F1 & _) & (F2 & _) & _).
    apply recur_zero; [exact F1|exact F2|apply Z2|apply zero64_sub; apply Zy]. }
  assert (A3 : z2 (@memYl (B64 L) n th dx md hx (eYl u))).
  { intros i j. unfold memYl. destruct (_ && _) eqn:E; [|apply Z3]. rng. destruct (M5 j ltac:(lia)) as (_ & _ & (F1 & _) & (F2 & _)).
    apply recur_zero; [exact F1|exact F2|apply Z3|apply zero64_sub; apply Zx]. }
  assert (A4 : z2 (@memYh (B64 L) n m th dx md hx (eYh u))).
  { intros i j. unfold memYh. destruct (_ && _) eqn:E; [|apply Z4]. rng. destruct (M5 j ltac:(lia)) as (_ & _ & (F1 & _) & (F2 & _)).
    apply recur_zero; [exact F1|exact F2|apply Z4|apply zero64_sub; apply Zx]. }
  split; [|auto]. intros i j. destruct (core n m i j) eqn:E; [|apply Z0]. unfold core in E. rng.
  destruct (M2 i j ltac:(lia) ltac:(lia)) as ((F1 & _) & (F2 & _) & _). destruct (M3 i ltac:(lia)) as [D1 _]. destruct (M4 j ltac:(lia)) as [D2 _].
  apply divisor_dvs in D1, D2.
  assert (Y : zero64 (@yeeE (B64 L) md hx hy (eE u) i j)).
  { unfold yeeE. apply zero64_add; apply zero64_mul; try assumption; [apply Z0|]. apply zero64_add; apply zero64_div; try assumption; apply zero64_sub; auto. }
  assert (W : zero64 (@addY (B64 L) m th md (memYl n th dx md hx (eYl u)) (memYh n m th dx md hx (eYh u)) (yeeE md hx hy (eE u)) i j)).
  { unfold addY. destruct (j <=? th); [|destruct (m - 1 - th <=? j); [|exact Y]]; apply zero64_sub; try exact Y; apply zero64_mul; first [assumption | apply A1 | apply A2 | apply A3 | apply A4]. }
  unfold addX. destruct (i <=? th); [|destruct (n - 1 - th <=? i); [|exact W]]; apply zero64_add; try exact W; apply zero64_mul; first [assumption | apply A1 | apply A2 | apply A3 | apply A4].
Qed.
Lemma next_h_zero (e : @cells (B64 L)) (u : @hmag (B64 L)) : z2 e -> z2 (hX u) -> z2 (hXl u) -> z2 (hXh u) -> z2 (hY u) -> z2 (hYl u) -> z2 (hYh u) ->
  let v := @next_h (B64 L) n m th dx md e u in z2 (hX v) /\ z2 (hXl v) /\ z2 (hXh v) /\ z2 (hY v) /\ z2 (hYl v) /\ z2 (hYh v).
Proof.
  intros Ze Z0 Z1 Z2 Z5 Z3 Z4. destruct Hm as (M1 & M2 & M3 & M4 & M5 & M6). cbv zeta. unfold next_h. cbn [hX hXl hXh hY hYl hYh].
  assert (A1 : z2 (@memHxl (B64 L) n th dx md e (hXl u))).
  { intros i j. unfold memHxl. destruct (_ && _) eqn:E; [|apply Z1]. rng. destruct (M6 j ltac:(lia)) as (_ & _ & (F1 & _) & (F2 & _)).
    apply recur_zero; [exact F1|exact F2|apply Z1|apply zero64_sub; apply Ze]. }
  assert (A2 : z2 (@memHxh (B64 L) n m th dx md e (hXh u))).
  { intros i j. unfold memHxh. destruct (_ && _) eqn:E; [|apply Z2]. rng. destruct (M6 j ltac:(lia)) as (_ & _ & (F1 & _) & (F2 & _)).
    apply recur_zero; [exact F1|exact F2|apply Z2|apply zero64_sub; apply Ze]. }
  assert (A3 : z2 (@memHyl (B64 L) m th dx md e (hYl u))).
  { intros i j. unfold memHyl. destruct (_ && _) eqn:E; [|apply Z3]. rng. destruct (M6 i ltac:(lia)) as ((F1 & _) & (F2 & _) & _).
    apply recur_zero; [exact F1|exact F2|apply Z3|apply zero64_sub; apply Ze]. }
  assert (A4 : z2 (@memHyh (B64 L) n m th dx md e (hYh u))).
  { intros i j. unfold memHyh. destruct (_ && _) eqn:E; [|apply Z4]. rng. destruct (M6 i ltac:(lia)) as ((F1 & _) & (F2 & _) & _).
    apply recur_zero; [exact F1|exact F2|apply Z4|apply zero64_sub; apply Ze]. }
  assert (B : z2 (fun i j => if core n m i j then addHx m th md (memHxl n th dx md e (hXl u)) (memHxh n m th dx md e (hXh u)) (yeeHx md e (hX u)) i j else hX u i j)).
  { intros i j. destruct (core n m i j) eqn:E; [|apply Z0]. unfold core in E. rng.
    destruct (M2 i j ltac:(lia) ltac:(lia)) as (_ & _ & (F1 & _) & (F2 & _)). destruct (M4 j ltac:(lia)) as [_ D2]. apply divisor_dvs in D2.
    assert (Y : zero64 (@yeeHx (B64 L) md e (hX u) i j)).
    { unfold yeeHx. apply zero64_sub; [apply zero64_mul; [exact F1|apply Z0]|]. apply zero64_div; [|exact D2]. apply zero64_mul; [exact F2|]. apply zero64_sub; apply Ze. }
    unfold addHx. destruct (j <? th); [|destruct (_ && _); [|exact Y]]; apply zero64_sub; try exact Y; apply zero64_mul; first [assumption | apply A1 | apply A2 | apply A3 | apply A4]. }
  assert (B' : z2 (fun i j => if core n m i j then addHy n th md (memHyl m th dx md e (hYl u)) (memHyh n m th dx md e (hYh u)) (yeeHy md e (hY u)) i j else hY u i j)).
  { intros i j. destruct (core n m i j) eqn:E; [|apply Z5]. unfold core in E. rng.
    destruct (M2 i j ltac:(lia) ltac:(lia)) as (_ & _ & (F1 & _) & (F2 & _)). destruct (M3 i ltac:(lia)) as [_ D2]. apply divisor_dvs in D2.
    assert (Y : zero64 (@yeeHy (B64 L) md e (hY u) i j)).
    { unfold yeeHy. apply zero64_add; [apply zero64_mul; [exact F1|apply Z5]|]. apply zero64_div; [|exact D2]. apply zero64_mul; [exact F2|]. apply zero64_sub; apply Ze. }
    unfold addHy. destruct (i <? th); [|destruct (_ && _); [|exact Y]]; apply zero64_add; try exact Y; apply zero64_mul; first [assumption | apply A1 | apply A2 | apply A3 | apply A4]. }
  auto 10.
Qed.
End Zero.

(** ** programs *)
Section Dusk.
Variable L : libm.
Hypothesis HL : loose_libm L.
Variables (Lx Ly rs : f64) (pml : Z) (g : @grid (B64 L)).
Hypotheses (Hrs : handy_resolution rs) (Hpml : 1 <= pml) (Hg : @mk_grid (B64 L) Lx Ly rs pml = Ok g) (Hap : apart g).

Lemma rs300 : resolution_within 300 rs. Proof. exact Hrs. Qed.
Notation a := 300.
Let Ha : 0 <= a <= 300. Proof. lia. Qed.

Record dusk (p : @phys (B64 L)) : Prop := Dusk {
  du_bg : ph_bg p = vacuum; du_objs : Forall (solid_obj L) (ph_objs p); du_C : tame_coefs L a (ph_C p);
  du_only : only_sources p; du_srcs : ph_srcs p = []; du_prev : ph_prevE p = None /\ ph_prev2E p = None;
  du_zero : every_cell (fun x : @T (B64 L) => zero64 (x : f64)) (e_of p, h_of p) }.

Lemma dusk_C c p : dusk p -> tame_coefs L a c -> dusk (set_ph_C c p).
Proof. intros [] H. constructor; assumption. Qed.
Lemma dusk_paint o p p' : ph_grid p = g -> solid_obj L o -> dusk p -> paint_phys o p = Ok p' -> dusk p' /\ ph_grid p' = g.
Proof.
  intros Hgr Ho Hs H. unfold paint_phys in H. apply bind_ok in H. destruct H as (c & Hc & H). injection H as <-. split; [|exact Hgr]. apply dusk_C; [exact Hs|].
  rewrite Hgr in Hc. exact (tame_paint L a Lx Ly rs pml g Ha rs300 Hg _ _ _ Ho (du_C _ Hs) Hc).
Qed.
Lemma dusk_fold l : Forall (solid_obj L) l -> forall p p', ph_grid p = g -> dusk p -> foldM repaint_one p l = Ok p' -> dusk p'.
Proof.
  induction 1 as [|o l Ho Hl IH]; intros p p' Hgr Hs H; cbn [foldM] in H; [injection H as <-; exact Hs|]. apply bind_ok in H. destruct H as (q & H1 & H). unfold repaint_one in H1.
  apply bind_ok in H1. destruct H1 as (r & H0 & H1). apply (dusk_paint _ _ _ Hgr Ho Hs) in H0. destruct H0 as [H0 Hg0].
  destruct Ho as (m & Em & _). unfold reinsert_material in H1. rewrite Em in H1. injection H1 as <-. now apply (IH r p').
Qed.
Lemma dusk_on_obj i h p : (forall o, o_mat (h o) = o_mat o) -> dusk p -> dusk (phys_on_obj i h p).
Proof.
  intros Hh Hs. unfold phys_on_obj. destruct (nth_error (ph_objs p) i) as [o|] eqn:E; [|exact Hs]. destruct (o_dyn o); [|exact Hs].
  destruct Hs. constructor; try assumption. cbn. clear - Hh E du_objs0. revert i E. induction du_objs0 as [|b l Hb Hl IH]; intros [|i] E; cbn in *; try discriminate; constructor; auto.
  injection E as ->. unfold solid_obj. rewrite Hh. exact Hb.
Qed.
Lemma dusk_medium s : dusk (f_ph s) -> reachable g s -> moderate_med a (g_Nx g) (g_Ny g) (g_pml g) (g_dx g) (med (f_ph s)).
Proof.
  intros Hs Hr. destruct (usable64 L HL Lx Ly rs pml g Hrs Hpml Hg Hap s Hr) as (U1 & U2 & U3 & U4).
  destruct (grid_nums L a Lx Ly rs pml g Ha rs300 Hg) as [(F & R1 & R2) _].
  assert (P := bpow_gt_0 radix2 (- a)). assert (W1 : (1 <= bpow radix2 a)%R) by (change 1%R with (bpow radix2 0); apply bpow_le; lia).
  assert (Dv : forall x : f64, is_finite x = true /\ B2R x = B2R (g_dx g : f64) -> divisor a x) by (intros x [_ E]; unfold divisor; rewrite E, Rabs_pos_eq; lra).
  assert (Dm : forall b c, damping b c -> moderate a b /\ moderate a c) by (intros b c (A & B & C & D & _); split; (split; [assumption|apply Rabs_le; lra])).
  destruct (du_C _ Hs) as (C1 & C2 & C3 & C4).
  split; [apply Dv; split; [exact F|reflexivity]|]. split; [intros i j _ _; split; [apply C1|]; split; [apply C2|]; split; [apply C3|apply C4]|].
  split; [intros i Hi; destruct (U3 i Hi); split; now apply Dv|]. split; [intros i Hi; destruct (U4 i Hi); split; now apply Dv|].
  split; intros d Hd; [destruct (U1 d Hd) as [X Y]|destruct (U2 d Hd) as [X Y]]; destruct (Dm _ _ X); destruct (Dm _ _ Y); auto.
Qed.
Lemma dusk_step s p' : dusk (f_ph s) -> reachable g s -> phys_step (f_ph s) = Fine p' -> dusk p'.
Proof.
  intros Hs Hr H. assert (Hm := dusk_medium s Hs Hr). destruct (reachable_good g s (apart_roomy g Hap) Hr) as [Hw Gp].
  set (p := f_ph s) in *. assert (Hap' : apart (ph_grid p)) by (rewrite Gp; exact Hap).
  destruct (sources_step p p' Hap' Hw (du_only _ Hs) H) as (Ls & FL & X1 & X2 & Ho & _). cbv zeta in X1, X2. rewrite (du_srcs _ Hs) in X1, X2. change (drive [] Ls (ph_t p) (g_dt (ph_grid p)) 0) with (@nil (@kick (B64 L))) in X1, X2.
  destruct (full_step p p' Hap' Hw H) as (E0 & E1 & E2 & E3 & Ls' & u & h & CW).
  assert (Hst := cw_static _ _ _ _ _ _ _ _ _ CW). apply static_eq in Hst. destruct Hst as (S1 & S2 & S3 & S4 & _).
  destruct (cw_prev _ _ _ _ _ _ _ _ _ CW) as [P1 P2]. destruct (du_prev _ Hs) as [Q1 Q2].
  assert (Hsr := cw_srcs _ _ _ _ _ _ _ _ _ CW). rewrite (du_srcs _ Hs) in Hsr. cbn in Hsr. apply map_eq_nil in Hsr.
  constructor; [rewrite S4; apply Hs|rewrite S3; apply Hs|rewrite S2; apply Hs|exact Ho|exact Hsr|rewrite P1, P2, Q1, Q2; split; reflexivity|].
  destruct (du_zero _ Hs) as [Ze Zh]. cbn [fst snd] in Ze, Zh. rewrite Gp in X1, X2.
  destruct (next_e_zero L a _ _ _ _ _ Hm (hX (h_of p)) (hY (h_of p)) (e_of p)) as (V1 & V2 & V3 & V4 & V5); try (intros i j; first [apply Ze | apply Zh]).
  set (e := next_e _ _ _ _ _ _ _ _) in *.
  destruct (next_h_zero L a _ _ _ _ _ Hm (eE e) (h_of p)) as (W1 & W2 & W3 & W4 & W5 & W6); try (intros i j; first [apply V1 | apply Zh]).
  unfold driven_step in X1, X2. cbv zeta in X1, X2. cbn [fst snd] in X1, X2. change (kicked (@nil (@kick (B64 L)))) with (fun (_ : comp) (x : @cells (B64 L)) => x) in X1, X2.
  destruct X1 as (Y1 & Y2 & Y3 & Y4 & Y5). destruct X2 as (Y6 & Y7 & Y8 & Y9 & Y10 & Y11).
  split; intros i j; cbn [fst snd].
  - rewrite Y1, Y2, Y3, Y4, Y5. exact (conj (V1 i j) (conj (V2 i j) (conj (V3 i j) (conj (V4 i j) (V5 i j))))).
  - rewrite Y6, Y7, Y8, Y9, Y10, Y11. exact (conj (W1 i j) (conj (W2 i j) (conj (W3 i j) (conj (W4 i j) (conj (W5 i j) (W6 i j)))))).
Qed.
Lemma dusk_exec c s s' : unlit_solid_cmd c -> reachable g s -> dusk (f_ph s) -> exec c s = Fine s' -> dusk (f_ph s').
Proof.
  intros Hc Hr Hs H0. destruct (reachable_good g s (apart_roomy g Hap) Hr) as [_ Gp].
  apply exec_phys in H0. revert H0. generalize (f_ph s'). intros p' H.
  destruct c; cbn [phys_exec unlit_solid_cmd] in *; try contradiction; repeat match goal with H : ok_out _ _ = Fine _ |- _ => apply ok_out_fine in H end;
    repeat match goal with H : Fine _ = Fine _ |- _ => injection H as <- end; try exact Hs; try (apply dusk_on_obj; [reflexivity|exact Hs]).
  - exact (dusk_step s p' Hs Hr H).
  - unfold update_material_grid in H. apply bind_ok in H. destruct H as (c & Hc' & H). rewrite Gp, (du_bg _ Hs) in Hc'.
    refine (dusk_fold _ (du_objs _ Hs) _ _ _ _ H); [exact Gp|]. apply dusk_C; [exact Hs|]. exact (tame_clear L a Lx Ly rs pml g Ha rs300 Hg _ _ (du_C _ Hs) Hc').
  - unfold phys_add_object in H. apply bind_ok in H. destruct H as (q & H1 & H). apply bind_ok in H. destruct H as (b & H2 & H). injection H as <-.
    apply (dusk_paint _ _ _ Gp Hc Hs) in H1. destruct H1 as [H1 _]. assert (Hc' := Hc). destruct Hc as (m & Em & _). unfold insert_material in H2. rewrite Em in H2. injection H2 as <-.
    destruct H1. constructor; try assumption. cbn. apply Forall_app. auto.
  - destruct Hs as [B1 O1 C1 (Y1 & Y2 & Y3 & Y4) S1 P1 [Ze Zh]]. unfold clear_fields_phys. constructor; cbn; try assumption.
    + unfold only_sources. cbn. rewrite Y1, Y2, Y3, Y4. auto.
    + split; intros i j; [destruct (Ze i j) as (_ & K)|destruct (Zh i j) as (_ & K1 & K2 & _ & K3)]; cbn in *; intuition; exact Logic.I.
  - unfold phys_clear_materials in H. apply bind_ok in H. destruct H as (c & Hc' & H). injection H as <-. rewrite Gp, (du_bg _ Hs) in Hc'.
    apply dusk_C; [exact Hs|]. exact (tame_clear L a Lx Ly rs pml g Ha rs300 Hg _ _ (du_C _ Hs) Hc').
Qed.
Lemma dusk_run l : Forall unlit_solid_cmd l -> forall s s', reachable g s -> dusk (f_ph s) -> run l s = Fine s' -> dusk (f_ph s').
Proof.
  induction 1 as [|c l Hc Hl IH]; intros s s' Hr Hs H; cbn [run] in H; [injection H as <-; exact Hs|]. apply obind_fine in H. destruct H as (s1 & H1 & H).
  apply (IH s1 s'); [|exact (dusk_exec c s s1 Hc Hr Hs H1)|exact H]. apply (run_reachable g s [c] s1 Hr). cbn [run]. rewrite H1. reflexivity.
Qed.
Lemma solid_dark name s0 l s : mk_field g name = Ok s0 -> Forall unlit_solid_cmd l -> run l s0 = Fine s -> all_dark (N := B64 L) zero64 (f_ph s).
Proof.
  intros E0 Hl H. assert (Hr : reachable g s0) by (exists name, s0, []; split; [exact E0|reflexivity]).
  assert (Hs := scene_start L a Lx Ly rs pml g Ha rs300 Hg name s0 E0).
  assert (D0 : dusk (f_ph s0)).
  { destruct Hs as [G1 T1 B1 O1 C1 Y1 D1]. constructor; try assumption.
    - clear - E0. unfold mk_field in E0. apply bind_ok in E0. destruct E0 as (p & Ep & H). destruct (String.eqb name ""); [discriminate|]. apply bind_ok in H. destruct H as (? & _ & H). apply bind_ok in H. destruct H as (? & _ & H). injection H as <-.
      cbn. unfold mk_phys in Ep. inv_ok. reflexivity.
    - clear - E0. unfold mk_field in E0. apply bind_ok in E0. destruct E0 as (p & Ep & H). destruct (String.eqb name ""); [discriminate|]. apply bind_ok in H. destruct H as (? & _ & H). apply bind_ok in H. destruct H as (? & _ & H). injection H as <-.
      cbn. unfold mk_phys in Ep. inv_ok. split; reflexivity.
    - rewrite D1. split; intros i j; cbn; repeat split. }
  destruct (dusk_run l Hl s0 s Hr D0 H) as [B1 O1 C1 (Y1 & Y2 & Y3 & Y4) S1 [P1 P2] [Ze Zh]]. cbn [fst snd] in Ze, Zh.
  unfold all_dark, nil2, nil_psi, nilo, nilP. rewrite P1, P2, Y1, Y2, Y3.
  split; [intros i j; apply Ze|]. split; [intros i j; apply Zh|]. split; [intros i j; apply Zh|].
  split; [repeat split; intros i j; first [apply Ze | apply Zh]|]. split; [discriminate|]. split; [discriminate|]. split; [intros ? ? ? []|]. split; intros ? ? ? [].
Qed.
End Dusk.
