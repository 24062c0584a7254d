(** A rectangle around the rod of RimCase.v, inside the total-field box. *)
From Coq Require Import ZArith Reals Lra Lia String List Bool Psatz.
From Verif Require Import Scalar Base BaseFacts VecM GridM GeometryM MaterialM PmlM DftM TfsfM PolarM InterpM H5M ClockM MonitorM NamesM FieldM ReportM ShippedM
  SpecGrid SpecClock SpecSafety SpecLive SpecProgram GridFacts OutFacts PhysFacts ClockFacts WfFacts ReachFacts SafeFacts SpecGeometry GeometryFacts SpecPaint PaintFacts
  ProgFacts ShippedFacts PulseCase SpecStep StepFacts SpecSource SpecMedium SpecMedia MediaRun SpecMaterial SpecRim CellFacts ExampleFacts RimCase SpecFreq FreqFacts FreqCase
  SpecPoynt.
Import ListNotations.
Local Open Scope R_scope.
#[local] Existing Instance RNum.

Definition rod_rect : rect := Rect 60 180 60 180.
Definition in_rod (i j : Z) : bool := ((i - 120) * (i - 120) + (j - 120) * (j - 120) <? 1600)%Z.
Definition rod_map (i j : Z) : material := if in_rod i j then rod_glass else Material "vacuum" vacuum.

Lemma rod_obj (g : grid) i j : g_dx g = / 2 -> (in_obj (rod "rod" "glass" glass) (g_dx g * IZR i, g_dx g * IZR j) <-> in_rod i j = true).
Proof.
  intros Hd. unfold in_rod. rewrite Z.ltb_lt. set (x := (i - 120)%Z). set (y := (j - 120)%Z).
  assert (K : (x * x + y * y < 1600)%Z <-> IZR x / 2 * (IZR x / 2) + IZR y / 2 * (IZR y / 2) < 20 * 20).
  { split; intros H.
    - apply IZR_lt in H. rewrite plus_IZR, !mult_IZR in H. lra.
    - apply lt_IZR. rewrite plus_IZR, !mult_IZR. lra. }
  rewrite K. unfold in_obj, rod, in_placed. cbn [o_geom o_pos o_theta in_shape]. rewrite Hd.
  assert (X : IZR x / 2 = / 2 * IZR i - 60) by (unfold x; rewrite minus_IZR; lra).
  assert (Y : IZR y / 2 = / 2 * IZR j - 60) by (unfold y; rewrite minus_IZR; lra).
  split.
  - intros ([u v] & H & E). unfold rot, vadd, point in E. cbn [fst snd] in *. rnum. change (@T RNum) with R in *. rewrite cos_0, sin_0 in E.
    assert (E1 := f_equal fst E). assert (E2 := f_equal snd E). cbn [fst snd] in E1, E2.
    replace (IZR x / 2) with u by lra. replace (IZR y / 2) with v by lra. exact H.
  - intros H. exists (IZR x / 2, IZR y / 2). cbn [fst snd]. split; [exact H|].
    unfold rot, vadd, point. cbn [fst snd]. rnum. rewrite cos_0, sin_0. change (@T RNum) with R. apply injective_projections; cbn [fst snd]; lra.
Qed.

Lemma poynt_case N : (Z.of_nat N < 2147483646)%Z -> exists g tp s0 (tr : nat -> field), grid_ok g /\ mk_field g "mie.h5" = Ok s0 /\
  (forall n, (n <= S N)%nat -> run (rod_cmds tp ++ repeat Update n) s0 = Fine (tr n)) /\
  forallb (fun c => negb (repositions c)) (rod_cmds tp) = true /\ ~ In ClearFields (rod_cmds tp) /\
  Forall (fun o => SpecGeometry.shape_ok (o_geom o)) (added (rod_cmds tp)) /\
  (forall o y, In o (added (rod_cmds tp)) -> m_kind (o_mat o) <> KLorentz y) /\
  clear_rect g rod_rect /\
  (forall i j, inside rod_rect i j -> passive (m_kind (rod_map i j)) /\
     point_of (added (rod_cmds tp)) (rod_map i j) (g_dx g * IZR i, g_dx g * IZR j)) /\
  (forall i j n, inside rod_rect i j -> (n <= N)%nat -> calm g (tr n) (tr (S n)) i j) /\
  rod_map 120 120 = rod_glass /\ inside rod_rect 120 120.
Proof.
  intros HN. destruct (shipped_grid_ok 8) as [g G]; [lia|]. destruct (tp_made (pulse 100 80) [1; 2]) as (tp & _ & _).
  destruct (mk_field_fresh g "mie.h5"%string (g_roomy _ _ G)) as (ph & _ & E0); [discriminate|]. set (s0 := Field ph [] [] [] (fresh_h5 g) mk_clocks) in *.
  exists g, tp, s0, (fun n => match run (lit_rod tp n) s0 with Fine s => s | _ => s0 end).
  assert (A : forall n, (n <= S N)%nat -> exists s, run (lit_rod tp n) s0 = Fine s).
  { intros n Hn. destruct (rim_at g tp n G ltac:(lia) s0 E0) as (_ & s & s' & k & q & B & _). eauto. }
  destruct (rim_at g tp 0 G ltac:(lia) s0 E0) as (Ok1 & _).
  assert (Hd : g_dx g = / 2) by apply G.
  split; [exact Ok1|]. split; [exact E0|]. split.
  { intros n Hn. destruct (A n Hn) as (s & B). change (rod_cmds tp ++ repeat Update n) with (lit_rod tp n). now rewrite B. }
  split; [reflexivity|]. split; [intros [K|[K|[]]]; discriminate|]. split; [constructor; [cbn; rnum; lra|constructor]|].
  split; [intros o y [<-|[]]; discriminate|]. split.
  { unfold clear_rect. rewrite (g_n1 _ _ G), (g_n2 _ _ G), (g_layer _ _ G). cbn. lia. }
  split.
  { intros i j _. unfold rod_map. change (added (rod_cmds tp)) with [rod "rod" "glass" glass]. assert (K := rod_obj g i j Hd). destruct (in_rod i j) eqn:E.
    - split; [cbn; split; [lra|exists (DPole 1 1); cbn; split; [reflexivity|lra]]|].
      exists (rod "rod" "glass" glass). split; [now left|]. split; [reflexivity|]. split; [now apply K|]. intros o' [<-|[]] _. reflexivity.
    - assert (No : ~ in_obj (rod "rod" "glass" glass) (g_dx g * IZR i, g_dx g * IZR j)) by (intros H; apply K in H; discriminate).
      split; [cbn; rnum; lra|]. split.
      + right. split; [|reflexivity]. intros o [<-|[]]. exact No.
      + intros o [<-|[]] H. now destruct No. }
  split; [|split; [reflexivity|unfold inside; cbn; lia]].
  intros i j n [Hi Hj] Hn. cbn in Hi, Hj. destruct (rim_at g tp n G ltac:(lia) s0 E0) as (_ & s & s' & k & q & B & C & _ & D & _). rewrite B, C.
  destruct (rim_box g tp n s0 s G E0 B) as [Bx Sx]. destruct D as [Ap Re _ Up _ _ Dt _].
  destruct (ph_tfsf (f_ph s)) as [w|] eqn:Eq; [|discriminate]. cbn in Bx. injection Bx as B1 B2 B3 B4.
  constructor; rewrite ?Eq, ?Sx; try (intros ? ? []).
  - constructor; try assumption; try (rewrite ?(g_n1 _ _ G), ?(g_n2 _ _ G); lia).
    + rewrite Eq. cbn. rewrite B3, B4. lia.
    + rewrite Sx. intros r L [].
  - cbn. rewrite B3, B4. lia.
  - cbn. rewrite B1, B2. lia.
Qed.
