(** The rod of Debye material of RimCase.v, over any number of steps. *)
From Coq Require Import ZArith Reals Lra Lia String List Bool.
From Verif Require Import Scalar Base BaseFacts VecM GridM GeometryM MaterialM PmlM DftM TfsfM PolarM InterpM H5M ClockM MonitorM NamesM FieldM ReportM ShippedM
  SpecGrid SpecClock SpecSafety SpecLive SpecProgram GridFacts OutFacts PhysFacts ClockFacts WfFacts ReachFacts SafeFacts SpecGeometry GeometryFacts SpecPaint PaintFacts
  ProgFacts ShippedFacts PulseCase SpecStep StepFacts SpecSource SpecMedium SpecMedia MediaRun SpecMaterial SpecRim CellFacts ExampleFacts RimCase SpecFreq FreqFacts.
Import ListNotations.
Local Open Scope R_scope.
#[local] Existing Instance RNum.

Definition rod_cmds (tp : tprofile) : list cmd := [SetTfsf (around 60 60 65) tp; AddObject (rod "rod" "glass" glass)].
Definition rod_glass : material := Material "glass" glass.

Lemma freq_case N : (Z.of_nat N < 2147483647)%Z -> exists g tp s0 (tr : nat -> field), grid_ok g /\ mk_field g "mie.h5" = Ok s0 /\
  (forall n, (n <= N)%nat -> run (rod_cmds tp ++ repeat Update n) s0 = Fine (tr n)) /\
  forallb (fun c => negb (repositions c)) (rod_cmds tp) = true /\ ~ In ClearFields (rod_cmds tp) /\
  Forall (fun o => SpecGeometry.shape_ok (o_geom o)) (added (rod_cmds tp)) /\
  (forall o y, In o (added (rod_cmds tp)) -> m_kind (o_mat o) <> KLorentz y) /\
  plain_medium (m_kind rod_glass) /\ point_of (added (rod_cmds tp)) rod_glass (g_dx g * IZR 120, g_dx g * IZR 120) /\
  (forall n, (n < N)%nat -> step_at g (tr n) (tr (S n)) 120 120).
Proof.
  intros HN. destruct (shipped_grid_ok 8) as [g G]; [lia|]. destruct (tp_made (pulse 100 80) [1; 2]) as (tp & _ & _).
  destruct (mk_field_fresh g "mie.h5"%string (g_roomy _ _ G)) as (ph & _ & E0); [discriminate|]. set (s0 := Field ph [] [] [] (fresh_h5 g) mk_clocks) in *.
  exists g, tp, s0, (fun n => match run (lit_rod tp n) s0 with Fine s => s | _ => s0 end).
  assert (A : forall n, (n <= N)%nat -> exists s, run (lit_rod tp n) s0 = Fine s).
  { intros n Hn. destruct (rim_at g tp n G ltac:(lia) s0 E0) as (_ & s & s' & k & q & B & _). eauto. }
  destruct (rim_at g tp 0 G ltac:(lia) s0 E0) as (Ok1 & _ & _ & _ & _ & _ & _ & _ & _ & On & _). rewrite added_rod in On.
  split; [exact Ok1|]. split; [exact E0|]. split.
  { intros n Hn. destruct (A n Hn) as (s & B). change (rod_cmds tp ++ repeat Update n) with (lit_rod tp n). now rewrite B. }
  split; [reflexivity|]. split; [intros [K|[K|[]]]; discriminate|]. split; [constructor; [cbn; rnum; lra|constructor]|].
  split; [intros o y [<-|[]]; discriminate|]. split.
  { cbn. split; [lra|]. exists (DPole 1 1). cbn. split; [reflexivity|lra]. }
  split; [exact On|]. intros n Hn. destruct (rim_at g tp n G ltac:(lia) s0 E0) as (_ & s & s' & k & q & B & C & _ & D & _). now rewrite B, C.
Qed.
