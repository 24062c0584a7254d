(** C82: what a run prints. *)
From Coq Require Import ZArith Reals String List Bool Lia Lra.
From Verif Require Import Scalar Base BaseFacts VecM GridM GeometryM MaterialM PmlM DftM TfsfM PolarM InterpM H5M ClockM MonitorM
  FieldM SpecGrid GridFacts SpecClock ConsoleM SpecConsole ConsoleFacts ExampleFacts ExampleSrc WaveRun.
Import ListNotations.
Local Open Scope Z_scope.

(** the progress line is printed by exactly the updates that complete a hundred since the last clear_fields(), in order *)
Theorem C82_progress_partial : forall (N : Num) g name s0 l s, mk_field g name = Ok s0 -> run l s0 = Fine s -> console l s0 = progress l.
Proof. exact @progress_lines. Qed.
Print Assumptions C82_progress_partial.
(** n updates in a row print the multiples of 100 up to n *)
Theorem C82_hundreds_partial : forall (N : Num) g name s0 n s, mk_field g name = Ok s0 -> run (repeat Update n) s0 = Fine s ->
  console (repeat Update n) s0 = map (fun k => OnStep (100 * Z.of_nat k)) (seq 1 (n / 100)).
Proof. intros N g name s0 n s E H. rewrite <- (progress_repeat [] n (Forall_nil _)). eapply progress_lines; eauto. Qed.
Print Assumptions C82_hundreds_partial.

Local Open Scope R_scope.
#[local] Existing Instance RNum.
(** a run that prints nine lines *)
Example C82_case : exists (g : grid) s0 s, mk_field g "out" = Ok s0 /\
  run ([AddSource lamp; AddSource wire] ++ repeat Update 950) s0 = Fine s /\
  console ([AddSource lamp; AddSource wire] ++ repeat Update 950) s0 = map (fun k => OnStep (100 * Z.of_nat k)%Z) (seq 1 9).
Proof.
  destruct (wave_run 950) as (g & s0 & s & _ & _ & _ & E0 & E & _); [apply PeanoNat.Nat.ltb_lt; reflexivity|].
  exists g, s0, s. split; [exact E0|]. split; [exact E|]. rewrite (progress_lines g "out"%string s0 _ s E0 E). apply (progress_repeat _ 950).
  repeat constructor.
Qed.
(** the constructor shows the cell size, the time step and the requested size rounded up to whole cells *)
Theorem C82_info_partial : forall Lx Ly rs pml (g : grid) name, 0 < Lx -> 0 < Ly -> 0 < rs -> mk_grid Lx Ly rs pml = Ok g ->
  exists x y, shows (greeting g name) "dx" (1 / rs) "m" /\ shows (greeting g name) "dt" (1 / rs / 2) "s" /\
  shows (greeting g name) "Lx" x "m" /\ shows (greeting g name) "Ly" y "m" /\ (Lx <= x < Lx + 1 / rs) /\ (Ly <= y < Ly + 1 / rs).
Proof.
  intros Lx Ly rs pml g name H1 H2 H3 H. destruct (shown_size Lx Ly rs pml g H1 H2 H3 H) as (A & B & _).
  destruct (greeting_shows g name) as (S1 & S2 & S3 & S4).
  assert (D : g_dx g = 1 / rs /\ g_dt g = 1 / rs / 2) by (unfold mk_grid in H; inv_ok; split; reflexivity).
  destruct D as (D1 & D2). rewrite D1, D2 in *. do 2 eexists. split; [exact S1|]. split; [exact S2|].
  split; [exact S3|]. split; [exact S4|]. auto.
Qed.
Print Assumptions C82_info_partial.
Example C82_info_case : exists g : grid, mk_grid 8 8 1 1 = Ok g.
Proof. destruct grid8 as (g & E & _). exists g. exact E. Qed.

(** the size shown is never that of the grid (the length written to the file): it is one cell too long *)
Theorem C82_size_refuted : forall Lx Ly rs pml (g : grid) name x, 0 < Lx -> 0 < Ly -> 0 < rs -> mk_grid Lx Ly rs pml = Ok g ->
  (shows (greeting g name) "Lx" x "m" -> x = g_Lx g + g_dx g /\ x <> g_Lx g) /\
  (shows (greeting g name) "Ly" x "m" -> x = g_Ly g + g_dx g /\ x <> g_Ly g).
Proof.
  intros Lx Ly rs pml g name x H1 H2 H3 H. destruct (shown_size Lx Ly rs pml g H1 H2 H3 H) as (_ & _ & A & B & D).
  destruct (greeting_shows g name) as (_ & _ & (S3 & _) & (S4 & _)).
  split; intros (_ & U); [destruct (U _ _ S3) as (E & _)|destruct (U _ _ S4) as (E & _)]; rnum; rewrite <- E; lra.
Qed.
Print Assumptions C82_size_refuted.
