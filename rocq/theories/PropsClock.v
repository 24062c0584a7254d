(** Clock, cadence, stop-watches and rejected calls: C26, C37, C38, C40, C41, C52, C53. *)
From Coq Require Import ZArith Reals List Bool String Lia Lra.
From Flocq Require Import Core.Core IEEE754.BinarySingleNaN.
From Verif Require Import Scalar Base BaseFacts VecM GridM GeometryM MaterialM PmlM DftM TfsfM PolarM
  InterpM H5M ClockM MonitorM FieldM Float SpecGrid GridFacts OutFacts PhysFacts
  WfFacts ReachFacts SpecSafety SafeFacts SpecClock ClockFacts H5Facts CadenceFacts EdgeFacts TimerFacts
  HalfFacts ExampleFacts ExampleSrc ExampleClock RejectFacts RaiseFacts RaiseCase SpecOutput OutputFacts.
Import ListNotations.
Local Open Scope Z_scope.

(** C26: whatever the calls, the step counter is the number of updates since the last
    clear_fields() *)
Theorem C26_step_count : forall (N : Num) g name s0 l s, mk_field g name = Ok s0 -> run l s0 = Fine s ->
  ph_step (f_ph s) = since_clear l.
Proof. exact @step_count. Qed.
Print Assumptions C26_step_count.
(** and t is that number of steps times dt, in real arithmetic *)
Theorem C26_time_real : let N := RNum in forall (g : grid) name s0 l s, mk_field g name = Ok s0 -> run l s0 = Fine s ->
  ph_t (f_ph s) = (IZR (since_clear l) * g_dt g)%R.
Proof. exact time_real. Qed.
Print Assumptions C26_time_real.
(** and in IEEE double arithmetic if the resolution is a power of two *)
Theorem C26_time_double : forall (L : libm) (Lx Ly rs : f64) pml (g : @grid (B64 L)) j name s0 l s,
  -900 <= j <= 900 -> B2R rs = bpow radix2 j ->
  mk_grid (N := B64 L) Lx Ly rs pml = Ok g -> mk_field g name = Ok s0 -> run l s0 = Fine s ->
  B2R (ph_t (f_ph s)) = (IZR (since_clear l) * B2R (g_dt g))%R /\ is_finite (ph_t (f_ph s)) = true.
Proof. exact time_f64_grid. Qed.
Print Assumptions C26_time_double.
(** the 2^31-th update overflows the counter *)
Theorem C26_overflow : forall (N : Num) g name s0 n, big_enough g -> mk_field g name = Ok s0 ->
  Z.of_nat n = 2147483648 -> run (repeat Update n) s0 = Undef IntOverflow.
Proof. exact @count_overflow. Qed.
Print Assumptions C26_overflow.
Example C26_case : let N := RNum in exists (g : grid) s0 s, big_enough g /\ mk_field g "out" = Ok s0 /\
  run [AddTimeMonitor probe; Update; Update] s0 = Fine s /\ since_clear [AddTimeMonitor probe; Update; Update] = 2.
Proof.
  destruct probe_run as (g & s0 & s1 & s2 & Hg & E0 & E1 & _ & _ & E2). exists g, s0, s2.
  split; [exact Hg|]. split; [exact E0|]. split; [|reflexivity].
  cbn [run obind] in E1 |- *. destruct (exec (AddTimeMonitor probe) s0); inv_fine. exact E2.
Qed.
Example C26_double_case : forall L : libm, exists (g : @grid (B64 L)) s0 (rs : f64),
  mk_grid (N := B64 L) (nofZ (Num := B64 L) 8) (nofZ (Num := B64 L) 8) rs 1 = Ok g /\ B2R rs = bpow radix2 1 /\
  mk_field g "out" = Ok s0 /\ g_Nx g = 16.
Proof. exact double_case. Qed.

(** C37: with period k, after any calls that contain n updates, each component of the monitor
    has floor(n/k) new records and the q-th of them is the sample taken at update q*k; with
    period 0 there are none *)
Theorem C37_cadence : forall (N : Num) i m k s0, 0 <= k <= 2147483647 -> NoDup (map tm_name (f_tmons s0)) ->
  nth_error (f_tmons s0) i = Some m -> tm_every m = mk_every k ->
  forall l s, Forall (leaves_tmon i) l -> run l s0 = Fine s ->
  forall c, asks (tm_fields m) c = true -> exists vs,
    data_rows (f_h5 s) ("fields/" ++ tm_name m ++ "/" ++ label c)%string =
      (data_rows (f_h5 s0) ("fields/" ++ tm_name m ++ "/" ++ label c)%string ++ vs)%list /\
    Z.of_nat (List.length vs) = (if k =? 0 then 0 else Z.of_nat (updates l) / k) /\
    forall q v, nth_error vs q = Some v -> exists l1 l2 sq, l = (l1 ++ Update :: l2)%list /\
      Z.of_nat (updates (l1 ++ [Update])) = (Z.of_nat q + 1) * k /\ run (l1 ++ [Update]) s0 = Fine sq /\
      tm_snapshot (ph_grid (f_ph sq)) (ph_F (f_ph sq)) (tm_shape_ m) c v.
Proof. exact @cadence_rows. Qed.
Print Assumptions C37_cadence.
Example C37_case : let N := RNum in exists (g : grid) s0 s1 s2, big_enough g /\ mk_field g "out" = Ok s0 /\
  run [AddTimeMonitor probe] s0 = Fine s1 /\ nth_error (f_tmons s1) 0 = Some probe /\
  NoDup (map tm_name (f_tmons s1)) /\ run [Update; Update] s1 = Fine s2.
Proof. exact probe_run. Qed.

(** C38 fails for k > 2^31: the period is converted to a negative int and the monitor writes
    every 2^32 - k updates; every(4294967295) writes at every update *)
Theorem C38_refuted : ~ (forall k, 1 <= k <= 4294967295 -> forall n,
  checks n (mk_every k) = Ok (map (fun i => Z.of_nat i mod k =? 0) (seq 1 n))).
Proof. intros H. specialize (H 4294967295 ltac:(lia) 1%nat). discriminate H. Qed.
Print Assumptions C38_refuted.
Theorem C38_big_periods_partial : forall k n, 2147483648 < k <= 4294967295 ->
  checks n (mk_every k) = Ok (map (fun i => Z.of_nat i mod (4294967296 - k) =? 0) (seq 1 n)).
Proof. exact checks_big. Qed.
Print Assumptions C38_big_periods_partial.
(** what holds: the documented behaviour for periods that fit in an int *)
Theorem C38_small_periods_partial : forall k n, 1 <= k <= 2147483647 ->
  checks n (mk_every k) = Ok (map (fun i => Z.of_nat i mod k =? 0) (seq 1 n)).
Proof. exact checks_every. Qed.
Print Assumptions C38_small_periods_partial.
(** at exactly 2^31 nothing is ever written, and update number 2^31 - 1 overflows the counter *)
Theorem C38_edge_partial : forall n, checks n (mk_every 2147483648) =
  if Z.of_nat n <? 2147483647 then Ok (repeat false n) else UB IntOverflow.
Proof. exact checks_int_min. Qed.
Print Assumptions C38_edge_partial.
Example C38_case : checks 6 (mk_every 3) = Ok [false; false; true; false; false; true] /\
  checks 3 (mk_every 4294967295) = Ok [true; true; true] /\
  checks 4 (mk_every 4294967294) = Ok [false; true; false; true].
Proof. repeat split. Qed.

(** C40: starting from a field at rest, no program raises a stop-watch error, and after a
    program that returns normally every stop-watch except the total is stopped *)
Theorem C40_timers : forall (N : Num) l s, at_rest s ->
  (forall s', run l s <> Raise RuntimeError s') /\ (forall s', run l s = Fine s' -> at_rest s').
Proof. exact @run_timers. Qed.
Print Assumptions C40_timers.
Example C40_case : let N := RNum in exists (g : grid) s0 s, big_enough g /\ mk_field g "out" = Ok s0 /\ at_rest s0 /\
  run [AddSource lamp; AddSource wire] s0 = Fine s /\ (exists s', run (repeat Update 1000) s = Fine s').
Proof.
  destruct source_run as (g & s0 & s & Eg & Hok & Hg & E0 & Er & Hr & Hi & Hst & Hm & Htm & Hs & _).
  exists g, s0, s. repeat (split; [assumption|]). split.
  { unfold mk_field in E0. destruct (mk_phys g); [|discriminate..]. cbn [bind String.eqb] in E0. inv_ok. reflexivity. }
  split; [exact Er|]. destruct (update_safe g s 1000 Hg Hr Hi Hst Hm Htm) as (s' & E & _); [rewrite Hs; unfold INT_MIN, INT_MAX; lia..|eauto].
Qed.

(** C41 fails: on every new field, write_field(Ez) works, write_field(E) is rejected, and
    write_field(Ez) afterwards raises the stop-watch error *)
Theorem C41_write_refuted : forall (N : Num) g name s c, big_enough g -> mk_field g name = Ok s ->
  c = CE \/ c = CH \/ c = Call ->
  exists s1 s2, write_field Ez s = Fine s1 /\ write_field c s = Raise InvalidArgument s2 /\
    write_field Ez s2 = Raise RuntimeError s2.
Proof. exact @rejected_write. Qed.
Print Assumptions C41_write_refuted.
(** an update rejected because of a source on a component selection: every later update raises
    the stop-watch error *)
Theorem C41_update_refuted : forall (N : Num) g s r rest q ip, big_enough g -> reachable g s -> at_rest s ->
  ph_tfsf (f_ph s) = None -> INT_MIN <= ph_step (f_ph s) -> ph_step (f_ph s) + 1 < INT_MAX ->
  ph_srcs (f_ph s) = r :: rest -> (sr_c r = CE \/ sr_c r = CH \/ sr_c r = Call) -> sr_kind r = SPoint q -> to_grid g q = Ok ip ->
  exists s1 s2, update s = Raise InvalidArgument s1 /\ update s1 = Raise RuntimeError s2.
Proof. exact @bad_source_twice. Qed.
Print Assumptions C41_update_refuted.
Example C41_case : let N := RNum in exists (g : grid) s0 s, big_enough g /\ mk_field g "out" = Ok s0 /\
  run [AddSource blunder] s0 = Fine s /\ reachable g s /\ at_rest s /\ ph_tfsf (f_ph s) = None /\
  ph_step (f_ph s) = 0 /\ ph_srcs (f_ph s) = [blunder] /\ to_grid g (3, 3)%R = Ok (3, 3).
Proof. exact blunder_run. Qed.
(** what holds: a rejected write_field changes neither the physics, the monitors, the objects
    nor any record of the file *)
Theorem C41_write_frame_partial : forall (N : Num) c s s' e, write_field c s = Raise e s' ->
  f_ph s' = f_ph s /\ f_mons s' = f_mons s /\ f_tmons s' = f_tmons s /\ f_mats s' = f_mats s /\
  (c = CE \/ c = CH \/ c = Call -> forall p, data_rows (f_h5 s') p = data_rows (f_h5 s) p).
Proof. exact @rejected_write_frame. Qed.
Print Assumptions C41_write_frame_partial.

(** what holds of an update that raises: materials, objects and coefficients stay; if the exception came before the
    time monitors, so do the file and the time monitors, but a stop-watch runs on; if it came from a time monitor,
    the step is complete, as in a field without time monitors, and the stop-watches are at rest *)
Theorem C41_update_frame_partial : forall (N : Num) s e s', at_rest s -> update s = Raise e s' ->
  f_mats s' = f_mats s /\ ph_grid (f_ph s') = ph_grid (f_ph s) /\ ph_C (f_ph s') = ph_C (f_ph s) /\ ph_objs (f_ph s') = ph_objs (f_ph s) /\
  ((~ at_rest s' /\ f_h5 s' = f_h5 s /\ f_tmons s' = f_tmons s) \/
   (at_rest s' /\ exists s1, update (set_f_tmons [] s) = Fine s1 /\ f_ph s' = f_ph s1 /\ f_mons s' = f_mons s1)).
Proof. exact @update_raised. Qed.
Print Assumptions C41_update_frame_partial.
Example C41_update_frame_case : let N := RNum in exists (g : grid) s0 s1 s2, mk_field g "out" = Ok s0 /\ run [AddTimeMonitor view1; AddTimeMonitor view2] s0 = Fine s1 /\ at_rest s1 /\
  update s1 = Raise H5Error s2 /\ at_rest s2 /\ ph_step (f_ph s2) = 1%Z.
Proof. exact view_case. Qed.

(** C52 fails: the default file name dereferences a null pointer on every grid *)
Theorem C52_empty_refuted : forall (N : Num) g, big_enough g -> mk_field g "" = UB NullDeref.
Proof. exact @empty_filename. Qed.
Print Assumptions C52_empty_refuted.
Theorem C52_named_partial : forall (N : Num) g name, big_enough g -> name <> ""%string ->
  exists s, mk_field g name = Ok s /\ reachable g s.
Proof. exact @nonempty_filename. Qed.
Print Assumptions C52_named_partial.
Example C52_case : let N := RNum in exists g : grid, mk_grid 8%R 8%R 1%R 1 = Ok g /\ big_enough g /\ mk_field g "" = UB NullDeref.
Proof.
  destruct grid8 as (g & Eg & Hok & Nx & Ny & Hdx & HLx & HLy & Hp). exists g. split; [exact Eg|].
  assert (Hr : big_enough g) by (unfold big_enough; lia). split; [exact Hr|]. now apply empty_filename.
Qed.

(** C53 fails: the first update with a point monitor on a new field reads through a dangling
    reference, and no update with a point monitor on board ever completes *)
Theorem C53_first_refuted : forall (N : Num) g name s0 m0 s1, big_enough g -> mk_field g name = Ok s0 ->
  cart_keys (pm_kind m0) <> [] -> (d_t (pm_dft m0) =? 0 + g_dt g)%num = false ->
  add_monitor (MPt m0) s0 = Fine s1 -> update s1 = Undef DanglingRef.
Proof. exact @point_monitor_first. Qed.
Print Assumptions C53_first_refuted.
Theorem C53_never_refuted : forall (N : Num) g m0 m s, cart_keys (pm_kind m0) <> [] -> mon_attach g (MPt m0) = Ok m ->
  In m (f_mons s) -> (d_t (pm_dft m0) =? ph_t (f_ph s) + g_dt (ph_grid (f_ph s)))%num = false ->
  forall s', update s <> Fine s'.
Proof. exact @point_monitor_update. Qed.
Print Assumptions C53_never_refuted.
Example C53_case : let N := RNum in exists (g : grid) s0 s1, big_enough g /\ mk_field g "out" = Ok s0 /\
  cart_keys (pm_kind pin) <> [] /\ (d_t (pm_dft pin) =? 0 + g_dt g)%num = false /\ add_monitor (MPt pin) s0 = Fine s1.
Proof. exact pin_run. Qed.
