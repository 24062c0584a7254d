(** C83: in the Fourier sums of a run a medium answers with its permittivity. *)
From Coq Require Import ZArith Reals String List Bool Lia Lra.
From Verif Require Import Scalar Base VecM GridM GeometryM MaterialM PmlM DftM TfsfM PolarM InterpM H5M ClockM MonitorM NamesM FieldM ShippedM
  SpecGrid SpecGeometry GridFacts SpecPaint SpecSource SpecMedium SpecMaterial SpecMedia SpecRim SpecTrace SpecLoss CellFacts SpecFreq FreqFacts FreqCase.
Import ListNotations.
Local Open Scope R_scope.
#[local] Existing Instance RNum.

(** [tr n] is the simulation n updates after the program [l]; w is the phase per step.  The sum of
    the curl of H is that of the rate of change of permittivity times E, up to what the fields and
    currents still hold at the two ends of the run. *)
Theorem C83_response : forall g name s0 l i j mt (tr : nat -> field) N w, grid_ok g -> mk_field g name = Ok s0 ->
  (forall n, (n <= N)%nat -> run (l ++ repeat Update n) s0 = Fine (tr n)) ->
  forallb (fun c => negb (repositions c)) l = true -> ~ In ClearFields l ->
  Forall (fun o => SpecGeometry.shape_ok (o_geom o)) (added l) -> (forall o y, In o (added l) -> m_kind (o_mat o) <> KLorentz y) ->
  plain_medium (m_kind mt) -> point_of (added l) mt (g_dx g * IZR i, g_dx g * IZR j) ->
  (forall n, (n < N)%nat -> step_at g (tr n) (tr (S n)) i j) -> (0 < N)%nat -> 0 < w < PI ->
  let E n := Ez_at (f_ph (tr n)) i j in
  let J n := J_of (f_ph (tr n)) mt i j in
  let c n := curl_at (f_ph (tr n)) i j in
  let om := warped (g_dt g) w in
  cx_abs (cx_sub (half_spectrum w c N)
    (cx_mul (cx_mul (0, 2 * sin (w / 2) / g_dt g) (permittivity (m_kind mt) om)) (spectrum w E N)))
  <= leftover (m_kind mt) (g_dt g) om (Rabs (E O) + Rabs (E N)) (Rabs (J O) + Rabs (J N)).
Proof. exact response. Qed.
Print Assumptions C83_response.
Theorem C83_absorbs : forall k om, plain_medium k -> 0 < om -> snd (permittivity k om) <= 0.
Proof. exact permittivity_sign. Qed.
Print Assumptions C83_absorbs.
(** a rod of Debye material lit by a pulse, as in tests/mie.cpp, over any number of updates *)
Example C83_case : forall N, (Z.of_nat N < 2147483647)%Z -> exists g tp s0 (tr : nat -> field), grid_ok g /\ mk_field g "mie.h5" = Ok s0 /\
  (forall n, (n <= N)%nat -> run (rod_cmds tp ++ repeat Update n) s0 = Fine (tr n)) /\
  forallb (fun c => negb (repositions c)) (rod_cmds tp) = true /\ ~ In ClearFields (rod_cmds tp) /\
  Forall (fun o => SpecGeometry.shape_ok (o_geom o)) (added (rod_cmds tp)) /\
  (forall o y, In o (added (rod_cmds tp)) -> m_kind (o_mat o) <> KLorentz y) /\
  plain_medium (m_kind rod_glass) /\ point_of (added (rod_cmds tp)) rod_glass (g_dx g * IZR 120, g_dx g * IZR 120) /\
  (forall n, (n < N)%nat -> step_at g (tr n) (tr (S n)) 120 120).
Proof. exact freq_case. Qed.
