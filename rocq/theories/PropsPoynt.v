(** C84: the energy in any rectangle changes by what flows through its sides and by the heat. *)
From Coq Require Import ZArith Reals String List Bool Lia Lra.
From Verif Require Import Scalar Base VecM GridM GeometryM MaterialM PmlM DftM TfsfM PolarM InterpM H5M ClockM MonitorM NamesM FieldM ShippedM
  SpecGrid SpecGeometry GridFacts SpecPaint SpecSource SpecMedium SpecMaterial SpecMedia SpecRim SpecTrace SpecEnergy SpecLoss CellFacts SpecFreq FreqCase
  SpecPoynt PoyntFacts PoyntCase StepFacts SpecOutput SpecWork WorkFacts MirrorCase WorkCase.
Import ListNotations.
Local Open Scope R_scope.
#[local] Existing Instance RNum.

(** [tr n] is the simulation n updates after the program [l]; sources and the total-field box may act
    anywhere outside the rectangle [q]. *)
Theorem C84_balance : forall g name s0 l mat q (tr : nat -> field) N, grid_ok g -> mk_field g name = Ok s0 ->
  (forall n, (n <= S N)%nat -> run (l ++ repeat Update n) s0 = Fine (tr n)) ->
  forallb (fun c => negb (repositions c)) l = true -> ~ In ClearFields l ->
  Forall (fun o => SpecGeometry.shape_ok (o_geom o)) (added l) -> (forall o y, In o (added l) -> m_kind (o_mat o) <> KLorentz y) ->
  clear_rect g q ->
  (forall i j, inside q i j -> passive (m_kind (mat i j)) /\ point_of (added l) (mat i j) (g_dx g * IZR i, g_dx g * IZR j)) ->
  (forall i j n, inside q i j -> (n <= N)%nat -> calm g (tr n) (tr (S n)) i j) ->
  let st n := f_ph (tr n) in
  kept g mat q (st N) (st (S N)) = kept g mat q (st 0%nat) (st 1%nat)
  - g_dt g * rsum N (fun n => outflow g q (st (S n)) (st (S (S n))) + warming g mat q (st (S n)) (st (S (S n)))).
Proof. exact poynting. Qed.
Print Assumptions C84_balance.
Theorem C84_heat : forall g mat q p p', (forall i j, inside q i j -> passive (m_kind (mat i j))) -> 0 <= warming g mat q p p'.
Proof. exact warming_nonneg. Qed.
Print Assumptions C84_heat.
(** the rectangle holds the rod of Debye material of tests/mie.cpp and vacuum around it, inside the total-field box *)
Example C84_case : forall N, (Z.of_nat N < 2147483646)%Z -> exists g tp s0 (tr : nat -> field), grid_ok g /\ mk_field g "mie.h5" = Ok s0 /\
  (forall n, (n <= S N)%nat -> run (rod_cmds tp ++ repeat Update n) s0 = Fine (tr n)) /\
  forallb (fun c => negb (repositions c)) (rod_cmds tp) = true /\ ~ In ClearFields (rod_cmds tp) /\
  Forall (fun o => SpecGeometry.shape_ok (o_geom o)) (added (rod_cmds tp)) /\
  (forall o y, In o (added (rod_cmds tp)) -> m_kind (o_mat o) <> KLorentz y) /\
  clear_rect g rod_rect /\
  (forall i j, inside rod_rect i j -> passive (m_kind (rod_map i j)) /\
     point_of (added (rod_cmds tp)) (rod_map i j) (g_dx g * IZR i, g_dx g * IZR j)) /\
  (forall i j n, inside rod_rect i j -> (n <= N)%nat -> calm g (tr n) (tr (S n)) i j) /\
  rod_map 120 120 = rod_glass /\ inside rod_rect 120 120.
Proof. exact poynt_case. Qed.

(** with sources inside: they work on the electric field like the current that [as_current] gives, and on the
    magnetic field like a magnetic current *)
Theorem C84_driven : forall g name s0 l mat q (tr : nat -> field) Ls N, grid_ok g -> apart g -> mk_field g name = Ok s0 ->
  (forall n, (n <= S N)%nat -> run (l ++ repeat Update n) s0 = Fine (tr n)) ->
  forallb (fun c => negb (repositions c)) l = true -> ~ In ClearFields l ->
  Forall (fun o => SpecGeometry.shape_ok (o_geom o)) (added l) -> (forall o y, In o (added l) -> m_kind (o_mat o) <> KLorentz y) ->
  clear_rect g q -> Forall2 (fun r L => src_cells g (sr_kind r) L) (ph_srcs (f_ph (tr 0%nat))) Ls ->
  (forall i j, inside q i j -> passive (m_kind (mat i j)) /\ point_of (added l) (mat i j) (g_dx g * IZR i, g_dx g * IZR j)) ->
  (forall i j n, inside q i j -> (n <= N)%nat -> open_cell g (tr n) (tr (S n)) (mat i j) i j) ->
  let st n := f_ph (tr n) in let lamps := combine (ph_srcs (st 0%nat)) Ls in
  kept g mat q (st N) (st (S N)) = kept g mat q (st 0%nat) (st 1%nat)
  + g_dt g * rsum N (fun n => work g lamps mat q (st (S n)) (st (S (S n))) - outflow g q (st (S n)) (st (S (S n))) - warming g mat q (st (S n)) (st (S (S n)))).
Proof. exact driven. Qed.
Print Assumptions C84_driven.
(** a lamp in a rectangle of vacuum; at time 1 it adds 1 to Ez, like a current density 2 *)
Example C84_driven_case : forall N, (Z.of_nat N < 2147483646)%Z -> exists g s0 (tr : nat -> field), grid_ok g /\ apart g /\ mk_field g "out" = Ok s0 /\
  (forall n, (n <= S N)%nat -> run ([AddSource bright] ++ repeat Update n) s0 = Fine (tr n)) /\
  clear_rect g room /\ ph_srcs (f_ph (tr 0%nat)) = [bright] /\ Forall2 (fun r L => src_cells g (sr_kind r) L) (ph_srcs (f_ph (tr 0%nat))) [[(32, 32)%Z]] /\
  (forall i j, inside room i j -> passive (m_kind (air i j)) /\ point_of [] (air i j) (g_dx g * IZR i, g_dx g * IZR j)) /\
  (forall i j n, inside room i j -> (n <= N)%nat -> open_cell g (tr n) (tr (S n)) (air i j) i j) /\
  inside room 32 32 /\ as_current (g_dt g) (m_kind (air 32 32)) (supply 1 (combine [bright] [[(32, 32)%Z]]) Ez 32 32) = 2.
Proof. exact work_case. Qed.
