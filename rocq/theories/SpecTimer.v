(** What a time report should say. *)
From Coq Require Import ZArith Reals List Bool String.
From Verif Require Import Scalar Base VecM GridM GeometryM MaterialM PmlM DftM TfsfM PolarM InterpM H5M ClockM MonitorM FieldM ReportM TimerM.
Import ListNotations.
Local Open Scope R_scope.
#[local] Existing Instance RNum.

(** the computer's clock never goes back *)
Definition forward (now : nat -> R) : Prop := forall n, now n <= now (S n).
(** a stretch of time measured by one stop-watch *)
Record stretch := Stretch { st_k : clock; st_a : R; st_b : R }.
(** one after the other between lo and hi *)
Fixpoint in_order (lo hi : R) (l : list stretch) : Prop :=
  match l with [] => lo <= hi | x :: l' => lo <= st_a x /\ st_a x <= st_b x /\ in_order (st_b x) hi l' end.
(** their time *)
Fixpoint time_of (k : clock) (l : list stretch) : R :=
  match l with [] => 0 | x :: l' => (if clock_eqb (st_k x) k then st_b x - st_a x else 0) + time_of k l' end.
Fixpoint time_all (l : list stretch) : R := match l with [] => 0 | x :: l' => st_b x - st_a x + time_all l' end.
(** the stretches that a call measures when nothing goes wrong: update() measures the electric half
    step, the Fourier transforms and the magnetic half step *)
Definition measures (c : call) : list clock :=
  match c with
  | Do Update => [Looping; Fourier; Looping]
  | Do (WriteField _) | Do WriteE | WriteMonitorCall => [Hdf5]
  | Do WriteH => [Hdf5; Hdf5]
  | _ => []
  end.
(** the report for the stretches l between lo and hi *)
Definition says (l : list stretch) (lo hi : R) (rep : list (string * R)) : Prop :=
  rep = [("Time Stepping", time_of Looping l); ("Fourier Transforming", time_of Fourier l); ("HDF5 Output", time_of Hdf5 l);
         ("Other", hi - lo - time_all l); ("Total", hi - lo)]%string.
(** outcome of a run without its stop-watches *)
Definition without (o : out timed) : out field :=
  match o with Fine x => Fine (td_f x) | Raise e x => Raise e (td_f x) | Undef u => Undef u end.
(** a new Field2D and its stop-watches *)
Definition started (now : nat -> R) (g : grid) (name : string) (x : timed) : Prop :=
  exists s, mk_field g name = Ok s /\ begin_timed now s = Ok x.
