(** What the step counter, the clock, the time-monitor cadence and the rows of a dataset
    should be. *)
From Coq Require Import ZArith String List Bool.
From Verif Require Import Scalar Base VecM GridM DftM InterpM H5M ClockM MonitorM FieldM.
Import ListNotations.
Local Open Scope Z_scope.

(** a monitor of f records component c: E stands for Ez, H for Hx and Hy, All for the three *)
Definition asks (f c : comp) : bool :=
  match c, f with
  | Ez, (Ez | CE | Call) | Hx, (Hx | CH | Call) | Hy, (Hy | CH | Call) => true
  | _, _ => false
  end.
Definition asked (f : comp) : list comp := filter (asks f) [Ez; Hx; Hy].

Section SpecClock.
Context {N : Num}.

(** number of update() calls since the last clear_fields() *)
Definition since_clear (l : list cmd) : Z :=
  fold_left (fun n c => match c with Update => n + 1 | ClearFields => 0 | _ => n end) l 0.

(** the successive answers of check_repeat *)
Fixpoint checks (n : nat) (e : every) : res (list bool) :=
  match n with
  | O => Ok []
  | S n' => '(b, e) <- check_repeat e ;; l <- checks n' e ;; Ok (b :: l)
  end.

(** records of the dataset at path p (none if there is no such dataset) *)
Definition data_rows (f : h5) (p : string) : list payload :=
  match slookup p f with Some (HData _ r) => r | _ => [] end.

(** number of update() calls *)
Definition updates (l : list cmd) : nat :=
  length (filter (fun c => match c with Update => true | _ => false end) l).

(** calls other than an explicit write of time monitor i or the creation of another time monitor *)
Definition leaves_tmon (i : nat) (c : cmd) : Prop :=
  match c with WriteTimeMonitor j => j <> i | AddTimeMonitor _ => False | _ => True end.

(** every stop-watch except the total is stopped *)
Definition at_rest (s : field) : Prop := f_clk s = Clocks false false false true.

End SpecClock.
