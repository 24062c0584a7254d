(** Waveforms, the values a driven source has emitted, and the incident plane wave where its
    spectrum is taken. *)
From Coq Require Import ZArith Reals List Bool.
From Verif Require Import Scalar Base VecM GridM DftM FieldM SpecDft SpecTfsf.
Import ListNotations.
Local Open Scope R_scope.

(** w oscillates with frequency f, starting at zero with slope 2 pi f *)
Definition oscillates (f : R) (w : R -> R) : Prop :=
  w 0 = 0 /\ exists w', w' 0 = 2 * PI * f /\
    (forall t, derivable_pt_lim w t (w' t)) /\ (forall t, derivable_pt_lim w' t (- (2 * PI * f) * (2 * PI * f) * w t)).
(** e is a bell of height one around t0; sig is its width in frequency *)
Definition bell (sig t0 : R) (e : R -> R) : Prop :=
  e t0 = 1 /\ forall t, derivable_pt_lim e t (- 2 * (2 * PI * sig) * (2 * PI * sig) * (t - t0) * e t).

(** the values of v at the n steps after t0, with their times *)
Definition stamped (t0 dt : R) (v : nat -> R) (n : nat) : list (R * R) :=
  map (fun m => (t0 + INR (S m) * dt, v (S m))) (seq 0 n).
(** the waveform at the n steps after t0 *)
Definition emitted (w : R -> R) (t0 dt : R) (n : nat) : list (R * R) :=
  stamped t0 dt (fun m => w (t0 + INR m * dt)) n.

(** the incident wave at cell 2 of its line, half a step before step n, when H is known at the
    edges on both sides of the cell and E one half step before and after *)
Section Line.
Variables (f : R -> R) (N : Z) (dt : R).
Definition line_E (n : nat) : R := (wE (incident f N dt n) 2 + wE (incident f N dt (n - 1)) 2) / 2.
Definition line_H (n : nat) : R := (wH (incident f N dt (n - 1)) 1 + wH (incident f N dt (n - 1)) 2) / 2.
End Line.
(** real part of z times the conjugate of w *)
Definition re_conj (z w : R * R) : R := fst z * fst w + snd z * snd w.

(** calls after which the incident wave goes on *)
Definition keeps_line {N : Num} (c : cmd) : bool := match c with ClearFields | SetTfsf _ _ => false | _ => true end.
(** calls after which the clock goes on *)
Definition keeps_clock {N : Num} (c : cmd) : bool := match c with ClearFields => false | _ => true end.
