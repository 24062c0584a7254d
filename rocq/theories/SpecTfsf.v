(** A plane wave on a one-dimensional line of N cells, by the leap-frog scheme with Courant number
    one half: cell 1 is driven with the waveform, and each end repeats what its neighbour had two
    steps earlier.  Also: the fields of a box lit by that wave. *)
From Coq Require Import ZArith Reals List Bool.
From Verif Require Import Scalar Base VecM GridM DftM FieldM SpecStep.
Import ListNotations.
Local Open Scope Z_scope.

Record wave := Wave { wE : Z -> R; wH : Z -> R }.
Definition still : wave := Wave (fun _ => 0%R) (fun _ => 0%R).

Section Line.
Variables (f : R -> R) (N : Z) (dt : R).
(** the next step from this one and the one before *)
Definition advance (t : R) (now before : wave) : wave :=
  let e k := if k =? 1 then f t
             else if k =? 0 then wE before 1
             else if k =? N - 1 then wE before (N - 2)
             else (wE now k + / 2 * (wH now (k - 1)%Z - wH now k))%R in
  Wave e (fun k => wH now k + / 2 * (e k - e (k + 1)%Z))%R.
Fixpoint history (n : nat) : wave * wave :=
  match n with
  | O => (still, still)
  | S m => let '(now, before) := history m in (advance (INR (S m) * dt) now before, now)
  end.
Definition incident (n : nat) : wave := fst (history n).
End Line.

(** the wave travels towards higher j; row ja of the box is cell 3 of the line *)
Definition in_box_E (ia ib ja jb i j : Z) : bool := (ia <=? i) && (i <=? ib) && (ja <=? j) && (j <=? jb).
Definition in_box_H (ia ib ja jb i j : Z) : bool := (ia <=? i) && (i <=? ib) && (ja <=? j) && (j <? jb).
Definition lit_box (ia ib ja jb : Z) (w : wave) (ez hx hy : Z -> Z -> R) : Prop :=
  forall i j,
    ez i j = (if in_box_E ia ib ja jb i j then wE w (j - ja + 3) else 0%R) /\
    hx i j = (if in_box_H ia ib ja jb i j then wH w (j - ja + 3) else 0%R) /\
    hy i j = 0%R.

(** the box, lower left corner first, keeps off the absorbing layers *)
Definition clear_of_pml {N : Num} (g : grid) (ia ib ja jb : Z) : Prop :=
  g_pml g < ia /\ ia <= ib /\ ib < g_Nx g - 1 - g_pml g /\ g_pml g < ja /\ ja <= jb /\ jb < g_Ny g - 1 - g_pml g.

(** calls that neither drive the field nor change the medium *)
Definition watching {N : Num} (c : cmd) : bool :=
  match c with
  | Update | AddMonitor _ | AddTimeMonitor _ | RemoveMonitors | WriteField _ | WriteE | WriteH
  | WriteMonitor _ | WriteTimeMonitor _ | WriteCurrent _ | GetBoxMonitor _ _ _ _ => true
  | _ => false
  end.
Definition is_update {N : Num} (c : cmd) : bool := match c with Update => true | _ => false end.
Definition updates {N : Num} (l : list cmd) : nat := length (filter is_update l).
