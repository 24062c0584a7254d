(** What the program prints while it runs: src/field2.cpp:50-52, 107-119, 126-128.  A line is its text and numbers;
    colours, padding, carriage returns and the digits of the numbers are not modelled.  The last lines, printed when
    the field is destroyed, are [time_report] in TimerM.v. *)
From Coq Require Import ZArith String List Bool.
From Verif Require Import Scalar Base VecM GridM GeometryM MaterialM PmlM DftM TfsfM PolarM InterpM H5M ClockM MonitorM FieldM.
Import ListNotations.
Local Open Scope Z_scope.

Section Console.
Context {N : Num}.

(** one line, src/field2.cpp:50-52 (NewFile), 109 (GridData), 111-118 (Value), 127 (OnStep) *)
Inductive line := NewFile (name : string) | GridData | Value (label : string) (v : T) (unit : string) | OnStep (n : Z).

(** display_info, src/field2.cpp:107-119; Nx, Ny, dx, dt are the members copied from the grid (src/field2.cpp:26-29) *)
Definition display_info (g : grid) : list line :=
  [GridData; Value "dx" (g_dx g) "m"; Value "Lx" (g_dx g * nofZ (g_Nx g))%num "m";
   Value "Ly" (g_dx g * nofZ (g_Ny g))%num "m"; Value "dt" (g_dt g) "s"]%string.

(** Field2D::Field2D, src/field2.cpp:26-57: the file line (48-53) and display_info (56) *)
Definition greeting (g : grid) (filename : string) : list line :=
  (if String.eqb filename "" then [] else [NewFile filename]) ++ display_info g.

(** what one call prints: only update does, src/field2.cpp:123-128 (before anything in it can fail) *)
Definition prints (c : cmd) (s : field) : list line :=
  match c with
  | Update => let n := ph_step (f_ph s) + 1 in if Z.rem n 100 =? 0 then [OnStep n] else []
  | _ => []
  end.
(** what a program prints after the constructor, src/field2.cpp:122-128; it stops at an exception that is not caught *)
Fixpoint console (l : list cmd) (s : field) : list line :=
  match l with
  | [] => []
  | c :: l' => prints c s ++ match exec c s with Fine s' => console l' s' | _ => [] end
  end.
End Console.
