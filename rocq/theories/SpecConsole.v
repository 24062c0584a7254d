(** What a run should print (C82). *)
From Coq Require Import ZArith String List Bool.
From Verif Require Import Scalar Base FieldM SpecClock ConsoleM.
Import ListNotations.
Local Open Scope Z_scope.

Section S.
Context {N : Num}.
(** call number k of the program is an update that completes a hundred since the last clear_fields() *)
Definition hundredth (l : list cmd) (k : nat) : list line :=
  match nth_error l k with
  | Some Update => let n := since_clear (firstn (S k) l) in if n mod 100 =? 0 then [OnStep n] else []
  | _ => []
  end.
(** the lines of a program, in order *)
Definition progress (l : list cmd) : list line := concat (map (hundredth l) (seq 0 (length l))).
(** the number shown beside a label *)
Definition shows (ls : list line) (label : string) (v : T) (unit : string) : Prop :=
  In (Value label v unit) ls /\ forall w u, In (Value label w u) ls -> w = v /\ u = unit.
End S.
