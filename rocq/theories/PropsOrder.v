(** C47: whole programs that list the poles of their materials in a different order. *)
From Coq Require Import ZArith Reals String List Permutation.
From Verif Require Import Scalar Base VecM GridM GeometryM MaterialM PmlM DftM TfsfM PolarM InterpM H5M ClockM MonitorM FieldM
  SpecOrder MediaCases OrderRun OrderCase.
Import ListNotations.
Local Open Scope R_scope.
#[local] Existing Instance RNum.

(** Full statement (false, see C47_order_refuted): with reordered_any, that is for Lorentz media
    too.  Debye and Drude media: every field cell and every monitor is the same after any program. *)
Theorem C47_order_partial : forall g name s0 l l' s s', mk_field g name = Ok s0 -> Forall2 (cmd_but reordered) l l' ->
  run l s0 = Fine s -> run l' s0 = Fine s' ->
  ph_F (f_ph s') = ph_F (f_ph s) /\ f_mons s' = f_mons s.
Proof. exact pole_order. Qed.
Print Assumptions C47_order_partial.
Theorem C47_order_refuted : ~ (forall g name s0 l l' s s', mk_field g name = Ok s0 -> Forall2 (cmd_but reordered_any) l l' ->
  run l s0 = Fine s -> run l' s0 = Fine s' -> ph_F (f_ph s') = ph_F (f_ph s)).
Proof. exact lorentz_order_fails. Qed.
Print Assumptions C47_order_refuted.

Example C47_order_case : forall n, (n < 40)%nat -> exists g s0 s s', mk_field g "out" = Ok s0 /\
  Forall2 (cmd_but reordered) (brick_cmds (KDebye mixed) ++ repeat Update n) (brick_cmds (KDebye mixed') ++ repeat Update n) /\
  run (brick_cmds (KDebye mixed) ++ repeat Update n) s0 = Fine s /\ run (brick_cmds (KDebye mixed') ++ repeat Update n) s0 = Fine s'.
Proof. exact debye_order_case. Qed.
