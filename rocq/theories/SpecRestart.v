(** What clear_fields() leaves behind (any arithmetic). *)
From Coq Require Import ZArith List.
From Verif Require Import Scalar Base VecM GridM GeometryM MaterialM PmlM DftM TfsfM PolarM InterpM H5M ClockM MonitorM FieldM.
Import ListNotations.

Section Restart.
Context {N : Num}.
Definition blank (a : tensor) : Prop := forall i j, tval a i j = 0%num.
Definition blank_memory (s : pml_psi) : Prop :=
  (blank (Ezx1 s) /\ blank (Ezx2 s) /\ blank (Ezy1 s) /\ blank (Ezy2 s)) /\
  (blank (Hxy1 s) /\ blank (Hxy2 s) /\ blank (Hyx1 s) /\ blank (Hyx2 s)).
(** the PML remembers nothing and, when there are Lorentz media (the only users of the copy of
    Ez before last), the last copy of Ez is zero *)
Definition nothing_left (p : phys) : Prop :=
  blank_memory (p_psi (ph_pml p)) /\ (ph_prev2E p = None \/ forall e, ph_prevE p = Some e -> blank e).
(** the call that makes the total-field source of a field anew *)
Definition same_tfsf (o : option tfsf) (l : list cmd) : Prop :=
  match o with
  | None => l = []
  | Some q => exists tp, l = [SetTfsf (q_vol q) tp] /\ tp_shape tp = tp_shape (q_tp q)
  end.
End Restart.
