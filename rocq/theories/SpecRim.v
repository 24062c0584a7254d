(** The cells a total-field/scattered-field source corrects: the rows at both ends of its box for
    Ez, and the half cells just outside the four sides for Hx and Hy. *)
From Coq Require Import ZArith List.
From Verif Require Import Scalar TfsfM.
Local Open Scope Z_scope.

Section Rim.
Context {N : Num}.
Definition off_E (o : option tfsf) (i j : Z) : Prop :=
  match o with None => True | Some q => ~ (q_ia q <= i <= q_ib q /\ (j = q_ja q \/ j = q_jb q)) end.
Definition off_Hx (o : option tfsf) (i j : Z) : Prop :=
  match o with None => True | Some q => ~ (q_ia q <= i <= q_ib q /\ (j = q_ja q - 1 \/ j = q_jb q)) end.
Definition off_Hy (o : option tfsf) (i j : Z) : Prop :=
  match o with None => True | Some q => ~ (q_ja q <= j <= q_jb q /\ (i = q_ia q - 1 \/ i = q_ib q)) end.
Lemma off_none o i j : o = None -> off_E o i j. Proof. now intros ->. Qed.
End Rim.
