(** Cells lying in objects of a single material. *)
From Coq Require Import ZArith Reals String List.
From Verif Require Import Scalar Base VecM GridM GeometryM MaterialM FieldM SpecGrid SpecGeometry SpecPaint.
Import ListNotations.
Local Open Scope R_scope.
#[local] Existing Instance RNum.

(** [pos] lies in an object of material [nm, k]; every object that contains it is of this
    material, and the name [nm] is not used for anything else *)
Definition only_in (os : list obj) (nm : string) (k : mat_kind) (pos : vec) : Prop :=
  exists o, In o os /\ o_mat o = Material nm k /\ in_obj o pos /\
    forall o', In o' os -> in_obj o' pos \/ m_name (o_mat o') = nm -> o_mat o' = Material nm k.
