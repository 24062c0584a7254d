(** Programs of simple materials without sources (C18). *)
From Verif Require Import Scalar VecM GeometryM MaterialM FieldM Float SpecWhole.

(** any calls, time steps included, that add no source, no total-field box and only simple materials
    with eps at least 1 and a conductivity that is not negative *)
Definition unlit_solid_cmd {L : libm} (c : @cmd (B64 L)) : Prop :=
  match c with
  | AddSource _ | SetTfsf _ _ => False
  | AddObject o => exists m, m_kind (o_mat o) = KSimple m /\ solid m
  | _ => True
  end.
