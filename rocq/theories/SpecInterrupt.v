(** What a call writes, in order, and what is left when an exception ends it. *)
From Coq Require Import ZArith String List Bool.
From Verif Require Import Scalar Base VecM GridM GeometryM MaterialM PmlM DftM TfsfM PolarM
  InterpM H5M ClockM MonitorM FieldM ReportM SpecFile.
Import ListNotations.

Section SpecInterrupt.
Context {N : Num}.

(** a dataset: whether it can grow, and its rows *)
Definition datum (f : h5) (p : string) : option (bool * list payload) :=
  match slookup p f with Some (HData x rows) => Some (x, rows) | _ => None end.
(** the second file has the datasets of the first, unchanged, the given ones, which the first has not, and no others *)
Definition adds (f : h5) (l : list record) (f' : h5) : Prop :=
  NoDup (map where_ l) /\
  (forall p x v, In (p, x, v) l -> slookup p f = None /\ datum f' p = Some (x, [v])) /\
  (forall p, ~ In p (map where_ l) -> datum f' p = datum f p).

(** all a call writes, in order; an object whose material is new to the field brings the material's parameters *)
Definition writes (s : field) (c : call) : list record :=
  match c with
  | Do (AddObject o) => (if existsb (String.eqb (m_name (o_mat o))) (f_mats s) then [] else material_record (o_mat o)) ++ object_record o
  | _ => recorded c ++ result_at s c
  end.
(** the calls other than the update and those that add a row to a table of rows, and get_box_monitor,
    which adds the box monitor it makes *)
Definition lasting (c : call) : Prop :=
  match c with
  | Do Update | Do (WriteField _) | Do WriteE | Do WriteH | Do (WriteTimeMonitor _) | Do (WriteCurrent _) | Do (GetBoxMonitor _ _ _ _) => False
  | _ => True
  end.

(** everything of the field but its file *)
Definition same_but_file (s s' : field) : Prop :=
  f_ph s' = f_ph s /\ f_mons s' = f_mons s /\ f_tmons s' = f_tmons s /\ f_mats s' = f_mats s /\ f_clk s' = f_clk s.

(** adding a source, a monitor or a time monitor, and writing results *)
Definition additive (c : call) : Prop :=
  match c with
  | Do (AddSource _) | Do (AddMonitor _) | Do (AddTimeMonitor _) | Do (GetBoxMonitor _ _ _ _) | Do (WriteMonitor _) | Do (WriteCurrent _) | Report _ _ | ReportTfsf => True
  | _ => False
  end.

End SpecInterrupt.
