(** The HDF5 output file.

    The wrapper library h5cpp.h is not part of the repository; this file states what
    the model assumes of it: objects have full path names, creating a dataset whose
    name is taken fails, a group is created or opened unless a dataset has the name,
    and only datasets created with append::True can grow.  The file is a list of
    (path, object) in creation order. *)
From Coq Require Import ZArith String List Bool.
From Verif Require Import Scalar Base DftM.
Import ListNotations.

Section H5.
Context {N : Num}.

(** One record written to a dataset: write_scalar, write_vector, write_array, write_tensor and references
    (include/vec.h:67-68, 99-101, include/dft.h:77, src/dft.cpp:10, src/object.cpp:50-51) *)
Inductive payload :=
| PReal (x : T) | PInt (z : Z) | PStr (s : string) | PReals (l : list T)
| PInts (l : list Z) | PCplx (l : list (T * T)) | PRef (path : string).

(** a group or a dataset; append::True makes a dataset extendable (e.g. src/field2.cpp:317) *)
Inductive h5obj := HGroup | HData (extendable : bool) (rows : list payload).

(** the file behind h5cpp::h5file, include/field2.h:125 *)
Definition h5 : Type := list (string * h5obj).

(** a name inside a group, e.g. src/field2.cpp:315-317 *)
Definition path_cat (g n : string) : string := (g ++ "/" ++ n)%string.
Infix "//" := path_cat (at level 55, left associativity).

(** create_or_open_group, e.g. src/field2.cpp:61 *)
Definition h5_group (f : h5) (p : string) : res h5 :=
  match slookup p f with
  | None => Ok (f ++ [(p, HGroup)])
  | Some HGroup => Ok f
  | Some (HData _ _) => Throw H5Error
  end.

(** write_scalar / write_vector / write_array / write_tensor, e.g. src/field2.cpp:317, src/object.cpp:40-41 *)
Definition h5_create (f : h5) (p : string) (ext : bool) (v : payload) : res h5 :=
  match slookup p f with
  | None => Ok (f ++ [(p, HData ext [v])])
  | Some _ => Throw H5Error
  end.

(** open_dataset(p).append(v), src/field2.cpp:67-68, src/dynamic_object.cpp:53-56 *)
Definition h5_append (f : h5) (p : string) (v : payload) : res h5 :=
  match slookup p f with
  | Some (HData true rows) => Ok (sassign p (HData true (rows ++ [v])) f)
  | _ => Throw H5Error
  end.

(** object_exists, src/field2.cpp:63; create_reference, src/object.cpp:50 *)
Definition h5_exists (f : h5) (p : string) : bool :=
  match slookup p f with None => false | Some _ => true end.

(** a sequence of dataset creations in group [g], e.g. src/grid.cpp:76-85 *)
Definition h5_creates (f : h5) (g : string) (l : list (string * payload)) : res h5 :=
  foldM (fun f '(n, v) => h5_create f (g // n) false v) f l.

(** nested create_or_open_group calls, e.g. src/object.cpp:29-35 *)
Definition h5_groups (f : h5) (l : list string) : res h5 := foldM h5_group f l.

(** one step of a member function that writes to the file: a group (src/object.cpp:29-35), a new
    dataset (src/object.cpp:40-41), one more record (src/dynamic_object.cpp:53-56), or a dataset that
    refers to the object [q] (src/object.cpp:49-51; create_reference fails if there is no such object) *)
Inductive h5op := OGroup (p : string) | ONew (p : string) (ext : bool) (v : payload)
                | OMore (p : string) (v : payload) | OLink (p q : string).
(** one step, as cited at [h5op] (src/object.cpp:29-51, src/dynamic_object.cpp:53-56) *)
Definition h5_op (f : h5) (o : h5op) : res h5 :=
  match o with
  | OGroup p => h5_group f p
  | ONew p ext v => h5_create f p ext v
  | OMore p v => h5_append f p v
  | OLink p q => if h5_exists f q then h5_create f p false (PRef q) else Throw H5Error
  end.
(** a sequence of steps, e.g. src/object.cpp:37-44; the first exception ends it *)
Definition h5_ops (f : h5) (l : list h5op) : res h5 := foldM h5_op f l.
(** what is in the file when the sequence ends, e.g. src/object.cpp:37-44: the steps before the one
    that fails have been done *)
Fixpoint h5_left (f : h5) (l : list h5op) : h5 :=
  match l with
  | [] => f
  | o :: l' => match h5_op f o with Ok f' => h5_left f' l' | _ => f end
  end.
(** several new datasets in group [g], e.g. src/grid.cpp:76-85 *)
Definition news (g : string) (l : list (string * payload)) : list h5op :=
  map (fun '(n, v) => ONew (g // n) false v) l.

End H5.
Infix "//" := path_cat (at level 55, left associativity).
