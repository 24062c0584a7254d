(** Automatic names: the static counters of the base classes.

    Each base class (object, material, source, monitor, time_monitor) has one static int.
    A constructor without a name delegates to the named one with "<prefix>_" followed by the
    counter and then adds one to the counter; a constructor with a name leaves it alone.
    Simplification: one constructor call is one step; the arguments other than the name are
    not modelled (no constructor of these classes can fail for an axis-aligned region). *)
From Coq Require Import ZArith String List DecimalString.
From Verif Require Import Scalar Base.
Import ListNotations.
Local Open Scope Z_scope.

(** the five classes with a counter: src/object.cpp:13, src/materials/material.cpp:7,
    src/sources/source.cpp:14, src/monitors/monitor.cpp:14,
    src/time_monitors/time_monitor.cpp:6 *)
Inductive family := FObject | FMaterial | FSource | FMonitor | FTimeMonitor.

(** the values of the five counters; all start at 0 (same lines) *)
Record counters := Counters { k_obj : Z; k_mat : Z; k_src : Z; k_mon : Z; k_tmon : Z }.
(** the counters start at 0: src/object.cpp:13, src/materials/material.cpp:7,
    src/sources/source.cpp:14, src/monitors/monitor.cpp:14, src/time_monitors/time_monitor.cpp:6 *)
Definition counters0 : counters := Counters 0 0 0 0 0.

(** reading a counter (same lines) *)
Definition counter (f : family) (k : counters) : Z :=
  match f with
  | FObject => k_obj k | FMaterial => k_mat k | FSource => k_src k
  | FMonitor => k_mon k | FTimeMonitor => k_tmon k
  end.

(** writing a counter (same lines) *)
Definition set_counter (f : family) (v : Z) (k : counters) : counters :=
  match f with
  | FObject => Counters v (k_mat k) (k_src k) (k_mon k) (k_tmon k)
  | FMaterial => Counters (k_obj k) v (k_src k) (k_mon k) (k_tmon k)
  | FSource => Counters (k_obj k) (k_mat k) v (k_mon k) (k_tmon k)
  | FMonitor => Counters (k_obj k) (k_mat k) (k_src k) v (k_tmon k)
  | FTimeMonitor => Counters (k_obj k) (k_mat k) (k_src k) (k_mon k) v
  end.

(** the prefixes: src/object.cpp:19, include/materials/material.h:13, src/sources/source.cpp:23,
    include/monitors/surface_monitor.h:23 (box_monitor.h:27, cylinder_monitor.h:22,
    volume_monitor.h:19, point_monitor.h:19), src/time_monitors/point_time_monitor.cpp:9
    (surface_time_monitor.cpp:9, volume_time_monitor.cpp:9) *)
Definition prefix (f : family) : string :=
  match f with
  | FObject => "object_" | FMaterial => "material_" | FSource => "source_"
  | FMonitor => "monitor_" | FTimeMonitor => "monitor_"
  end%string.

(** std::to_string(int) (src/object.cpp:19): decimal digits with a leading minus sign for negative values *)
Definition to_string (z : Z) : string := NilZero.string_of_int (Z.to_int z).

(** one constructor call: the name of the new thing and the new counters; the increment is
    evaluated after the delegated constructor (same lines as [prefix]) *)
Definition create (f : family) (explicit : option string) (k : counters)
    : res (string * counters) :=
  match explicit with
  | Some n => Ok (n, k)
  | None =>
    v <- i32 (counter f k + 1) ;;
    Ok ((prefix f ++ to_string (counter f k))%string, set_counter f v k)
  end.

(** a program's constructor calls (same lines as [prefix]) in order, with the names they give *)
Fixpoint creations (l : list (family * option string)) (k : counters)
    : res (list string * counters) :=
  match l with
  | [] => Ok ([], k)
  | (f, e) :: l' =>
    '(n, k) <- create f e k ;;
    '(ns, k) <- creations l' k ;;
    Ok (n :: ns, k)
  end.
