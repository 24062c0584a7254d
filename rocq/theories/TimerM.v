(** Elapsed time and the report printed at the end: include/timer.h, src/timer.cpp, and the places
    in src/field2.cpp where the stop-watches are started and stopped. *)
From Coq Require Import ZArith String List Bool.
From Verif Require Import Scalar Base VecM GridM GeometryM MaterialM PmlM DftM TfsfM PolarM
  InterpM H5M ClockM MonitorM FieldM ReportM.
Import ListNotations.
Local Open Scope Z_scope.

Section Timers.
Context {N : Num}.

(** class timer, include/timer.h:26-54.  Simplification: points in time and durations are scalars
    (seconds); the conversion of the ticks of system_clock to seconds is not modelled. *)
Record watch := Watch { w_sum : T; w_from : T; w_on : bool }.
(** timer::timer, include/timer.h:29, 51-53; start is not initialised in the code *)
Definition new_watch : watch := Watch 0%num 0%num false.
(** begin, include/timer.h:32-37 *)
Definition watch_begin (now : T) (w : watch) : res watch :=
  if w_on w then Throw RuntimeError else Ok (Watch (w_sum w) now true).
(** end, include/timer.h:40-45 *)
Definition watch_end (now : T) (w : watch) : res watch :=
  if w_on w then Ok (Watch (w_sum w + (now - w_from w))%num (w_from w) false) else Throw RuntimeError.

(** time_map, include/timer.h:84 *)
Definition watches := clock -> watch.
(** order of clock_name, include/timer.h:14-19 *)
Definition clock_eqb (a b : clock) : bool :=
  match a, b with Fourier, Fourier | Looping, Looping | Hdf5, Hdf5 | Self, Self => true | _, _ => false end.
(** time_map[name] = w, src/timer.cpp:11-14, 19, 23 *)
Definition put_watch (k : clock) (w : watch) (ws : watches) : watches := fun j => if clock_eqb j k then w else ws j.

(** timers::timers, src/timer.cpp:10-16 *)
Definition new_watches (now : T) : res watches :=
  w <- watch_begin now new_watch ;; Ok (put_watch Self w (fun _ => new_watch)).

(** display, src/timer.cpp:27-41 with clock_string_name 48-56: the lines, top to bottom.  Colours,
    padding and the rounding to two digits are not modelled. *)
Definition time_report (ws : watches) : list (string * T) :=
  let d := fun k => w_sum (ws k) in
  [("Time Stepping", d Looping); ("Fourier Transforming", d Fourier); ("HDF5 Output", d Hdf5);
   ("Other", d Self - d Hdf5 - d Fourier - d Looping)%num; ("Total", d Self)]%string.

(** a Field2D together with its stop-watches; [n] counts the readings of the computer's clock,
    include/field2.h:130 *)
Record timed := Timed { td_f : field; td_w : watches; td_n : nat }.

(** what a member function of Field2D does between two statements, src/field2.cpp:122-197 *)
Inductive phase := Tick (k : clock) | Tock (k : clock) | Work (f : field -> out field).

(** write_field between start and stop, src/field2.cpp:61-88 *)
Definition write_body (c : comp) (s : field) : out field :=
  prim s (h5_group (f_h5 s) "fields") (fun f =>
  let s := set_f_h5 f s in
  match c with
  | Ez | Hx | Hy =>
    prim s (a <- get_field (ph_F (f_ph s)) c ;;
            let p := ("fields" // comp_str c)%string in
            if h5_exists (f_h5 s) p then h5_append (f_h5 s) p (tensor_pay a)
            else h5_create (f_h5 s) p true (tensor_pay a)) (fun f =>
    Fine (set_f_h5 f s))
  | _ => Raise InvalidArgument s
  end).
(** write_field, src/field2.cpp:59-90 *)
Definition write_phases (c : comp) : list phase := [Tick Hdf5; Work (write_body c); Tock Hdf5].
(** update, src/field2.cpp:122-197 *)
Definition update_phases : list phase :=
  [Work (on_ph step_clock);
   Tick Looping;
   Work (on_ph (fun p => Ok (step_prev p))); Work (on_ph step_E); Work (on_ph step_pmlE);
   Work (on_ph step_polar); Work (on_ph step_tfsfD); Work (on_ph_out step_sources);
   Tock Looping;
   Tick Fourier; Work step_monitors; Tock Fourier;
   Tick Looping;
   Work (on_ph step_tfsf_pulse); Work (on_ph step_H); Work (on_ph step_pmlH); Work (on_ph step_tfsfH);
   Tock Looping;
   Work step_tmons].
(** the phases of each call, src/field2.cpp:59-105, 122-197; only these functions use the clocks *)
Definition phases (c : call) : list phase :=
  match c with
  | Do Update => update_phases
  | Do (WriteField c) => write_phases c
  | Do WriteE => write_phases Ez
  | Do WriteH => write_phases Hx ++ write_phases Hy
  | WriteMonitorCall => [Tick Hdf5; Tock Hdf5]
  | c => [Work (exec_call c)]
  end.

(** the readings of std::chrono::system_clock::now(), include/timer.h:35, 43 *)
Variable now : nat -> T.

(** one phase; start and stop: src/timer.cpp:18-24 *)
Definition play1 (p : phase) (x : timed) : out timed :=
  match p with
  | Tick k =>
    prim x (watch_begin (now (td_n x)) (td_w x k)) (fun w =>
    prim x (clock_start k (f_clk (td_f x))) (fun c =>
    Fine (Timed (set_f_clk c (td_f x)) (put_watch k w (td_w x)) (S (td_n x)))))
  | Tock k =>
    prim x (watch_end (now (td_n x)) (td_w x k)) (fun w =>
    prim x (clock_stop k (f_clk (td_f x))) (fun c =>
    Fine (Timed (set_f_clk c (td_f x)) (put_watch k w (td_w x)) (S (td_n x)))))
  | Work f =>
    match f (td_f x) with
    | Fine s => Fine (Timed s (td_w x) (td_n x))
    | Raise e s => Raise e (Timed s (td_w x) (td_n x))
    | Undef u => Undef u
    end
  end.
(** the phases one after another, src/field2.cpp:122-197 *)
Fixpoint play (l : list phase) (x : timed) : out timed :=
  match l with [] => Fine x | p :: l' => play1 p x >>= play l' end.

(** a main function without exception handlers, tests/simple.cpp:8-29 *)
Fixpoint timed_main (l : list call) (x : timed) : out timed :=
  match l with [] => Fine x | c :: l' => play (phases c) x >>= timed_main l' end.
(** one that catches every exception (std::runtime_error and the others thrown in src) and goes on
    with the next call, cf. src/field2.cpp:59-90 *)
Fixpoint caught_main (l : list call) (x : timed) : out timed :=
  match l with
  | [] => Fine x
  | c :: l' => match play (phases c) x with Fine y | Raise _ y => caught_main l' y | Undef u => Undef u end
  end.

(** construction of the Field2D [s], whose clocks are the last member, include/field2.h:130 *)
Definition begin_timed (s : field) : res timed :=
  ws <- new_watches (now 0) ;; Ok (Timed s ws 1).
(** timers::~timers, src/timer.cpp:43-46 *)
Definition end_timed (x : timed) : res (list (string * T)) :=
  w <- watch_end (now (td_n x)) (td_w x Self) ;; Ok (time_report (put_watch Self w (td_w x))).

End Timers.
