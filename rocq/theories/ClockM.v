(** include/timer.h, src/timer.cpp (the ticking flags), and the [every] counter of
    include/time_monitors/time_monitor.h. *)
From Coq Require Import ZArith Bool.
From Verif Require Import Scalar Base.
Local Open Scope Z_scope.

(** clock_name, include/timer.h:14-19 *)
Inductive clock := Fourier | Looping | Hdf5 | Self.

(** The [ticking] flag of each timer, include/timer.h:53.  Elapsed time is in
    TimerM.v. *)
Record clocks := Clocks { k_fourier : bool; k_looping : bool; k_hdf5 : bool; k_self : bool }.

(** timers::timers, src/timer.cpp:10-16 *)
Definition mk_clocks : clocks := Clocks false false false true.

(** reading the [ticking] flag of one timer, include/timer.h:53, src/timer.cpp:18-24 (time_map[name]) *)
Definition ticking (c : clocks) (k : clock) : bool :=
  match k with
  | Fourier => k_fourier c | Looping => k_looping c | Hdf5 => k_hdf5 c | Self => k_self c
  end.
(** writing the [ticking] flag of one timer, include/timer.h:36, 44 *)
Definition set_ticking (c : clocks) (k : clock) (b : bool) : clocks :=
  match k with
  | Fourier => Clocks b (k_looping c) (k_hdf5 c) (k_self c)
  | Looping => Clocks (k_fourier c) b (k_hdf5 c) (k_self c)
  | Hdf5 => Clocks (k_fourier c) (k_looping c) b (k_self c)
  | Self => Clocks (k_fourier c) (k_looping c) (k_hdf5 c) b
  end.

(** timer::begin via timers::start, include/timer.h:32-37, src/timer.cpp:18-20 *)
Definition clock_start (k : clock) (c : clocks) : res clocks :=
  if ticking c k then Throw RuntimeError else Ok (set_ticking c k true).
(** timer::end via timers::stop, include/timer.h:40-45, src/timer.cpp:22-24 *)
Definition clock_stop (k : clock) (c : clocks) : res clocks :=
  if ticking c k then Ok (set_ticking c k false) else Throw RuntimeError.

(** struct every, include/time_monitors/time_monitor.h:11-31 *)
Record every := Every { ev_rep : Z; ev_n : Z; ev_never : bool }.

(** unsigned int -> int conversion (two's complement) of the initialiser in time_monitor.h:12 *)
Definition u2i (z : Z) : Z := if z <? 2147483648 then z else z - 4294967296.

(** every::every(unsigned n_repeat), time_monitor.h:12-14 *)
Definition mk_every (n : Z) : every := Every (u2i n) 1 (n =? 0).

(** check_repeat, time_monitor.h:16-26.  [%] is C remainder; n += 1 may overflow. *)
Definition check_repeat (e : every) : res (bool * every) :=
  if ev_never e then Ok (false, e)
  else if ev_rep e =? 0 then UB DivByZero
  else if Z.rem (ev_n e) (ev_rep e) =? 0 then Ok (true, Every (ev_rep e) 1 (ev_never e))
  else n <- i32 (ev_n e + 1) ;; Ok (false, Every (ev_rep e) n (ev_never e)).
