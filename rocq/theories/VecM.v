(** include/vec.h: vectors, surfaces, volumes. *)
From Coq Require Import ZArith List Bool.
From Verif Require Import Scalar Base.
Local Open Scope Z_scope.

(** include/vec.h:32-36 *)
Inductive box_side := x_bottom | x_top | y_bottom | y_top.
(** include/vec.h:38-45 *)
Inductive comp := Ez | Hx | Hy | CE | CH | Call.
(** include/vec.h:47-50 *)
Inductive sign := Positive | Negative.
(** the values of the enumeration sign, include/vec.h:47-50 *)
Definition sgnZ (s : sign) : Z := match s with Positive => 1 | Negative => -1 end.

Section Vec.
Context {N : Num}.

(** include/vec.h:15,17: Eigen::Vector2d, Eigen::Vector2i *)
Definition vec : Type := T * T.
(** include/vec.h:17: Eigen::Vector2i *)
Definition ivec : Type := Z * Z.

(** Eigen::Vector2d arithmetic (include/vec.h:15): u + v *)
Definition vadd (u v : vec) : vec := (fst u + fst v, snd u + snd v)%num.
(** u - v, as in include/vec.h:80 *)
Definition vsub (u v : vec) : vec := (fst u - fst v, snd u - snd v)%num.
(** c*v, as in include/vec.h:63 *)
Definition vscale (c : T) (v : vec) : vec := (c * fst v, c * snd v)%num.
(** v/c, as in include/vec.h:120 *)
Definition vdivs (v : vec) (c : T) : vec := (fst v / c, snd v / c)%num.
(** -v, as in src/geometry/block.cpp:8 *)
Definition vneg (v : vec) : vec := (- fst v, - snd v)%num.
(** v.cwiseAbs(), as in include/vec.h:80 *)
Definition vabs (v : vec) : vec := (nabs (fst v), nabs (snd v)).
(** u.dot(v), as in surface_monitor.h:193 *)
Definition vdot (u v : vec) : T := (fst u * fst v + snd u * snd v)%num.
(** v.squaredNorm(), as in src/geometry/cylinder.cpp:12 *)
Definition vsqnorm (v : vec) : T := vdot v v.
(** v.norm(), as in include/vec.h:85 *)
Definition vnorm (v : vec) : T := nsqrt (vsqnorm v).

(** Eigen::Vector2i arithmetic (include/vec.h:17): u + v; simplification: no overflow check *)
Definition iadd (u v : ivec) : ivec := (fst u + fst v, snd u + snd v).
(** c*v for ints, as in surface_monitor.h:102; simplification: no overflow check *)
Definition iscale (c : Z) (v : ivec) : ivec := (c * fst v, c * snd v).

(** surface_template<double>, include/vec.h:76-110 *)
Record surface := Surface {
  s_a : vec; s_b : vec; s_sign : sign; s_dim : vec; s_normal : vec; s_tangent : vec }.

(** include/vec.h:79-86 (T = double) *)
Definition mk_surface (a b : vec) (sg : sign) : res surface :=
  let dim := vabs (vsub a b) in
  let sn := nofZ (sgnZ sg) in
  normal <- (if (fst dim =? 0)%num then Ok (sn * 1, sn * 0)%num
             else if (snd dim =? 0)%num then Ok (sn * 0, sn * 1)%num
             else Throw InvalidArgument) ;;
  let d := vsub b a in
  Ok (Surface a b sg dim normal (vdivs d (vnorm d))).

(** surface_template<int>, include/vec.h:76-110, 166 *)
Record isurface := ISurface {
  is_a : ivec; is_b : ivec; is_sign : sign; is_dim : ivec; is_normal : ivec; is_tangent : ivec }.

(** Eigen norm() of an int vector (include/vec.h:85, surface_monitor.h:29): integer square root of the int squared norm
    (signed overflow when the squared norm exceeds INT_MAX). *)
Definition inorm (v : ivec) : res Z :=
  s <- i32 (fst v * fst v + snd v * snd v) ;; Ok (Z.sqrt s).

(** include/vec.h:79-86 (T = int); the division (b-a)/norm is int division. *)
Definition mk_isurface (a b : ivec) (sg : sign) : res isurface :=
  d0 <- i32 (fst a - fst b) ;;
  d1 <- i32 (snd a - snd b) ;;
  let dim := (Z.abs d0, Z.abs d1) in
  let sn := sgnZ sg in
  normal <- (if fst dim =? 0 then Ok (sn, 0)
             else if snd dim =? 0 then Ok (0, sn)
             else Throw InvalidArgument) ;;
  let d := (fst b - fst a, snd b - snd a) in
  n <- inorm d ;;
  if n =? 0 then UB DivByZero
  else Ok (ISurface a b sg dim normal (Z.quot (fst d) n, Z.quot (snd d) n)).

(** volume_template<double>, include/vec.h:112-163 *)
Record volume := Volume { v_a : vec; v_b : vec; v_dim : vec }.
(** include/vec.h:115-117 *)
Definition mk_volume (a b : vec) : volume := Volume a b (vabs (vsub a b)).
(** include/vec.h:119-122 *)
Definition mk_volume_c (center : vec) (lx ly : T) : volume :=
  Volume (vsub center (vdivs (lx, ly) 2%num)) (vadd center (vdivs (lx, ly) 2%num)) (lx, ly).
(** include/vec.h:131-133 *)
Definition vol_center (v : volume) : vec := vdivs (vadd (v_a v) (v_b v)) 2%num.
(** include/vec.h:135-139 *)
Definition vol_pad (v : volume) (size : T) : volume :=
  mk_volume (vsub (v_a v) (size, size)) (vadd (v_b v) (size, size)).
(** include/vec.h:141-144 *)
Definition vol_translate (v : volume) (p : vec) : volume :=
  mk_volume (vadd (v_a v) p) (vadd (v_b v) p).
(** include/vec.h:146-158; the default branch is unreachable for an enum value *)
Definition get_surface (v : volume) (side : box_side) : res surface :=
  let a := v_a v in let b := v_b v in
  match side with
  | y_bottom => mk_surface a (fst b, snd a) Negative
  | y_top    => mk_surface b (fst a, snd b) Positive
  | x_bottom => mk_surface (fst a, snd b) a Negative
  | x_top    => mk_surface (fst b, snd a) b Positive
  end.

(** volume_template<int>, include/vec.h:112-168; simplification: no overflow check on the extents *)
Record ivolume := IVolume { iv_a : ivec; iv_b : ivec; iv_dim : ivec }.
(** include/vec.h:115-117 with T = int *)
Definition mk_ivolume (a b : ivec) : ivolume :=
  IVolume a b (Z.abs (fst a - fst b), Z.abs (snd a - snd b)).

(** cylinder_surface, include/vec.h:52-74 *)
Record cylsurf := CylSurf { cs_center : vec; cs_radius : T }.
(** include/vec.h:56-58 *)
Definition cs_tangent (theta : T) : vec := (- nsin theta, ncos theta)%num.
(** include/vec.h:59-61 *)
Definition cs_normal (theta : T) : vec := (ncos theta, nsin theta).
(** include/vec.h:62-64 *)
Definition cs_position (c : cylsurf) (theta : T) : vec :=
  vadd (vscale (cs_radius c) (cs_normal theta)) (cs_center c).

End Vec.
