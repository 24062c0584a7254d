(** include/geometry/*.h, src/geometry/*.cpp, src/object.cpp (geometric part). *)
From Coq Require Import ZArith String List Bool.
From Verif Require Import Scalar Base VecM GridM.

Section Geometry.
Context {N : Num}.

(** The three subclasses of [geometry]; include/geometry/{cylinder,ellipse,block}.h. *)
Inductive geometry :=
| Cylinder (r : T)           (* src/geometry/cylinder.cpp:7-9 *)
| Ellipse (rx ry : T)        (* src/geometry/ellipse.cpp:7-9 *)
| Block (dim : vec).         (* src/geometry/block.cpp:7-9 *)

(** The stored bounding box: set_bounding_box calls in the constructors,
    src/geometry/cylinder.cpp:8, ellipse.cpp:8, block.cpp:8.
    It is always set, so the std::optional is dropped here. *)
Definition stored_box (g : geometry) : volume :=
  match g with
  | Cylinder r => mk_volume (- r, - r)%num (r, r)
  | Ellipse rx ry => mk_volume (- rx, - ry)%num (rx, ry)
  | Block d => mk_volume (vdivs (vneg d) 2%num) (vdivs d 2%num)
  end.

(** geometry::get_bounding_box(theta), src/geometry/geometry.cpp:5-14;
    cylinder override src/geometry/cylinder.cpp:25-27. *)
Definition geom_box (g : geometry) (theta : T) : volume :=
  match g with
  | Cylinder _ => stored_box g
  | _ =>
    let d := v_dim (stored_box g) in
    let c := nabs (ncos theta) in
    let s := nabs (nsin theta) in
    let ms := nabs (- nsin theta)%num in
    let nd := (c * fst d + ms * snd d, s * fst d + c * snd d)%num in
    mk_volume (vdivs (vneg nd) 2%num) (vdivs nd 2%num)
  end.

(** inside: src/geometry/cylinder.cpp:11-15, ellipse.cpp:11-15, block.cpp:11-15 *)
Definition geom_inside (g : geometry) (v : vec) : bool :=
  match g with
  | Cylinder r => (vsqnorm v <? npow r 2)%num
  | Ellipse rx ry => (npow (fst v / rx) 2 + npow (snd v / ry) 2 <? 1)%num
  | Block d =>
    let e := vsub (vabs v) (vdivs d 2%num) in
    negb ((0 <? fst e)%num || (0 <? snd e)%num)
  end.

(** group_name(): include/geometry/cylinder.h:16, ellipse.h:15, block.h:15 *)
Definition geom_group (g : geometry) : string :=
  match g with
  | Cylinder _ => "cylinders"%string
  | Ellipse _ _ => "ellipses"%string
  | Block _ => "blocks"%string
  end.

(** Multiplication by Rotation2D(-theta).toRotationMatrix(), src/object.cpp:22 *)
Definition unrotate (theta : T) (v : vec) : vec :=
  let c := ncos (- theta)%num in
  let s := nsin (- theta)%num in
  (c * fst v + (- s) * snd v, s * fst v + c * snd v)%num.

(** src/object.cpp:21-27.  R*T as an Eigen affine transform: the linear part is
    R(-theta) and the translation R(-theta)*(-position). *)
Definition place_inside (g : geometry) (pos : vec) (theta : T) (v : vec) : bool :=
  geom_inside g (vadd (unrotate theta v) (unrotate theta (vneg pos))).

(** src/object.cpp:71-77 *)
Definition place_box (g : geometry) (pos : vec) (theta : T) : volume :=
  vol_translate (geom_box g theta) pos.

End Geometry.
