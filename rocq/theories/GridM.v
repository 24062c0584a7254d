(** include/grid.h, src/grid.cpp *)
From Coq Require Import ZArith List Bool.
From Verif Require Import Scalar Base VecM.
Local Open Scope Z_scope.

Section Grid.
Context {N : Num}.

(** include/grid.h:34-41 *)
Record grid := Grid {
  g_Lx : T; g_Ly : T; g_Nx : Z; g_Ny : Z; g_dx : T; g_dt : T; g_res : T; g_pml : Z }.

(** src/grid.cpp:8-16.  The stored thickness is the requested one plus 1. *)
Definition mk_grid (Lx Ly rs : T) (pml : Z) : res grid :=
  Nx <- ofOption BadCast (nceil (Lx * rs)%num) ;;
  Ny <- ofOption BadCast (nceil (Ly * rs)%num) ;;
  let dx := (1 / rs)%num in
  Ok (Grid (dx * nofZ (Nx - 1))%num (dx * nofZ (Ny - 1))%num Nx Ny dx (dx / 2)%num rs (pml + 1)).

(** src/grid.cpp:18-20 *)
Definition to_grid (g : grid) (p : vec) : res ivec :=
  x <- ofOption BadCast (nround (fst p / g_dx g)%num) ;;
  y <- ofOption BadCast (nround (snd p / g_dx g)%num) ;;
  Ok (x, y).

(** src/grid.cpp:22-24 *)
Definition to_real (g : grid) (pi : ivec) : vec :=
  (g_dx g * nofZ (fst pi), g_dx g * nofZ (snd pi))%num.

(** src/grid.cpp:26-28 *)
Definition to_grid_surface (g : grid) (s : surface) : res isurface :=
  a <- to_grid g (s_a s) ;; b <- to_grid g (s_b s) ;; mk_isurface a b (s_sign s).
(** src/grid.cpp:30-32 *)
Definition to_real_surface (g : grid) (s : isurface) : res surface :=
  mk_surface (to_real g (is_a s)) (to_real g (is_b s)) (is_sign s).
(** src/grid.cpp:34-36 *)
Definition to_grid_volume (g : grid) (v : volume) : res ivolume :=
  a <- to_grid g (v_a v) ;; b <- to_grid g (v_b v) ;; Ok (mk_ivolume a b).
(** src/grid.cpp:38-40 *)
Definition to_real_volume (g : grid) (v : ivolume) : volume :=
  mk_volume (to_real g (iv_a v)) (to_real g (iv_b v)).

(** src/grid.cpp:42-56 *)
Definition clip (g : grid) (v : volume) : volume :=
  let a0 := if (fst (v_a v) <? 0)%num then 0%num else fst (v_a v) in
  let b0 := if (fst (v_b v) <? 0)%num then 0%num else fst (v_b v) in
  let a1 := if (g_Lx g <? snd (v_a v))%num then g_Lx g else snd (v_a v) in
  let b1 := if (g_Ly g <? snd (v_b v))%num then g_Ly g else snd (v_b v) in
  mk_volume (a0, a1) (b0, b1).

(** src/grid.cpp:58-72 *)
Definition iclip (g : grid) (v : ivolume) : ivolume :=
  let a0 := if fst (iv_a v) <? 0 then 0 else fst (iv_a v) in
  let b0 := if fst (iv_b v) <? 0 then 0 else fst (iv_b v) in
  let a1 := if g_Nx g - 1 <? snd (iv_a v) then g_Nx g - 1 else snd (iv_a v) in
  let b1 := if g_Ny g - 1 <? snd (iv_b v) then g_Ny g - 1 else snd (iv_b v) in
  mk_ivolume (a0, a1) (b0, b1).

(** include/grid.h:29 *)
Definition domain (g : grid) : volume := mk_volume (0, 0)%num (g_Lx g, g_Ly g).
(** include/grid.h:30 *)
Definition interior (g : grid) : volume :=
  let p := (g_dx g * nofZ (g_pml g))%num in
  mk_volume (p, p) (g_Lx g - p, g_Ly g - p)%num.

End Grid.
