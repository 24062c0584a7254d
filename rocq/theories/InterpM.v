(** Field2D::interpolate, to_grid, to_xgrid, to_ygrid, get_field_ref; src/field2.cpp:252-313 *)
From Coq Require Import ZArith List Bool.
From Verif Require Import Scalar Base VecM.
Local Open Scope Z_scope.

Section Interp.
Context {N : Num}.

(** The three field tensors, include/field2.h:90 *)
Record fields := Fields { fEz : tensor; fHx : tensor; fHy : tensor }.

(** get_field_ref, src/field2.cpp:306-313 *)
Definition get_field (F : fields) (c : comp) : res tensor :=
  match c with
  | Ez => Ok (fEz F) | Hx => Ok (fHx F) | Hy => Ok (fHy F)
  | _ => Throw InvalidArgument
  end.

(** F(c) for an ivec c, src/field2.cpp:276 *)
Definition tat (a : tensor) (p : ivec) : res T := tget a (fst p) (snd p).

(** The bilinear sum of src/field2.cpp:263-276 at cell coordinates [ps].
    Each component is rounded once where the code repeats floor/ceil. *)
Definition bilinear (F : tensor) (ps : vec) : res T :=
  fx <- ofOption BadCast (nfloor (fst ps)) ;; fy <- ofOption BadCast (nfloor (snd ps)) ;;
  cx <- ofOption BadCast (nceil (fst ps)) ;; cy <- ofOption BadCast (nceil (snd ps)) ;;
  let x := (fst ps - nofZ fx)%num in
  let y := (snd ps - nofZ fy)%num in
  f1 <- tat F (fx, fy) ;; f2 <- tat F (cx, fy) ;; f3 <- tat F (cx, cy) ;; f4 <- tat F (fx, cy) ;;
  Ok ((1 - x) * (1 - y) * f1 + x * (1 - y) * f2 + x * y * f3 + (1 - x) * y * f4)%num.

(** interpolate, src/field2.cpp:252-277 *)
Definition interpolate (dx : T) (F : fields) (c : comp) (p : vec) : res T :=
  let ps := vdivs p dx in
  f <- get_field F c ;;
  ps <- match c with
        | Ez => Ok (vadd ps (0, 0)%num)
        | Hx => Ok (vadd ps (vscale 2 (0, - dx / 2))%num)
        | Hy => Ok (vadd ps (vscale 2 (- dx / 2, 0))%num)
        | _ => Throw InvalidArgument
        end ;;
  bilinear f ps.

(** to_grid, src/field2.cpp:279-286 *)
Definition on_grid (F : fields) (c : comp) (p : ivec) : res T :=
  let '(i, j) := p in
  match c with
  | Ez => tget (fEz F) i j
  | Hx => a <- tget (fHx F) i j ;; b <- tget (fHx F) i (j - 1) ;; Ok ((a + b) / 2)%num
  | Hy => a <- tget (fHy F) i j ;; b <- tget (fHy F) (i - 1) j ;; Ok ((a + b) / 2)%num
  | _ => Throw InvalidArgument
  end.

(** to_xgrid, src/field2.cpp:288-295 *)
Definition on_xgrid (F : fields) (c : comp) (p : ivec) : res T :=
  let '(i, j) := p in
  match c with
  | Ez => a <- tget (fEz F) i j ;; b <- tget (fEz F) (i + 1) j ;; Ok ((a + b) / 2)%num
  | Hx => a <- tget (fHx F) i j ;; b <- tget (fHx F) (i - 1) j ;;
          c <- tget (fHx F) i (j + 1) ;; d <- tget (fHx F) (i - 1) (j + 1) ;;
          Ok ((a + b + c + d) / 4)%num
  | Hy => tget (fHy F) i j
  | _ => Throw InvalidArgument
  end.

(** to_ygrid, src/field2.cpp:297-304 *)
Definition on_ygrid (F : fields) (c : comp) (p : ivec) : res T :=
  let '(i, j) := p in
  match c with
  | Ez => a <- tget (fEz F) i j ;; b <- tget (fEz F) i (j + 1) ;; Ok ((a + b) / 2)%num
  | Hx => tget (fHx F) i j
  | Hy => a <- tget (fHy F) i j ;; b <- tget (fHy F) (i - 1) j ;;
          c <- tget (fHy F) i (j + 1) ;; d <- tget (fHy F) (i - 1) (j + 1) ;;
          Ok ((a + b + c + d) / 4)%num
  | _ => Throw InvalidArgument
  end.

End Interp.
