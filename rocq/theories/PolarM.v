(** include/materials/polarization.h, src/materials/*_polarization.cpp *)
From Coq Require Import ZArith List Bool.
From Verif Require Import Scalar Base VecM GridM GeometryM MaterialM.
Import ListNotations.
Local Open Scope Z_scope.

Section Polar.
Context {N : Num}.

(** beta_vals[N], kappa(N), ...: Eigen array access, debye_polarization.cpp:20, 33-34 *)
Definition lget (l : list T) (k : Z) : res T :=
  if inr (Z.of_nat (length l)) k then Ok (nth (Z.to_nat k) l 0%num) else UB OutOfBounds.

(** One polarization object of any of the three kinds:
    include/materials/polarization.h:21-25 and the derived headers.
    [pl_c] is beta (debye, drude) or delta (lorentz); [pl_pJ] is prevJ and only used
    by lorentz (for the other kinds it stays zero). *)
Record polar := Polar {
  pl_Nx : Z; pl_Ny : Z; pl_dx : T; pl_dt : T;
  pl_n : Z; pl_J : tensor3; pl_c : tensor3; pl_pJ : tensor3 }.

(** include/materials/polarization.h:14-16, src/materials/debye_polarization.cpp:7-9,
    drude_polarization.cpp:7-9, lorentz_polarization.cpp:7-10 *)
Definition mk_polar (g : grid) (np : nat) : res polar :=
  let n := Z.of_nat np in
  z <- t3const (g_Nx g) (g_Ny g) n 0%num ;;
  Ok (Polar (g_Nx g) (g_Ny g) (g_dx g) (g_dt g) n z z z).

(** writing beta (delta) in insert_object, {debye,drude}_polarization.cpp:20, lorentz_polarization.cpp:21 *)
Definition with_c (p : polar) (c : tensor3) : polar :=
  Polar (pl_Nx p) (pl_Ny p) (pl_dx p) (pl_dt p) (pl_n p) (pl_J p) c (pl_pJ p).
(** writing J in update_J, {debye,drude}_polarization.cpp:34 *)
Definition with_J (p : polar) (J : tensor3) : polar :=
  Polar (pl_Nx p) (pl_Ny p) (pl_dx p) (pl_dt p) (pl_n p) J (pl_c p) (pl_pJ p).
(** writing J and prevJ in update_J, lorentz_polarization.cpp:40-42 *)
Definition with_JJ (p : polar) (J pJ : tensor3) : polar :=
  Polar (pl_Nx p) (pl_Ny p) (pl_dx p) (pl_dt p) (pl_n p) J (pl_c p) pJ.

(** insert_object, src/materials/debye_polarization.cpp:11-24, drude_polarization.cpp:11-24,
    lorentz_polarization.cpp:12-25.  [vals] is beta(dt) or delta(dt) of the material
    stored in the polarization. *)
Definition insert_polar (p : polar) (vals : list T) (inside : vec -> bool) : res polar :=
  c <- for_up 0 (pl_Nx p) (fun i c =>
         for_up 0 (pl_Ny p) (fun j c =>
           let pt := (pl_dx p * nofZ i, pl_dx p * nofZ j)%num in
           if inside pt
           then for_up 0 (pl_n p) (fun k c => v <- lget vals k ;; t3set c i j k v) c
           else Ok c) c) (pl_c p) ;;
  Ok (with_c p c).

(** reset, include/materials/polarization.h:19 and the three overrides
    (debye_polarization.cpp:40-43, drude_polarization.cpp:40-43,
    lorentz_polarization.cpp:48-52) *)
Definition reset_polar (p : polar) : polar :=
  Polar (pl_Nx p) (pl_Ny p) (pl_dx p) (pl_dt p) (pl_n p)
        (t3zero (pl_J p)) (t3zero (pl_c p)) (t3zero (pl_pJ p)).

(** body of src/materials/debye_polarization.cpp:32-35 on (Ez, J) *)
Definition debye_body (p : polar) (kappa : list T) (cb : T) (prevE : tensor) (i j k : Z)
    (s : tensor * tensor3) : res (tensor * tensor3) :=
  let '(E, J) := s in
  e <- tget E i j ;; kp <- lget kappa k ;; w <- t3get J i j k ;;
  E <- tset E i j (e - cb * half * (1 + kp) * w)%num ;;
  b <- t3get (pl_c p) i j k ;; e <- tget E i j ;; pe <- tget prevE i j ;;
  J <- t3set J i j k (kp * w + b / pl_dt p * (e - pe))%num ;;
  Ok (E, J).

(** debye_polarization::update_J, src/materials/debye_polarization.cpp:26-38 *)
Definition debye_update (m : debye) (p : polar) (prevE E : tensor) : res (polar * tensor) :=
  let kappa := debye_kappa m (pl_dt p) in
  let cb := debye_Cb m (pl_dt p) in
  '(E, J) <- for_up 0 (pl_Nx p) (fun i s =>
               for_up 0 (pl_Ny p) (fun j s =>
                 for_up 0 (pl_n p) (fun k s => debye_body p kappa cb prevE i j k s) s) s)
               (E, pl_J p) ;;
  Ok (with_J p J, E).

(** body of src/materials/drude_polarization.cpp:32-35 on (Ez, J) *)
Definition drude_body (p : polar) (kappa : list T) (cb : T) (prevE : tensor) (i j k : Z)
    (s : tensor * tensor3) : res (tensor * tensor3) :=
  let '(E, J) := s in
  e <- tget E i j ;; kp <- lget kappa k ;; w <- t3get J i j k ;;
  E <- tset E i j (e - cb * half * (1 + kp) * w)%num ;;
  b <- t3get (pl_c p) i j k ;; e <- tget E i j ;; pe <- tget prevE i j ;;
  J <- t3set J i j k (kp * w + b * (e + pe))%num ;;
  Ok (E, J).

(** drude_polarization::update_J, src/materials/drude_polarization.cpp:26-38 *)
Definition drude_update (m : drude) (p : polar) (prevE E : tensor) : res (polar * tensor) :=
  let kappa := drude_kappa m (pl_dt p) in
  let cb := drude_Cb m (pl_dt p) in
  '(E, J) <- for_up 0 (pl_Nx p) (fun i s =>
               for_up 0 (pl_Ny p) (fun j s =>
                 for_up 0 (pl_n p) (fun k s => drude_body p kappa cb prevE i j k s) s) s)
               (E, pl_J p) ;;
  Ok (with_J p J, E).

(** body of src/materials/lorentz_polarization.cpp:36-43 on (Ez, J, prevJ) *)
Definition lorentz_body (p : polar) (alpha beta : list T) (cb cap : T) (prev2E : tensor)
    (i j k : Z) (s : tensor * tensor3 * tensor3) : res (tensor * tensor3 * tensor3) :=
  let '(E, J, pJ) := s in
  e <- tget E i j ;; p2 <- tget prev2E i j ;;
  al <- lget alpha k ;; be <- lget beta k ;;
  w <- t3get J i j k ;; pw <- t3get pJ i j k ;;
  E <- tset E i j (e + (cap * p2 - cb * half * ((1 + al) * w + be * pw)))%num ;;
  d <- t3get (pl_c p) i j k ;; e <- tget E i j ;;
  J <- t3set J i j k (al * w + be * pw + d / (2 * pl_dt p) * (e - p2))%num ;;
  pJ <- t3set pJ i j k w ;;
  Ok (E, J, pJ).

(** lorentz_polarization::update_J, src/materials/lorentz_polarization.cpp:27-46 *)
Definition lorentz_update (m : lorentz) (p : polar) (prev2E E : tensor) : res (polar * tensor) :=
  let alpha := lorentz_alpha m (pl_dt p) in
  let beta := lorentz_beta m (pl_dt p) in
  let cb := lorentz_Cb m (pl_dt p) in
  let cap := lorentz_Ca_prev m (pl_dt p) in
  '(E, J, pJ) <- for_up 0 (pl_Nx p) (fun i s =>
               for_up 0 (pl_Ny p) (fun j s =>
                 for_up 0 (pl_n p) (fun k s => lorentz_body p alpha beta cb cap prev2E i j k s) s) s)
               (E, pl_J p, pl_pJ p) ;;
  Ok (with_JJ p J pJ, E).

End Polar.
