(** include/tfsf.h, src/tfsf.cpp *)
From Coq Require Import ZArith String List Bool.
From Verif Require Import Scalar Base VecM GridM DftM.
Import ListNotations.
Local Open Scope Z_scope.

Section Tfsf.
Context {N : Num}.

(** include/tfsf.h:49-61.  [q_l0],[q_l1],[q_r0],[q_r1] are pml.left/right. *)
Record tfsf := Tfsf {
  q_vol : volume; q_ia : Z; q_ib : Z; q_ja : Z; q_jb : Z;
  q_tp : tprofile; q_dft : option dft;
  q_N : Z; q_dt : T; q_t : T;
  q_E : arr; q_D : arr; q_H : arr; q_I : arr; q_ca : arr; q_cb : arr;
  q_l0 : T; q_l1 : T; q_r0 : T; q_r1 : T }.

(** src/tfsf.cpp:14-41 *)
Definition mk_tfsf (g : grid) (tp : tprofile) (vol : volume) (dt : T) : res tfsf :=
  iv <- to_grid_volume g vol ;;
  n <- i32 (snd (iv_dim iv) + 5) ;;
  z <- aconst n 0%num ;;
  let ca := Arr n (fun _ => 1 / (1 + 0 * dt))%num in
  let cb := Arr n (fun _ => 0 * dt)%num in
  d <- match tp_dft tp with
       | None => Ok None
       | Some d0 =>
         d <- dft_add (mk_dft (d_freq d0)) "E" 1 ;;
         d <- dft_add d "H" 1 ;; Ok (Some d)
       end ;;
  Ok (Tfsf vol (fst (iv_a iv)) (fst (iv_b iv)) (snd (iv_a iv)) (snd (iv_b iv))
           tp d n dt 0%num z z z z ca cb 0%num 0%num 0%num 0%num).

(** body of src/tfsf.cpp:47-51 on (Dz, Ez, Iz) *)
Definition pulseE_body (H ca cb : arr) (k : Z) (s : arr * arr * arr) : res (arr * arr * arr) :=
  let '(D, E, Iz) := s in
  d <- aget D k ;; h0 <- aget H (k - 1) ;; h1 <- aget H k ;;
  D <- aset D k (d + half * (h0 - h1))%num ;;
  c <- aget ca k ;; d <- aget D k ;; i <- aget Iz k ;;
  E <- aset E k (c * (d - i))%num ;;
  i <- aget Iz k ;; b <- aget cb k ;; e <- aget E k ;;
  Iz <- aset Iz k (i + b * e)%num ;;
  Ok (D, E, Iz).

(** body of src/tfsf.cpp:78-80 *)
Definition pulseH_body (E : arr) (k : Z) (H : arr) : res arr :=
  h <- aget H k ;; e0 <- aget E k ;; e1 <- aget E (k + 1) ;;
  aset H k (h + half * (e0 - e1))%num.

(** the sampling function of src/tfsf.cpp:67-74 *)
Definition tfsf_sample (E H : T) : sampler unit :=
  fun _ name n =>
    if String.eqb name "E" then Ok (repeat E n, tt)
    else if String.eqb name "H" then Ok (repeat H n, tt)
    else UB MissingReturn.

(** pulse, src/tfsf.cpp:43-81 *)
Definition tfsf_pulse (q : tfsf) : res tfsf :=
  let t := (q_t q + q_dt q)%num in
  prevE <- aget (q_E q) 2 ;;
  '(D, E, Iz) <- for_up 1 (q_N q) (pulseE_body (q_H q) (q_ca q) (q_cb q)) (q_D q, q_E q, q_I q) ;;
  '(v, tp) <- response (q_tp q) t ;;
  E <- aset E 1 v ;;
  E <- aset E 0 (q_l1 q) ;;
  let l1 := q_l0 q in
  l0 <- aget E 1 ;;
  E <- aset E (q_N q - 1) (q_r1 q) ;;
  let r1 := q_r0 q in
  r0 <- aget E (q_N q - 2) ;;
  d <- match q_dft q with
       | None => Ok None
       | Some d =>
         e2 <- aget E 2 ;; h2 <- aget (q_H q) 2 ;; h1 <- aget (q_H q) 1 ;;
         '(d, _) <- dft_update (tfsf_sample ((e2 + prevE) / 2)%num ((h2 + h1) / 2)%num) tt d t ;;
         Ok (Some d)
       end ;;
  H <- for_up 0 (q_N q - 1) (pulseH_body E) (q_H q) ;;
  Ok (Tfsf (q_vol q) (q_ia q) (q_ib q) (q_ja q) (q_jb q) tp d (q_N q) (q_dt q) t
           E D H Iz (q_ca q) (q_cb q) l0 l1 r0 r1).

(** t(i,j) += v, src/tfsf.cpp:87-88, 96-97, 102-103 *)
Definition tadd (a : tensor) (i j : Z) (v : T) : res tensor :=
  x <- tget a i j ;; tset a i j (x + v)%num.

(** updateD, src/tfsf.cpp:83-90 *)
Definition tfsf_updateD (q : tfsf) (E : tensor) : res tensor :=
  for_up (q_ia q) (q_ib q + 1) (fun i E =>
    h <- aget (q_H q) 2 ;;
    E <- tadd E i (q_ja q) (half * h)%num ;;
    h <- aget (q_H q) (q_N q - 2) ;;
    tadd E i (q_jb q) (- half * h)%num) E.

(** updateH, src/tfsf.cpp:92-105 *)
Definition tfsf_updateH (q : tfsf) (Hx Hy : tensor) : res (tensor * tensor) :=
  Hx <- for_up (q_ia q) (q_ib q + 1) (fun i Hx =>
    e <- aget (q_E q) 3 ;;
    Hx <- tadd Hx i (q_ja q - 1) (half * e)%num ;;
    e <- aget (q_E q) (q_N q - 2) ;;
    tadd Hx i (q_jb q) (- half * e)%num) Hx ;;
  Hy <- for_up (q_ja q) (q_jb q + 1) (fun j Hy =>
    e <- aget (q_E q) (j - q_ja q + 3) ;;
    Hy <- tadd Hy (q_ia q - 1) j (- half * e)%num ;;
    tadd Hy (q_ib q) j (half * e)%num) Hy ;;
  Ok (Hx, Hy).

(** reset, src/tfsf.cpp:107-117.  The accumulated transforms are kept. *)
Definition tfsf_reset (q : tfsf) : tfsf :=
  let z a := Arr (alen a) (fun _ => 0%num) in
  Tfsf (q_vol q) (q_ia q) (q_ib q) (q_ja q) (q_jb q) (q_tp q) (q_dft q) (q_N q) (q_dt q) 0%num
       (z (q_E q)) (z (q_D q)) (z (q_H q)) (z (q_I q)) (q_ca q) (q_cb q)
       0%num 0%num 0%num 0%num.

(** flux, src/tfsf.cpp:119-131 (the data of the returned Flux) *)
Definition tfsf_flux (q : tfsf) : res (list T) :=
  match q_dft q with
  | None => UB MissingReturn
  | Some d =>
    e <- dft_get d "E" ;; h <- dft_get d "H" ;;
    Ok (map (fun '((er, ei), (hr, hi)) => 0 + (er * hr + ei * hi))%num
            (combine (nth 0%nat e []) (nth 0%nat h [])))
  end.

End Tfsf.
