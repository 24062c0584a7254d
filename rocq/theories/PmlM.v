(** include/pml.h, src/pml.cpp *)
From Coq Require Import ZArith List Bool.
From Verif Require Import Scalar Base GridM.
Local Open Scope Z_scope.

Section Pml.
Context {N : Num}.

(** include/pml.h:28-42.  [p_Nx], [p_Ny], [p_dx], [p_dt] are the copied grid. *)
Record pml_par := PmlPar {
  p_Nx : Z; p_Ny : Z; p_dx : T; p_dt : T; p_th : Z;
  p_m : Z; p_ma : Z; p_kmax : T; p_sigmax : T; p_amax : T }.

(** src/pml.cpp:61-63 *)
Definition a_func (p : pml_par) (t : T) : T :=
  (p_amax p * npow ((t - 1) / nofZ (p_th p - 1)) (p_ma p))%num.
(** src/pml.cpp:65-67 *)
Definition k_func (p : pml_par) (t : T) : T :=
  (1 + (p_kmax p - 1) * npow ((nofZ (p_th p) - t) / nofZ (p_th p - 1)) (p_m p))%num.
(** src/pml.cpp:69-72 *)
Definition sig_func (p : pml_par) (t : T) : T :=
  (p_sigmax p * npow ((nofZ (p_th p) - t) / nofZ (p_th p - 1)) (p_m p))%num.
(** src/pml.cpp:53-55 *)
Definition b_func (p : pml_par) (t : T) : T :=
  nexp (- p_dt p * (sig_func p t / k_func p t + a_func p t))%num.
(** src/pml.cpp:57-59 *)
Definition c_func (p : pml_par) (t : T) : T :=
  (sig_func p t / (sig_func p t * k_func p t + npow (k_func p t) 2 * a_func p t)
   * (b_func p t - 1))%num.

(** src/pml.cpp:12-15 with the default arguments of include/pml.h:15
    (m = 3, ma = 1, k_max = 1, a_max = 0.2, sig_scale = 1), the only ones used
    (src/field2.cpp:43). *)
Definition mk_pml_par (g : grid) : pml_par :=
  PmlPar (g_Nx g) (g_Ny g) (g_dx g) (g_dt g) (g_pml g)
         3 1 1%num (nofQ 4 5 * nofZ (3 + 1) / g_dx g * 1)%num (nofQ 1 5).

(** The coefficient arrays, include/pml.h:35-36 *)
Record pml_coef := PmlCoef {
  be_x : arr; ce_x : arr; bh_x : arr; ch_x : arr;
  be_y : arr; ce_y : arr; bh_y : arr; ch_y : arr }.

(** one pass of the loop src/pml.cpp:28-38 *)
Definition coef_step (p : pml_par) (i : Z) (c : pml_coef) : res pml_coef :=
  let ti := nofZ i in
  let th := (nofZ i + half)%num in
  bex <- aset (be_x c) i (b_func p ti) ;;
  cex <- aset (ce_x c) i (c_func p ti) ;;
  bhx <- aset (bh_x c) i (b_func p th) ;;
  chx <- aset (ch_x c) i (c_func p th) ;;
  bey <- aset (be_y c) i (b_func p ti) ;;
  cey <- aset (ce_y c) i (c_func p ti) ;;
  bhy <- aset (bh_y c) i (b_func p th) ;;
  chy <- aset (ch_y c) i (c_func p th) ;;
  Ok (PmlCoef bex cex bhx chx bey cey bhy chy).

(** src/pml.cpp:17-38 *)
Definition mk_pml_coef (p : pml_par) : res pml_coef :=
  zx <- aconst (p_Nx p) 0%num ;;
  zy <- aconst (p_Ny p) 0%num ;;
  for_up 0 (p_th p + 1) (coef_step p) (PmlCoef zx zx zx zx zy zy zy zy).

(** The memory tensors, include/pml.h:38-41 *)
Record pml_psi := PmlPsi {
  Ezx1 : tensor; Ezx2 : tensor; Ezy1 : tensor; Ezy2 : tensor;
  Hxy1 : tensor; Hxy2 : tensor; Hyx1 : tensor; Hyx2 : tensor }.

(** src/pml.cpp:40-49 *)
Definition mk_pml_psi (p : pml_par) : res pml_psi :=
  zx <- tconst (p_th p + 1) (p_Ny p) 0%num ;;
  zy <- tconst (p_Nx p) (p_th p + 1) 0%num ;;
  Ok (PmlPsi zx zx zy zy zy zy zx zx).

(** include/pml.h:12-42 *)
Record pml := Pml { p_par : pml_par; p_coef : pml_coef; p_psi : pml_psi }.

(** src/pml.cpp:12-51 *)
Definition mk_pml (g : grid) : res pml :=
  let p := mk_pml_par g in
  c <- mk_pml_coef p ;;
  s <- mk_pml_psi p ;;
  Ok (Pml p c s).

(** The scaling arrays of Field2D, include/field2.h:110 *)
Record scaling := Scaling { kedx : arr; khdx : arr; kedy : arr; khdy : arr }.

(** one pass of the loop src/pml.cpp:81-91 *)
Definition scaling_step (p : pml_par) (i : Z) (s : scaling) : res scaling :=
  let t := nofZ i in
  let dx := p_dx p in
  k1 <- aset (kedx s) i (k_func p t * dx)%num ;;
  h1 <- aset (khdx s) i (k_func p (t + half) * dx)%num ;;
  k2 <- aset k1 (p_Nx p - 1 - i) (k_func p t * dx)%num ;;
  h2 <- aset h1 (p_Nx p - 1 - i) (k_func p (t - half) * dx)%num ;;
  l1 <- aset (kedy s) i (k_func p t * dx)%num ;;
  g1 <- aset (khdy s) i (k_func p (t + half) * dx)%num ;;
  l2 <- aset l1 (p_Ny p - 1 - i) (k_func p t * dx)%num ;;
  g2 <- aset g1 (p_Ny p - 1 - i) (k_func p (t - half) * dx)%num ;;
  Ok (Scaling k2 h2 l2 g2).

(** src/pml.cpp:74-92 *)
Definition set_scaling (p : pml_par) : res scaling :=
  x <- aconst (p_Nx p) (p_dx p * 1)%num ;;
  y <- aconst (p_Ny p) (p_dx p * 1)%num ;;
  for_up 0 (p_th p) (scaling_step p) (Scaling x x y y).

(** body of src/pml.cpp:100-110: (psi_Ezy1, psi_Ezy2, Ez) *)
Definition Ey_body (p : pml_par) (c : pml_coef) (Cb Hx : tensor) (i j : Z)
    (s : tensor * tensor * tensor) : res (tensor * tensor * tensor) :=
  let '(p1, p2, E) := s in
  let je := p_Ny p - 1 in
  b <- aget (be_y c) j ;; q <- tget p1 i j ;;
  cc <- aget (ce_y c) j ;; h1 <- tget Hx i j ;; h0 <- tget Hx i (j - 1) ;;
  p1 <- tset p1 i j (b * q + cc * (h1 - h0) / p_dx p)%num ;;
  q2 <- tget p2 i j ;; h3 <- tget Hx i (je - j) ;; h2 <- tget Hx i (je - j - 1) ;;
  p2 <- tset p2 i j (b * q2 + cc * (h3 - h2) / p_dx p)%num ;;
  e <- tget E i j ;; cb <- tget Cb i j ;; q <- tget p1 i j ;;
  E <- tset E i j (e - cb * q)%num ;;
  e <- tget E i (je - j) ;; cb <- tget Cb i (je - j) ;; q <- tget p2 i j ;;
  E <- tset E i (je - j) (e - cb * q)%num ;;
  Ok (p1, p2, E).

(** src/pml.cpp:98-111 *)
Definition pml_Ey (p : pml_par) (c : pml_coef) (Cb Hx : tensor)
    (s : tensor * tensor * tensor) : res (tensor * tensor * tensor) :=
  for_up 1 (p_Nx p - 1) (fun i s =>
    for_up 1 (p_th p + 1) (fun j s => Ey_body p c Cb Hx i j s) s) s.

(** body of src/pml.cpp:115-125: (psi_Ezx1, psi_Ezx2, Ez) *)
Definition Ex_body (p : pml_par) (c : pml_coef) (Cb Hy : tensor) (i j : Z)
    (s : tensor * tensor * tensor) : res (tensor * tensor * tensor) :=
  let '(p1, p2, E) := s in
  let ie := p_Nx p - 1 in
  b <- aget (be_x c) i ;; q <- tget p1 i j ;;
  cc <- aget (ce_x c) i ;; h1 <- tget Hy i j ;; h0 <- tget Hy (i - 1) j ;;
  p1 <- tset p1 i j (b * q + cc * (h1 - h0) / p_dx p)%num ;;
  q2 <- tget p2 i j ;; h3 <- tget Hy (ie - i) j ;; h2 <- tget Hy (ie - i - 1) j ;;
  p2 <- tset p2 i j (b * q2 + cc * (h3 - h2) / p_dx p)%num ;;
  e <- tget E i j ;; cb <- tget Cb i j ;; q <- tget p1 i j ;;
  E <- tset E i j (e + cb * q)%num ;;
  e <- tget E (ie - i) j ;; cb <- tget Cb (ie - i) j ;; q <- tget p2 i j ;;
  E <- tset E (ie - i) j (e + cb * q)%num ;;
  Ok (p1, p2, E).

(** src/pml.cpp:113-126 *)
Definition pml_Ex (p : pml_par) (c : pml_coef) (Cb Hy : tensor)
    (s : tensor * tensor * tensor) : res (tensor * tensor * tensor) :=
  for_up 1 (p_th p + 1) (fun i s =>
    for_up 1 (p_Ny p - 1) (fun j s => Ex_body p c Cb Hy i j s) s) s.

(** src/pml.cpp:94-127 *)
Definition pml_update_E (b : pml) (Cb Hx Hy E : tensor) : res (pml * tensor) :=
  let p := p_par b in let c := p_coef b in let s := p_psi b in
  '(y1, y2, E) <- pml_Ey p c Cb Hx (Ezy1 s, Ezy2 s, E) ;;
  '(x1, x2, E) <- pml_Ex p c Cb Hy (Ezx1 s, Ezx2 s, E) ;;
  Ok (Pml p c (PmlPsi x1 x2 y1 y2 (Hxy1 s) (Hxy2 s) (Hyx1 s) (Hyx2 s)), E).

(** body of src/pml.cpp:135-144: (psi_Hxy1, psi_Hxy2, Hx) *)
Definition Hx_body (p : pml_par) (c : pml_coef) (Db E : tensor) (i j : Z)
    (s : tensor * tensor * tensor) : res (tensor * tensor * tensor) :=
  let '(p1, p2, H) := s in
  let je := p_Ny p - 1 in
  b <- aget (bh_y c) j ;; q <- tget p1 i j ;;
  cc <- aget (ch_y c) j ;; e1 <- tget E i (j + 1) ;; e0 <- tget E i j ;;
  p1 <- tset p1 i j (b * q + cc * (e1 - e0) / p_dx p)%num ;;
  q2 <- tget p2 i j ;; e3 <- tget E i (je - j) ;; e2 <- tget E i (je - j - 1) ;;
  p2 <- tset p2 i j (b * q2 + cc * (e3 - e2) / p_dx p)%num ;;
  h <- tget H i j ;; db <- tget Db i j ;; q <- tget p1 i j ;;
  H <- tset H i j (h - db * q)%num ;;
  h <- tget H i (je - j - 1) ;; db <- tget Db i (je - j - 1) ;; q <- tget p2 i j ;;
  H <- tset H i (je - j - 1) (h - db * q)%num ;;
  Ok (p1, p2, H).

(** src/pml.cpp:133-145 *)
Definition pml_Hx (p : pml_par) (c : pml_coef) (Db E : tensor)
    (s : tensor * tensor * tensor) : res (tensor * tensor * tensor) :=
  for_up 1 (p_Nx p - 1) (fun i s =>
    for_up 1 (p_th p) (fun j s => Hx_body p c Db E i j s) s) s.

(** body of src/pml.cpp:149-158: (psi_Hyx1, psi_Hyx2, Hy) *)
Definition Hy_body (p : pml_par) (c : pml_coef) (Db E : tensor) (i j : Z)
    (s : tensor * tensor * tensor) : res (tensor * tensor * tensor) :=
  let '(p1, p2, H) := s in
  let ie := p_Nx p - 1 in
  b <- aget (bh_x c) i ;; q <- tget p1 i j ;;
  cc <- aget (ch_x c) i ;; e1 <- tget E (i + 1) j ;; e0 <- tget E i j ;;
  p1 <- tset p1 i j (b * q + cc * (e1 - e0) / p_dx p)%num ;;
  q2 <- tget p2 i j ;; e3 <- tget E (ie - i) j ;; e2 <- tget E (ie - i - 1) j ;;
  p2 <- tset p2 i j (b * q2 + cc * (e3 - e2) / p_dx p)%num ;;
  h <- tget H i j ;; db <- tget Db i j ;; q <- tget p1 i j ;;
  H <- tset H i j (h + db * q)%num ;;
  h <- tget H (ie - i - 1) j ;; db <- tget Db (ie - i - 1) j ;; q <- tget p2 i j ;;
  H <- tset H (ie - i - 1) j (h + db * q)%num ;;
  Ok (p1, p2, H).

(** src/pml.cpp:147-159 *)
Definition pml_Hy (p : pml_par) (c : pml_coef) (Db E : tensor)
    (s : tensor * tensor * tensor) : res (tensor * tensor * tensor) :=
  for_up 1 (p_th p) (fun i s =>
    for_up 1 (p_Ny p - 1) (fun j s => Hy_body p c Db E i j s) s) s.

(** src/pml.cpp:129-160 *)
Definition pml_update_H (b : pml) (Db E Hx Hy : tensor) : res (pml * tensor * tensor) :=
  let p := p_par b in let c := p_coef b in let s := p_psi b in
  '(x1, x2, Hx) <- pml_Hx p c Db E (Hxy1 s, Hxy2 s, Hx) ;;
  '(y1, y2, Hy) <- pml_Hy p c Db E (Hyx1 s, Hyx2 s, Hy) ;;
  Ok (Pml p c (PmlPsi (Ezx1 s) (Ezx2 s) (Ezy1 s) (Ezy2 s) x1 x2 y1 y2), Hx, Hy).

End Pml.
