(** The grid in IEEE double arithmetic: C87. *)
From Coq Require Import ZArith Reals Bool.
From Flocq Require Import Core.Core IEEE754.BinarySingleNaN.
From Verif Require Import Scalar Base VecM GridM Float SpecGrid SpecDouble DoubleFacts DoubleCase.
Local Open Scope R_scope.

(** the cell chosen is the nearest one, up to one rounding error of the quotient *)
Theorem C87_near : forall (L : libm) (g : @grid (B64 L)) (p : f64 * f64) i j, 0 < B2R (g_dx g : f64) ->
  to_grid (N := B64 L) g p = Ok (i, j) ->
  almost_nearest (B2R (fst p) / B2R (g_dx g : f64)) i /\ almost_nearest (B2R (snd p) / B2R (g_dx g : f64)) j.
Proof. exact near64. Qed.
Print Assumptions C87_near.

(** every finite point within the range of int has a cell *)
Theorem C87_total : forall (L : libm) (g : @grid (B64 L)) (p : f64 * f64), 0 < B2R (g_dx g : f64) ->
  is_finite (fst p) = true -> is_finite (snd p) = true ->
  Rabs (B2R (fst p) / B2R (g_dx g : f64)) <= IZR (2 ^ 31 - 1) ->
  Rabs (B2R (snd p) / B2R (g_dx g : f64)) <= IZR (2 ^ 31 - 1) ->
  exists q, to_grid (N := B64 L) g p = Ok q.
Proof. exact total64. Qed.
Print Assumptions C87_total.

(** the order of points is the order of their cells *)
Theorem C87_monotone : forall (L : libm) (g : @grid (B64 L)) (p q : f64 * f64) i j k l, 0 < B2R (g_dx g : f64) ->
  to_grid (N := B64 L) g p = Ok (i, j) -> to_grid (N := B64 L) g q = Ok (k, l) ->
  (B2R (fst p) <= B2R (fst q) -> (i <= k)%Z) /\ (B2R (snd p) <= B2R (snd q) -> (j <= l)%Z).
Proof. exact mono64. Qed.
Print Assumptions C87_monotone.

(** every point between zero and the stored lengths is a cell of the grid *)
Theorem C87_domain : forall (L : libm) (Lx Ly rs : f64) pml (g : @grid (B64 L)) (p : f64 * f64), resolution64 rs ->
  mk_grid (N := B64 L) Lx Ly rs pml = Ok g -> is_finite (fst p) = true -> is_finite (snd p) = true ->
  0 <= B2R (fst p) <= B2R (g_Lx g : f64) -> 0 <= B2R (snd p) <= B2R (g_Ly g : f64) ->
  exists q, to_grid (N := B64 L) g p = Ok q /\ in_grid (g_Nx g) (g_Ny g) q.
Proof. exact domain64. Qed.
Print Assumptions C87_domain.
Example C87_domain_case : forall L : libm, exists g : @grid (B64 L), resolution64 (f64_ofZ 1) /\
  mk_grid (N := B64 L) (f64_ofZ 8) (f64_ofZ 8) (f64_ofZ 1) 0 = Ok g /\ is_finite (frac 5 2) = true /\
  0 <= B2R (frac 5 2) <= B2R (g_Lx g : f64) /\ 0 <= B2R (f64_ofZ 7) <= B2R (g_Lx g : f64) /\ 0 < B2R (g_dx g : f64).
Proof. exact inside_case. Qed.

(** the number of cells is the exact product of the arguments rounded up, or one less *)
Theorem C87_count : forall (L : libm) (Lx Ly rs : f64) pml (g : @grid (B64 L)), resolution64 rs ->
  mk_grid (N := B64 L) Lx Ly rs pml = Ok g ->
  count_of (B2R Lx * B2R rs) (g_Nx g) /\ count_of (B2R Ly * B2R rs) (g_Ny g).
Proof. exact count_grid64. Qed.
Print Assumptions C87_count.
(** one less does happen: 0.1 at resolution 10 *)
Example C87_count_case : forall L : libm, exists g : @grid (B64 L), resolution64 (f64_ofZ 10) /\
  mk_grid (N := B64 L) (frac 1 10) (frac 1 10) (f64_ofZ 10) 0 = Ok g /\
  g_Nx g = 1%Z /\ Zceil (B2R (frac 1 10) * B2R (f64_ofZ 10)) = 2%Z.
Proof. exact tenth_case. Qed.

(** the stored length never exceeds the requested one, and falls short of it by a cell at most, up to rounding *)
Theorem C87_extent : forall (L : libm) (Lx Ly rs : f64) pml (g : @grid (B64 L)), resolution64 rs ->
  0 <= B2R Lx -> 0 <= B2R Ly -> mk_grid (N := B64 L) Lx Ly rs pml = Ok g ->
  (B2R (g_Lx g : f64) <= B2R Lx /\
   ((0 < g_Nx g)%Z -> B2R Lx - B2R (g_dx g : f64) * (1 + 4 * bpow radix2 (-53) * IZR (g_Nx g)) <= B2R (g_Lx g : f64))) /\
  (B2R (g_Ly g : f64) <= B2R Ly /\
   ((0 < g_Ny g)%Z -> B2R Ly - B2R (g_dx g : f64) * (1 + 4 * bpow radix2 (-53) * IZR (g_Ny g)) <= B2R (g_Ly g : f64))).
Proof. exact extent64. Qed.
Print Assumptions C87_extent.

(** the point at the requested length falls on the last cell or on the one after it *)
Theorem C87_edge : forall (L : libm) (Lx Ly rs : f64) pml (g : @grid (B64 L)) (y : f64) i j, resolution64 rs ->
  0 <= B2R Lx -> (0 < g_Nx g)%Z -> mk_grid (N := B64 L) Lx Ly rs pml = Ok g ->
  to_grid (N := B64 L) g (Lx, y) = Ok (i, j) -> i = (g_Nx g - 1)%Z \/ i = g_Nx g.
Proof. exact edge64. Qed.
Print Assumptions C87_edge.
(** both happen: 0.07 at resolution 100 and 8 at resolution 1 *)
Example C87_edge_inside_case : forall L : libm, exists g : @grid (B64 L), resolution64 (f64_ofZ 100) /\
  mk_grid (N := B64 L) (frac 7 100) (frac 7 100) (f64_ofZ 100) 0 = Ok g /\ g_Nx g = 8%Z /\
  B2R (g_Lx g : f64) = B2R (frac 7 100) /\ to_grid (N := B64 L) g (frac 7 100, f64_ofZ 0) = Ok (7, 0)%Z.
Proof. exact seven_case. Qed.
Example C87_edge_outside_case : forall L : libm, exists g : @grid (B64 L), resolution64 (f64_ofZ 1) /\
  mk_grid (N := B64 L) (f64_ofZ 8) (f64_ofZ 8) (f64_ofZ 1) 0 = Ok g /\ g_Nx g = 8%Z /\
  to_grid (N := B64 L) g (f64_ofZ 8, f64_ofZ 0) = Ok (8, 0)%Z.
Proof. exact eight_case. Qed.

(** a surface that could be built converts without an exception *)
Theorem C87_surface : forall (L : libm) (g : @grid (B64 L)) (a b : f64 * f64) sg s e, 0 < B2R (g_dx g : f64) ->
  mk_surface (N := B64 L) a b sg = Ok s -> to_grid_surface (N := B64 L) g s <> Throw e.
Proof. exact surface64. Qed.
Print Assumptions C87_surface.
Example C87_surface_case : forall L : libm, exists s, mk_surface (N := B64 L) (frac 7 100, f64_ofZ 0) (frac 7 100, frac 5 2) Positive = Ok s.
Proof. exact surface_case. Qed.
