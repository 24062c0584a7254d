(** include/dft.h, src/dft.cpp, include/sources/time_profile.h, src/sources/time_profile.cpp *)
From Coq Require Import ZArith String List Bool.
From Verif Require Import Scalar Base.
Import ListNotations.
Local Open Scope Z_scope.

(** std::map<std::string, _> (include/dft.h:107, include/field2.h:118-120) as a list sorted by key. *)
Section Smap.
Context {A : Type}.
(** std::map::find / at, include/dft.h:91-92, include/field2.h:175 *)
Fixpoint slookup (k : string) (m : list (string * A)) : option A :=
  match m with
  | [] => None
  | (k', v) :: m' => if String.eqb k k' then Some v else slookup k m'
  end.
(** std::map::insert: keeps an existing entry; include/dft.h:62, include/field2.h:179 *)
Fixpoint sinsert (k : string) (v : A) (m : list (string * A)) : list (string * A) :=
  match m with
  | [] => [(k, v)]
  | (k', v') :: m' =>
    match String.compare k k' with
    | Lt => (k, v) :: m
    | Eq => m
    | Gt => (k', v') :: sinsert k v m'
    end
  end.
(** assignment through a reference to an existing entry, include/dft.h:63-64, include/field2.h:182 *)
Fixpoint sassign (k : string) (v : A) (m : list (string * A)) : list (string * A) :=
  match m with
  | [] => []
  | (k', v') :: m' => if String.eqb k k' then (k', v) :: m' else (k', v') :: sassign k v m'
  end.
End Smap.

Section Dft.
Context {N : Num}.

(** complex_dft_tensor<RANK>, include/dft.h:16-25.  The sample indices (none, i, or
    (i,j) in row-major order) are flattened into one list; each sample has one
    (real, imag) pair per frequency. *)
Definition dentry : Type := list (list (T * T)).

(** include/dft.h:103-107 *)
Record dft := Dft { d_t : T; d_freq : list T; d_map : list (string * dentry) }.

(** include/dft.h:43 *)
Definition mk_dft (freq : list T) : dft := Dft 0%num freq [].

(** add, include/dft.h:53-65; [n] is the number of samples.  insert keeps an existing
    entry, setZero then clears it: a re-added name is cleared with its old size. *)
Definition dft_add (d : dft) (name : string) (n : Z) : res dft :=
  if n <? 0 then UB BadExtent else
  let zero k : dentry := repeat (repeat (0%num, 0%num) (length (d_freq d))) k in
  Ok (Dft (d_t d) (d_freq d)
       (match slookup name (d_map d) with
        | None => sinsert name (zero (Z.to_nat n)) (d_map d)
        | Some e => sassign name (zero (length e)) (d_map d)
        end)).

(** cosf/sinf, src/dft.cpp:34-35, 56-57, 81-82 *)
Definition phases (freq : list T) (t : T) : list (T * T) :=
  map (fun f => (ncos (2 * npi * f * t), nsin (2 * npi * f * t))%num) freq.

(** inner loop over k, src/dft.cpp:41-44, 66-69, 93-96 *)
Definition accum1 (ph : list (T * T)) (row : list (T * T)) (g : T) : list (T * T) :=
  map (fun '((re, im), (c, s)) => (re + g * c, im + g * s)%num) (combine row ph).

(** loop over the samples, src/dft.cpp:40-44, 64-70, 90-98 *)
Definition accum (ph : list (T * T)) (e : dentry) (gs : list T) : dentry :=
  map (fun '(row, g) => accum1 ph row g) (combine e gs).

(** The functions passed to update may change the monitor (the stored previous
    field), so sampling threads a state.  [sample s name n] returns the [n] values
    g(0..n-1) for component [name]; src/dft.cpp:28, 50, 75. *)
Definition sampler (S : Type) : Type := S -> string -> nat -> res (list T * S).

(** loop over the map of transforms, src/dft.cpp:38-45, 60-71, 85-99 *)
Fixpoint dft_entries {S} (f : sampler S) (ph : list (T * T)) (s : S)
    (m : list (string * dentry)) : res (list (string * dentry) * S) :=
  match m with
  | [] => Ok ([], s)
  | (name, e) :: m' =>
    '(gs, s) <- f s name (length e) ;;
    '(r, s) <- dft_entries f ph s m' ;;
    Ok ((name, accum ph e gs) :: r, s)
  end.

(** dft<RANK>::update, src/dft.cpp:27-46, 49-72, 74-100 *)
Definition dft_update {S} (f : sampler S) (s : S) (d : dft) (tnew : T) : res (dft * S) :=
  if (d_t d =? tnew)%num then Ok (d, s) else
  '(m, s) <- dft_entries f (phases (d_freq d) tnew) s (d_map d) ;;
  Ok (Dft tnew (d_freq d) m, s).

(** operator() / get, include/dft.h:91-92 *)
Definition dft_get (d : dft) (name : string) : res dentry :=
  match slookup name (d_map d) with Some e => Ok e | None => Throw OutOfRange end.

(** Tensor -= for one sample, include/dft.h:98-99; different sizes are undefined behaviour in Eigen. *)
Definition sub_row (r1 r2 : list (T * T)) : res (list (T * T)) :=
  if Nat.eqb (length r1) (length r2)
  then Ok (map (fun '((a, b), (c, d)) => (a - c, b - d)%num) (combine r1 r2))
  else UB SizeMismatch.
(** Tensor -= over the samples, include/dft.h:98-99; different sizes are undefined behaviour in Eigen. *)
Definition sub_entry (e1 e2 : dentry) : res dentry :=
  if Nat.eqb (length e1) (length e2)
  then mapM (fun '(r1, r2) => sub_row r1 r2) (combine e1 e2)
  else UB SizeMismatch.

(** operator-=, include/dft.h:94-101 *)
Definition dft_sub (d other : dft) : res dft :=
  m <- mapM (fun '(name, e) =>
               e2 <- dft_get other name ;; e' <- sub_entry e e2 ;; Ok (name, e'))
            (d_map d) ;;
  Ok (Dft (d_t d) (d_freq d) m).

(** * Time profiles *)
(** include/sources/time_profile.h:39-60 *)
Inductive shape := Gaussian (f sig T0 : T) | Continuous (f : T).
(** include/sources/time_profile.h:11-24 *)
Record tprofile := TProfile { tp_shape : shape; tp_dft : option dft }.

(** response value: src/sources/time_profile.cpp:17-21 and 35-39 *)
Definition shape_val (s : shape) (t : T) : T :=
  match s with
  | Gaussian f sig T0 =>
    (nsin (2 * npi * f * t) * nexp (nofZ (-1) * npow ((t - T0) * sig * 2 * npi) 2))%num
  | Continuous f => nsin (2 * npi * f * t)%num
  end.

(** freq(...), include/sources/time_profile.h:29-32 *)
Definition tp_with_freq (s : shape) (freq : list T) : res tprofile :=
  d <- dft_add (mk_dft freq) "dft" 1 ;; Ok (TProfile s (Some d)).

(** time_profile::update, src/sources/time_profile.cpp:7-13 *)
Definition tp_update (p : tprofile) (v t : T) : res tprofile :=
  match tp_dft p with
  | None => Ok p
  | Some d =>
    '(d, _) <- dft_update (fun (_ : unit) _ n => Ok (repeat v n, tt)) tt d t ;;
    Ok (TProfile (tp_shape p) (Some d))
  end.

(** response, src/sources/time_profile.cpp:17-21, 35-39 *)
Definition response (p : tprofile) (t : T) : res (T * tprofile) :=
  let v := shape_val (tp_shape p) t in
  p' <- tp_update p v t ;; Ok (v, p').

End Dft.
