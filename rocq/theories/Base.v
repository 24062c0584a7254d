(** Outcomes, arrays and loops. *)
From Coq Require Import ZArith String List Bool Lia.
From Verif Require Import Scalar.
Import ListNotations.
Local Open Scope Z_scope.

(** Kinds of undefined behaviour the model distinguishes. *)
Inductive ubk :=
| OutOfBounds      (* array index outside its extent *)
| NullDeref        (* dereference of a null pointer *)
| DivByZero        (* integer division by zero *)
| IntOverflow      (* signed integer overflow *)
| BadCast          (* double outside the int range (or NaN) cast to int *)
| BadExtent        (* array created with a negative extent *)
| DanglingRef      (* use of a reference to a dead object *)
| BadOptional      (* *opt on an empty std::optional *)
| MissingReturn    (* flowing off the end of a value-returning function *)
| SizeMismatch.    (* Eigen operation on arrays of different sizes *)

(** C++ exceptions that the code can raise. *)
Inductive exn :=
| InvalidArgument     (* std::invalid_argument *)
| RuntimeError        (* std::runtime_error (timers) *)
| OutOfRange          (* std::map::at *)
| BadOptionalAccess   (* std::optional::value *)
| H5Error.            (* failure inside the HDF5 wrapper library *)

Inductive res (A : Type) : Type :=
| Ok (a : A)
| Throw (e : exn)
| UB (u : ubk).
Arguments Ok {A} _.
Arguments Throw {A} _.
Arguments UB {A} _.

Definition bind {A B} (m : res A) (k : A -> res B) : res B :=
  match m with
  | Ok a => k a
  | Throw e => Throw e
  | UB u => UB u
  end.

Notation "x <- m ;; k" := (bind m (fun x => k))
  (at level 61, m at next level, right associativity).
Notation "' p <- m ;; k" := (bind m (fun x => match x with p => k end))
  (at level 61, p pattern, m at next level, right associativity).

Definition ofOption {A} (u : ubk) (o : option A) : res A :=
  match o with Some a => Ok a | None => UB u end.

(** Signed 32-bit result check. *)
Definition i32 (z : Z) : res Z := if in_i32 z then Ok z else UB IntOverflow.

(** for (int i = lo; i < lo + n; i++) a = body(i, a); *)
Fixpoint for_n {A} (lo : Z) (n : nat) (body : Z -> A -> res A) (a : A) : res A :=
  match n with
  | O => Ok a
  | S n' => a' <- body lo a ;; for_n (lo + 1) n' body a'
  end.

(** for (int i = lo; i < hi; i++) *)
Definition for_up {A} (lo hi : Z) (body : Z -> A -> res A) (a : A) : res A :=
  for_n lo (Z.to_nat (hi - lo)) body a.

(** Indices lo, lo+1, ..., lo+n-1. *)
Fixpoint zseq (lo : Z) (n : nat) : list Z :=
  match n with O => [] | S n' => lo :: zseq (lo + 1) n' end.
Definition zrange (lo hi : Z) : list Z := zseq lo (Z.to_nat (hi - lo)).

Fixpoint mapM {A B} (f : A -> res B) (l : list A) : res (list B) :=
  match l with
  | [] => Ok []
  | x :: xs => y <- f x ;; ys <- mapM f xs ;; Ok (y :: ys)
  end.

Fixpoint foldM {A B} (f : A -> B -> res A) (a : A) (l : list B) : res A :=
  match l with
  | [] => Ok a
  | x :: xs => a' <- f a x ;; foldM f a' xs
  end.

(** Index range test 0 <= i < n. *)
Definition inr (n i : Z) : bool := (0 <=? i) && (i <? n).

Section Arrays.
Context {N : Num}.

(** Eigen::ArrayXd *)
Record arr := Arr { alen : Z; aval : Z -> T }.
Definition aget (a : arr) (i : Z) : res T :=
  if inr (alen a) i then Ok (aval a i) else UB OutOfBounds.
Definition aset (a : arr) (i : Z) (v : T) : res arr :=
  if inr (alen a) i
  then Ok (Arr (alen a) (fun i' => if i' =? i then v else aval a i'))
  else UB OutOfBounds.
Definition aconst (n : Z) (v : T) : res arr :=
  if 0 <=? n then Ok (Arr n (fun _ => v)) else UB BadExtent.

(** Eigen::Tensor<double,2,RowMajor> *)
Record tensor := Tensor { rows : Z; cols : Z; tval : Z -> Z -> T }.
Definition tget (a : tensor) (i j : Z) : res T :=
  if inr (rows a) i && inr (cols a) j then Ok (tval a i j) else UB OutOfBounds.
Definition tupd (a : tensor) (i j : Z) (v : T) : tensor :=
  Tensor (rows a) (cols a)
         (fun i' j' => if (i' =? i) && (j' =? j) then v else tval a i' j').
Definition tset (a : tensor) (i j : Z) (v : T) : res tensor :=
  if inr (rows a) i && inr (cols a) j then Ok (tupd a i j v) else UB OutOfBounds.
Definition tconst (n m : Z) (v : T) : res tensor :=
  if (0 <=? n) && (0 <=? m) then Ok (Tensor n m (fun _ _ => v)) else UB BadExtent.
(** setZero *)
Definition tzero (a : tensor) : tensor := Tensor (rows a) (cols a) (fun _ _ => 0%num).

(** Eigen::Tensor<double,3,RowMajor> *)
Record tensor3 := Tensor3 { dim1 : Z; dim2 : Z; dim3 : Z; t3val : Z -> Z -> Z -> T }.
Definition in3 (a : tensor3) (i j k : Z) : bool :=
  inr (dim1 a) i && inr (dim2 a) j && inr (dim3 a) k.
Definition t3get (a : tensor3) (i j k : Z) : res T :=
  if in3 a i j k then Ok (t3val a i j k) else UB OutOfBounds.
Definition t3upd (a : tensor3) (i j k : Z) (v : T) : tensor3 :=
  Tensor3 (dim1 a) (dim2 a) (dim3 a)
    (fun i' j' k' => if (i' =? i) && (j' =? j) && (k' =? k) then v else t3val a i' j' k').
Definition t3set (a : tensor3) (i j k : Z) (v : T) : res tensor3 :=
  if in3 a i j k then Ok (t3upd a i j k v) else UB OutOfBounds.
Definition t3const (n m p : Z) (v : T) : res tensor3 :=
  if (0 <=? n) && (0 <=? m) && (0 <=? p)
  then Ok (Tensor3 n m p (fun _ _ _ => v)) else UB BadExtent.
Definition t3zero (a : tensor3) : tensor3 :=
  Tensor3 (dim1 a) (dim2 a) (dim3 a) (fun _ _ _ => 0%num).

(** Array::sum(); simplification: left-to-right order (Eigen leaves it unspecified). *)
Definition nsum (l : list T) : T := fold_left nadd l 0%num.

End Arrays.
