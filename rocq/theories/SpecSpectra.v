(** What a program that measures spectra leaves in its file: the frequencies, and forces by component. *)
From Coq Require Import ZArith Reals String List Bool.
From Verif Require Import Scalar Base VecM H5M SpecFile.
Import ListNotations.
Local Open Scope R_scope.
#[local] Existing Instance RNum.

(** [n] values at equal distances, from [lo] to [hi] *)
Definition evenly (n : nat) (lo hi : R) (l : list R) : Prop :=
  List.length l = n /\ forall k, (k < n)%nat -> nth_error l k = Some (lo + INR k * (hi - lo) / INR (n - 1)).

(** the file has, below [place], [n] frequencies from 1/30 to 3/30 *)
Definition spectrum_at (f : h5) (n : nat) (place : list string) : Prop :=
  exists l, evenly n (1 / 30) (3 / 30) l /\ holds f (path (place ++ ["dft_frequency"%string]), false, PReals l).

(** first the components along x, then those along y *)
Definition by_component {N : Num} (F : list (T * T)) (v : payload) : Prop :=
  exists l, v = PReals l /\ List.length l = (2 * List.length F)%nat /\
  forall k x y, nth_error F k = Some (x, y) -> nth_error l k = Some x /\ nth_error l (List.length F + k) = Some y.
