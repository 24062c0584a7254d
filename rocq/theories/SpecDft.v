(** Fourier sums of sampled signals, and how the accumulated coefficients are read. *)
From Coq Require Import ZArith Reals List Bool String.
From Verif Require Import Scalar Base DftM.
Import ListNotations.
Local Open Scope R_scope.
#[local] Existing Instance RNum.

(** coefficient of sample i at the k-th frequency of component [key] *)
Definition coef (d : dft) (key : string) (i k : nat) : option (R * R) :=
  match slookup key (d_map d) with
  | Some e => match nth_error e i with Some row => nth_error row k | None => None end
  | None => None
  end.
(** sum of g_m cos(2 pi f t_m) and of g_m sin(2 pi f t_m) over the recorded (t_m, g_m) *)
Fixpoint fourier (f : R) (l : list (R * R)) : R * R :=
  match l with
  | [] => (0, 0)
  | (t, g) :: l => (g * cos (2 * PI * f * t) + fst (fourier f l), g * sin (2 * PI * f * t) + snd (fourier f l))
  end.
Definition plus2 (z w : R * R) : R * R := (fst z + fst w, snd z + snd w).
Definition minus2 (z w : R * R) : R * R := (fst z - fst w, snd z - snd w).
(** the times come one after the other, all after t0 *)
Fixpoint later (t0 : R) (ts : list R) : Prop :=
  match ts with [] => True | t :: ts => t0 < t /\ later t ts end.
(** no two entries have the same key; one row per sample, one pair per frequency *)
Definition shaped (d : dft) : Prop :=
  NoDup (map fst (d_map d)) /\
  forall key e row, slookup key (d_map d) = Some e -> In row e -> List.length row = List.length (d_freq d).
(** given samples *)
Definition given (g : string -> nat -> R) : sampler unit := fun _ key n => Ok (map (g key) (seq 0 n), tt).
Fixpoint feed (l : list (R * (string -> nat -> R))) (d : dft) : res dft :=
  match l with
  | [] => Ok d
  | (t, g) :: l => match dft_update (given g) tt d t with Ok (d', _) => feed l d' | Throw e => Throw e | UB u => UB u end
  end.
(** running averages of consecutive values, starting from p *)
Fixpoint averages (p : R) (l : list R) : list R :=
  match l with [] => [] | e :: l => (e + p) / 2 :: averages e l end.
(** the same components, samples and frequencies *)
Definition same_shape (d d2 : dft) : Prop :=
  forall key, match slookup key (d_map d), slookup key (d_map d2) with
              | Some e, Some e2 => map (@List.length (R * R)) e = map (@List.length (R * R)) e2
              | None, None => True
              | _, _ => False
              end.
