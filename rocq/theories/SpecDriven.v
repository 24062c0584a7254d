(** Rounding errors of the time step with sources (C88): a leap-frog step that sources add to. *)
From Coq Require Import ZArith Reals List Bool.
From Flocq Require Import Core.Core IEEE754.BinarySingleNaN.
From Verif Require Import Scalar Base VecM GridM DftM InterpM MonitorM FieldM Float SpecStep SpecRound.
Import ListNotations.
Local Open Scope Z_scope.

Section Driven.
Context {N : Num}.
(** what a source does in one step: a component, the cells, the value added to each of them *)
Definition kick : Type := comp * list (Z * Z) * T.
Definition same_comp (a b : comp) : bool := match a, b with Ez, Ez | Hx, Hx | Hy, Hy => true | _, _ => false end.
Definition listed (c : Z * Z) (l : list (Z * Z)) : bool := existsb (fun q => (fst q =? fst c) && (snd q =? snd c)) l.
Definition kicked (l : list kick) (c : comp) (a : cells) : cells := fun i j =>
  fold_left (fun x (k : kick) => if same_comp (fst (fst k)) c && listed (i, j) (snd (fst k)) then (x + snd k)%num else x) l (a i j).

(** one leap-frog step: Ez from the old H, then the sources, then H from the new Ez *)
Definition driven_step (n m th : Z) (dx : T) (md : medium) (l : list kick) (u : emag * hmag) : emag * hmag :=
  let e := next_e n m th dx md (hX (snd u)) (hY (snd u)) (fst u) in
  let e := Emag (kicked l Ez (eE e)) (eXl e) (eXh e) (eYl e) (eYh e) in
  let h := Hmag (kicked l Hx (hX (snd u))) (hXl (snd u)) (hXh (snd u)) (kicked l Hy (hY (snd u))) (hYl (snd u)) (hYh (snd u)) in
  (e, next_h n m th dx md (eE e) h).
Fixpoint driven_steps (n m th : Z) (dx : T) (md : medium) (dr : nat -> list kick) (k : nat) (u : emag * hmag) : emag * hmag :=
  match k with O => u | S k' => driven_step n m th dx md (dr k') (driven_steps n m th dx md dr k' u) end.

(** the time after i steps; the waveforms; what the sources do in step i *)
Fixpoint moment (t dt : T) (i : nat) : T := match i with O => t | S i' => (moment t dt i' + dt)%num end.
Definition waveform (x : shape) (t : T) : T :=
  match x with
  | Gaussian f sig T0 => (nsin (2 * npi * f * t) * nexp (nofZ (-1) * npow ((t - T0) * sig * 2 * npi) 2))%num
  | Continuous f => nsin (2 * npi * f * t)%num
  end.
Definition drive (srcs : list source) (Ls : list (list (Z * Z))) (t dt : T) (i : nat) : list kick :=
  map (fun x => (sr_c (fst x), snd x, waveform (tp_shape (sr_tp (fst x))) (moment t dt (S i)))) (combine srcs Ls).
End Driven.

(** the same drive, read in another arithmetic *)
Definition image_drive {N M : Num} (f : @T N -> @T M) (dr : nat -> list (@kick N)) (i : nat) : list (@kick M) :=
  map (fun k => (fst k, f (snd k))) (dr i).

(** no dispersive material and no incident plane wave; any sources *)
Definition only_sources {N : Num} (p : phys) : Prop := ph_debye p = [] /\ ph_drude p = [] /\ ph_lorentz p = [] /\ ph_tfsf p = None.
