(** Energy flow, Maxwell stress and far fields of a z-polarised wave. *)
From Coq Require Import ZArith Reals List Bool String.
From Verif Require Import Scalar Base VecM GridM DftM InterpM MonitorM SpecDft SpecSample.
Import ListNotations.
Local Open Scope R_scope.
#[local] Existing Instance RNum.

(** sums over samples 0 .. n-1 *)
Fixpoint total (n : nat) (f : nat -> R) : R := match n with O => 0 | S n => total n f + f n end.
Definition total2 (n : nat) (f : nat -> R * R) : R * R := (total n (fun i => fst (f i)), total n (fun i => snd (f i))).

(** Re (z * conj w) *)
Definition re_prod (z w : R * R) : R := fst z * fst w + snd z * snd w.
Definition dot2 (u v : R * R) : R := fst u * fst v + snd u * snd v.
Definition cross2 (u v : R * R) : R := fst u * snd v - snd u * fst v.
Definition scale2 (c : R) (u : R * R) : R * R := (c * fst u, c * snd u).
(** Re (E x conj H) for E = (0, 0, ez), H = (hx, hy, 0) *)
Definition poynting (ez hx hy : R * R) : R * R := (- re_prod ez hy, re_prod ez hx).
(** T_ij = Re (H_i conj H_j) - delta_ij (|H|^2 + |E|^2) / 2, i and j in {x, y} *)
Definition energy (ez hx hy : R * R) : R := (re_prod hx hx + re_prod hy hy + re_prod ez ez) / 2.
Definition t_xx (ez hx hy : R * R) : R := re_prod hx hx - energy ez hx hy.
Definition t_xy (ez hx hy : R * R) : R := re_prod hx hy.
Definition t_yx (ez hx hy : R * R) : R := re_prod hy hx.
Definition t_yy (ez hx hy : R * R) : R := re_prod hy hy - energy ez hx hy.
(** T . n *)
Definition traction (ez hx hy : R * R) (n : R * R) : R * R :=
  (t_xx ez hx hy * fst n + t_xy ez hx hy * snd n, t_yx ez hx hy * fst n + t_yy ez hx hy * snd n).

(** an accumulated coefficient *)
Definition cval (d : dft) (key : string) (i k : nat) : R * R := match coef d key i k with Some z => z | None => (0, 0) end.
(** n samples of each of the components ks *)
Definition recorded (d : dft) (n : nat) (ks : list string) : Prop :=
  shaped d /\ forall key, In key ks -> exists e, slookup key (d_map d) = Some e /\ List.length e = n.
(** the normal of the segment from a to b, pointing to the positive or negative side *)
Definition side_normal (a b : R * R) (sg : sign) : R * R :=
  let s := match sg with Positive => 1 | Negative => -1 end in
  if Req_EM_T (fst a) (fst b) then (s, 0) else (0, s).
(** the direction from a to b *)
Definition direction (a b : R * R) : R * R :=
  let l := sqrt ((fst b - fst a) * (fst b - fst a) + (snd b - snd a) * (snd b - snd a)) in
  ((fst b - fst a) / l, (snd b - snd a) / l).
(** outward and anticlockwise unit vectors of a circle *)
Definition e_r (th : R) : R * R := (cos th, sin th).
Definition e_phi (th : R) : R * R := (- sin th, cos th).
(** hp along e_phi and hr along e_r, in x and y *)
Definition cart_x (th : R) (hp hr : R * R) : R * R := plus2 (scale2 (fst (e_phi th)) hp) (scale2 (fst (e_r th)) hr).
Definition cart_y (th : R) (hp hr : R * R) : R * R := plus2 (scale2 (snd (e_phi th)) hp) (scale2 (snd (e_r th)) hr).

(** complex numbers *)
Definition times2 (z w : R * R) : R * R := (fst z * fst w - snd z * snd w, fst z * snd w + snd z * fst w).
Definition expi (x : R) : R * R := (cos x, sin x).
(** exp(i (pi/4 - k r)) / sqrt (8 pi k r) *)
Definition far_factor (k r : R) : R * R := scale2 (/ sqrt (8 * PI * k * r)) (expi (PI / 4 - k * r)).
(** integrand of the equivalent currents of a sample at q with outward normal n and
    H_t = H . t, seen at p: k (H_t + sg (p . n / |p|) E_z) exp(i k p.q/|p|) *)
Definition far_term (sg k : R) (p q n : R * R) (ez ht : R * R) : R * R :=
  times2 (plus2 (scale2 k ht) (scale2 (sg * k * (dot2 p n / sqrt (dot2 p p))) ez)) (expi (k * dot2 p q / sqrt (dot2 p p))).

(** segments along y and along x: which component of H is along and which across *)
Definition vertical (a b : R * R) : bool := if Req_EM_T (fst a) (fst b) then true else false.
Definition h_along (a b : R * R) : string := if vertical a b then "Hy"%string else "Hx"%string.
Definition h_across (a b : R * R) : string := if vertical a b then "Hx"%string else "Hy"%string.
Definition hxy : list string := ["Ez"; "Hx"; "Hy"]%string.
(** force on sample i *)
Definition pull (d : dft) (nrm : R * R) (da : R) (i k : nat) : R * R :=
  scale2 da (traction (cval d "Ez" i k) (cval d "Hx" i k) (cval d "Hy" i k) nrm).
(** where the torque puts sample i of the segment from a to b *)
Definition arm (a b : R * R) (dx : R) (i : nat) : R * R := plus2 a (scale2 ((INR i + / 2) * dx) (direction a b)).
Definition hpr : list string := ["Ez"; "Hp"; "Hr"]%string.
(** force on sample i of a circle *)
Definition circle_pull (d : dft) (nt : nat) (da : R) (i k : nat) : R * R :=
  let th := arc_middle (Z.of_nat nt) (Z.of_nat i) in let hp := cval d "Hp" i k in let hr := cval d "Hr" i k in
  scale2 da (traction (cval d "Ez" i k) (cart_x th hp hr) (cart_y th hp hr) (e_r th)).
(** corner points of the sides of a box, in the order of bm_sides *)
Definition side_ends (a b : R * R) (j : nat) : (R * R) * (R * R) * sign :=
  match j with
  | 0%nat => (a, (fst b, snd a), Negative)
  | 1%nat => ((fst b, snd a), b, Positive)
  | 2%nat => (b, (fst a, snd b), Positive)
  | _ => ((fst a, snd b), a, Negative)
  end.
(** direction in which side j looks *)
Definition looks (j : nat) : R * R := match j with 0%nat => (0, -1) | 1%nat => (1, 0) | 2%nat => (0, 1) | _ => (-1, 0) end.
(** what the sides of a box contribute *)
Definition outflow (d : dft) (n : nat) (nrm : R * R) (dx : R) (k : nat) : R :=
  total n (fun i => dot2 (poynting (cval d "Ez" i k) (cval d "Hx" i k) (cval d "Hy" i k)) nrm * dx).
(** a box monitor that was attached and then handed the fields l *)
Definition box_ran (g : grid) (name : string) (v : volume) (k : dkind) (freq : list R) (l : list (R * fields)) (m : box_mon) : Prop :=
  exists m0 m1, mk_box_mon name v k freq = Ok m0 /\ box_attach g m0 = Ok m1 /\ box_feed g l m1 = Ok m.
Definition middle (v : volume) : R * R := ((fst (v_a v) + fst (v_b v)) / 2, (snd (v_a v) + snd (v_b v)) / 2).
(** sample i of side j *)
Definition side_arm (v : volume) (dx : R) (j i : nat) : R * R := arm (fst (fst (side_ends (v_a v) (v_b v) j))) (snd (fst (side_ends (v_a v) (v_b v) j))) dx i.
(** wave number of the k-th frequency *)
Definition wave (d : dft) (k : nat) : R := 2 * PI * nth k (d_freq d) 0.
(** the unit vector to the right of the direction t *)
Definition right_of (t : R * R) : R * R := (snd t, - fst t).
Definition blend2 (u v : R * R) (x y : R * R) : R * R := plus2 (times2 u x) (times2 v y).
(** d3 = u d1 + v d2, coefficient by coefficient *)
Definition mixed (u v : R * R) (d1 d2 d3 : dft) : Prop :=
  d_freq d1 = d_freq d3 /\ d_freq d2 = d_freq d3 /\ forall key i k, cval d3 key i k = blend2 u v (cval d1 key i k) (cval d2 key i k).
(** the results of l3 are u l1 + v l2 *)
Definition mixed_results (u v : R * R) (l1 l2 l3 : list (R * R)) : Prop :=
  List.length l1 = List.length l3 /\ List.length l2 = List.length l3 /\
  forall k x y, nth_error l1 k = Some x -> nth_error l2 k = Some y -> nth_error l3 k = Some (blend2 u v x y).
(** surface monitors sum the integrand f(k, p, q, t, n, E_z, H_t) *)
Definition surf_uses (f : R -> R * R -> R * R -> R * R -> R * R -> R * R -> R * R -> R * R) : Prop :=
  forall (a b : R * R) sg s m n (dx : R) (c pc : R * R) fl k, mk_surface a b sg = Ok s -> a <> b -> sm_surf m = s ->
  recorded (sm_dft m) n ["Ez"%string; h_along a b] -> sm_len m = Z.of_nat n -> surf_ntff dx m c pc = Ok fl -> (k < List.length (d_freq (sm_dft m)))%nat ->
  let p := minus2 pc c in let t := direction a b in
  nth_error fl k = Some (times2 (far_factor (wave (sm_dft m) k) (sqrt (dot2 p p)))
    (total2 n (fun i => f (wave (sm_dft m) k) p (minus2 (plus2 a (scale2 (INR i * dx) t)) c) t (right_of t)
       (cval (sm_dft m) "Ez" i k) (scale2 (if vertical a b then snd t else fst t) (cval (sm_dft m) (h_along a b) i k))))).
(** cylinder monitors do *)
Definition circle_uses (f : R -> R * R -> R * R -> R * R -> R * R -> R * R -> R * R -> R * R) : Prop :=
  forall m n (pc : R * R) fl k, recorded (cm_dft m) n ["Ez"; "Hp"]%string -> cm_len m = Z.of_nat n -> cyl_ntff m pc = Ok fl -> (k < List.length (d_freq (cm_dft m)))%nat ->
  let c := cs_center (cm_surf m) in let p := minus2 pc c in
  nth_error fl k = Some (times2 (far_factor (wave (cm_dft m) k) (sqrt (dot2 p p)))
    (total2 n (fun i => let th := arc_middle (Z.of_nat n) (Z.of_nat i) in
       f (wave (cm_dft m) k) p (minus2 (on_circle c (cs_radius (cm_surf m)) th) c) (e_phi th) (right_of (e_phi th))
         (cval (cm_dft m) "Ez" i k) (cval (cm_dft m) "Hp" i k)))).

(** d' is d less o, coefficient by coefficient *)
Definition less (d' d o : dft) : Prop :=
  same_shape d' d /\ forall key i k z w, coef d key i k = Some z -> coef o key i k = Some w -> coef d' key i k = Some (minus2 z w).
(** l holds the values of the cells cs *)
Definition cells_of (f : tensor) (cs : list (Z * Z)) (l : list R) : Prop := Forall2 (fun c v => tget f (fst c) (snd c) = Ok v) cs l.
(** rows and columns from A to B, row by row *)
Definition block (A B : Z * Z) : list (Z * Z) := list_prod (zrange (fst A) (fst B + 1)) (zrange (snd A) (snd B + 1)).
