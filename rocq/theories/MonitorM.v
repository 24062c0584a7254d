(** include/monitors/*.h, src/monitors/*.cpp *)
From Coq Require Import ZArith String List Bool.
From Verif Require Import Scalar Base VecM GridM DftM InterpM.
Import ListNotations.
Local Open Scope Z_scope.

(** DFT::Ez, Hx, Hy, tangent, all: include/dft.h:27-33 *)
Inductive dkind := DEz | DHx | DHy | DTangent | DAll.

Section Monitor.
Context {N : Num}.

(** the comparisons comp == ..., surface_monitor.h:99, 111, 120, volume_monitor.h:44, 51, 58 *)
Definition comp_name (s : string) : option comp :=
  if String.eqb s "Ez" then Some Ez
  else if String.eqb s "Hx" then Some Hx
  else if String.eqb s "Hy" then Some Hy
  else None.

(** the samples 0 .. n-1 of one component, src/dft.cpp:64-65 *)
Definition for_samples (n : nat) (f : Z -> res T) : res (list T) := mapM f (zseq 0 n).

(** prevE(i), surface_monitor.h:105, cylinder_monitor.h:50: out of range is undefined behaviour *)
Definition pget (l : list T) (i : Z) : res T :=
  if inr (Z.of_nat (length l)) i then Ok (nth (Z.to_nat i) l 0%num) else UB OutOfBounds.

(** Sampling Ez at positions pos(0..n-1): the time average with the previous value,
    which is replaced by the new one (surface_monitor.h:101-108,
    cylinder_monitor.h:46-53). *)
Definition sample_E (dx : T) (F : fields) (pos : Z -> vec) (prevE : list T) (n : nat)
    : res (list T * list T) :=
  new <- for_samples n (fun i => interpolate dx F Ez (pos i)) ;;
  old <- for_samples n (pget prevE) ;;
  Ok (map (fun '(a, b) => (a + b) / 2)%num (combine new old),
      new ++ skipn n prevE).

(** * Surface monitors *)
(** include/monitors/surface_monitor.h:252-256, rank_monitor.h:24-26 *)
Record surf_mon := SurfMon {
  sm_name : string; sm_surf : surface; sm_kind : dkind;
  sm_len : Z; sm_prevE : list T; sm_dft : dft }.

(** surface_monitor.h:22 *)
Definition mk_surf_mon (name : string) (s : surface) (k : dkind) (freq : list T) : surf_mon :=
  SurfMon name s k 0 [] (mk_dft freq).

(** names added to the transform, surface_monitor.h:33-45 *)
Definition surf_keys (k : dkind) (dim0 : Z) : list string :=
  match k with
  | DEz => ["Ez"]
  | DHx => ["Hx"]
  | DHy => ["Hy"]
  | DAll => ["Ez"; "Hx"; "Hy"]
  | DTangent => if (dim0 =? 0)%Z then ["Ez"; "Hy"] else ["Ez"; "Hx"]
  end%string.

(** set_F without the file output, surface_monitor.h:26-45 *)
Definition surf_attach (g : grid) (m : surf_mon) : res surf_mon :=
  is <- to_grid_surface g (sm_surf m) ;;
  len <- inorm (is_dim is) ;;
  d <- foldM (fun d k => dft_add d k len) (sm_dft m) (surf_keys (sm_kind m) (fst (is_dim is))) ;;
  Ok (SurfMon (sm_name m) (sm_surf m) (sm_kind m) len (repeat 0%num (Z.to_nat len)) d).

(** position of sample i, surface_monitor.h:102-103 *)
Definition surf_pos (g : grid) (s : surface) (is : isurface) (i : Z) : vec :=
  vadd (to_real g (iadd (is_a is) (iscale i (is_tangent is))))
       (vscale (g_dx g / 2)%num (s_tangent s)).

(** the sampling function of surface_monitor.h:98-128 *)
Definition surf_sample (g : grid) (F : fields) (s : surface) (is : isurface) : sampler (list T) :=
  fun prevE name n =>
    match comp_name name with
    | Some Ez => sample_E (g_dx g) F (surf_pos g s is) prevE n
    | Some c => v <- for_samples n (fun i => interpolate (g_dx g) F c (surf_pos g s is i)) ;;
                Ok (v, prevE)
    | None => UB MissingReturn
    end.

(** update, surface_monitor.h:94-128 *)
Definition surf_update (g : grid) (F : fields) (t : T) (m : surf_mon) : res surf_mon :=
  is <- to_grid_surface g (sm_surf m) ;;
  '(d, pe) <- dft_update (surf_sample g F (sm_surf m) is) (sm_prevE m) (sm_dft m) t ;;
  Ok (SurfMon (sm_name m) (sm_surf m) (sm_kind m) (sm_len m) pe d).

(** compute_flux, src/monitors/flux.cpp:19-32 *)
Definition flux_row (S : list T) (e h : list (T * T)) : list T :=
  map (fun '(s, ((er, ei), (hr, hi))) => s + (er * hr + ei * hi))%num
      (combine S (combine e h)).
(** compute_flux, src/monitors/flux.cpp:19-32 *)
Definition compute_flux (nf : nat) (E H : dentry) (da : T) (sg : sign) : list T :=
  map (fun s => s * (da * nofZ (sgnZ sg)))%num
      (fold_left (fun S '(e, h) => flux_row S e h) (combine E H) (repeat 0%num nf)).

(** fourier("Hy") or fourier("Hx") according to surf.dim[0], surface_monitor.h:169 *)
Definition tang_key (s : surface) : string :=
  if (fst (s_dim s) =? 0)%num then "Hy"%string else "Hx"%string.
(** the choice of the normal component Hn, surface_monitor.h:222, 236 *)
Definition norm_key (s : surface) : string :=
  if (fst (s_dim s) =? 0)%num then "Hx"%string else "Hy"%string.

(** flux, surface_monitor.h:165-176 (the data) *)
Definition surf_flux (dx : T) (m : surf_mon) : res (list T) :=
  E <- dft_get (sm_dft m) "Ez" ;;
  H <- dft_get (sm_dft m) (tang_key (sm_surf m)) ;;
  let f := if (fst (s_dim (sm_surf m)) =? 0)%num then nofZ (-1) else nofZ 1 in
  Ok (compute_flux (length (d_freq (sm_dft m))) E H (f * dx)%num (s_sign (sm_surf m))).

(** * Force and torque: src/monitors/force.cpp *)
(** std::norm of a complex number, src/monitors/force.cpp:44-45 *)
Definition cnorm (z : T * T) : T := (fst z * fst z + snd z * snd z)%num.
(** real(conj(z)*w), src/monitors/force.cpp:48 *)
Definition re_conj_mul (z w : T * T) : T := (fst z * fst w - (- snd z) * snd w)%num.
(** real(z*conj(w)), src/monitors/force.cpp:49 *)
Definition re_mul_conj (z w : T * T) : T := (fst z * fst w - snd z * (- snd w))%num.

(** dF = sigma*vec(0,1)*int(Sign)*da, src/monitors/force.cpp:41-50, 71-80 *)
Definition stress_force (ez ht hn : T * T) (da : T) (sg : sign) : vec :=
  let hsq := (cnorm ht + cnorm hn)%num in
  let esq := cnorm ez in
  let s00 := (cnorm ht - half * hsq - half * esq)%num in
  let s01 := re_conj_mul ht hn in
  let s10 := re_mul_conj ht hn in
  let s11 := (cnorm hn - half * hsq - half * esq)%num in
  let s := nofZ (sgnZ sg) in
  ((s00 * 0 + s01 * 1) * s * da, (s10 * 0 + s11 * 1) * s * da)%num.

(** body of src/monitors/force.cpp:40-53 for one sample and frequency *)
Definition force_term (tan nrm : vec) (da : T) (sg : sign) (ez ht hn : T * T) : vec :=
  let dF := stress_force ez ht hn da sg in
  (fst dF * fst tan + snd dF * fst nrm, fst dF * snd tan + snd dF * snd nrm)%num.

(** body of src/monitors/force.cpp:70-84 *)
Definition torque_term (pos tan nrm : vec) (da : T) (sg : sign) (ez ht hn : T * T) : T :=
  let dF := stress_force ez ht hn da sg in
  let c := vadd (vscale (fst dF) tan) (vscale (snd dF) nrm) in
  (fst pos * snd c - snd pos * fst c)%num.

(** the common index (i, j) of three arrays, src/monitors/force.cpp:41-43 *)
Definition zip3 {A B C} (a : list A) (b : list B) (c : list C) : list (A * (B * C)) :=
  combine a (combine b c).

(** compute_force, src/monitors/force.cpp:31-57; one (Fx, Fy) per frequency *)
Definition compute_force (nf : nat) (Ez Ht Hn : dentry) (tan nrm : Z -> vec) (da : T)
    (sg : sign) : list vec :=
  fold_left (fun F '(i, (ez, (ht, hn))) =>
      map (fun '(f, (e, (t, n))) => vadd f (force_term (tan i) (nrm i) da sg e t n))
          (combine F (zip3 ez ht hn)))
    (combine (zseq 0 (length Ez)) (zip3 Ez Ht Hn)) (repeat (0, 0)%num nf).

(** compute_torque, src/monitors/force.cpp:59-88 *)
Definition compute_torque (nf : nat) (Ez Ht Hn : dentry) (pos tan nrm : Z -> vec) (da : T)
    (sg : sign) : list T :=
  fold_left (fun F '(i, (ez, (ht, hn))) =>
      map (fun '(f, (e, (t, n))) => f + torque_term (pos i) (tan i) (nrm i) da sg e t n)%num
          (combine F (zip3 ez ht hn)))
    (combine (zseq 0 (length Ez)) (zip3 Ez Ht Hn)) (repeat 0%num nf).

(** partial_force, surface_monitor.h:217-229 *)
Definition surf_force (dx : T) (m : surf_mon) : res (list vec) :=
  let s := sm_surf m in
  E <- dft_get (sm_dft m) "Ez" ;;
  Ht <- dft_get (sm_dft m) (tang_key s) ;;
  Hn <- dft_get (sm_dft m) (norm_key s) ;;
  Ok (compute_force (length (d_freq (sm_dft m))) E Ht Hn (fun _ => vabs (s_tangent s))
        (fun _ => vabs (s_normal s)) dx (s_sign s)).

(** partial_torque, surface_monitor.h:231-246 *)
Definition surf_torque (dx : T) (center : vec) (m : surf_mon) : res (list T) :=
  let s := sm_surf m in
  E <- dft_get (sm_dft m) "Ez" ;;
  Ht <- dft_get (sm_dft m) (tang_key s) ;;
  Hn <- dft_get (sm_dft m) (norm_key s) ;;
  Ok (compute_torque (length (d_freq (sm_dft m))) E Ht Hn
        (fun i => vsub (vadd (s_a s) (vscale dx (vscale (nofZ i + half)%num (s_tangent s)))) center)
        (fun _ => vabs (s_tangent s)) (fun _ => vabs (s_normal s)) dx (s_sign s)).

(** * Near-to-far-field *)
(** complex addition, surface_monitor.h:209-210 *)
Definition cadd (z w : T * T) : T * T := (fst z + fst w, snd z + snd w)%num.
(** complex multiplication, surface_monitor.h:209, 214 *)
Definition cmul (z w : T * T) : T * T :=
  (fst z * fst w - snd z * snd w, fst z * snd w + snd z * fst w)%num.
(** real times complex, surface_monitor.h:207-208 *)
Definition cscale (c : T) (z : T * T) : T * T := (c * fst z, c * snd z)%num.
(** exp(i*x), surface_monitor.h:187, 209 *)
Definition cis (x : T) : T * T := (ncos x, nsin x).

(** factor, surface_monitor.h:187, cylinder_monitor.h:97 *)
Definition ntff_factor (k r : T) : T * T :=
  let d := nsqrt (8 * r * npi * k)%num in
  let e := cis (npi / 4 - k * r)%num in (fst e / d, snd e / d)%num.

(** one term of the integral, surface_monitor.h:204-209, cylinder_monitor.h:111-116 *)
Definition ntff_term (k jsgn msgn angle phase : T) (E H : T * T) : T * T :=
  cmul (cadd (cscale (jsgn * k)%num H) (cscale angle (cscale (msgn * k)%num E))) (cis phase).

(** surface_monitor::ntff(center, pc), surface_monitor.h:178-215 *)
Definition surf_ntff (dx : T) (m : surf_mon) (center pc : vec) : res (list (T * T)) :=
  let s := sm_surf m in
  let p := vsub pc center in
  let r := vnorm p in
  let tan := s_tangent s in
  let nrm := vabs (s_normal s) in
  let jsgn := vdot tan (1, 1)%num in
  let msgn := vdot tan (nofZ (-1), 1)%num in
  E <- dft_get (sm_dft m) "Ez" ;;
  H <- dft_get (sm_dft m) (tang_key s) ;;
  let angle := (vdot p nrm / r)%num in
  let ks := map (fun f => 2 * npi * f)%num (d_freq (sm_dft m)) in
  let total := fold_left (fun acc '(i, (e, h)) =>
        let pp := vsub (vadd (s_a s) (vscale dx (vscale (nofZ i) tan))) center in
        map (fun '(a, (k, (ej, hj))) =>
               cadd a (ntff_term k jsgn msgn angle (k * vdot p pp / r)%num ej hj))
            (combine acc (combine ks (combine e h))))
      (combine (zseq 0 (Z.to_nat (sm_len m))) (combine E H))
      (repeat (0, 0)%num (length ks)) in
  Ok (map (fun '(k, z) => cmul (ntff_factor k r) z) (combine ks total)).

(** * Box monitors, include/monitors/box_monitor.h *)
(** box_monitor.h:116-118; the four sides in the order of lines 21-24 *)
Record box_mon := BoxMon {
  bm_name : string; bm_vol : volume; bm_freq : list T; bm_sides : list surf_mon }.

(** box_monitor.h:19-25 *)
Definition mk_box_mon (name : string) (v : volume) (k : dkind) (freq : list T) : res box_mon :=
  s1 <- get_surface v y_bottom ;; s2 <- get_surface v x_top ;;
  s3 <- get_surface v y_top ;; s4 <- get_surface v x_bottom ;;
  Ok (BoxMon name v freq
        [mk_surf_mon (name ++ "_1")%string s1 k freq; mk_surf_mon (name ++ "_2")%string s2 k freq;
         mk_surf_mon (name ++ "_3")%string s3 k freq; mk_surf_mon (name ++ "_4")%string s4 k freq]).

(** set_F without file output, box_monitor.h:29-37 *)
Definition box_attach (g : grid) (m : box_mon) : res box_mon :=
  l <- mapM (surf_attach g) (bm_sides m) ;; Ok (BoxMon (bm_name m) (bm_vol m) (bm_freq m) l).
(** update, box_monitor.h:39-42 *)
Definition box_update (g : grid) (F : fields) (t : T) (m : box_mon) : res box_mon :=
  l <- mapM (surf_update g F t) (bm_sides m) ;; Ok (BoxMon (bm_name m) (bm_vol m) (bm_freq m) l).
(** Array +=, box_monitor.h:49, 92; sizes are equal by construction *)
Definition ladd (a b : list T) : list T := map (fun '(x, y) => x + y)%num (combine a b).
(** flux, box_monitor.h:44-52 *)
Definition box_flux (dx : T) (m : box_mon) : res (list T) :=
  foldM (fun S s => f <- surf_flux dx s ;; Ok (ladd S f))
        (repeat 0%num (length (bm_freq m))) (bm_sides m).
(** force, box_monitor.h:77-85 *)
Definition box_force (dx : T) (m : box_mon) : res (list vec) :=
  foldM (fun S s => f <- surf_force dx s ;; Ok (map (fun '(x, y) => vadd x y) (combine S f)))
        (repeat (0, 0)%num (length (bm_freq m))) (bm_sides m).
(** torque, box_monitor.h:87-95 *)
Definition box_torque (dx : T) (m : box_mon) : res (list T) :=
  foldM (fun S s => f <- surf_torque dx (vol_center (bm_vol m)) s ;; Ok (ladd S f))
        (repeat 0%num (length (bm_freq m))) (bm_sides m).
(** ntff(p), box_monitor.h:54-62 *)
Definition box_ntff (dx : T) (m : box_mon) (p : vec) : res (list (T * T)) :=
  foldM (fun S s => f <- surf_ntff dx s (vol_center (bm_vol m)) p ;;
                    Ok (map (fun '(x, y) => cadd x y) (combine S f)))
        (repeat (0, 0)%num (length (bm_freq m))) (bm_sides m).
(** operator-=, box_monitor.h:98-101 *)
Definition surf_sub (m o : surf_mon) : res surf_mon :=
  d <- dft_sub (sm_dft m) (sm_dft o) ;;
  Ok (SurfMon (sm_name m) (sm_surf m) (sm_kind m) (sm_len m) (sm_prevE m) d).
(** operator-=, box_monitor.h:98-101, with rank_monitor.h:16-18 for each side *)
Definition box_sub (m o : box_mon) : res box_mon :=
  l <- mapM (fun '(a, b) => surf_sub a b) (combine (bm_sides m) (bm_sides o)) ;;
  Ok (BoxMon (bm_name m) (bm_vol m) (bm_freq m) l).

(** * Cylinder monitors, include/monitors/cylinder_monitor.h *)
(** cylinder_monitor.h:190-194; [cm_all] tells DFT::all from DFT::tangent *)
Record cyl_mon := CylMon {
  cm_name : string; cm_surf : cylsurf; cm_all : bool;
  cm_len : Z; cm_prevE : list T; cm_dft : dft }.
(** cylinder_monitor.h:18-20 *)
Definition mk_cyl_mon (name : string) (s : cylsurf) (all : bool) (freq : list T) : cyl_mon :=
  CylMon name s all 0 [] (mk_dft freq).
(** set_F without file output, cylinder_monitor.h:24-37 *)
Definition cyl_attach (g : grid) (m : cyl_mon) : res cyl_mon :=
  len <- ofOption BadCast (nceil (2 * npi * cs_radius (cm_surf m) / g_dx g)%num) ;;
  if len <? 0 then UB BadExtent else
  d <- foldM (fun d k => dft_add d k len) (cm_dft m)
         (if cm_all m then ["Ez"; "Hp"; "Hr"]%string else ["Ez"; "Hp"]%string) ;;
  Ok (CylMon (cm_name m) (cm_surf m) (cm_all m) len (repeat 0%num (Z.to_nat len)) d).
(** angle of sample i, cylinder_monitor.h:47 *)
Definition cyl_theta (len i : Z) : T := (2 * npi * (nofZ i + half) / nofZ len)%num.
(** locate, cylinder_monitor.h:44-71 *)
Definition cyl_sample (g : grid) (F : fields) (s : cylsurf) (len : Z) : sampler (list T) :=
  fun prevE name n =>
    let pos i := cs_position s (cyl_theta len i) in
    let hdot (dir : T -> vec) := for_samples n (fun i =>
          hx <- interpolate (g_dx g) F Hx (pos i) ;;
          hy <- interpolate (g_dx g) F Hy (pos i) ;;
          Ok (vdot (hx, hy) (dir (cyl_theta len i)))) in
    if String.eqb name "Ez" then sample_E (g_dx g) F pos prevE n
    else if String.eqb name "Hp" then v <- hdot cs_tangent ;; Ok (v, prevE)
    else if String.eqb name "Hr" then v <- hdot cs_normal ;; Ok (v, prevE)
    else UB MissingReturn.
(** update, cylinder_monitor.h:73-75 *)
Definition cyl_update (g : grid) (F : fields) (t : T) (m : cyl_mon) : res cyl_mon :=
  '(d, pe) <- dft_update (cyl_sample g F (cm_surf m) (cm_len m)) (cm_prevE m) (cm_dft m) t ;;
  Ok (CylMon (cm_name m) (cm_surf m) (cm_all m) (cm_len m) pe d).
(** da, cylinder_monitor.h:82 *)
Definition cyl_da (m : cyl_mon) : T := (2 * npi * cs_radius (cm_surf m) / nofZ (cm_len m))%num.
(** flux, cylinder_monitor.h:77-86 *)
Definition cyl_flux (m : cyl_mon) : res (list T) :=
  E <- dft_get (cm_dft m) "Ez" ;; H <- dft_get (cm_dft m) "Hp" ;;
  Ok (compute_flux (length (d_freq (cm_dft m))) E H (cyl_da m) Negative).
(** force, cylinder_monitor.h:124-144 *)
Definition cyl_force (m : cyl_mon) : res (list vec) :=
  E <- dft_get (cm_dft m) "Ez" ;; Ht <- dft_get (cm_dft m) "Hp" ;;
  Hn <- dft_get (cm_dft m) "Hr" ;;
  Ok (compute_force (length (d_freq (cm_dft m))) E Ht Hn
        (fun i => cs_tangent (cyl_theta (cm_len m) i))
        (fun i => cs_normal (cyl_theta (cm_len m) i)) (cyl_da m) Positive).
(** torque, cylinder_monitor.h:146-170 *)
Definition cyl_torque (m : cyl_mon) : res (list T) :=
  E <- dft_get (cm_dft m) "Ez" ;; Ht <- dft_get (cm_dft m) "Hp" ;;
  Hn <- dft_get (cm_dft m) "Hr" ;;
  Ok (compute_torque (length (d_freq (cm_dft m))) E Ht Hn
        (fun i => vsub (cs_position (cm_surf m) (cyl_theta (cm_len m) i)) (cs_center (cm_surf m)))
        (fun i => cs_tangent (cyl_theta (cm_len m) i))
        (fun i => cs_normal (cyl_theta (cm_len m) i)) (cyl_da m) Positive).
(** ntff(pc), cylinder_monitor.h:88-122 *)
Definition cyl_ntff (m : cyl_mon) (pc : vec) : res (list (T * T)) :=
  let s := cm_surf m in
  let p := vsub pc (cs_center s) in
  let r := vnorm p in
  E <- dft_get (cm_dft m) "Ez" ;; H <- dft_get (cm_dft m) "Hp" ;;
  let ks := map (fun f => 2 * npi * f)%num (d_freq (cm_dft m)) in
  let total := fold_left (fun acc '(i, (e, h)) =>
        let th := cyl_theta (cm_len m) i in
        let pp := vsub (cs_position s th) (cs_center s) in
        let angle := (vdot p (cs_normal th) / r)%num in
        map (fun '(a, (k, (ej, hj))) =>
               cadd a (ntff_term k (nofZ 1) (nofZ (-1)) angle (k * vdot p pp / r)%num ej hj))
            (combine acc (combine ks (combine e h))))
      (combine (zseq 0 (Z.to_nat (cm_len m))) (combine E H))
      (repeat (0, 0)%num (length ks)) in
  Ok (map (fun '(k, z) => cmul (ntff_factor k r) z) (combine ks total)).
(** rank_monitor::operator-=, rank_monitor.h:16-18 *)
Definition cyl_sub (m o : cyl_mon) : res cyl_mon :=
  d <- dft_sub (cm_dft m) (cm_dft o) ;;
  Ok (CylMon (cm_name m) (cm_surf m) (cm_all m) (cm_len m) (cm_prevE m) d).

(** * Volume monitors, include/monitors/volume_monitor.h *)
Record vol_mon := VolMon { vm_name : string; vm_vol : volume; vm_kind : dkind;
                           vm_ny : Z; vm_dft : dft }.
(** volume_monitor.h:15-17 *)
Definition mk_vol_mon (name : string) (v : volume) (k : dkind) (freq : list T) : vol_mon :=
  VolMon name v k 0 (mk_dft freq).
(** names added, volume_monitor.h:29-34, point_monitor.h:24-29 *)
Definition cart_keys (k : dkind) : list string :=
  match k with
  | DEz => ["Ez"] | DHx => ["Hx"] | DHy => ["Hy"] | DAll => ["Ez"; "Hx"; "Hy"]
  | DTangent => []          (* rejected at compile time, volume_monitor.h:16 *)
  end%string.
(** set_F without file output, volume_monitor.h:22-34 *)
Definition vol_attach (g : grid) (m : vol_mon) : res vol_mon :=
  iv <- to_grid_volume g (vm_vol m) ;;
  let nx := fst (iv_dim iv) + 1 in let ny := snd (iv_dim iv) + 1 in
  d <- foldM (fun d k => dft_add d k (nx * ny)) (vm_dft m) (cart_keys (vm_kind m)) ;;
  Ok (VolMon (vm_name m) (vm_vol m) (vm_kind m) ny d).
(** locate, volume_monitor.h:41-64; sample k is (i, j) = (k / ny, k mod ny) *)
Definition vol_sample (F : fields) (iv : ivolume) (ny : Z) : sampler unit :=
  fun _ name n =>
    match comp_name name with
    | Some c =>
      f <- get_field F c ;;
      v <- for_samples n (fun k => tat f (iadd (iv_a iv) (k / ny, k mod ny))) ;; Ok (v, tt)
    | None => UB MissingReturn
    end.
(** update, volume_monitor.h:66-68 *)
Definition vol_update (g : grid) (F : fields) (t : T) (m : vol_mon) : res vol_mon :=
  iv <- to_grid_volume g (vm_vol m) ;;
  '(d, _) <- dft_update (vol_sample F iv (vm_ny m)) tt (vm_dft m) t ;;
  Ok (VolMon (vm_name m) (vm_vol m) (vm_kind m) (vm_ny m) d).

(** * Point monitors, include/monitors/point_monitor.h *)
Record pt_mon := PtMon { pm_name : string; pm_pos : vec; pm_kind : dkind; pm_dft : dft }.
(** point_monitor.h:15-17 *)
Definition mk_pt_mon (name : string) (p : vec) (k : dkind) (freq : list T) : pt_mon :=
  PtMon name p k (mk_dft freq).
(** set_F without file output, point_monitor.h:21-29 *)
Definition pt_attach (m : pt_mon) : res pt_mon :=
  d <- foldM (fun d k => dft_add d k 1) (pm_dft m) (cart_keys (pm_kind m)) ;;
  Ok (PtMon (pm_name m) (pm_pos m) (pm_kind m) d).
(** update, point_monitor.h:36-64: every function returned by locate captures the local
    variable ipos by reference; it is called after locate has returned. *)
Definition pt_update (t : T) (m : pt_mon) : res pt_mon :=
  '(d, _) <- dft_update (fun (_ : unit) _ _ => UB DanglingRef) tt (pm_dft m) t ;;
  Ok (PtMon (pm_name m) (pm_pos m) (pm_kind m) d).

(** * Any frequency-domain monitor *)
(** the subclasses of monitor, include/monitors/*.h *)
Inductive monitor :=
| MSurf (m : surf_mon) | MBox (m : box_mon) | MCyl (m : cyl_mon) | MVol (m : vol_mon)
| MPt (m : pt_mon).

(** the virtual call set_F without the file output: surface_monitor.h:26, box_monitor.h:29,
    cylinder_monitor.h:24, volume_monitor.h:22, point_monitor.h:21 *)
Definition mon_attach (g : grid) (m : monitor) : res monitor :=
  match m with
  | MSurf m => x <- surf_attach g m ;; Ok (MSurf x)
  | MBox m => x <- box_attach g m ;; Ok (MBox x)
  | MCyl m => x <- cyl_attach g m ;; Ok (MCyl x)
  | MVol m => x <- vol_attach g m ;; Ok (MVol x)
  | MPt m => x <- pt_attach m ;; Ok (MPt x)
  end.

(** the virtual call m->update(), src/field2.cpp:167 *)
Definition mon_update (g : grid) (F : fields) (t : T) (m : monitor) : res monitor :=
  match m with
  | MSurf m => x <- surf_update g F t m ;; Ok (MSurf x)
  | MBox m => x <- box_update g F t m ;; Ok (MBox x)
  | MCyl m => x <- cyl_update g F t m ;; Ok (MCyl x)
  | MVol m => x <- vol_update g F t m ;; Ok (MVol x)
  | MPt m => x <- pt_update t m ;; Ok (MPt x)
  end.

End Monitor.
