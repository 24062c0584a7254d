(** include/field2.h, src/field2.cpp, include/object.h, src/object.cpp,
    src/dynamic_object.cpp, src/sources/*.cpp, src/time_monitors/*.cpp:
    the simulation object and its public operations. *)
From Coq Require Import ZArith String List Bool.
From Verif Require Import Scalar Base VecM GridM GeometryM MaterialM PmlM DftM TfsfM PolarM
  InterpM H5M ClockM MonitorM.
Import ListNotations.
Local Open Scope Z_scope.

(** Result of an operation on a state: normal return, a C++ exception together with the
    state it leaves behind, or undefined behaviour.  (The member functions of include/field2.h:44-64.) *)
Inductive out (S : Type) : Type :=
| Fine (s : S)
| Raise (e : exn) (s : S)
| Undef (u : ubk).
Arguments Fine {S} _.
Arguments Raise {S} _ _.
Arguments Undef {S} _.

(** sequencing of two statements of a member function, e.g. src/field2.cpp:96-99: an exception or
    undefined behaviour in the first skips the second *)
Definition obind {S} (m : out S) (k : S -> out S) : out S :=
  match m with Fine s => k s | Raise e s => Raise e s | Undef u => Undef u end.
Notation "m >>= k" := (obind m k) (at level 65, left associativity).

(** Run a computation that does not change the state, then continue; a statement of a member
    function such as src/field2.cpp:61. *)
Definition prim {S A} (s : S) (r : res A) (k : A -> out S) : out S :=
  match r with Ok a => k a | Throw e => Raise e s | UB u => Undef u end.

(** assignment to element n of a vector, e.g. the members of *source_list[i], include/field2.h:93-97 *)
Fixpoint upd_nth {A} (n : nat) (v : A) (l : list A) : list A :=
  match l, n with
  | [], _ => []
  | _ :: l', O => v :: l'
  | x :: l', S n' => x :: upd_nth n' v l'
  end.

(** for (i = 0; i < n; i++) body(i) on the state, src/field2.cpp:160-162, 193-195 *)
Fixpoint oloop {S} (lo n : nat) (body : nat -> S -> out S) (s : S) : out S :=
  match n with
  | O => Fine s
  | Datatypes.S n' => body lo s >>= oloop (Datatypes.S lo) n' body
  end.

Section FieldModel.
Context {N : Num}.

(** object and dynamic_object, include/object.h:49-57, include/dynamic_object.h:16 *)
Record obj := Obj { o_name : string; o_dyn : bool; o_geom : geometry; o_mat : material;
                    o_pos : vec; o_theta : T }.

(** src/object.cpp:21-27 and 71-77 *)
Definition obj_inside (o : obj) (p : vec) : bool := place_inside (o_geom o) (o_pos o) (o_theta o) p.
(** object::get_bounding_box, src/object.cpp:71-77 *)
Definition obj_box (o : obj) : volume := place_box (o_geom o) (o_pos o) (o_theta o).

(** include/sources/point_source.h:8-19, line_source.h:8-19, source.h:37-46 *)
Inductive src_kind := SPoint (p : vec) | SLine (s : surface).
(** include/sources/source.h:37-46 *)
Record source := Source { sr_name : string; sr_c : comp; sr_kind : src_kind; sr_tp : tprofile }.

(** include/time_monitors/*.h *)
Inductive tm_shape := TPoint (p : vec) | TSurf (s : surface) | TVol (v : volume).
(** include/time_monitors/time_monitor.h:55-61; [tm_dsets] are the keys of dsets *)
Record tmon := TMon { tm_name : string; tm_shape_ : tm_shape; tm_fields : comp;
                      tm_every : every; tm_dsets : list comp }.

(** update coefficients, include/field2.h:90 *)
Record coefs := Coefs { cCa : tensor; cCb : tensor; cDa : tensor; cDb : tensor }.

(** The members of Field2D (include/field2.h:80-130) that take part in the physics.
    The duplicated grid members (Nx, Ny, dx, Lx, Ly, dt) are read from [ph_grid]. *)
Record phys := Phys {
  ph_grid : grid;
  ph_step : Z;
  ph_t : T;
  ph_F : fields;
  ph_C : coefs;
  ph_objs : list obj;
  ph_srcs : list source;
  ph_bg : mat_kind;
  ph_pml : pml;
  ph_sc : scaling;
  ph_prevE : option tensor;
  ph_prev2E : option tensor;
  ph_tfsf : option tfsf;
  ph_debye : list (string * (debye * polar));
  ph_drude : list (string * (drude * polar));
  ph_lorentz : list (string * (lorentz * polar)) }.
(** assignment to a member, include/field2.h:85 *)
Definition set_ph_step (v : Z) (s : phys) : phys :=
  Phys (ph_grid s) v (ph_t s) (ph_F s) (ph_C s) (ph_objs s) (ph_srcs s) (ph_bg s) (ph_pml s) (ph_sc s) (ph_prevE s) (ph_prev2E s) (ph_tfsf s) (ph_debye s) (ph_drude s) (ph_lorentz s).
(** assignment to a member, include/field2.h:106 *)
Definition set_ph_t (v : T) (s : phys) : phys :=
  Phys (ph_grid s) (ph_step s) v (ph_F s) (ph_C s) (ph_objs s) (ph_srcs s) (ph_bg s) (ph_pml s) (ph_sc s) (ph_prevE s) (ph_prev2E s) (ph_tfsf s) (ph_debye s) (ph_drude s) (ph_lorentz s).
(** assignment to a member, include/field2.h:90 *)
Definition set_ph_F (v : fields) (s : phys) : phys :=
  Phys (ph_grid s) (ph_step s) (ph_t s) v (ph_C s) (ph_objs s) (ph_srcs s) (ph_bg s) (ph_pml s) (ph_sc s) (ph_prevE s) (ph_prev2E s) (ph_tfsf s) (ph_debye s) (ph_drude s) (ph_lorentz s).
(** assignment to a member, include/field2.h:90 *)
Definition set_ph_C (v : coefs) (s : phys) : phys :=
  Phys (ph_grid s) (ph_step s) (ph_t s) (ph_F s) v (ph_objs s) (ph_srcs s) (ph_bg s) (ph_pml s) (ph_sc s) (ph_prevE s) (ph_prev2E s) (ph_tfsf s) (ph_debye s) (ph_drude s) (ph_lorentz s).
(** assignment to a member, include/field2.h:93 *)
Definition set_ph_objs (v : list obj) (s : phys) : phys :=
  Phys (ph_grid s) (ph_step s) (ph_t s) (ph_F s) (ph_C s) v (ph_srcs s) (ph_bg s) (ph_pml s) (ph_sc s) (ph_prevE s) (ph_prev2E s) (ph_tfsf s) (ph_debye s) (ph_drude s) (ph_lorentz s).
(** assignment to a member, include/field2.h:95 *)
Definition set_ph_srcs (v : list source) (s : phys) : phys :=
  Phys (ph_grid s) (ph_step s) (ph_t s) (ph_F s) (ph_C s) (ph_objs s) v (ph_bg s) (ph_pml s) (ph_sc s) (ph_prevE s) (ph_prev2E s) (ph_tfsf s) (ph_debye s) (ph_drude s) (ph_lorentz s).
(** assignment to a member, include/field2.h:109 *)
Definition set_ph_pml (v : pml) (s : phys) : phys :=
  Phys (ph_grid s) (ph_step s) (ph_t s) (ph_F s) (ph_C s) (ph_objs s) (ph_srcs s) (ph_bg s) v (ph_sc s) (ph_prevE s) (ph_prev2E s) (ph_tfsf s) (ph_debye s) (ph_drude s) (ph_lorentz s).
(** assignment to a member, include/field2.h:111 *)
Definition set_ph_prevE (v : option tensor) (s : phys) : phys :=
  Phys (ph_grid s) (ph_step s) (ph_t s) (ph_F s) (ph_C s) (ph_objs s) (ph_srcs s) (ph_bg s) (ph_pml s) (ph_sc s) v (ph_prev2E s) (ph_tfsf s) (ph_debye s) (ph_drude s) (ph_lorentz s).
(** assignment to a member, include/field2.h:112 *)
Definition set_ph_prev2E (v : option tensor) (s : phys) : phys :=
  Phys (ph_grid s) (ph_step s) (ph_t s) (ph_F s) (ph_C s) (ph_objs s) (ph_srcs s) (ph_bg s) (ph_pml s) (ph_sc s) (ph_prevE s) v (ph_tfsf s) (ph_debye s) (ph_drude s) (ph_lorentz s).
(** assignment to a member, include/field2.h:115 *)
Definition set_ph_tfsf (v : option tfsf) (s : phys) : phys :=
  Phys (ph_grid s) (ph_step s) (ph_t s) (ph_F s) (ph_C s) (ph_objs s) (ph_srcs s) (ph_bg s) (ph_pml s) (ph_sc s) (ph_prevE s) (ph_prev2E s) v (ph_debye s) (ph_drude s) (ph_lorentz s).
(** assignment to a member, include/field2.h:118 *)
Definition set_ph_debye (v : list (string * (debye * polar))) (s : phys) : phys :=
  Phys (ph_grid s) (ph_step s) (ph_t s) (ph_F s) (ph_C s) (ph_objs s) (ph_srcs s) (ph_bg s) (ph_pml s) (ph_sc s) (ph_prevE s) (ph_prev2E s) (ph_tfsf s) v (ph_drude s) (ph_lorentz s).
(** assignment to a member, include/field2.h:119 *)
Definition set_ph_drude (v : list (string * (drude * polar))) (s : phys) : phys :=
  Phys (ph_grid s) (ph_step s) (ph_t s) (ph_F s) (ph_C s) (ph_objs s) (ph_srcs s) (ph_bg s) (ph_pml s) (ph_sc s) (ph_prevE s) (ph_prev2E s) (ph_tfsf s) (ph_debye s) v (ph_lorentz s).
(** assignment to a member, include/field2.h:120 *)
Definition set_ph_lorentz (v : list (string * (lorentz * polar))) (s : phys) : phys :=
  Phys (ph_grid s) (ph_step s) (ph_t s) (ph_F s) (ph_C s) (ph_objs s) (ph_srcs s) (ph_bg s) (ph_pml s) (ph_sc s) (ph_prevE s) (ph_prev2E s) (ph_tfsf s) (ph_debye s) (ph_drude s) v.

(** All of Field2D: the physics plus monitors, output file and clocks, include/field2.h:96-100, 125, 130. *)
Record field := Field {
  f_ph : phys;
  f_mons : list monitor;
  f_tmons : list tmon;
  f_mats : list string;
  f_h5 : h5;
  f_clk : clocks }.
(** assignment to a member, include/field2.h:80-120 *)
Definition set_f_ph (v : phys) (s : field) : field :=
  Field v (f_mons s) (f_tmons s) (f_mats s) (f_h5 s) (f_clk s).
(** assignment to a member, include/field2.h:96 *)
Definition set_f_mons (v : list monitor) (s : field) : field :=
  Field (f_ph s) v (f_tmons s) (f_mats s) (f_h5 s) (f_clk s).
(** assignment to a member, include/field2.h:97 *)
Definition set_f_tmons (v : list tmon) (s : field) : field :=
  Field (f_ph s) (f_mons s) v (f_mats s) (f_h5 s) (f_clk s).
(** assignment to a member, include/field2.h:100 *)
Definition set_f_mats (v : list string) (s : field) : field :=
  Field (f_ph s) (f_mons s) (f_tmons s) v (f_h5 s) (f_clk s).
(** assignment to a member, include/field2.h:125 *)
Definition set_f_h5 (v : h5) (s : field) : field :=
  Field (f_ph s) (f_mons s) (f_tmons s) (f_mats s) v (f_clk s).
(** assignment to a member, include/field2.h:130 *)
Definition set_f_clk (v : clocks) (s : field) : field :=
  Field (f_ph s) (f_mons s) (f_tmons s) (f_mats s) (f_h5 s) v.

(** assignment to physics members of Field2D, include/field2.h:80-120 *)
Definition map_ph (g : phys -> phys) (s : field) : field := set_f_ph (g (f_ph s)) s.

(** ** Materials *)

(** clear_materials, src/field2.cpp:235-244 *)
Definition clear_coefs (g : grid) (bg : mat_kind) (c : coefs) : res coefs :=
  let dt := g_dt g in
  for_up 0 (g_Nx g) (fun i c => for_up 0 (g_Ny g) (fun j c =>
    a <- tset (cCa c) i j (mat_Ca bg dt) ;;
    b <- tset (cCb c) i j (mat_Cb bg dt) ;;
    d <- tset (cDa c) i j (mat_Da bg dt) ;;
    e <- tset (cDb c) i j (mat_Db bg dt) ;;
    Ok (Coefs a b d e)) c) c.

(** update_object_material_grid, src/field2.cpp:361-380; every geometry has a bounding
    box, so value_or never falls back. *)
Definition paint (g : grid) (o : obj) (c : coefs) : res coefs :=
  let dt := g_dt g in
  let k := m_kind (o_mat o) in
  ib <- to_grid_volume g (obj_box o) ;;
  let ib := iclip g ib in
  for_up (fst (iv_a ib)) (fst (iv_b ib) + 1) (fun i c =>
    for_up (snd (iv_a ib)) (snd (iv_b ib) + 1) (fun j c =>
      if obj_inside o (to_real g (i, j)) then
        a <- tset (cCa c) i j (mat_Ca k dt) ;;
        b <- tset (cCb c) i j (mat_Cb k dt) ;;
        d <- tset (cDa c) i j (mat_Da k dt) ;;
        e <- tset (cDb c) i j (mat_Db k dt) ;;
        Ok (Coefs a b d e)
      else Ok c) c) c.

(** add_polarization, include/field2.h:171-184.  [vals] gives beta/delta of a material. *)
Definition add_polar {M} (np : M -> nat) (vals : M -> T -> list T) (g : grid)
    (P : list (string * (M * polar))) (name : string) (m : M) (o : obj)
    : res (list (string * (M * polar))) :=
  match slookup name P with
  | None =>
    p <- mk_polar g (np m) ;;
    p <- insert_polar p (vals m (g_dt g)) (obj_inside o) ;;
    Ok (sinsert name (m, p) P)
  | Some (m0, p) =>
    p <- insert_polar p (vals m0 (g_dt g)) (obj_inside o) ;;
    Ok (sassign name (m0, p) P)
  end.

(** P_xxx.at(name).insert_object(obj), src/field2.cpp:387-392 *)
Definition reinsert_polar {M} (vals : M -> T -> list T) (g : grid)
    (P : list (string * (M * polar))) (name : string) (o : obj)
    : res (list (string * (M * polar))) :=
  match slookup name P with
  | None => Throw OutOfRange
  | Some (m0, p) =>
    p <- insert_polar p (vals m0 (g_dt g)) (obj_inside o) ;;
    Ok (sassign name (m0, p) P)
  end.

(** Npoles, include/materials/debye.h:29, passed on in debye_polarization.cpp:7 *)
Definition np_debye (m : debye) : nat := length (db_poles m).
(** Npoles, include/materials/drude.h:29, passed on in drude_polarization.cpp:7 *)
Definition np_drude (m : drude) : nat := length (dr_poles m).
(** Npoles, include/materials/lorentz.h:31, passed on in lorentz_polarization.cpp:7 *)
Definition np_lorentz (m : lorentz) : nat := length (lo_poles m).

(** if (!prevE) prevE = Ez;  src/field2.cpp:330-331, 335-336, 340-343 *)
Definition ensure (o : option tensor) (E : tensor) : option tensor :=
  match o with None => Some E | Some x => Some x end.

(** the per-material part of insert_object, src/field2.cpp:328-347 *)
Definition insert_material (o : obj) (s : phys) : res phys :=
  let name := m_name (o_mat o) in
  let E := fEz (ph_F s) in
  match m_kind (o_mat o) with
  | KSimple _ => Ok s
  | KDebye m =>
    P <- add_polar np_debye debye_beta (ph_grid s) (ph_debye s) name m o ;;
    Ok (set_ph_prevE (ensure (ph_prevE s) E) (set_ph_debye P s))
  | KDrude m =>
    P <- add_polar np_drude drude_beta (ph_grid s) (ph_drude s) name m o ;;
    Ok (set_ph_prevE (ensure (ph_prevE s) E) (set_ph_drude P s))
  | KLorentz m =>
    P <- add_polar np_lorentz lorentz_delta (ph_grid s) (ph_lorentz s) name m o ;;
    Ok (set_ph_prev2E (ensure (ph_prev2E s) E)
          (set_ph_prevE (ensure (ph_prevE s) E) (set_ph_lorentz P s)))
  end.

(** update_object_polarization_grid, src/field2.cpp:382-394 *)
Definition reinsert_material (o : obj) (s : phys) : res phys :=
  let name := m_name (o_mat o) in
  match m_kind (o_mat o) with
  | KSimple _ => Ok s
  | KDebye _ => P <- reinsert_polar debye_beta (ph_grid s) (ph_debye s) name o ;; Ok (set_ph_debye P s)
  | KDrude _ => P <- reinsert_polar drude_beta (ph_grid s) (ph_drude s) name o ;; Ok (set_ph_drude P s)
  | KLorentz _ =>
    P <- reinsert_polar lorentz_delta (ph_grid s) (ph_lorentz s) name o ;; Ok (set_ph_lorentz P s)
  end.

(** update_object_material_grid on the state, src/field2.cpp:361-380 *)
Definition paint_phys (o : obj) (s : phys) : res phys :=
  c <- paint (ph_grid s) o (ph_C s) ;; Ok (set_ph_C c s).

(** one iteration of src/field2.cpp:202-205 *)
Definition repaint_one (s : phys) (o : obj) : res phys :=
  s <- paint_phys o s ;; reinsert_material o s.

(** update_material_grid, src/field2.cpp:199-206.  Simplification: if a map lookup
    throws, the state keeps the old grid. *)
Definition update_material_grid (s : phys) : res phys :=
  c <- clear_coefs (ph_grid s) (ph_bg s) (ph_C s) ;;
  foldM repaint_one (set_ph_C c s) (ph_objs s).

(** ** The time step *)

(** body of the loop src/field2.cpp:136-142 *)
Definition E_body (c : coefs) (sc : scaling) (Hx Hy : tensor) (i j : Z) (E : tensor) : res tensor :=
  ca <- tget (cCa c) i j ;; e <- tget E i j ;; cb <- tget (cCb c) i j ;;
  y1 <- tget Hy i j ;; y0 <- tget Hy (i - 1) j ;; kx <- aget (kedx sc) i ;;
  x0 <- tget Hx i (j - 1) ;; x1 <- tget Hx i j ;; ky <- aget (kedy sc) j ;;
  tset E i j (ca * e + cb * ((y1 - y0) / kx + (x0 - x1) / ky))%num.
(** the loop src/field2.cpp:136-142 *)
Definition E_loop (g : grid) (c : coefs) (sc : scaling) (Hx Hy E : tensor) : res tensor :=
  for_up 1 (g_Nx g - 1) (fun i E => for_up 1 (g_Ny g - 1) (fun j E =>
    E_body c sc Hx Hy i j E) E) E.

(** body of the loop src/field2.cpp:177-183 *)
Definition H_body (c : coefs) (sc : scaling) (E : tensor) (i j : Z) (s : tensor * tensor)
    : res (tensor * tensor) :=
  let '(hx, hy) := s in
  da <- tget (cDa c) i j ;; h <- tget hx i j ;; db <- tget (cDb c) i j ;;
  e1 <- tget E i (j + 1) ;; e0 <- tget E i j ;; ky <- aget (khdy sc) j ;;
  hx <- tset hx i j (da * h - db * (e1 - e0) / ky)%num ;;
  h <- tget hy i j ;; e2 <- tget E (i + 1) j ;; kx <- aget (khdx sc) i ;;
  hy <- tset hy i j (da * h + db * (e2 - e0) / kx)%num ;;
  Ok (hx, hy).
(** the loop src/field2.cpp:177-183 *)
Definition H_loop (g : grid) (c : coefs) (sc : scaling) (E Hx Hy : tensor) : res (tensor * tensor) :=
  for_up 1 (g_Nx g - 1) (fun i s => for_up 1 (g_Ny g - 1) (fun j s =>
    H_body c sc E i j s) s) (Hx, Hy).

(** tStep += 1; t += dt, src/field2.cpp:123-124 *)
Definition step_clock (s : phys) : res phys :=
  n <- i32 (ph_step s + 1) ;;
  Ok (set_ph_t (ph_t s + g_dt (ph_grid s))%num (set_ph_step n s)).

(** src/field2.cpp:131-134 *)
Definition step_prev (s : phys) : phys :=
  let s := match ph_prev2E s with None => s | Some _ => set_ph_prev2E (ph_prevE s) s end in
  match ph_prevE s with None => s | Some _ => set_ph_prevE (Some (fEz (ph_F s))) s end.

(** assignment to the member Ez, include/field2.h:90 *)
Definition set_E (E : tensor) (s : phys) : phys :=
  set_ph_F (Fields E (fHx (ph_F s)) (fHy (ph_F s))) s.
(** assignment to the members Hx, Hy, include/field2.h:90 *)
Definition set_H (Hx Hy : tensor) (s : phys) : phys :=
  set_ph_F (Fields (fEz (ph_F s)) Hx Hy) s.

(** src/field2.cpp:136-142 *)
Definition step_E (s : phys) : res phys :=
  E <- E_loop (ph_grid s) (ph_C s) (ph_sc s) (fHx (ph_F s)) (fHy (ph_F s)) (fEz (ph_F s)) ;;
  Ok (set_E E s).

(** src/field2.cpp:144 *)
Definition step_pmlE (s : phys) : res phys :=
  '(b, E) <- pml_update_E (ph_pml s) (cCb (ph_C s)) (fHx (ph_F s)) (fHy (ph_F s)) (fEz (ph_F s)) ;;
  Ok (set_E E (set_ph_pml b s)).

(** loop over a polarization map, src/field2.cpp:146-153.  Simplification: the
    dereference of an empty optional is undefined even when there are no poles. *)
Fixpoint polar_all {M} (f : M -> polar -> tensor -> tensor -> res (polar * tensor))
    (prev : option tensor) (E : tensor) (P : list (string * (M * polar)))
    : res (list (string * (M * polar)) * tensor) :=
  match P with
  | [] => Ok ([], E)
  | (name, (m, p)) :: P' =>
    pe <- ofOption BadOptional prev ;;
    '(p, E) <- f m p pe E ;;
    '(r, E) <- polar_all f prev E P' ;;
    Ok ((name, (m, p)) :: r, E)
  end.

(** src/field2.cpp:146-153 *)
Definition step_polar (s : phys) : res phys :=
  '(P, E) <- polar_all debye_update (ph_prevE s) (fEz (ph_F s)) (ph_debye s) ;;
  let s := set_E E (set_ph_debye P s) in
  '(P, E) <- polar_all drude_update (ph_prevE s) (fEz (ph_F s)) (ph_drude s) ;;
  let s := set_E E (set_ph_drude P s) in
  '(P, E) <- polar_all lorentz_update (ph_prev2E s) (fEz (ph_F s)) (ph_lorentz s) ;;
  Ok (set_E E (set_ph_lorentz P s)).

(** src/field2.cpp:155-156 *)
Definition step_tfsfD (s : phys) : res phys :=
  match ph_tfsf s with
  | None => Ok s
  | Some q => E <- tfsf_updateD q (fEz (ph_F s)) ;; Ok (set_E E s)
  end.

(** assignment through get_field_ref(C), src/field2.cpp:306-313 *)
Definition put_field (F : fields) (c : comp) (a : tensor) : fields :=
  match c with
  | Ez => Fields a (fHx F) (fHy F)
  | Hx => Fields (fEz F) a (fHy F)
  | Hy => Fields (fEz F) (fHx F) a
  | _ => F
  end.

(** F->get_field_ref(C)(p) += v, point_source.cpp:17, line_source.cpp:20 *)
Definition field_add (F : fields) (c : comp) (v : T) (p : ivec) : res fields :=
  a <- get_field F c ;; a <- tadd a (fst p) (snd p) v ;; Ok (put_field F c a).

(** the cells a line source or surface monitor visits: for (p = a; p != b; p += tangent),
    line_source.cpp:19.  The walk from a to b along the unit tangent has |b-a| steps. *)
Definition line_cells (is : isurface) : list ivec :=
  map (fun k => iadd (is_a is) (iscale k (is_tangent is)))
      (zrange 0 (fst (is_dim is) + snd (is_dim is))).

(** field part of pulse: point_source.cpp:15-18, line_source.cpp:15-21 *)
Definition pulse_field (g : grid) (c : comp) (k : src_kind) (v : T) (F : fields) : res fields :=
  match k with
  | SPoint p => ip <- to_grid g p ;; field_add F c v ip
  | SLine s => is <- to_grid_surface g s ;;
               foldM (fun F p => field_add F c v p) F (line_cells is)
  end.

(** pulse of source number i, src/field2.cpp:160-162.  The amplitude is evaluated (and
    recorded in the profile's transform) before the field is accessed.  A point source converts its position
    to a cell first; the order matters only if that conversion is undefined. *)
Definition pulse_src (i : nat) (s : phys) : out phys :=
  match nth_error (ph_srcs s) i with
  | None => Fine s
  | Some r =>
    prim s (response (sr_tp r) (ph_t s)) (fun '(v, tp) =>
    let s := set_ph_srcs (upd_nth i (Source (sr_name r) (sr_c r) (sr_kind r) tp) (ph_srcs s)) s in
    prim s (pulse_field (ph_grid s) (sr_c r) (sr_kind r) v (ph_F s)) (fun F =>
    Fine (set_ph_F F s)))
  end.

(** src/field2.cpp:160-162 *)
Definition step_sources (s : phys) : out phys := oloop 0 (length (ph_srcs s)) pulse_src s.

(** src/field2.cpp:174-175 *)
Definition step_tfsf_pulse (s : phys) : res phys :=
  match ph_tfsf s with
  | None => Ok s
  | Some q => q <- tfsf_pulse q ;; Ok (set_ph_tfsf (Some q) s)
  end.

(** src/field2.cpp:177-183 *)
Definition step_H (s : phys) : res phys :=
  '(hx, hy) <- H_loop (ph_grid s) (ph_C s) (ph_sc s) (fEz (ph_F s)) (fHx (ph_F s)) (fHy (ph_F s)) ;;
  Ok (set_H hx hy s).

(** src/field2.cpp:185 *)
Definition step_pmlH (s : phys) : res phys :=
  '(b, hx, hy) <- pml_update_H (ph_pml s) (cDb (ph_C s)) (fEz (ph_F s)) (fHx (ph_F s)) (fHy (ph_F s)) ;;
  Ok (set_H hx hy (set_ph_pml b s)).

(** src/field2.cpp:187-188 *)
Definition step_tfsfH (s : phys) : res phys :=
  match ph_tfsf s with
  | None => Ok s
  | Some q => '(hx, hy) <- tfsf_updateH q (fHx (ph_F s)) (fHy (ph_F s)) ;; Ok (set_H hx hy s)
  end.

(** lifting physics steps to the whole state; include/field2.h:80-130 is one object *)
Definition on_ph (f : phys -> res phys) (s : field) : out field :=
  prim s (f (f_ph s)) (fun p => Fine (set_f_ph p s)).
(** the same for steps that may stop half-way (sources), src/field2.cpp:160-162 *)
Definition on_ph_out (f : phys -> out phys) (s : field) : out field :=
  match f (f_ph s) with
  | Fine p => Fine (set_f_ph p s)
  | Raise e p => Raise e (set_f_ph p s)
  | Undef u => Undef u
  end.
(** clocks.start(k), src/timer.cpp:18-20, as called in src/field2.cpp:60, 130, 165, 172 *)
Definition start (k : clock) (s : field) : out field :=
  prim s (clock_start k (f_clk s)) (fun c => Fine (set_f_clk c s)).
(** clocks.stop(k), src/timer.cpp:22-24, as called in src/field2.cpp:89, 163, 169, 191 *)
Definition stop (k : clock) (s : field) : out field :=
  prim s (clock_stop k (f_clk s)) (fun c => Fine (set_f_clk c s)).

(** src/field2.cpp:166-168.  Updating a monitor never raises an exception, so no partial
    state is kept. *)
Definition step_monitors (s : field) : out field :=
  let p := f_ph s in
  prim s (mapM (mon_update (ph_grid p) (ph_F p) (ph_t p)) (f_mons s))
    (fun l => Fine (set_f_mons l s)).

(** the object after writing to the file was interrupted by an exception, e.g. src/object.cpp:37-44 *)
Definition half_written (ops : list h5op) (s : field) : field := set_f_h5 (h5_left (f_h5 s) ops) s.

(** ** Output of time-domain monitors *)
(** field_names, src/field2.cpp:22-24; it has no entry for E, H and all, which never reach the
    lookup because an exception comes first (src/field2.cpp:87) or time_monitor.cpp:29-38 splits them *)
Definition comp_str (c : comp) : string :=
  match c with Ez => "Ez" | Hx => "Hx" | Hy => "Hy" | _ => "" end%string.
(** equality of keys of dsets, include/time_monitors/time_monitor.h:61 *)
Definition comp_eqb (a b : comp) : bool :=
  match a, b with
  | Ez, Ez | Hx, Hx | Hy, Hy | CE, CE | CH, CH | Call, Call => true
  | _, _ => false
  end.

(** the values collected by write_impl: point_time_monitor.cpp:17-19,
    surface_time_monitor.cpp:17-25, volume_time_monitor.cpp:17-28 *)
Definition tm_sample (g : grid) (F : fields) (sh : tm_shape) (c : comp) : res payload :=
  match sh with
  | TPoint p =>
    ip <- to_grid g p ;; f <- get_field F c ;; x <- tat f ip ;; Ok (PReal x)
  | TSurf s =>
    is <- to_grid_surface g s ;; len <- inorm (is_dim is) ;; f <- get_field F c ;;
    l <- mapM (fun i => tat f (iadd (is_a is) (iscale i (is_tangent is)))) (zrange 0 len) ;;
    Ok (PReals l)
  | TVol v =>
    iv <- to_grid_volume g v ;; f <- get_field F c ;;
    l <- mapM (fun '(i, j) => tat f (iadd (iv_a iv) (i, j)))
           (list_prod (zrange 0 (fst (iv_dim iv) + 1)) (zrange 0 (snd (iv_dim iv) + 1))) ;;
    Ok (PReals l)
  end.

(** the group of a time monitor, time_monitor.cpp:13-18 *)
Definition tm_path (m : tmon) : string := ("fields" // tm_name m)%string.

(** the output of write_impl for one component: point_time_monitor.cpp:21-29,
    surface_time_monitor.cpp:27-36, volume_time_monitor.cpp:30-38 *)
Definition tm_ops (m : tmon) (c : comp) (v : payload) : list h5op :=
  if existsb (comp_eqb c) (tm_dsets m) then [OMore (tm_path m // comp_str c) v]
  else [OGroup "fields"; OGroup (tm_path m); ONew (tm_path m // comp_str c) true v].
(** dsets[A] = dset, point_time_monitor.cpp:28, surface_time_monitor.cpp:35, volume_time_monitor.cpp:37 *)
Definition tm_noted (m : tmon) (c : comp) : tmon :=
  if existsb (comp_eqb c) (tm_dsets m) then m
  else TMon (tm_name m) (tm_shape_ m) (tm_fields m) (tm_every m) (c :: tm_dsets m).
(** write_impl for one component: point_time_monitor.cpp:16-30, surface_time_monitor.cpp:16-37,
    volume_time_monitor.cpp:16-39 *)
Definition tm_write1 (g : grid) (F : fields) (f : h5) (m : tmon) (c : comp) : res (h5 * tmon) :=
  v <- tm_sample g F (tm_shape_ m) c ;; f <- h5_ops f (tm_ops m c v) ;; Ok (f, tm_noted m c).

(** components written for a request, time_monitor.cpp:29-38 *)
Definition expand (c : comp) : list comp :=
  match c with
  | CE => [Ez] | CH => [Hx; Hy] | Call => [Ez; Hx; Hy] | c => [c]
  end.

(** write(), time_monitor.cpp:25-38 *)
Definition tm_write (g : grid) (F : fields) (f : h5) (m : tmon) : res (h5 * tmon) :=
  foldM (fun '(f, m) c => tm_write1 g F f m c) (f, m) (expand (tm_fields m)).
(** the file and the monitor when write() ends, time_monitor.cpp:25-38: after an exception the
    components written before it remain *)
Fixpoint tm_left (g : grid) (F : fields) (f : h5) (m : tmon) (l : list comp) : h5 * tmon :=
  match l with
  | [] => (f, m)
  | c :: l' =>
    match tm_write1 g F f m c with
    | Ok (f', m') => tm_left g F f' m' l'
    | _ => (match tm_sample g F (tm_shape_ m) c with Ok v => h5_left f (tm_ops m c v) | _ => f end, m)
    end
  end.
(** the object after an interrupted write() of time monitor i, time_monitor.cpp:25-38 *)
Definition tm_half (i : nat) (m : tmon) (s : field) : field :=
  let r := tm_left (ph_grid (f_ph s)) (ph_F (f_ph s)) (f_h5 s) m (expand (tm_fields m)) in
  set_f_h5 (fst r) (set_f_tmons (upd_nth i (snd r) (f_tmons s)) s).

(** write_if_ready for time monitor i, time_monitor.cpp:20-23 *)
Definition tm_ready (i : nat) (s : field) : out field :=
  match nth_error (f_tmons s) i with
  | None => Fine s
  | Some m =>
    prim s (check_repeat (tm_every m)) (fun '(b, e) =>
    let m := TMon (tm_name m) (tm_shape_ m) (tm_fields m) e (tm_dsets m) in
    let s := set_f_tmons (upd_nth i m (f_tmons s)) s in
    if b then
      prim (tm_half i m s) (tm_write (ph_grid (f_ph s)) (ph_F (f_ph s)) (f_h5 s) m) (fun '(f, m) =>
      Fine (set_f_h5 f (set_f_tmons (upd_nth i m (f_tmons s)) s)))
    else Fine s)
  end.

(** src/field2.cpp:193-195 *)
Definition step_tmons (s : field) : out field := oloop 0 (length (f_tmons s)) tm_ready s.

(** update, src/field2.cpp:122-197.  The progress line (126-128) is in ConsoleM.v. *)
Definition update (s : field) : out field :=
  on_ph step_clock s >>=
  start Looping >>=
  on_ph (fun p => Ok (step_prev p)) >>=
  on_ph step_E >>=
  on_ph step_pmlE >>=
  on_ph step_polar >>=
  on_ph step_tfsfD >>=
  on_ph_out step_sources >>=
  stop Looping >>=
  start Fourier >>=
  step_monitors >>=
  stop Fourier >>=
  start Looping >>=
  on_ph step_tfsf_pulse >>=
  on_ph step_H >>=
  on_ph step_pmlH >>=
  on_ph step_tfsfH >>=
  stop Looping >>=
  step_tmons.

(** ** Construction *)

(** grid_properties::write, src/grid.cpp:76-85 *)
Definition grid_items (g : grid) : list (string * payload) :=
  [("Lx", PReal (g_Lx g)); ("Ly", PReal (g_Ly g)); ("Nx", PInt (g_Nx g)); ("Ny", PInt (g_Ny g));
   ("dx", PReal (g_dx g)); ("dt", PReal (g_dt g)); ("resolution", PReal (g_res g));
   ("pml_thickness", PInt (g_pml g))]%string.

(** Field2D::Field2D, src/field2.cpp:26-57.  The coefficient tensors start uninitialised
    in the code; here they start at 0 and clear_materials overwrites every cell.
    With an empty filename outFile is null and is dereferenced on line 55. *)
Definition mk_phys (g : grid) : res phys :=
  z <- tconst (g_Nx g) (g_Ny g) 0%num ;;
  c <- clear_coefs g vacuum (Coefs z z z z) ;;
  b <- mk_pml g ;;
  sc <- set_scaling (p_par b) ;;
  Ok (Phys g 0 0%num (Fields z z z) c [] [] vacuum b sc None None None [] [] []).

(** Field2D::Field2D, src/field2.cpp:26-57: the physics, then the output file (48-55) *)
Definition mk_field (g : grid) (filename : string) : res field :=
  p <- mk_phys g ;;
  if String.eqb filename "" then UB NullDeref else
  f <- h5_groups [] ["grid"%string] ;;
  f <- h5_creates f "grid" (grid_items g) ;;
  Ok (Field p [] [] [] f mk_clocks).

(** ** Adding objects, sources, monitors *)

(** h5cpp::write_vector<double>(v, ...), e.g. include/vec.h:99 *)
Definition vec_pay (v : vec) : payload := PReals [fst v; snd v].

(** material::write: simple_material.cpp:17-24, debye.cpp:23-30, drude.cpp:25-32,
    lorentz.cpp:29-37 *)
Definition mat_items (k : mat_kind) : list (string * payload) :=
  match k with
  | KSimple m => [("material_type", PStr "simple"); ("eps", PReal (sm_eps m));
                  ("mu", PReal (sm_mu m)); ("conduc", PReal (sm_conduc m))]
  | KDebye m => [("material_type", PStr "debye"); ("eps_inf", PReal (db_eps m));
                 ("delta_epsilon", PReals (map dp_deps (db_poles m)));
                 ("tau", PReals (map dp_tau (db_poles m)))]
  | KDrude m => [("material_type", PStr "drude"); ("eps_inf", PReal (dr_eps m));
                 ("omega_0", PReals (map up_omega (dr_poles m)));
                 ("gamma", PReals (map up_gamma (dr_poles m)))]
  | KLorentz m => [("material_type", PStr "lorentz"); ("eps_inf", PReal (lo_eps m));
                   ("omega_0", PReals (map lp_omega (lo_poles m)));
                   ("gamma", PReals (map lp_gamma (lo_poles m)));
                   ("delta_epsilon", PReals (map lp_deps (lo_poles m)))]
  end%string.
(** material::get_group_path, src/materials/material.cpp:9-11 *)
Definition mat_path (name : string) : string := ("materials" // name)%string.
(** material::write: groups src/materials/material.cpp:13-18, data as in [mat_items] *)
Definition mat_ops (m : material) : list h5op :=
  [OGroup "materials"; OGroup (mat_path (m_name m))] ++ news (mat_path (m_name m)) (mat_items (m_kind m)).
(** material::write, as cited at [mat_items] and [mat_ops]: src/materials/material.cpp:13-18 *)
Definition write_mat (f : h5) (m : material) : res h5 := h5_ops f (mat_ops m).

(** get_group: src/object.cpp:29-35, src/dynamic_object.cpp:33-39 *)
Definition obj_root (o : obj) : string := if o_dyn o then "dynamic_objects"%string else "objects"%string.
(** path of an object's group, src/object.cpp:29-35, src/dynamic_object.cpp:33-39 *)
Definition obj_path (o : obj) : string := (obj_root o // geom_group (o_geom o) // o_name o)%string.
(** the groups created on the way, src/object.cpp:29-35, src/dynamic_object.cpp:33-39 *)
Definition obj_groups (o : obj) : list string :=
  [obj_root o; (obj_root o // geom_group (o_geom o))%string; obj_path o].
(** geometry::write: cylinder.cpp:17-19, ellipse.cpp:17-20, block.cpp:17-19 *)
Definition geom_items (g : geometry) : list (string * payload) :=
  match g with
  | Cylinder r => [("radius", PReal r)]
  | Ellipse rx ry => [("rx", PReal rx); ("ry", PReal ry)]
  | Block d => [("dimensions", vec_pay d)]
  end%string.
(** object::write, src/object.cpp:37-56; dynamic_object::write, src/dynamic_object.cpp:41-48 *)
Definition obj_ops (o : obj) : list h5op :=
  map OGroup (obj_groups o) ++
  [ONew (obj_path o // "position") (o_dyn o) (vec_pay (o_pos o));
   ONew (obj_path o // "theta") (o_dyn o) (PReal (o_theta o))] ++
  news (obj_path o) (geom_items (o_geom o)) ++
  [OLink (obj_path o // "material") (mat_path (m_name (o_mat o)))].
(** object::write, src/object.cpp:37-56; dynamic_object::write, src/dynamic_object.cpp:41-48 *)
Definition write_obj (f : h5) (o : obj) : res h5 := h5_ops f (obj_ops o).

(** find(materials_added.begin(), materials_added.end(), mat_name), src/field2.cpp:353 *)
Definition str_in (x : string) (l : list string) : bool := existsb (String.eqb x) l.

(** insert_object_helper, src/field2.cpp:352-356 *)
Definition register_mat (o : obj) (s : field) : out field :=
  let name := m_name (o_mat o) in
  if str_in name (f_mats s) then Fine s
  else
    let s := set_f_mats (f_mats s ++ [name]) s in
    prim (half_written (mat_ops (o_mat o)) s) (write_mat (f_h5 s) (o_mat o)) (fun f =>
    Fine (set_f_h5 f s)).

(** add<object>, include/field2.h:136-142 with insert_object, src/field2.cpp:320-359 *)
Definition add_object (o : obj) (s : field) : out field :=
  register_mat o s >>=
  on_ph (paint_phys o) >>=
  on_ph (insert_material o) >>=
  (fun s => prim (half_written (obj_ops o) s) (write_obj (f_h5 s) o) (fun f =>
            Fine (set_f_h5 f s))) >>=
  (fun s => Fine (map_ph (fun p => set_ph_objs (ph_objs p ++ [o]) p) s)).

(** surface_template::write, include/vec.h:98-102 *)
Definition surf_items (s : surface) : list (string * payload) :=
  [("p1", vec_pay (s_a s)); ("p2", vec_pay (s_b s)); ("sign", PInt (sgnZ (s_sign s)))]%string.
(** volume_template::write, include/vec.h:126-129 *)
Definition vol_items (v : volume) : list (string * payload) :=
  [("p1", vec_pay (v_a v)); ("p2", vec_pay (v_b v))]%string.

(** time_profile::write, src/sources/time_profile.cpp:23-27, 41-43 *)
Definition shape_items (s : shape) : list (string * payload) :=
  match s with
  | Gaussian f sig T0 => [("frequency", PReal f); ("T0", PReal T0); ("sig", PReal sig)]
  | Continuous f => [("frequency", PReal f)]
  end%string.
(** source::set_F and write: src/sources/source.cpp:25-44, point_source.cpp:20-24,
    line_source.cpp:23-27 *)
Definition src_sub (k : src_kind) : string :=
  match k with SPoint _ => "point"%string | SLine _ => "line"%string end.
(** source::get_group, src/sources/source.cpp:25-31 *)
Definition src_path (r : source) : string := ("sources" // src_sub (sr_kind r) // sr_name r)%string.
(** source::set_F and write: src/sources/source.cpp:33-44, point_source.cpp:20-24, line_source.cpp:23-27 *)
Definition src_ops (r : source) : list h5op :=
  map OGroup ["sources"; "sources" // src_sub (sr_kind r); src_path r]%string ++
  news (src_path r) (shape_items (tp_shape (sr_tp r))) ++
  news (src_path r)
    (match sr_kind r with
     | SPoint p => [("position"%string, vec_pay p)]
     | SLine s => surf_items s
     end).
(** source::set_F and write: src/sources/source.cpp:33-44, point_source.cpp:20-24, line_source.cpp:23-27 *)
Definition write_src (f : h5) (r : source) : res h5 := h5_ops f (src_ops r).
(** add<source>, include/field2.h:158-163 *)
Definition add_source (r : source) (s : field) : out field :=
  prim (half_written (src_ops r) s) (write_src (f_h5 s) r) (fun f =>
  Fine (map_ph (fun p => set_ph_srcs (ph_srcs p ++ [r]) p) (set_f_h5 f s))).

(** file output of set_F for each monitor kind: surface_monitor.h:52-54, box_monitor.h:29-36,
    cylinder_monitor.h:39-41, volume_monitor.h:36-38, point_monitor.h:31-33;
    groups src/monitors/monitor.cpp:21-27 *)
Definition mon_groups (sub name : string) : list string :=
  ["monitors"; "monitors" // sub; "monitors" // sub // name]%string.
(** path of a monitor's group, src/monitors/monitor.cpp:21-27 *)
Definition mon_dir (sub name : string) : string := ("monitors" // sub // name)%string.
(** what every set_F writes: the region and the frequencies, surface_monitor.h:52-54, include/dft.h:76-78 *)
Definition mon1_ops (sub name : string) (items : list (string * payload)) (freq : list T) : list h5op :=
  map OGroup (mon_groups sub name) ++
  news (mon_dir sub name) (items ++ [("dft_frequency"%string, PReals freq)]).
(** surface_monitor.h:52-54 *)
Definition surf_mon_ops (m : surf_mon) : list h5op :=
  mon1_ops "surface_monitor" (sm_name m) (surf_items (sm_surf m)) (d_freq (sm_dft m)).
(** surface_monitor.h:52-54, box_monitor.h:29-36, cylinder_monitor.h:39-41, volume_monitor.h:36-38,
    point_monitor.h:31-33 *)
Definition mon_ops (m : monitor) : list h5op :=
  match m with
  | MSurf m => surf_mon_ops m
  | MBox m =>
    flat_map surf_mon_ops (bm_sides m) ++
    mon1_ops "box_monitor" (bm_name m) (vol_items (bm_vol m)) (bm_freq m)
  | MCyl m =>
    mon1_ops "cylinder_monitor" (cm_name m)
      [("center"%string, vec_pay (cs_center (cm_surf m)));
       ("radius"%string, PReal (cs_radius (cm_surf m)))] (d_freq (cm_dft m))
  | MVol m => mon1_ops "volume_monitor" (vm_name m) (vol_items (vm_vol m)) (d_freq (vm_dft m))
  | MPt m =>
    mon1_ops "point_monitor" (pm_name m) [("position"%string, vec_pay (pm_pos m))]
      (d_freq (pm_dft m))
  end.
(** the file output of set_F, as cited at [mon_ops]: surface_monitor.h:52-54, box_monitor.h:29-36 *)
Definition write_mon (f : h5) (m : monitor) : res h5 := h5_ops f (mon_ops m).
(** add<monitor>, include/field2.h:144-149.  Simplification: the arrays of all four sides of a box are
    made before the first side is written; the code (box_monitor.h:31-32) alternates.  This can only
    replace an exception by undefined behaviour that would have come after it. *)
Definition add_monitor (m : monitor) (s : field) : out field :=
  prim s (mon_attach (ph_grid (f_ph s)) m) (fun m =>
  prim (half_written (mon_ops m) s) (write_mon (f_h5 s) m) (fun f =>
  Fine (set_f_h5 f (set_f_mons (f_mons s ++ [m]) s)))).

(** set_F of the time monitors: point_time_monitor.cpp:11-14, surface_time_monitor.cpp:11-14,
    volume_time_monitor.cpp:11-14 *)
Definition tm_items (sh : tm_shape) : list (string * payload) :=
  match sh with
  | TPoint p => [("position"%string, vec_pay p)]
  | TSurf s => surf_items s
  | TVol v => vol_items v
  end.
(** set_F with get_group, as cited at [tm_items]; time_monitor.cpp:13-18 *)
Definition tm_add_ops (m : tmon) : list h5op :=
  [OGroup "fields"; OGroup (tm_path m)] ++ news (tm_path m) (tm_items (tm_shape_ m)).
(** add<time_monitor>, include/field2.h:151-156 *)
Definition add_tmon (m : tmon) (s : field) : out field :=
  prim (half_written (tm_add_ops m) s) (h5_ops (f_h5 s) (tm_add_ops m)) (fun f =>
  Fine (set_f_h5 f (set_f_tmons (f_tmons s ++ [m]) s))).

(** set_tfsf, src/field2.cpp:246-250 with tfsf::write_properties, src/tfsf.cpp:133-144 *)
Definition tfsf_ops (q : tfsf) : list h5op :=
  map OGroup ["sources"; "sources" // "tfsf"]%string ++
  news ("sources" // "tfsf") (vol_items (q_vol q)) ++
  match tp_dft (q_tp q) with
  | None => []
  | Some d => [ONew ("sources" // "tfsf" // "dft_frequency") false (PReals (d_freq d))]
  end.
(** tfsf::write_properties, src/tfsf.cpp:133-144 *)
Definition write_tfsf (f : h5) (q : tfsf) : res h5 := h5_ops f (tfsf_ops q).
(** set_tfsf, src/field2.cpp:246-250 *)
Definition set_tfsf (v : volume) (tp : tprofile) (s : field) : out field :=
  prim s (mk_tfsf (ph_grid (f_ph s)) tp v (g_dt (ph_grid (f_ph s)))) (fun q =>
  let s := map_ph (set_ph_tfsf (Some q)) s in
  prim (half_written (tfsf_ops q) s) (write_tfsf (f_h5 s) q) (fun f => Fine (set_f_h5 f s))).

(** ** Output of the fields *)

(** the data of a whole tensor, row-major; Ez.data(), src/field2.cpp:68 *)
Definition tensor_pay (a : tensor) : payload :=
  PReals (map (fun '(i, j) => tval a i j) (list_prod (zrange 0 (rows a)) (zrange 0 (cols a)))).

(** write_field, src/field2.cpp:59-90 with create_fields_dataset 315-318 *)
Definition write_field (c : comp) (s : field) : out field :=
  start Hdf5 s >>= (fun s =>
  prim s (h5_group (f_h5 s) "fields") (fun f =>
  let s := set_f_h5 f s in
  match c with
  | Ez | Hx | Hy =>
    prim s (a <- get_field (ph_F (f_ph s)) c ;;
            let p := ("fields" // comp_str c)%string in
            if h5_exists (f_h5 s) p then h5_append (f_h5 s) p (tensor_pay a)
            else h5_create (f_h5 s) p true (tensor_pay a)) (fun f =>
    Fine (set_f_h5 f s))
  | _ => Raise InvalidArgument s
  end)) >>=
  stop Hdf5.

(** writeE, writeH, src/field2.cpp:92-99 *)
Definition writeE (s : field) : out field := write_field Ez s.
(** writeH, src/field2.cpp:96-99 *)
Definition writeH (s : field) : out field := write_field Hx s >>= write_field Hy.

(** rank_monitor::write, include/monitors/rank_monitor.h:20-22 with dft::write,
    include/dft.h:80-84; a box monitor's own transform has no entries. *)
Definition dft_items (d : dft) : list (string * payload) :=
  map (fun '(n, e) => (n, PCplx (concat e))) (d_map d).
(** sub_group and name of each kind: surface_monitor.h:19, box_monitor.h:17, cylinder_monitor.h:15,
    volume_monitor.h:13, point_monitor.h:13 *)
Definition mon_sub_name (m : monitor) : string * string :=
  match m with
  | MSurf m => ("surface_monitor", sm_name m)
  | MBox m => ("box_monitor", bm_name m)
  | MCyl m => ("cylinder_monitor", cm_name m)
  | MVol m => ("volume_monitor", vm_name m)
  | MPt m => ("point_monitor", pm_name m)
  end%string.
(** dft::write, include/dft.h:80-84 *)
Definition mon_items (m : monitor) : list (string * payload) :=
  match m with
  | MSurf m => dft_items (sm_dft m)
  | MBox _ => []
  | MCyl m => dft_items (cm_dft m)
  | MVol m => dft_items (vm_dft m)
  | MPt m => dft_items (pm_dft m)
  end.
(** rank_monitor::write, include/monitors/rank_monitor.h:20-22, of the i-th monitor *)
Definition write_monitor_data (i : nat) (s : field) : out field :=
  match nth_error (f_mons s) i with
  | None => Fine s
  | Some m =>
    let '(sub, name) := mon_sub_name m in
    let ops := map OGroup (mon_groups sub name) ++ news (mon_dir sub name) (mon_items m) in
    prim (half_written ops s) (h5_ops (f_h5 s) ops) (fun f => Fine (set_f_h5 f s))
  end.

(** ** Resetting *)

(** clear_fields, src/field2.cpp:212-233 *)
Definition clear_fields_phys (s : phys) : phys :=
  let F := ph_F s in
  let rs {M} (P : list (string * (M * polar))) :=
    map (fun '(n, (m, p)) => (n, (m, reset_polar p))) P in
  set_ph_tfsf (option_map tfsf_reset (ph_tfsf s))
   (set_ph_lorentz (rs (ph_lorentz s)) (set_ph_drude (rs (ph_drude s)) (set_ph_debye (rs (ph_debye s))
     (set_ph_F (Fields (tzero (fEz F)) (tzero (fHx F)) (tzero (fHy F)))
       (set_ph_step 0 (set_ph_t 0%num s)))))).
(** clear_fields, src/field2.cpp:212-233, on the whole state *)
Definition clear_fields (s : field) : out field := Fine (map_ph clear_fields_phys s).
(** clear_materials, src/field2.cpp:235-244 *)
Definition clear_materials (s : field) : out field :=
  on_ph (fun p => c <- clear_coefs (ph_grid p) (ph_bg p) (ph_C p) ;; Ok (set_ph_C c p)) s.
(** remove_monitors, src/field2.cpp:208-210 *)
Definition remove_monitors (s : field) : out field := Fine (set_f_mons [] s).

(** ** Dynamic objects, src/dynamic_object.cpp:17-31, 50-57 *)
Definition obj_move (dr : vec) (o : obj) : obj :=
  Obj (o_name o) (o_dyn o) (o_geom o) (o_mat o) (vadd (o_pos o) dr) (o_theta o).
(** dynamic_object::rotate, src/dynamic_object.cpp:21-23 *)
Definition obj_rotate (d : T) (o : obj) : obj :=
  Obj (o_name o) (o_dyn o) (o_geom o) (o_mat o) (o_pos o) (o_theta o + d)%num.
(** dynamic_object::set_position, src/dynamic_object.cpp:25-27 *)
Definition obj_set_pos (p : vec) (o : obj) : obj :=
  Obj (o_name o) (o_dyn o) (o_geom o) (o_mat o) p (o_theta o).
(** dynamic_object::set_theta, src/dynamic_object.cpp:29-31 *)
Definition obj_set_theta (t : T) (o : obj) : obj :=
  Obj (o_name o) (o_dyn o) (o_geom o) (o_mat o) (o_pos o) t.
(** apply a setter (src/dynamic_object.cpp:17-31) to the i-th object; only dynamic objects have these methods, so the
    call on another index cannot be written and is a no-op here. *)
Definition on_obj (i : nat) (h : obj -> obj) (s : field) : out field :=
  match nth_error (ph_objs (f_ph s)) i with
  | Some o => if o_dyn o
              then Fine (map_ph (fun p => set_ph_objs (upd_nth i (h o) (ph_objs p)) p) s)
              else Fine s
  | None => Fine s
  end.
(** write_current, src/dynamic_object.cpp:50-57 *)
Definition write_current (i : nat) (s : field) : out field :=
  match nth_error (ph_objs (f_ph s)) i with
  | Some o =>
    if o_dyn o then
      let ops := map OGroup (obj_groups o) ++
                 [OMore (obj_path o // "position") (vec_pay (o_pos o));
                  OMore (obj_path o // "theta") (PReal (o_theta o))] in
      prim (half_written ops s) (h5_ops (f_h5 s) ops) (fun f => Fine (set_f_h5 f s))
    else Fine s
  | None => Fine s
  end.

(** object::get_box_monitor, src/object.cpp:58-64; the generated name is a parameter *)
Definition get_box_monitor (i : nat) (name : string) (freq : list T) (buffer : Z) (s : field)
    : out field :=
  match nth_error (ph_objs (f_ph s)) i with
  | Some o =>
    prim s (mk_box_mon name (vol_pad (obj_box o) (nofZ buffer)) DAll freq) (fun m =>
    add_monitor (MBox m) s)
  | None => Fine s
  end.

(** explicit write() of time monitor i, time_monitor.cpp:25-27 *)
Definition write_tmon (i : nat) (s : field) : out field :=
  match nth_error (f_tmons s) i with
  | None => Fine s
  | Some m =>
    prim (tm_half i m s) (tm_write (ph_grid (f_ph s)) (ph_F (f_ph s)) (f_h5 s) m) (fun '(f, m) =>
    Fine (set_f_h5 f (set_f_tmons (upd_nth i m (f_tmons s)) s)))
  end.

(** ** Programs: sequences of calls on one Field2D *)
(** the public methods of Field2D (include/field2.h:44-64) and of the objects it hands out
    (include/dynamic_object.h:21-28, include/object.h:45, rank_monitor.h:20, time_monitor.h:44) *)
Inductive cmd :=
| Update
| UpdateMaterialGrid
| AddObject (o : obj)
| AddSource (r : source)
| AddMonitor (m : monitor)
| AddTimeMonitor (m : tmon)
| RemoveMonitors
| ClearFields
| ClearMaterials
| SetTfsf (v : volume) (tp : tprofile)
| WriteField (c : comp)
| WriteE
| WriteH
| WriteMonitor (i : nat)
| WriteTimeMonitor (i : nat)
| Move (i : nat) (dr : vec)
| Rotate (i : nat) (d : T)
| SetPosition (i : nat) (p : vec)
| SetTheta (i : nat) (t : T)
| WriteCurrent (i : nat)
| GetBoxMonitor (i : nat) (name : string) (freq : list T) (buffer : Z).

(** one call of a public method (include/field2.h:44-64); each operation has its own citation above *)
Definition exec (c : cmd) (s : field) : out field :=
  match c with
  | Update => update s
  | UpdateMaterialGrid => on_ph update_material_grid s
  | AddObject o => add_object o s
  | AddSource r => add_source r s
  | AddMonitor m => add_monitor m s
  | AddTimeMonitor m => add_tmon m s
  | RemoveMonitors => remove_monitors s
  | ClearFields => clear_fields s
  | ClearMaterials => clear_materials s
  | SetTfsf v tp => set_tfsf v tp s
  | WriteField c => write_field c s
  | WriteE => writeE s
  | WriteH => writeH s
  | WriteMonitor i => write_monitor_data i s
  | WriteTimeMonitor i => write_tmon i s
  | Move i dr => on_obj i (obj_move dr) s
  | Rotate i d => on_obj i (obj_rotate d) s
  | SetPosition i p => on_obj i (obj_set_pos p) s
  | SetTheta i t => on_obj i (obj_set_theta t) s
  | WriteCurrent i => write_current i s
  | GetBoxMonitor i n f b => get_box_monitor i n f b s
  end.

(** a program whose exceptions are not caught: calls of the methods of include/field2.h:44-64 *)
Fixpoint run (l : list cmd) (s : field) : out field :=
  match l with [] => Fine s | c :: l' => exec c s >>= run l' end.

(** a program that catches and ignores every exception thrown by the methods of include/field2.h:44-64 *)
Fixpoint run_catch (l : list cmd) (s : field) : out field :=
  match l with
  | [] => Fine s
  | c :: l' =>
    match exec c s with
    | Fine s' | Raise _ s' => run_catch l' s'
    | Undef u => Undef u
    end
  end.

End FieldModel.
