(** Regions a frequency monitor can read without leaving the arrays. *)
From Coq Require Import ZArith Reals List Bool String.
From Verif Require Import Scalar Base VecM GridM DftM InterpM MonitorM SpecGrid SpecSample.
Import ListNotations.
Local Open Scope R_scope.
#[local] Existing Instance RNum.

(** between the first and the last of n cells *)
Definition in_cells1 (n : Z) (u : R) : Prop := 0 <= u <= IZR n - 1.
(** p, in cells, and moved as src/field2.cpp:254-258 moves it, is inside the array *)
Definition readable (g : grid) (c : comp) (p : vec) : Prop :=
  let sx := match c with Hy => g_dx g | _ => 0 end in
  let sy := match c with Hx => g_dx g | _ => 0 end in
  in_cells1 (g_Nx g) (fst p / g_dx g - sx) /\ in_cells1 (g_Ny g) (snd p / g_dx g - sy).
Definition readable3 (g : grid) (p : vec) : Prop := readable g Ez p /\ readable g Hx p /\ readable g Hy p.

(** the two ends are different cells of one row or column, and every edge in between can be read *)
Definition segment_inside (g : grid) (a b : vec) : Prop :=
  exists A B, to_grid g a = Ok A /\ to_grid g b = Ok B /\ A <> B /\ (edges A B <= 46340)%Z /\
  forall i, (0 <= i < edges A B)%Z -> readable3 g (edge_middle (g_dx g) A B i).
Definition circle_inside (g : grid) (cs : cylsurf) : Prop :=
  exists n, (0 <= n)%Z /\ nceil (2 * PI * cs_radius cs / g_dx g) = Some n /\
  forall i, (0 <= i < n)%Z -> readable3 g (on_circle (cs_center cs) (cs_radius cs) (arc_middle n i)).
Definition block_inside (g : grid) (v : volume) : Prop :=
  exists A B, to_grid g (v_a v) = Ok A /\ to_grid g (v_b v) = Ok B /\ (fst A <= fst B)%Z /\ (snd A <= snd B)%Z /\
  in_grid (g_Nx g) (g_Ny g) A /\ in_grid (g_Nx g) (g_Ny g) B.
(** a newly made monitor (not a point monitor) on such a region *)
Inductive watches (g : grid) : monitor -> Prop :=
| watch_surface name a b sg s k freq : mk_surface a b sg = Ok s -> segment_inside g a b -> watches g (MSurf (mk_surf_mon name s k freq))
| watch_box name v k freq m : mk_box_mon name v k freq = Ok m ->
    let a := v_a v in let b := v_b v in
    segment_inside g a (fst b, snd a) -> segment_inside g (fst b, snd a) b -> segment_inside g b (fst a, snd b) -> segment_inside g (fst a, snd b) a ->
    watches g (MBox m)
| watch_circle name cs all freq : circle_inside g cs -> watches g (MCyl (mk_cyl_mon name cs all freq))
| watch_block name v k freq : block_inside g v -> watches g (MVol (mk_vol_mon name v k freq)).

(** newly made monitors inside grid.interior() *)
Definition inside (g : grid) (p : vec) : Prop := in_box (v_a (interior g)) (v_b (interior g)) p.
Definition apart (g : grid) (a b : vec) : Prop := to_grid g a <> to_grid g b.
Inductive within (g : grid) : monitor -> Prop :=
| within_surface name a b sg s k freq : mk_surface a b sg = Ok s -> inside g a -> inside g b -> apart g a b -> within g (MSurf (mk_surf_mon name s k freq))
| within_box name v k freq m : mk_box_mon name v k freq = Ok m -> inside g (v_a v) -> inside g (v_b v) ->
    apart g (v_a v) (fst (v_b v), snd (v_a v)) -> apart g (v_a v) (fst (v_a v), snd (v_b v)) -> within g (MBox m)
| within_circle name cs all freq : 0 <= cs_radius cs ->
    inside g (fst (cs_center cs) - cs_radius cs, snd (cs_center cs) - cs_radius cs) ->
    inside g (fst (cs_center cs) + cs_radius cs, snd (cs_center cs) + cs_radius cs) -> within g (MCyl (mk_cyl_mon name cs all freq))
| within_block name v k freq : inside g (v_a v) -> inside g (v_b v) -> fst (v_a v) <= fst (v_b v) -> snd (v_a v) <= snd (v_b v) ->
    within g (MVol (mk_vol_mon name v k freq)).
