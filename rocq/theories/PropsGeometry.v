(** Properties of object geometry: C08, C09. *)
From Coq Require Import ZArith Reals List Bool String Lia Psatz.
From Verif Require Import Scalar Base BaseFacts VecM GridM GeometryM MaterialM FieldM
  SpecGrid GridFacts SpecGeometry GeometryFacts.
Import ListNotations.
Local Open Scope R_scope.
#[local] Existing Instance RNum.

(** object::inside is the rotated and shifted point set of the shape *)
Theorem C09_inside_is_placed_shape : forall (g : geometry) (pos : vec) (th : R) (p : vec),
  place_inside g pos th p = true <-> in_placed g pos th p.
Proof. exact place_inside_iff. Qed.
Print Assumptions C09_inside_is_placed_shape.

(** C08 *)
Theorem C08_bounding_box_contains_object : forall (g : geometry) (pos : vec) (th : R) (p : vec),
  shape_ok g -> place_inside g pos th p = true ->
  in_box (v_a (place_box g pos th)) (v_b (place_box g pos th)) p.
Proof. exact bounding_box_contains. Qed.
Print Assumptions C08_bounding_box_contains_object.
(** a 4 by 2 block at (5,3) turned by a quarter turn contains (4, 9/2) *)
Example C08_case : shape_ok (Block (4, 2)) /\ place_inside (Block (4, 2)) (5, 3) (PI / 2) (4, 9 / 2) = true.
Proof.
  split; [exact I|]. apply place_inside_iff. exists (3 / 2, 1). split.
  - unfold in_shape. cbn [fst snd]. rewrite !Rabs_pos_eq by lra. lra.
  - unfold vadd, rot. cbn [fst snd]. rewrite cos_PI2, sin_PI2. rnum. f_equal; lra.
Qed.

(** C09 *)
Theorem C09_move : forall (o : obj) (d p : vec), obj_inside (obj_move d o) (vadd p d) = obj_inside o p.
Proof. exact obj_inside_move. Qed.
Print Assumptions C09_move.
Theorem C09_rotate : forall (o : obj) (a : R) (p : vec),
  obj_inside (obj_rotate a o) (vadd (o_pos o) (rot a (vsub p (o_pos o)))) = obj_inside o p.
Proof. exact obj_inside_rotate. Qed.
Print Assumptions C09_rotate.
Theorem C09_full_turn : forall (o : obj) p, obj_inside (obj_rotate (2 * PI) o) p = obj_inside o p.
Proof. exact full_turn. Qed.
Print Assumptions C09_full_turn.
(** any sequence of move and rotate calls *)
Theorem C09_pose_history : forall (o : obj) l (p : vec),
  obj_inside (apply_pose o l) p = true <->
  in_placed (o_geom o) (vadd (o_pos o) (total_shift l)) (o_theta o + total_turn l) p.
Proof. exact pose_history_region. Qed.
Print Assumptions C09_pose_history.
Theorem C09_set_overrides : forall (o : obj) l (p : vec) (t : R),
  o_pos (obj_set_pos p (apply_pose o l)) = p /\ o_theta (obj_set_theta t (apply_pose o l)) = t /\
  o_theta (obj_set_pos p (apply_pose o l)) = o_theta (apply_pose o l) /\
  o_pos (obj_set_theta t (apply_pose o l)) = o_pos (apply_pose o l).
Proof. exact apply_pose_set. Qed.
Print Assumptions C09_set_overrides.
Example C09_case : let o := Obj "b"%string true (Block (4, 2)) (Material "m"%string vacuum) (0, 0) 0 in
  obj_inside (apply_pose o [PMove (1, 0); PRotate (PI / 2); PMove (4, 3)]) (4, 9 / 2) = true.
Proof.
  intro o. apply pose_history_region. exists (3 / 2, 1). split.
  - unfold in_shape, o. cbn [o_geom fst snd]. rewrite !Rabs_pos_eq by lra. lra.
  - replace (o_theta o + total_turn [PMove (1, 0); PRotate (PI / 2); PMove (4, 3)]) with (PI / 2)
      by (cbn [o o_theta total_turn fold_right]; rnumg; ring).
    unfold rot. rewrite cos_PI2, sin_PI2.
    unfold o, total_shift, vadd. cbn [o_pos fold_right fst snd]. rnumg. f_equal; lra.
Qed.
