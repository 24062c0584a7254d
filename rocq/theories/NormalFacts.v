(** Normals and tangents of surfaces, and how the conversion to the grid keeps them. *)
From Coq Require Import ZArith Reals List Bool Lia Lra Psatz.
From Verif Require Import Scalar Base BaseFacts VecM GridM SpecGrid GridFacts.
Import ListNotations.
Local Open Scope R_scope.
#[local] Existing Instance RNum.

(** the direction of a difference *)
Definition towards (x y : R) : R := if Rlt_dec x y then 1 else -1.

Lemma surface_frame (a b : vec) sg s : mk_surface a b sg = Ok s -> a <> b ->
  (fst a = fst b -> s_normal s = (IZR (sgnZ sg), 0) /\ s_tangent s = (0, towards (snd a) (snd b))) /\
  (snd a = snd b -> s_normal s = (0, IZR (sgnZ sg)) /\ s_tangent s = (towards (fst a) (fst b), 0)).
Proof.
  intros H Hne. destruct a as [a0 a1], b as [b0 b1]. unfold mk_surface in H. cbn [fst snd] in *.
  apply bind_ok in H. destruct H as (n & Hn & H). injection H as <-. cbn [s_normal s_tangent].
  unfold vabs, vsub, vdivs, vnorm, vsqnorm, vdot in *. cbn [fst snd] in *. rnum.
  assert (Q : forall z, z <> 0 -> z / sqrt (z * z) = if Rlt_dec 0 z then 1 else -1).
  { intros z Hz. replace (z * z) with (z²) by reflexivity. rewrite sqrt_Rsqr_abs. destruct (Rlt_dec 0 z); [rewrite Rabs_pos_eq by lra; field; lra|rewrite Rabs_left by lra; field; lra]. }
  split; intros E; subst.
  - destruct (Reqb (Rabs (b0 - b0)) 0) eqn:Eq; [|exfalso; apply Reqb_false in Eq; apply Eq; rewrite Rminus_diag_eq by reflexivity; apply Rabs_R0].
    injection Hn as <-. split; [f_equal; ring|]. assert (a1 <> b1) by congruence. f_equal; [unfold Rdiv; rewrite Rminus_diag_eq by reflexivity; ring|].
    replace ((b0 - b0) * (b0 - b0) + (b1 - a1) * (b1 - a1)) with ((b1 - a1) * (b1 - a1)) by ring. rewrite Q by lra. unfold towards. destruct (Rlt_dec 0 (b1 - a1)), (Rlt_dec a1 b1); lra.
  - destruct (Reqb (Rabs (a0 - b0)) 0) eqn:Eq; [exfalso; apply Reqb_true, Rabs_zero in Eq; apply Hne; f_equal; lra|].
    destruct (Reqb (Rabs (b1 - b1)) 0) eqn:Eq'; [|exfalso; apply Reqb_false in Eq'; apply Eq'; rewrite Rminus_diag_eq by reflexivity; apply Rabs_R0].
    injection Hn as <-. split; [f_equal; ring|]. assert (a0 <> b0) by congruence. f_equal; [|unfold Rdiv; rewrite Rminus_diag_eq by reflexivity; ring].
    replace ((b0 - a0) * (b0 - a0) + (b1 - b1) * (b1 - b1)) with ((b0 - a0) * (b0 - a0)) by ring. rewrite Q by lra. unfold towards. destruct (Rlt_dec 0 (b0 - a0)), (Rlt_dec a0 b0); lra.
Qed.

Lemma isurface_normal (a b : ivec) sg is : mk_isurface a b sg = Ok is ->
  is_normal is = if (fst a =? fst b)%Z then (sgnZ sg, 0%Z) else (0%Z, sgnZ sg).
Proof.
  unfold mk_isurface. intros H. apply bind_ok in H. destruct H as (d0 & H0 & H). apply bind_ok in H. destruct H as (d1 & H1 & H).
  apply bind_ok in H. destruct H as (n & Hn & H). apply bind_ok in H. destruct H as (q & _ & H). destruct (q =? 0)%Z; [discriminate|]. injection H as <-. cbn [is_normal fst snd] in *.
  assert (E : d0 = (fst a - fst b)%Z) by (unfold i32 in H0; destruct (in_i32 (fst a - fst b)); [congruence|discriminate]). subst d0.
  destruct (fst a =? fst b)%Z eqn:E, (Z.abs (fst a - fst b) =? 0)%Z eqn:E'; try lia; [congruence|]. destruct (Z.abs d1 =? 0)%Z; [congruence|discriminate].
Qed.

Lemma isurface_tangent (a b : ivec) sg is : (fst a = fst b \/ snd a = snd b) -> mk_isurface a b sg = Ok is ->
  is_tangent is = (Z.sgn (fst b - fst a), Z.sgn (snd b - snd a)) /\ a <> b.
Proof.
  intros Hax H. assert (Hne : a <> b).
  { intros ->. rewrite mk_isurface_degenerate in H. discriminate. }
  split; [|exact Hne].
  assert (L : (Z.abs (fst b - fst a) + Z.abs (snd b - snd a) <= 46340)%Z).
  { unfold mk_isurface in H. apply bind_ok in H. destruct H as (d0 & _ & H). apply bind_ok in H. destruct H as (d1 & _ & H).
    apply bind_ok in H. destruct H as (n & _ & H). apply bind_ok in H. destruct H as (q & Hq & _). unfold inorm, i32 in Hq. cbn [fst snd] in Hq. unfold in_i32 in Hq.
    match type of Hq with context [(?lo <=? ?x)%Z && (?y <=? ?hi)%Z] => destruct ((lo <=? x)%Z && (y <=? hi)%Z) eqn:E; [|discriminate] end.
    apply andb_prop in E. destruct E as [_ E]. unfold INT_MAX in E. apply Z.leb_le in E. destruct Hax as [Hx|Hx]; rewrite Hx in *; nia. }
  destruct (mk_isurface_axis a b sg Hax Hne L) as (is' & E' & _ & _ & _ & _ & _ & T). congruence.
Qed.

(** *** The conversion keeps the normal and the tangent *)
Lemma conversion_frame (g : grid) (a b : vec) sg s is : 0 < g_dx g -> mk_surface a b sg = Ok s -> to_grid_surface g s = Ok is ->
  s_normal s = (IZR (fst (is_normal is)), IZR (snd (is_normal is))) /\
  s_tangent s = (IZR (fst (is_tangent is)), IZR (snd (is_tangent is))) /\
  (fst a = fst b -> s_normal s = (IZR (sgnZ sg), 0) /\ s_tangent s = (0, towards (snd a) (snd b))) /\
  (snd a = snd b -> s_normal s = (0, IZR (sgnZ sg)) /\ s_tangent s = (towards (fst a) (fst b), 0)).
Proof.
  intros Hd Hs H. destruct (mk_surface_fields a b sg s Hs) as [Ha [Hb Hsg]].
  assert (Hax : fst a = fst b \/ snd a = snd b) by (apply (mk_surface_iff a b sg); eauto).
  unfold to_grid_surface in H. rewrite Ha, Hb, Hsg in H. apply bind_ok in H. destruct H as (ia & Ea & H). apply bind_ok in H. destruct H as (ib & Eb & H).
  destruct (to_grid_coord g a b ia ib Ea Eb) as [C1 C2].
  assert (Nn := isurface_normal ia ib sg is H). destruct (isurface_tangent ia ib sg is) as [Tn Hne]; [tauto|exact H|].
  assert (Hab : a <> b) by (intros ->; congruence).
  destruct (surface_frame a b sg s Hs Hab) as [F1 F2]. split; [|split; [|split; [exact F1|exact F2]]].
  - rewrite Nn. destruct Hax as [E|E].
    + rewrite (C1 E), Z.eqb_refl. apply F1, E.
    + destruct (fst ia =? fst ib)%Z eqn:Eq; [|apply F2, E]. exfalso. apply Hne, injective_projections; [lia|auto].
  - clear Ha Hb Hsg. rewrite Tn. cbn [fst snd]. destruct ia as [i j], ib as [k l]. cbn [fst snd] in *.
    destruct (to_grid_mono g a b i j k l Hd Ea Eb) as [M1 M2]. destruct (to_grid_mono g b a k l i j Hd Eb Ea) as [M3 M4].
    destruct Hax as [E|E].
    + destruct (F1 E) as [_ ->]. rewrite (C1 E), Z.sub_diag. cbn [Z.sgn]. f_equal. specialize (C1 E). subst. assert (j <> l) by congruence.
      unfold towards. destruct (Rlt_dec (snd a) (snd b)) as [L|L]; [specialize (M2 ltac:(lra))|specialize (M4 ltac:(lra))]; [rewrite Z.sgn_pos by lia|rewrite Z.sgn_neg by lia]; reflexivity.
    + destruct (F2 E) as [_ ->]. rewrite (C2 E), Z.sub_diag. cbn [Z.sgn]. f_equal. specialize (C2 E). subst. assert (i <> k) by congruence.
      unfold towards. destruct (Rlt_dec (fst a) (fst b)) as [L|L]; [specialize (M1 ltac:(lra))|specialize (M3 ltac:(lra))]; [rewrite Z.sgn_pos by lia|rewrite Z.sgn_neg by lia]; reflexivity.
Qed.
