(** A concrete run with a point and a line source, for the examples. *)
From Coq Require Import ZArith Reals List Bool String Lia Psatz.
From Verif Require Import Scalar Base BaseFacts VecM GridM GeometryM MaterialM PmlM DftM TfsfM PolarM
  InterpM H5M ClockM MonitorM FieldM SpecGrid GridFacts OutFacts PhysFacts
  WfFacts ReachFacts SpecSafety SafeFacts ExampleFacts.
Import ListNotations.
Local Open Scope R_scope.
#[local] Existing Instance RNum.

Definition lamp : source := Source "lamp" Ez (SPoint (3, 3)) (TProfile (Continuous 1) None).
(** (2,2) to (5,2) *)
Definition wire_surf : surface := Surface (2, 2) (5, 2) Positive (3, 0) (0, 1) (1, 0).
Definition wire : source := Source "wire" Hx (SLine wire_surf) (TProfile (Continuous 2) None).

Lemma wire_surf_ok : mk_surface (2, 2) (5, 2) Positive = Ok wire_surf.
Proof.
  unfold mk_surface, wire_surf, vabs, vsub, vnorm, vsqnorm, vdot, vdivs. cbn [fst snd sgnZ]. rnumg.
  replace (2 - 5) with (-3) by lra. replace (2 - 2) with 0 by lra. replace (5 - 2) with 3 by lra.
  replace (Rabs (-3)) with 3 by (unfold Rabs; destruct Rcase_abs; lra). rewrite Rabs_R0.
  unfold Reqb. destruct (Req_EM_T 3 0); [lra|]. destruct (Req_EM_T 0 0); [|lra]. cbn [bind].
  replace (3 * 3 + 0 * 0) with (3 * 3) by lra. rewrite sqrt_square by lra.
  f_equal. f_equal; apply injective_projections; cbn [fst snd]; rnumg; lra.
Qed.

Lemma to_grid_int (g : grid) i j : g_dx g = 1 -> is_int32 i -> is_int32 j -> to_grid g (IZR i, IZR j) = Ok (i, j).
Proof.
  intros Hd Hi Hj. rewrite <- (round_trip_R g i j); auto; [|rewrite Hd; lra].
  unfold to_real. cbn [fst snd]. f_equal. apply injective_projections; cbn [fst snd]; rnumg; rewrite Hd; ring.
Qed.

Lemma source_run : exists (g : grid) s0 s, mk_grid 8 8 1 1 = Ok g /\ grid_ok g /\ big_enough g /\
  mk_field g "out" = Ok s0 /\ run [AddSource lamp; AddSource wire] s0 = Fine s /\ reachable g s /\
  sources_inside (f_ph s) /\ stopped s /\ f_mons s = [] /\ f_tmons s = [] /\ ph_step (f_ph s) = 0%Z /\
  ph_srcs (f_ph s) = [lamp; wire].
Proof.
  destruct grid8 as (g & Eg & Hok & Nx & Ny & Hdx & HLx & HLy & Hp).
  assert (Hr : roomy g) by (unfold roomy; lia).
  destruct (mk_field_fresh g "out" Hr) as (p & Ep & E0); [discriminate|].
  destruct (mk_phys_ok g Hr) as (p' & Ep' & Hw & Gp & Sp & Tp & Op & Np). rewrite Ep in Ep'. injection Ep' as <-.
  exists g, (Field p [] [] [] (fresh_h5 g) mk_clocks).
  assert (Ew : exists f, (f <- write_src (fresh_h5 g) lamp ;; write_src f wire) = Ok f) by (eexists; reflexivity).
  destruct Ew as [f2 Ew]. apply bind_ok in Ew. destruct Ew as [f1 [Ew1 Ew2]].
  set (s1 := map_ph (fun p => set_ph_srcs (ph_srcs p ++ [lamp]) p) (set_f_h5 f1 (Field p [] [] [] (fresh_h5 g) mk_clocks))).
  exists (map_ph (fun p => set_ph_srcs (ph_srcs p ++ [wire]) p) (set_f_h5 f2 s1)).
  assert (Er : run [AddSource lamp; AddSource wire] (Field p [] [] [] (fresh_h5 g) mk_clocks) =
     Fine (map_ph (fun p => set_ph_srcs (ph_srcs p ++ [wire]) p) (set_f_h5 f2 s1))).
  { cbn [run exec]. unfold add_source at 1. cbn [f_h5]. rewrite Ew1. cbn [prim obind]. fold s1.
    unfold add_source. replace (f_h5 s1) with f1 by reflexivity. rewrite Ew2. reflexivity. }
  repeat (split; [assumption|]).
  split. { exists "out"%string, (Field p [] [] [] (fresh_h5 g) mk_clocks), [AddSource lamp; AddSource wire].
    split; [exact E0|]. now apply run_run_catch. }
  split. { split.
    - cbn [f_ph map_ph set_f_ph set_f_h5 s1 set_ph_srcs ph_srcs ph_grid]. rewrite Sp, Gp. cbn [app].
      intros r [<-|[<-|[]]].
      + split; [now left|]. exists (3, 3)%Z. split; [now apply (to_grid_int g 3 3)|]. unfold in_grid. rewrite Nx, Ny. cbn. lia.
      + split; [now right; left|]. exists (2, 2)%Z, (5, 2)%Z.
        split; [now apply (to_grid_int g 2 2)|]. split; [now apply (to_grid_int g 5 2)|].
        unfold in_grid. rewrite Nx, Ny. cbn [fst snd]. repeat split; try lia; try discriminate.
    - cbn. rewrite Tp. discriminate. }
  split; [split; reflexivity|]. split; [reflexivity|]. split; [reflexivity|]. split; [exact Np|].
  cbn. now rewrite Sp.
Qed.
