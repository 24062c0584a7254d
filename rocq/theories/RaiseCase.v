(** An update ended by a time monitor. *)
From Coq Require Import ZArith Reals List Bool String Lia Psatz.
From Verif Require Import Scalar Base BaseFacts VecM GridM GeometryM MaterialM PmlM DftM TfsfM PolarM
  InterpM H5M ClockM MonitorM FieldM SpecGrid GridFacts OutFacts PhysFacts
  WfFacts ReachFacts SpecSafety SafeFacts SpecClock H5Facts CadenceFacts TimerFacts ExampleFacts ExampleSrc ExampleClock RaiseFacts.
From Verif Require Import OpsFacts.
Import ListNotations.

Section Gen.
Context {N : Num}.
Lemma ready_fine i (s : field) m e f m2 : nth_error (f_tmons s) i = Some m -> check_repeat (tm_every m) = Ok (true, e) ->
  let m1 := TMon (tm_name m) (tm_shape_ m) (tm_fields m) e (tm_dsets m) in
  tm_write (ph_grid (f_ph s)) (ph_F (f_ph s)) (f_h5 s) m1 = Ok (f, m2) ->
  tm_ready i s = Fine (set_f_h5 f (set_f_tmons (upd_nth i m2 (upd_nth i m1 (f_tmons s))) s)).
Proof. intros A B m1 C. unfold tm_ready. rewrite A, B. cbn [prim]. cbv zeta. cbn [f_ph f_h5 set_f_tmons]. fold m1. rewrite C. reflexivity. Qed.
Lemma ready_raise i (s : field) m e x : nth_error (f_tmons s) i = Some m -> check_repeat (tm_every m) = Ok (true, e) ->
  let m1 := TMon (tm_name m) (tm_shape_ m) (tm_fields m) e (tm_dsets m) in
  tm_write (ph_grid (f_ph s)) (ph_F (f_ph s)) (f_h5 s) m1 = Throw x ->
  exists s', tm_ready i s = Raise x s' /\ f_ph s' = f_ph s /\ f_clk s' = f_clk s.
Proof. intros A B m1 C. unfold tm_ready. rewrite A, B. cbn [prim]. cbv zeta. cbn [f_ph f_h5 set_f_tmons]. fold m1. rewrite C. cbn [prim]. eexists. repeat split. Qed.
End Gen.

Local Open Scope R_scope.
#[local] Existing Instance RNum.

(** two views of one name, the second one of another kind *)
Definition view1 : tmon := TMon "view" (TPoint (3, 3)) Ez (mk_every 1) [].
Definition view2 : tmon := TMon "view" (TVol (mk_volume (3, 3) (3, 3))) Ez (mk_every 1) [].

Lemma view_case : exists (g : grid) s0 s1 s2, mk_field g "out" = Ok s0 /\ run [AddTimeMonitor view1; AddTimeMonitor view2] s0 = Fine s1 /\ at_rest s1 /\
  update s1 = Raise H5Error s2 /\ at_rest s2 /\ ph_step (f_ph s2) = 1%Z.
Proof.
  destruct grid8 as (g & Eg & Hok & Nx & Ny & Hdx & HLx & HLy & Hp).
  assert (Hr : roomy g) by (unfold roomy; lia).
  destruct (mk_field_fresh g "out" Hr) as (p & Ep & E0); [discriminate|].
  destruct (mk_phys_ok g Hr) as (p' & Ep' & Hw & Gp & Sp & Tp & Op & Np). rewrite Ep in Ep'. injection Ep' as <-.
  assert (Pl : placed p). { split; [rewrite Sp; apply Forall_nil|rewrite Tp; discriminate]. }
  destruct (phys_step_ok p) as (p1 & E1 & W1 & P1 & N1); [now rewrite Gp|exact Hw|exact Pl|rewrite Np; unfold INT_MIN, INT_MAX; lia|].
  assert (G1 : ph_grid p1 = g) by (apply phys_step_static, static_eq in E1; destruct E1 as (-> & _); exact Gp).
  assert (Ea : exists f, h5_ops (fresh_h5 g) (tm_add_ops view1) = Ok f /\ exists f', h5_ops f (tm_add_ops view2) = Ok f' /\
     forall v, exists f1, h5_ops f' (tm_ops view1 Ez v) = Ok f1 /\ forall w, h5_ops f1 (tm_ops view2 Ez w) = Throw H5Error).
  { eexists. split; [reflexivity|]. eexists. split; [reflexivity|]. intros v. eexists. split; [reflexivity|]. intros w. reflexivity. }
  destruct Ea as (f & Ef & f' & Ef' & Ew).
  set (s1 := Field p [] [view1; view2] [] f' mk_clocks).
  assert (R1 : run [AddTimeMonitor view1; AddTimeMonitor view2] (Field p [] [] [] (fresh_h5 g) mk_clocks) = Fine s1).
  { cbn [run exec]. unfold add_tmon. cbn [f_h5]. rewrite Ef. cbn [prim obind f_h5 set_f_h5 set_f_tmons]. rewrite Ef'. reflexivity. }
  assert (T3 : to_grid g (3, 3) = Ok (3, 3)%Z) by (replace (3, 3) with (IZR 3, IZR 3) by reflexivity; apply to_grid_int; auto; unfold is_int32; lia).
  destruct (wf_F p1 W1) as (D & _). unfold tdims in D. rewrite G1 in D. destruct D as [D1 D2].
  assert (V : exists v, tm_sample g (ph_F p1) (tm_shape_ view1) Ez = Ok v).
  { cbn [tm_sample tm_shape_ view1]. rewrite T3. cbn [bind get_field]. unfold tat, tget. cbn [fst snd]. rewrite D1, D2, Nx, Ny. cbn. eexists; reflexivity. }
  assert (W : exists w, tm_sample g (ph_F p1) (tm_shape_ view2) Ez = Ok w).
  { cbn [tm_sample tm_shape_ view2]. unfold to_grid_volume. cbn [v_a v_b mk_volume]. rewrite T3. cbn [bind get_field mk_ivolume iv_a iv_b iv_dim].
    change (list_prod _ _) with [(0, 0)%Z]. cbn [mapM]. unfold tat, tget, iadd. cbn [fst snd]. rewrite D1, D2, Nx, Ny. cbn. eexists; reflexivity. }
  destruct V as [v V]. destruct W as [w W]. destruct (Ew v) as (f1 & Ef1 & Ef2).
  assert (U : exists s2, update s1 = Raise H5Error s2 /\ f_clk s2 = mk_clocks /\ f_ph s2 = p1).
  { rewrite (update_nomon s1 p1); [|exact E1|reflexivity|split; reflexivity].
    assert (C : check_repeat (mk_every 1) = Ok (true, Every 1 1 false)) by reflexivity.
    set (m1 := TMon "view" (TPoint (3, 3)) Ez (Every 1 1 false) []). set (m2 := TMon "view" (TVol (mk_volume (3, 3) (3, 3))) Ez (Every 1 1 false) []).
    assert (A1 : tm_ready 0 (set_f_ph p1 s1) = Fine (set_f_h5 f1 (set_f_tmons [tm_noted m1 Ez; view2] (set_f_ph p1 s1)))).
    { rewrite (ready_fine 0 (set_f_ph p1 s1) view1 (Every 1 1 false) f1 (tm_noted m1 Ez)); [reflexivity|reflexivity|exact C|].
      cbn [f_ph set_f_ph f_h5 s1]. rewrite G1. unfold tm_write. cbn [tm_fields view1 expand foldM]. unfold tm_write1. cbn [tm_shape_ view1 tm_name tm_dsets].
      cbn [tm_shape_ view1] in V. rewrite V. cbn [bind]. change (tm_ops _ Ez v) with (tm_ops view1 Ez v). rewrite Ef1. reflexivity. }
    destruct (ready_raise 1 (set_f_h5 f1 (set_f_tmons [tm_noted m1 Ez; view2] (set_f_ph p1 s1))) view2 (Every 1 1 false) H5Error) as (s2 & A2 & Ph & Ck); [reflexivity|exact C| |].
    { cbn [f_ph set_f_ph f_h5 s1 set_f_h5 set_f_tmons]. rewrite G1. unfold tm_write. cbn [tm_fields view2 expand foldM]. unfold tm_write1. cbn [tm_shape_ view2 tm_name tm_dsets].
      cbn [tm_shape_ view2] in W. rewrite W. cbn [bind]. change (tm_ops _ Ez w) with (tm_ops view2 Ez w). rewrite Ef2. reflexivity. }
    exists s2. split; [|split; [exact Ck|exact Ph]].
    change (step_tmons (set_f_ph p1 s1)) with (tm_ready 0 (set_f_ph p1 s1) >>= (fun x => tm_ready 1 x >>= (fun y => Fine y))). rewrite A1. cbn [obind]. rewrite A2. reflexivity. }
  destruct U as (s2 & U & Ck & Ph). exists g, (Field p [] [] [] (fresh_h5 g) mk_clocks), s1, s2.
  split; [exact E0|]. split; [exact R1|]. split; [reflexivity|]. split; [exact U|]. split; [exact Ck|]. rewrite Ph, N1, Np. reflexivity.
Qed.
