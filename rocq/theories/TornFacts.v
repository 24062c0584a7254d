(** A time monitor whose write() is ended by an exception: what is in the file, and what the monitor knows. *)
From Coq Require Import ZArith Reals List Bool String Lia.
From Verif Require Import Scalar Base BaseFacts VecM GridM GeometryM MaterialM PmlM DftM TfsfM PolarM InterpM H5M ClockM MonitorM NamesM FieldM OutFacts PhysFacts SpecClock SpecSource SourceFacts H5Facts
  SpecGrid GridFacts WfFacts ReachFacts SafeFacts OpsFacts SpecOutput NamesFacts PassiveFacts EditFacts PathFacts RecordFacts SnapFacts CadenceFacts OutputFacts ExampleFacts ExampleSrc.
Import ListNotations.
Local Open Scope Z_scope.

Section Torn.
Context {N : Num}.
Lemma comp_eqb_eq a b : FieldM.comp_eqb a b = true <-> a = b.
Proof. destruct a, b; cbn; split; congruence. Qed.
Lemma noted_in m c x : In x (tm_dsets (tm_noted m c)) <-> In x (tm_dsets m) \/ x = c.
Proof.
  unfold tm_noted. destruct (existsb _ _) eqn:E; cbn [tm_dsets In]; [|intuition].
  apply existsb_exists in E. destruct E as (y & Hy & E). apply comp_eqb_eq in E. subst y. split; [tauto|]. intros [H| ->]; assumption.
Qed.
Lemma torn_ops f m c v e : h5_ops f (tm_ops m c v) = Throw e -> forall p, data_rows (h5_left f (tm_ops m c v)) p = data_rows f p.
Proof.
  unfold tm_ops, h5_ops. destruct (existsb _ _); cbn [foldM h5_left h5_op].
  - destruct (h5_append _ _ _); cbn; congruence.
  - intros H p. destruct (h5_group f "fields") as [f1|e1|u1] eqn:E1; cbn [bind] in *; auto.
    assert (W1 := h5_group_wrote _ _ _ E1 p). cbn [rows_at filter map] in W1. rewrite app_nil_r in W1.
    destruct (h5_group f1 (tm_path m)) as [f2|e2|u2] eqn:E2; cbn [bind] in *; auto.
    assert (W2 := h5_group_wrote _ _ _ E2 p). cbn [rows_at filter map] in W2. rewrite app_nil_r in W2.
    destruct (h5_create f2 _ true v); cbn [bind] in *; congruence.
Qed.
Lemma torn_log g F l : forall f m e, foldM (fun '(f, m) c => tm_write1 g F f m c) (f, m) l = Throw e ->
  let r := tm_left g F f m l in
  exists ok c rest vs, l = ok ++ c :: rest /\ mapM (tm_sample g F (tm_shape_ m)) ok = Ok vs /\ tm_same m (snd r) /\ tm_every (snd r) = tm_every m /\
    (forall x, In x (tm_dsets (snd r)) <-> In x (tm_dsets m) \/ In x ok) /\
    wrote f (combine (map (fun c => (tm_path m // comp_str c)%string) ok) vs) (fst r).
Proof.
  induction l as [|c l IH]; cbn [foldM tm_left]; intros f m e H; [discriminate|].
  destruct (tm_write1 g F f m c) as [[f1 m1]|e1|u1] eqn:E; cbn [bind] in H; [| |discriminate].
  - destruct (IH f1 m1 e H) as (ok & c1 & rest & vs & El & Ev & (S1 & S2 & S3) & S4 & Hd & W).
    assert (E' := E). apply tm_write1_wrote in E'. destruct E' as ((T1 & T2 & T3) & T4 & v & Sv & W1).
    assert (Ed : m1 = tm_noted m c) by (unfold tm_write1 in E; inv_ok; congruence).
    exists (c :: ok), c1, rest, (v :: vs). split; [now rewrite El|]. cbn [mapM]. rewrite Sv. cbn [bind]. rewrite T2 in Ev. rewrite Ev.
    split; [reflexivity|]. split; [repeat split; congruence|]. split; [congruence|]. split.
    + intros x. rewrite Hd, Ed, noted_in. cbn [In]. intuition congruence.
    + cbn [map combine]. assert (Ep : tm_path m1 = tm_path m) by (unfold tm_path; now rewrite T1). rewrite Ep in W. exact (wrote_app _ _ _ _ _ W1 W).
  - exists [], c, l, []. cbn [app mapM fst snd map combine In]. repeat split; auto; try tauto.
    unfold tm_write1 in E. destruct (tm_sample g F (tm_shape_ m) c) as [v|e2|u2]; cbn [bind] in E; [|intros p; unfold rows_at; cbn; now rewrite app_nil_r|discriminate].
    destruct (h5_ops f (tm_ops m c v)) as [f'|e2|u2] eqn:Eo; cbn [bind] in E; try discriminate.
    intros p. rewrite (torn_ops _ _ _ _ _ Eo). unfold rows_at. cbn. now rewrite app_nil_r.
Qed.

Lemma torn i s e s' m : nth_error (f_tmons s) i = Some m -> exec (WriteTimeMonitor i) s = Raise e s' ->
  exists ok c rest vs m', asked (tm_fields m) = ok ++ c :: rest /\
    Forall2 (tm_snapshot (ph_grid (f_ph s)) (ph_F (f_ph s)) (tm_shape_ m)) ok vs /\
    (forall p, data_rows (f_h5 s') p = data_rows (f_h5 s) p ++
      flat_map (fun cv => if String.eqb p (("fields" // tm_name m) // comp_str (fst cv)) then [snd cv] else []) (combine ok vs)) /\
    f_tmons s' = upd_nth i m' (f_tmons s) /\ nth_error (f_tmons s') i = Some m' /\
    (tm_name m' = tm_name m /\ tm_shape_ m' = tm_shape_ m /\ tm_fields m' = tm_fields m /\ tm_every m' = tm_every m) /\
    (forall x, In x (tm_dsets m') <-> In x (tm_dsets m) \/ In x ok) /\
    f_ph s' = f_ph s /\ f_mons s' = f_mons s /\ f_mats s' = f_mats s /\ f_clk s' = f_clk s.
Proof.
  intros Hm H. cbn [exec] in H. unfold write_tmon in H. rewrite Hm in H. rewrite <- (expand_asked (tm_fields m)).
  destruct (tm_write _ _ _ m) as [[f1 m1]|e1|u1] eqn:E; cbn [prim] in H; [discriminate| |discriminate]. injection H as <- <-.
  destruct (torn_log _ _ _ _ _ _ E) as (ok & c & rest & vs & El & Ev & (S1 & S2 & S3) & S4 & Hd & W).
  exists ok, c, rest, vs. eexists. split; [exact El|]. split; [|split; [|split; [reflexivity|split; [|split; [|split; [exact Hd|]]]]]].
  - clear - Ev. revert vs Ev. induction ok as [|x l IH]; intros vs Hv; cbn [mapM] in Hv; [injection Hv as <-; constructor|].
    apply bind_ok in Hv. destruct Hv as (v & Hv1 & Hv). apply bind_ok in Hv. destruct Hv as (vs' & Hv2 & Hv). injection Hv as <-. constructor; [|auto]. now apply tm_sample_cells.
  - intros p. unfold tm_half. cbn [f_h5 set_f_h5]. rewrite (W p). f_equal. unfold rows_at, tm_path. clear. revert vs. induction ok as [|x l IH]; intros [|v vs]; cbn [map combine filter flat_map fst snd]; auto.
    destruct (String.eqb p _); cbn [map snd app]; rewrite IH; reflexivity.
  - unfold tm_half. cbn [f_tmons set_f_h5 set_f_tmons]. rewrite upd_nth_nth, Nat.eqb_refl; [reflexivity|]. apply nth_error_Some. congruence.
  - auto.
  - unfold tm_half. cbn. auto.
Qed.
End Torn.

(** ** Two views of one name: the second one has shown Hx when it stumbles over the Hy of the first *)
Local Open Scope R_scope.
#[local] Existing Instance RNum.
Definition peep1 : tmon := TMon "view" (TPoint (3, 3)) Hy (mk_every 0) [].
Definition peep2 : tmon := TMon "view" (TVol (mk_volume (3, 3) (3, 3))) CH (mk_every 0) [].
Lemma torn_case : exists (g : grid) s0 s1 s2, mk_field g "out" = Ok s0 /\
  run [AddTimeMonitor peep1; AddTimeMonitor peep2; WriteTimeMonitor 0] s0 = Fine s1 /\
  nth_error (f_tmons s1) 1 = Some peep2 /\ exec (WriteTimeMonitor 1) s1 = Raise H5Error s2 /\
  (forall m', nth_error (f_tmons s2) 1 = Some m' -> tm_dsets m' = [Hx]).
Proof.
  destruct grid8 as (g & Eg & Hok & Nx & Ny & Hdx & HLx & HLy & Hp).
  assert (Hr : roomy g) by (unfold roomy; lia).
  destruct (mk_field_fresh g "out" Hr) as (p & Ep & E0); [discriminate|].
  destruct (mk_phys_ok g Hr) as (p' & Ep' & Hw & Gp & _). rewrite Ep in Ep'. injection Ep' as <-.
  assert (Ea : exists f, h5_ops (fresh_h5 g) (tm_add_ops peep1) = Ok f /\ exists f', h5_ops f (tm_add_ops peep2) = Ok f' /\
     forall v, exists f1, h5_ops f' (tm_ops peep1 Hy v) = Ok f1 /\ forall w, exists f2, h5_ops f1 (tm_ops peep2 Hx w) = Ok f2 /\ forall x, h5_ops f2 (tm_ops (tm_noted peep2 Hx) Hy x) = Throw H5Error).
  { eexists. split; [reflexivity|]. eexists. split; [reflexivity|]. intros v. eexists. split; [reflexivity|]. intros w. eexists. split; [reflexivity|]. intros x. reflexivity. }
  destruct Ea as (f & Ef & f' & Ef' & Ew).
  assert (T3 : to_grid g (3, 3) = Ok (3, 3)%Z) by (replace (3, 3) with (IZR 3, IZR 3) by reflexivity; apply to_grid_int; auto; unfold is_int32; lia).
  destruct (wf_F p Hw) as (_ & D & D'). unfold tdims in D, D'. rewrite Gp in D, D'. destruct D as [D1 D2], D' as [D3 D4].
  assert (V : exists v, tm_sample g (ph_F p) (tm_shape_ peep1) Hy = Ok v).
  { cbn [tm_sample tm_shape_ peep1]. rewrite T3. cbn [bind get_field]. unfold tat, tget. cbn [fst snd]. rewrite D3, D4, Nx, Ny. cbn. eexists; reflexivity. }
  assert (W : forall c, c = Hx \/ c = Hy -> exists w, tm_sample g (ph_F p) (tm_shape_ peep2) c = Ok w).
  { intros c Hc. cbn [tm_sample tm_shape_ peep2]. unfold to_grid_volume. cbn [v_a v_b mk_volume]. rewrite T3. cbn [bind mk_ivolume iv_a iv_b iv_dim].
    change (list_prod _ _) with [(0, 0)%Z]. destruct Hc as [-> | ->]; cbn [bind get_field mapM]; unfold tat, tget, iadd; cbn [fst snd]; rewrite ?D1, ?D2, ?D3, ?D4, Nx, Ny; cbn; eexists; reflexivity. }
  destruct V as [v V]. destruct (W Hx ltac:(auto)) as [w Wx]. destruct (W Hy ltac:(auto)) as [x Wy]. destruct (Ew v) as (f1 & Ef1 & Ef2). destruct (Ef2 w) as (f2 & Ef3 & Ef4).
  set (s1 := Field p [] [tm_noted peep1 Hy; peep2] [] f1 mk_clocks).
  assert (R1 : run [AddTimeMonitor peep1; AddTimeMonitor peep2; WriteTimeMonitor 0] (Field p [] [] [] (fresh_h5 g) mk_clocks) = Fine s1).
  { cbn [run exec]. unfold add_tmon. cbn [f_h5]. rewrite Ef. cbn [prim obind f_h5 set_f_h5 set_f_tmons]. rewrite Ef'. cbn [prim obind f_tmons set_f_h5 set_f_tmons app].
    unfold write_tmon. cbn [nth_error f_tmons set_f_h5 set_f_tmons f_ph f_h5]. rewrite Gp. unfold tm_write. cbn [tm_fields peep1 expand foldM]. unfold tm_write1. cbn [tm_shape_ peep1] in V |- *. rewrite V.
    cbn [bind]. fold peep1. rewrite Ef1. reflexivity. }
  assert (L : tm_write1 g (ph_F p) f1 peep2 Hx = Ok (f2, tm_noted peep2 Hx)) by (unfold tm_write1; rewrite Wx; cbn [bind]; rewrite Ef3; reflexivity).
  assert (L2 : tm_write1 g (ph_F p) f2 (tm_noted peep2 Hx) Hy = Throw H5Error) by (unfold tm_write1; change (tm_shape_ (tm_noted peep2 Hx)) with (tm_shape_ peep2); rewrite Wy; cbn [bind]; now rewrite Ef4).
  exists g, (Field p [] [] [] (fresh_h5 g) mk_clocks), s1. eexists. split; [exact E0|]. split; [exact R1|]. split; [reflexivity|]. split.
  - cbn [exec]. unfold write_tmon. cbn [nth_error f_tmons s1 f_ph f_h5]. rewrite Gp. unfold tm_write. cbn [tm_fields peep2 expand foldM]. fold peep2. rewrite L. cbn [bind]. rewrite L2. cbn [bind prim]. reflexivity.
  - unfold tm_half. cbn [f_tmons s1 set_f_h5 set_f_tmons f_ph f_h5 upd_nth nth_error]. rewrite Gp. cbn [tm_fields peep2 expand tm_left]. fold peep2. rewrite L, L2. cbn [snd]. intros m' Hm. injection Hm as <-. reflexivity.
Qed.
