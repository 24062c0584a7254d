(** Concrete runs for the examples about time monitors and stop-watches. *)
From Coq Require Import ZArith Reals List Bool String Lia Psatz.
From Flocq Require Import Core.Core IEEE754.BinarySingleNaN.
From Verif Require Import Float FloatFacts Scalar Base BaseFacts VecM GridM GeometryM MaterialM PmlM DftM TfsfM PolarM
  InterpM H5M ClockM MonitorM FieldM SpecGrid GridFacts OutFacts PhysFacts
  WfFacts ReachFacts SpecSafety SafeFacts SpecClock H5Facts CadenceFacts TimerFacts ExampleFacts ExampleSrc.
From Verif Require Import OpsFacts.
Import ListNotations.
Local Open Scope Z_scope.

Section Gen.
Context {N : Num}.
(** without frequency-domain monitors update is the physics step followed by the time monitors *)
Lemma update_nomon s p' : phys_step (f_ph s) = Fine p' -> f_mons s = [] -> idle s ->
  update s = step_tmons (set_f_ph p' s).
Proof.
  intros E Hm [Hi Hi']. unfold phys_step in E. inv_fine.
  unfold update, on_ph, on_ph_out, start, stop, step_monitors, clock_start, clock_stop.
  repeat match goal with
  | H : ?x = Ok _ |- context [?x] => rewrite H; cbn [prim obind set_f_ph set_f_clk set_f_mons f_ph f_clk f_mons f_tmons ticking set_ticking k_looping k_fourier]
  | H : ?x = Fine _ |- context [?x] => rewrite H; cbn [prim obind set_f_ph set_f_clk set_f_mons f_ph f_clk f_mons f_tmons ticking set_ticking k_looping k_fourier]
  | _ => rewrite ?Hi, ?Hi', ?Hm; cbn [prim obind set_f_ph set_f_clk set_f_mons f_ph f_clk f_mons f_tmons ticking set_ticking k_looping k_fourier mapM]
  end.
  f_equal. destruct s as [p mo tm ma h c]. destruct c as [cf cl ch cs]. cbn in *. subst. reflexivity.
Qed.

End Gen.

Local Open Scope R_scope.
#[local] Existing Instance RNum.

Definition probe : tmon := TMon "probe" (TPoint (3, 3)) Ez (mk_every 2) [].

Lemma probe_run : exists (g : grid) s0 s1 s2, big_enough g /\ mk_field g "out" = Ok s0 /\
  run [AddTimeMonitor probe] s0 = Fine s1 /\ nth_error (f_tmons s1) 0 = Some probe /\
  NoDup (map tm_name (f_tmons s1)) /\ run [Update; Update] s1 = Fine s2.
Proof.
  destruct grid8 as (g & Eg & Hok & Nx & Ny & Hdx & HLx & HLy & Hp).
  assert (Hr : roomy g) by (unfold roomy; lia).
  destruct (mk_field_fresh g "out" Hr) as (p & Ep & E0); [discriminate|].
  destruct (mk_phys_ok g Hr) as (p' & Ep' & Hw & Gp & Sp & Tp & Op & Np). rewrite Ep in Ep'. injection Ep' as <-.
  assert (Ea : exists f, (f <- h5_groups (fresh_h5 g) ["fields"%string; tm_path probe] ;;
          h5_creates f (tm_path probe) (tm_items (tm_shape_ probe))) = Ok f /\
     forall v, exists f1, (f0 <- h5_groups f ["fields"%string; tm_path probe] ;; h5_create f0 (tm_path probe // comp_str Ez)%string true v) = Ok f1).
  { eexists. split; [reflexivity|]. intros v. eexists. reflexivity. }
  destruct Ea as (f & Ef & Ew).
  set (s1 := Field p [] [probe] [] f mk_clocks).
  assert (Pl : placed p). { split; [rewrite Sp; apply Forall_nil|rewrite Tp; discriminate]. }
  destruct (phys_step_ok p) as (p1 & E1 & W1 & P1 & N1); [now rewrite Gp|exact Hw|exact Pl|rewrite Np; unfold INT_MIN, INT_MAX; lia|].
  assert (G1 : ph_grid p1 = g) by (apply phys_step_static, static_eq in E1; destruct E1 as (-> & _); exact Gp).
  destruct (phys_step_ok p1) as (p2 & E2 & W2 & P2 & N2); [now rewrite G1|exact W1|exact P1|rewrite N1, Np; unfold INT_MIN, INT_MAX; lia|].
  assert (G2 : ph_grid p2 = g) by (apply phys_step_static, static_eq in E2; destruct E2 as (-> & _); exact G1).
  set (probe1 := TMon "probe" (TPoint (3, 3)) Ez (Every 2 2 false) []).
  set (probe2 := TMon "probe" (TPoint (3, 3)) Ez (Every 2 1 false) []).
  assert (U1 : update s1 = Fine (Field p1 [] [probe1] [] f mk_clocks)).
  { rewrite (update_nomon s1 p1); [|exact E1|reflexivity|split; reflexivity]. reflexivity. }
  assert (V : exists v, tm_sample g (ph_F p2) (tm_shape_ probe2) Ez = Ok v).
  { cbn [tm_sample tm_shape_ probe2].
    replace (3, 3) with (IZR 3, IZR 3) by reflexivity. rewrite (to_grid_int g 3 3) by (auto; unfold is_int32; lia). cbn [bind get_field].
    destruct (wf_F p2 W2) as (D & _). unfold tdims in D. rewrite G2 in D. destruct D as [D1 D2].
    unfold tat, tget. cbn [fst snd]. rewrite D1, D2, Nx, Ny. cbn. eexists; reflexivity. }
  destruct V as [v V]. destruct (Ew v) as [f1 Ef1].
  assert (U2 : exists m, update (Field p1 [] [probe1] [] f mk_clocks) = Fine (Field p2 [] [m] [] f1 mk_clocks)).
  { rewrite (update_nomon _ p2); [|exact E2|reflexivity|split; reflexivity].
    match goal with |- exists m, step_tmons ?x = _ => change (exists m, tm_ready 0 x >>= (fun s => Fine s) = Fine (Field p2 [] [m] [] f1 mk_clocks)) end.
    unfold tm_ready. cbn [f_tmons set_f_ph nth_error].
    change (check_repeat (tm_every probe1)) with (Ok (true, Every 2 1 false)). cbn [prim]. cbn [set_f_tmons f_ph f_h5 upd_nth f_tmons].
    change (TMon (tm_name probe1) _ _ _ _) with probe2. cbn [set_f_ph f_ph f_h5]. rewrite G2.
    unfold tm_write. cbn [tm_fields probe2 expand foldM]. fold probe2. rewrite tm_write1_eq. rewrite V. cbn [bind].
    change (existsb (comp_eqb Ez) (tm_dsets probe2)) with false. cbn [bind].
    change (tm_path probe2) with (tm_path probe).
    apply bind_ok in Ef1. destruct Ef1 as (f0 & F0 & F1). rewrite F0. cbn [bind]. rewrite F1. cbn [bind prim obind].
    eexists. reflexivity. }
  destruct U2 as [m U2].
  exists g, (Field p [] [] [] (fresh_h5 g) mk_clocks), s1, (Field p2 [] [m] [] f1 mk_clocks).
  split; [unfold big_enough; lia|]. split; [exact E0|].
  split. { cbn [run exec]. unfold add_tmon. cbn [f_h5]. rewrite tm_add_eq, Ef. reflexivity. }
  split; [reflexivity|]. split; [repeat constructor; auto|].
  cbn [run exec]. rewrite U1. cbn [obind]. rewrite U2. reflexivity.
Qed.

Lemma double_case : forall L : libm, exists (g : @grid (B64 L)) s0 (rs : f64),
  mk_grid (N := B64 L) (nofZ (Num := B64 L) 8) (nofZ (Num := B64 L) 8) rs 1 = Ok g /\ B2R rs = bpow radix2 1 /\
  mk_field g "out" = Ok s0 /\ g_Nx g = 16%Z.
Proof.
  intros L. set (rs := nofZ (Num := B64 L) 2).
  assert (C : nceil (Num := B64 L) (nmul (Num := B64 L) (nofZ (Num := B64 L) 8) rs) = Some 16%Z) by (vm_compute; reflexivity).
  assert (E : exists g : @grid (B64 L), mk_grid (N := B64 L) (nofZ (Num := B64 L) 8) (nofZ (Num := B64 L) 8) rs 1 = Ok g /\
    g_Nx g = 16%Z /\ g_Ny g = 16%Z /\ g_pml g = 2%Z).
  { unfold mk_grid. rewrite C. cbn [ofOption bind]. eexists. split; [reflexivity|]. cbn [g_Nx g_Ny g_pml]. repeat split. }
  destruct E as (g & E & Nx & Ny & P).
  destruct (mk_field_fresh g "out") as (p & _ & E0); [unfold roomy; rewrite Nx, Ny, P; lia|discriminate|].
  exists g. eexists. exists rs. repeat split; [exact E| |exact E0|exact Nx].
  apply (f64_ofZ_correct 2). reflexivity.
Qed.
