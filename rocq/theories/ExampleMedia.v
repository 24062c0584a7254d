(** A concrete run used by the examples about materials: a point source on an 8 by 8 grid and an
    object put there later. *)
From Coq Require Import ZArith Reals List Bool String Lia Psatz.
From Verif Require Import Scalar Base BaseFacts VecM GridM GeometryM MaterialM PmlM DftM TfsfM PolarM
  InterpM H5M ClockM MonitorM FieldM SpecGrid GridFacts SpecGeometry GeometryFacts OutFacts PhysFacts
  SpecPaint PaintFacts WfFacts ReachFacts SafetyFacts SpecSafety SafeFacts InvFacts SpecStep StepFacts EngineFacts YeeFacts TextbookFacts
  SpecSource SourceFacts SpecMedium PolarFacts FullStep SpecRim MediumFacts StrengthFacts MediaFacts SpecMedia MediaRun SpecMaterial MaterialFacts
  OutsideFacts MagnetFacts HalfFacts ExampleFacts ExampleSrc.
Import ListNotations.

Section Gen.
Context {N : Num}.
Local Open Scope Z_scope.
Lemma step_rest p p' : apart (ph_grid p) -> wf_phys p -> ph_tfsf p = None -> phys_step p = Fine p' ->
  map src_core (ph_srcs p') = map src_core (ph_srcs p) /\ ph_tfsf p' = None /\ ph_grid p' = ph_grid p /\
  ph_t p' = (ph_t p + g_dt (ph_grid p))%num.
Proof.
  intros Ha Hw Ht Hs.
  destruct (phys_step_phases p p' Ha Hw Hs) as (p0 & p1 & p2 & p3 & p4 & p5 & p6 & PH).
  destruct PH as [_ E0 (E & b & E1) He1 Hh1 Hp2 Hp3 Hp4 Hp5 (X & Y & b6 & E6) He6 Hh6 Hp7 _ Hst _].
  assert (Q0 : ph_tfsf p1 = None /\ ph_srcs p1 = ph_srcs p /\ ph_t p1 = (ph_t p + g_dt (ph_grid p))%num).
  { rewrite E1, E0. clear -Ht. destruct p. unfold step_prev. cbn in *. destruct ph_prev2E; cbn; destruct ph_prevE; cbn; auto 10. }
  destruct Q0 as (R1 & R2 & R3).
  assert (F2 := step_polar_frame _ _ Hp2). destruct F2 as (_ & F2x & F2y & F2a & F2b & F2t & _).
  assert (E3 : p3 = p2). { unfold step_tfsfD in Hp3. rewrite F2a, R1 in Hp3. now injection Hp3 as <-. } subst p3.
  assert (F4 := step_sources_frame _ _ Hp4). destruct F4 as (_ & F4a & F4t & _).
  assert (E5 : p5 = p4). { unfold step_tfsf_pulse in Hp5. rewrite F4a, F2a, R1 in Hp5. now injection Hp5 as <-. } subst p5.
  assert (E7 : p' = p6). { unfold step_tfsfH in Hp7. rewrite E6 in Hp7. cbn in Hp7. rewrite F4a, F2a, R1 in Hp7. injection Hp7 as <-. now rewrite E6. }
  subst p'. assert (G := phys_step_static _ _ Hs). apply grid_static in G.
  apply step_sources_cells in Hp4. destruct Hp4 as (Ls & _ & Co & _).
  rewrite G, E6. cbn. rewrite Co, F2b, R2, F4a, F2a, R1, F4t, F2t, R3. auto.
Qed.
End Gen.

Local Open Scope R_scope.
#[local] Existing Instance RNum.

(** a point source of Ez at (3, 3) *)
Definition flash (f : R) : source := Source "flash" Ez (SPoint (3, 3)) (TProfile (Continuous f) None).

(** states of runs with this source on this grid in which every call goes through *)
Record ready (g : grid) (f : R) (s : field) : Prop := Ready {
  rd_ok : grid_ok g; rd_Nx : g_Nx g = 8%Z; rd_Ny : g_Ny g = 8%Z; rd_dx : g_dx g = 1; rd_Lx : g_Lx g = 7; rd_Ly : g_Ly g = 7; rd_pml : g_pml g = 2%Z;
  rd_reach : reachable g s; rd_placed : placed (f_ph s); rd_mons : f_mons s = []; rd_tmons : f_tmons s = []; rd_idle : idle s;
  rd_tfsf : ph_tfsf (f_ph s) = None; rd_step : (0 <= ph_step (f_ph s) < 100)%Z;
  rd_t : ph_t (f_ph s) = IZR (ph_step (f_ph s)) / 2;
  rd_srcs : map src_core (ph_srcs (f_ph s)) = [src_core (flash f)] }.
Lemma ready_dt g f s : ready g f s -> g_dt g = / 2.
Proof. intros H. destruct (rd_ok _ _ _ H) as (_ & _ & _ & _ & _ & K). rewrite (rd_dx _ _ _ H) in K. lra. Qed.
Lemma ready_apart g f s : ready g f s -> apart g.
Proof. intros H. unfold apart. rewrite (rd_Nx _ _ _ H), (rd_Ny _ _ _ H), (rd_pml _ _ _ H). lia. Qed.
Lemma ready_good g f s : ready g f s -> good g s.
Proof. intros H. apply reachable_good; [apply apart_roomy; eapply ready_apart; exact H|apply H]. Qed.

Lemma ready_update g f s : ready g f s -> (ph_step (f_ph s) < 50)%Z ->
  exists s', update s = Fine s' /\ ready g f s' /\ ph_step (f_ph s') = (ph_step (f_ph s) + 1)%Z /\ f_h5 s' = f_h5 s /\ f_mats s' = f_mats s.
Proof.
  intros H Hs. assert (Hd := ready_dt _ _ _ H). assert (Ha := ready_apart _ _ _ H). destruct (ready_good _ _ _ H) as [Hw Gg].
  assert (Ro := apart_roomy g Ha). destruct H as [H1 H2 H3 H4 H5 H6 H7 H8 H9 H10 H11 H12 H13 H14 H15 H16].
  destruct (update_ok s) as (s' & E & P & A1 & A2 & A3 & A4 & A5 & A6 & A7); auto; [now rewrite Gg|unfold INT_MIN, INT_MAX; lia|].
  exists s'. split; [exact E|]. split; [|auto]. rewrite <- Gg in Ha.
  destruct (step_rest _ _ Ha Hw H13 P) as (B1 & B2 & B3 & B4). constructor; auto.
  - apply (run_reachable g s [Update]); [exact H8|]. cbn [run exec]. now rewrite E.
  - rewrite A5. lia.
  - rewrite B4, A5, H15, Gg, Hd, plus_IZR. rnumg. lra.
  - now rewrite B1.
Qed.

Lemma ready_object g f s o f1 f2 : ready g f s ->
  (if str_in (m_name (o_mat o)) (f_mats s) then Ok (f_h5 s) else write_mat (f_h5 s) (o_mat o)) = Ok f1 ->
  write_obj f1 o = Ok f2 ->
  in_box (0, 0) (7, 7) (v_a (obj_box o)) -> in_box (0, 0) (7, 7) (v_b (obj_box o)) ->
  exists s', exec (AddObject o) s = Fine s' /\ ready g f s' /\ ph_F (f_ph s') = ph_F (f_ph s) /\ ph_step (f_ph s') = ph_step (f_ph s) /\
    f_h5 s' = f2 /\ f_mats s' = (if str_in (m_name (o_mat o)) (f_mats s) then f_mats s else f_mats s ++ [m_name (o_mat o)]).
Proof.
  intros H W1 W2 B1 B2. destruct (ready_good _ _ _ H) as [Hw Gg].
  assert (Pc : exists c, paint g o (ph_C (f_ph s)) = Ok c).
  { apply paint_in_domain; [apply H|rewrite <- Gg; apply (wf_C _ Hw)|..]; unfold domain; cbn [mk_volume v_a v_b];
      rewrite (rd_Lx _ _ _ H), (rd_Ly _ _ _ H); assumption. }
  destruct Pc as [c Pc].
  destruct (add_object_fine o s f1 f2 c W1 W2) as (s' & E & A1 & A2 & A3 & A4 & A5 & A6 & A7 & A8 & A9 & A10);
    [now rewrite Gg|exact Hw|rewrite Gg, (rd_Nx _ _ _ H); lia|rewrite Gg, (rd_Ny _ _ _ H); lia|].
  assert (Fr : ph_F (f_ph s') = ph_F (f_ph s) /\ ph_t (f_ph s') = ph_t (f_ph s)).
  { assert (K := add_object_ph _ _ _ E). unfold phys_add_object in K. apply bind_ok in K. destruct K as (a & Ka & K). apply bind_ok in K.
    destruct K as (b & Kb & K). injection K as <-. apply insert_material_frame in Kb. destruct Kb as (_ & _ & _ & _ & _ & _ & F1 & _ & _ & F2 & _).
    unfold paint_phys in Ka. apply bind_ok in Ka. destruct Ka as (c' & _ & Ka). injection Ka as <-. cbn in *. rewrite F1, F2. auto. }
  destruct Fr as [Fr Ft].
  exists s'. split; [exact E|]. split; [|auto].
  assert (G' : ph_grid (f_ph s') = g) by congruence.
  destruct H as [H1 H2 H3 H4 H5 H6 H7 H8 H9 H10 H11 H12 H13 H14 H15 H16]. constructor; auto.
  - apply (run_reachable g s [AddObject o]); [exact H8|]. cbn [run exec]. now rewrite E.
  - unfold placed in *. rewrite A8, A10, G'. rewrite Gg in H9. exact H9.
  - congruence.
  - congruence.
  - unfold idle in *. rewrite A5. exact H12.
  - congruence.
  - now rewrite A9.
  - rewrite Ft, A9. exact H15.
  - now rewrite A8.
Qed.

(** the fresh field with the source *)
Definition dark (p : phys) : Prop :=
  (forall i j, Ez_at p i j = 0 /\ Hx_at p i j = 0 /\ Hy_at p i j = 0) /\
  (forall i j, eXl (e_of p) i j = 0 /\ eXh (e_of p) i j = 0 /\ eYl (e_of p) i j = 0 /\ eYh (e_of p) i j = 0) /\
  ph_debye p = [] /\ ph_drude p = [] /\ ph_lorentz p = [].
Lemma mk_phys_dark (g : grid) p : mk_phys g = Ok p -> dark p /\ ph_t p = 0.
Proof.
  intros H. unfold mk_phys in H. inv_ok. unfold tconst in *. destruct (_ && _); [|discriminate]. inv_ok.
  unfold mk_pml in *. inv_ok. unfold dark, Ez_at, Hx_at, Hy_at. cbn. split; [|reflexivity]. split; [auto|]. split; [|auto].
  unfold mk_pml_psi in *. inv_ok. unfold tconst in *. repeat match goal with H : (if ?b then _ else _) = Ok _ |- _ => destruct b; [|discriminate]; inv_ok end. cbn. auto.
Qed.

Lemma flash_start f : exists (g : grid) s0 s f1, mk_grid 8 8 1 1 = Ok g /\ mk_field g "out" = Ok s0 /\ write_src (fresh_h5 g) (flash f) = Ok f1 /\
  run [AddSource (flash f)] s0 = Fine s /\ ready g f s /\ dark (f_ph s) /\ ph_step (f_ph s) = 0%Z /\ f_h5 s = f1 /\ f_mats s = [].
Proof.
  destruct grid8 as (g & Eg & Hok & Nx & Ny & Hdx & HLx & HLy & Hp).
  assert (Hr : roomy g) by (unfold roomy; lia).
  destruct (mk_field_fresh g "out" Hr) as (p & Ep & E0); [discriminate|].
  destruct (mk_phys_ok g Hr) as (p' & Ep' & Hw & Gp & Sp & Tp & Op & Np). rewrite Ep in Ep'. injection Ep' as <-.
  assert (Ew : exists f1, write_src (fresh_h5 g) (flash f) = Ok f1) by (eexists; reflexivity). destruct Ew as [f1 Ew].
  exists g, (Field p [] [] [] (fresh_h5 g) mk_clocks).
  set (s0 := Field p [] [] [] (fresh_h5 g) mk_clocks) in *.
  set (s := map_ph (fun p => set_ph_srcs (ph_srcs p ++ [flash f]) p) (set_f_h5 f1 s0)).
  exists s, f1. assert (Er : run [AddSource (flash f)] s0 = Fine s).
  { cbn [run exec]. unfold add_source. change (f_h5 s0) with (fresh_h5 g). rewrite Ew. reflexivity. }
  destruct (mk_phys_dark g p Ep) as [Dk T0].
  split; [exact Eg|]. split; [exact E0|]. split; [exact Ew|]. split; [exact Er|]. split; [|split; [exact Dk|split; [exact Np|split; reflexivity]]].
  assert (Ps : ph_srcs (f_ph s) = [flash f]) by (cbn; now rewrite Sp).
  constructor; auto; try reflexivity.
  - exists "out"%string, s0, [AddSource (flash f)]. split; [exact E0|]. now apply run_run_catch.
  - apply sources_inside_placed. split; [|cbn; rewrite Tp; discriminate]. rewrite Ps. intros r [<-|[]]. cbn [s map_ph f_ph set_f_ph set_ph_srcs ph_grid set_f_h5 s0]. rewrite Gp.
    split; [now left|]. exists (3, 3)%Z. split; [now apply (to_grid_int g 3 3)|]. unfold in_grid. rewrite Nx, Ny. cbn. lia.
  - split; reflexivity.
  - cbn. rewrite Np. lia.
  - cbn. rewrite T0, Np. lra.
  - now rewrite Ps.
Qed.

(** Yee step of a dark field *)
Lemma dark_next g p i j : dark p ->
  eE (next_e (g_Nx g) (g_Ny g) (g_pml g) (g_dx g) (med p) (hX (h_of p)) (hY (h_of p)) (e_of p)) i j = 0.
Proof.
  intros (F & M & _). unfold next_e. cbn [eE]. destruct (core _ _ i j); [|exact (proj1 (F i j))].
  assert (Fx : forall i j, hX (h_of p) i j = 0) by (intros; apply F). assert (Fy : forall i j, hY (h_of p) i j = 0) by (intros; apply F).
  assert (Fe : forall i j, eE (e_of p) i j = 0) by (intros; apply F).
  assert (M1 : forall i j, eXl (e_of p) i j = 0) by (intros; apply M). assert (M2 : forall i j, eXh (e_of p) i j = 0) by (intros; apply M).
  assert (M3 : forall i j, eYl (e_of p) i j = 0) by (intros; apply M). assert (M4 : forall i j, eYh (e_of p) i j = 0) by (intros; apply M).
  unfold addX, addY, yeeE, memXl, memXh, memYl, memYh, recur.
  rewrite ?Fx, ?Fy, ?Fe, ?M1, ?M2, ?M3, ?M4. rnumg. unfold Rdiv.
  repeat match goal with |- context [if ?b then _ else _] => destruct b end; ring.
Qed.

(** the first step: the source lights one cell *)
Definition pulse_at (f t : R) : R := shape_val (Continuous f) t.
Lemma ready_src g f s r : ready g f s -> In r (ph_srcs (f_ph s)) -> src_core r = src_core (flash f).
Proof.
  intros H Hr. assert (K := rd_srcs _ _ _ H). destruct (ph_srcs (f_ph s)) as [|a [|b l]]; cbn [map] in K; try discriminate.
  destruct Hr as [<-|[]]. apply (f_equal (fun l => match l with [x] => x | _ => src_core a end)) in K. exact K.
Qed.
Lemma ready_cells g f s r L : ready g f s -> In r (ph_srcs (f_ph s)) -> src_cells g (sr_kind r) L ->
  sr_c r = Ez /\ tp_shape (sr_tp r) = Continuous f /\ L = [(3, 3)%Z].
Proof.
  intros H Hr HL. apply (ready_src _ _ _ _ H) in Hr. unfold src_core in Hr. cbn in Hr. injection Hr as _ E1 E2 E3. rewrite E2 in HL.
  split; [exact E1|]. split; [exact E3|]. destruct HL as (q & Hq & ->).
  rewrite (to_grid_int g 3 3 (rd_dx _ _ _ H)) in Hq by (unfold is_int32, INT_MIN, INT_MAX; lia). now injection Hq as <-.
Qed.
Lemma ready_lit g f s Ls c i j x t : ready g f s -> Forall2 (fun r L => src_cells g (sr_kind r) L) (ph_srcs (f_ph s)) Ls ->
  lit t (combine (ph_srcs (f_ph s)) Ls) c i j x =
  if comp_eqb Ez c && (3 =? i)%Z && (3 =? j)%Z then x + pulse_at f t else x.
Proof.
  intros H HL. assert (K := rd_srcs _ _ _ H). assert (C := fun r L => ready_cells g f s r L H).
  destruct (ph_srcs (f_ph s)) as [|a [|b l]]; cbn [map] in K; try discriminate.
  inversion HL as [|? L ? Ls' HL1 HL2]; subst. inversion HL2; subst. 
  destruct (C a L (or_introl eq_refl) HL1) as (Ec & E & ->). unfold lit. cbn [fold_left combine]. rewrite Ec, E.
  destruct (comp_eqb Ez c); cbn [andb]; [|reflexivity]. unfold add_at. cbn [fold_left fst snd]. destruct ((3 =? i)%Z && (3 =? j)%Z); reflexivity.
Qed.
Lemma ready_undriven g f s c i j t : ready g f s -> c <> Ez \/ (i, j) <> (3, 3)%Z \/ pulse_at f t = 0 ->
  undriven t g (ph_srcs (f_ph s)) c i j.
Proof.
  intros H Hc r L Hr Ec HL Hin. destruct (ready_cells _ _ _ _ _ H Hr HL) as (E1 & E2 & E3). subst L. rewrite E2.
  destruct Hc as [Hc|[Hc|Hc]]; [congruence| |exact Hc]. destruct Hin as [E|[]]. congruence.
Qed.

Lemma first_light g f s s' i j : ready g f s -> dark (f_ph s) -> update s = Fine s' -> (0 <= i < 8)%Z -> (0 <= j < 8)%Z ->
  Ez_at (f_ph s') i j = if (3 =? i)%Z && (3 =? j)%Z then pulse_at f (ph_t (f_ph s) + / 2) else 0.
Proof.
  intros H D E Hi Hj. apply update_phys_step in E. destruct (ready_good _ _ _ H) as [Hw Gg]. assert (Ha := ready_apart _ _ _ H).
  rewrite <- Gg in Ha. assert (Nx := rd_Nx _ _ _ H). assert (Ny := rd_Ny _ _ _ H).
  destruct (step_cell (f_ph s) _ i j Ha Hw (reachable_tame g s (rd_reach _ _ _ H)) E) as (Ls & HL & V);
    [rewrite Gg, Nx; exact Hi|rewrite Gg, Ny; exact Hj|].
  rewrite (rd_tfsf _ _ _ H) in V. unfold tf in V. rewrite V, Gg. rewrite Gg in HL. rewrite (ready_lit g f s Ls Ez i j _ _ H HL), (dark_next g _ i j D), (ready_dt _ _ _ H).
  destruct D as (_ & _ & D1 & D2 & D3). unfold taken. rewrite D1, D2, D3. cbn [loads comp_eqb andb]. rnumg.
  destruct ((3 =? i)%Z && (3 =? j)%Z); lra.
Qed.

Lemma first_curl g f s s' : ready g f s -> dark (f_ph s) -> update s = Fine s' -> ready g f s' ->
  let v := pulse_at f (ph_t (f_ph s) + / 2) in
  Hx_at (f_ph s') 3 3 = v / 2 /\ Hx_at (f_ph s') 3 2 = - v / 2 /\ Hy_at (f_ph s') 3 3 = - v / 2 /\ Hy_at (f_ph s') 2 3 = v / 2.
Proof.
  intros H D E H' v. assert (Ha := ready_apart _ _ _ H). assert (Hd := ready_dt _ _ _ H). assert (Dx := rd_dx _ _ _ H).
  assert (V := fun i j => first_light g f s s' i j H D E).
  assert (Gg : ph_grid (f_ph s') = g) by apply (ready_good _ _ _ H').
  assert (U : forall c i j, c <> Ez -> undriven (ph_t (f_ph s) + g_dt g) g (ph_srcs (f_ph s)) c i j) by (intros; eapply ready_undriven; eauto).
  assert (F := fun i j A B => magnetic_law g s s' i j Ha (rd_reach _ _ _ H) ltac:(rewrite Hd; lra) E A B).
  rewrite (rd_Nx _ _ _ H), (rd_Ny _ _ _ H), (rd_pml _ _ _ H), (rd_tfsf _ _ _ H) in F.
  destruct D as (D & _).
  assert (F33 := F 3%Z 3%Z ltac:(lia) ltac:(lia) ltac:(lia) ltac:(lia) ltac:(lia) ltac:(lia)).
  assert (F32 := F 3%Z 2%Z ltac:(lia) ltac:(lia) ltac:(lia) ltac:(lia) ltac:(lia) ltac:(lia)).
  assert (F23 := F 2%Z 3%Z ltac:(lia) ltac:(lia) ltac:(lia) ltac:(lia) ltac:(lia) ltac:(lia)). clear F.
  destruct F33 as [X33 Y33], F32 as [X32 _], F23 as [_ Y23].
  specialize (X33 I (U Hx 3%Z 3%Z ltac:(discriminate))). specialize (Y33 I (U Hy 3%Z 3%Z ltac:(discriminate))).
  specialize (X32 I (U Hx 3%Z 2%Z ltac:(discriminate))). specialize (Y23 I (U Hy 2%Z 3%Z ltac:(discriminate))).
  unfold faraday, curl_e_x, curl_e_y in *. rewrite Gg, Dx, Hd in *.
  cbn [Z.add Pos.add Pos.succ] in *.
  rewrite (V 3%Z 3%Z), (V 3%Z 4%Z) in X33 by lia. rewrite (V 3%Z 3%Z), (V 4%Z 3%Z) in Y33 by lia.
  rewrite (V 3%Z 3%Z), (V 3%Z 2%Z) in X32 by lia. rewrite (V 3%Z 3%Z), (V 2%Z 3%Z) in Y23 by lia.
  cbn [Z.eqb Pos.eqb andb] in *. fold v in X33, Y33, X32, Y23.
  destruct (D 3%Z 3%Z) as (_ & A1 & A2), (D 3%Z 2%Z) as (_ & A3 & _), (D 2%Z 3%Z) as (_ & _ & A4).
  rewrite A1 in X33. rewrite A2 in Y33. rewrite A3 in X32. rewrite A4 in Y23. lra.
Qed.

(** curl of H at (3, 3) *)
Lemma mid_curl g f s : ready g f s ->
  curl_at (f_ph s) 3 3 = Hy_at (f_ph s) 3 3 - Hy_at (f_ph s) 2 3 + Hx_at (f_ph s) 3 2 - Hx_at (f_ph s) 3 3.
Proof.
  intros H. destruct (ready_good _ _ _ H) as [_ Gg]. destruct (reachable_coefs g s (ready_apart _ _ _ H) (rd_reach _ _ _ H)) as (_ & _ & Sx & Sy).
  unfold curl_at, curl_h. rewrite Gg, (rd_Nx _ _ _ H), (rd_Ny _ _ _ H), (rd_pml _ _ _ H) in *.
  destruct (Sx 3%Z ltac:(lia)) as [-> _], (Sy 3%Z ltac:(lia)) as [-> _]. rewrite (rd_dx _ _ _ H).
  change (3 <=? 2)%Z with false. change (8 - 1 - 2 <=? 3)%Z with false. change (3 - 1)%Z with 2%Z. cbv iota. unfold Hx_at, Hy_at, h_of. cbn [hX hY]. rnumg. field.
Qed.
