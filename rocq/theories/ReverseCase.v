(** An example for time reversal: a flash inside a glass lens, turned back after [n + 1] steps. *)
From Coq Require Import ZArith Reals String List Bool Lia Lra Psatz.
From Verif Require Import Scalar Base BaseFacts VecM GridM GeometryM MaterialM PmlM DftM TfsfM PolarM
  InterpM H5M ClockM MonitorM FieldM SpecGrid GridFacts OutFacts PhysFacts SpecGeometry GeometryFacts SpecPaint PaintFacts WfFacts ReachFacts InvFacts
  SpecStep StepFacts EngineFacts YeeFacts SpecWave DarkFacts SafeFacts ExampleFacts FlipRun SpecCone ConeFacts SpecRestart RestartMap RestartFacts RestartRun SpecTfsf TfsfFacts TfsfRun
  SpecEnergy EnergyFacts EnergyRun SpecReverse ReverseFacts.
Import ListNotations.
Local Open Scope Z_scope.
#[local] Existing Instance RNum.

Lemma reverse_case n : (n < 1000)%nat -> let c := Z.of_nat n + 7 in let N := 2 * Z.of_nat n + 16 in
  exists (g : grid) s x y z,
  let eps := lens_eps g c in let a := poke (flash c) nought nought s in
  mk_grid (IZR N) (IZR N) 1%R 1 = Ok g /\ apart g /\ reachable g s /\ ph_srcs (f_ph s) = [] /\ ph_tfsf (f_ph s) = None /\
  (ph_debye (f_ph s) = [] /\ ph_drude (f_ph s) = [] /\ ph_lorentz (f_ph s) = []) /\
  Forall (fun o => clear_material (m_kind (o_mat o))) [lens c] /\ grid_shows g [lens c] vacuum (ph_C (f_ph s)) /\ permittivity g [lens c] eps /\
  run (repeat Update n) a = Fine x /\ exec Update x = Fine y /\
  (forall k w, (k <= S n)%nat -> run (repeat Update k) a = Fine w -> off_layers g (f_ph w)) /\
  run (repeat Update (S n)) (turn x y y) = Fine z /\ flash c c c = 1%R.
Proof.
  intros Hn c N. destruct (lens_scene N c) as (g & s0 & s & Eg & Hok & Ha & Nx & Ny & Dx & Hp & E0 & Rs & Hr & Mo & Tm & Ck & Sr & Np & Tf & Ba & Sh); [lia|lia|].
  set (eps := lens_eps g c). set (a := poke (flash c) nought nought s).
  destruct (reachable_good g s (apart_roomy g Ha) Hr) as [W G].
  assert (Wa : wf_phys (f_ph a)) by (destruct W; constructor; assumption).
  assert (Up : forall k z, z = a \/ z = s -> (k <= S n)%nat -> exists y, run (repeat Update k) z = Fine y /\ wf_phys (f_ph y) /\ placed (f_ph y) /\
    f_mons y = [] /\ f_tmons y = [] /\ idle y /\ ph_step (f_ph y) = Z.of_nat k).
  { intros k z Hz Hk. destruct (updates_ok k z) as (y & Ey & K1 & K2 & K3 & K4 & K5 & K6).
    1-8: destruct Hz as [-> | ->]; cbn [a poke f_ph set_f_ph set_ph_F ph_grid ph_step f_mons f_tmons]; try assumption; rewrite ?G, ?Np; try (unfold INT_MIN, INT_MAX; lia); try (now apply apart_roomy).
    1,2: unfold placed; cbn; rewrite Sr, Tf; split; [constructor|discriminate].
    1,2: unfold idle; cbn; rewrite Ck; cbn; auto.
    exists y. do 6 (split; [assumption|]). rewrite K6. destruct Hz as [-> | ->]; cbn [a poke f_ph set_f_ph set_ph_F ph_step]; rewrite Np; lia. }
  destruct (Up (S n) a (or_introl eq_refl) ltac:(lia)) as (y & Ey & Wy & Py & My & Ty & Iy & Ny').
  destruct (run_update_last n a y Ey) as (x & Ex & Exy).
  assert (Cl : Forall (fun o => clear_material (m_kind (o_mat o))) [lens c]) by (constructor; [|constructor]; cbn; split; lra).
  assert (Of : forall k w, (k <= S n)%nat -> run (repeat Update k) a = Fine w -> off_layers g (f_ph w)).
  { intros k w Hk Hw. destruct (Up k s (or_intror eq_refl) Hk) as (w' & Ew' & _).
    assert (Sp := poke_spread g s c k w Ha Hr Sr Tf Hw (ex_intro _ w' Ew')).
    intros i j Hi Hj. repeat split; intros H; apply Sp; try assumption; lia. }
  assert (H0 : (0 < IZR N)%R) by (apply (IZR_lt 0); lia).
  assert (Cy : coasting g eps (f_ph y)).
  { apply (film_coasts (IZR N) (IZR N) 1 1 g s [lens c] eps (flash c) nought nought H0 H0 Rlt_0_1 ltac:(lia) Eg Ha Hr Sr Tf Ba Cl Sh (lens_permits g c) (S n) Of (S n)); [lia|exact Ey]. }
  destruct (updates_ok (S n) (turn x y y)) as (z & Ez' & _).
  1-8: unfold turn; cbn [poke f_ph set_f_ph set_ph_F ph_grid ph_step f_mons f_tmons]; try assumption; rewrite ?(co_grid _ _ _ Cy), ?Ny'; try (unfold INT_MIN, INT_MAX; lia); try (now apply apart_roomy).
  { destruct Wy. constructor; assumption. }
  exists g, s, x, y, z. cbv zeta. fold eps a. do 8 (split; [assumption|]). split; [apply lens_permits|]. do 4 (split; [assumption|]).
  unfold flash. now rewrite Z.eqb_refl.
Qed.
