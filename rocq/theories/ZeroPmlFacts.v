(** A PML of zero thickness: the coefficients are NaN and the NaN spreads over the grid. *)
From Coq Require Import ZArith Reals String List Bool Lia Psatz.
From Flocq Require Import Core.Core IEEE754.BinarySingleNaN.
From Verif Require Import Float FloatFacts Scalar Base BaseFacts VecM GridM GeometryM MaterialM PmlM DftM TfsfM PolarM
  InterpM H5M ClockM MonitorM FieldM OutFacts PhysFacts PaintFacts WfFacts ReachFacts SpecStep StepFacts
  EngineFacts YeeFacts SpecSource SourceFacts PolarFacts FullStep TextbookFacts SafeFacts GridFacts ExampleFacts SpecZeroPml.
Import ListNotations.
Local Open Scope Z_scope.

(** ** An absorbing value, whatever the arithmetic *)
Section Bad.
Context {N : Num}.
Variable bad : T.
Record absorbs : Prop := Absorbs {
  ab_addl : forall x, (bad + x)%num = bad; ab_addr : forall x, (x + bad)%num = bad;
  ab_subl : forall x, (bad - x)%num = bad; ab_subr : forall x, (x - bad)%num = bad;
  ab_mull : forall x, (bad * x)%num = bad; ab_mulr : forall x, (x * bad)%num = bad;
  ab_divl : forall x, (bad / x)%num = bad; ab_divr : forall x, (x / bad)%num = bad }.
Hypothesis AB : absorbs.

Ltac ab := repeat first [rewrite (ab_addl AB)|rewrite (ab_addr AB)|rewrite (ab_subl AB)|rewrite (ab_subr AB)|rewrite (ab_mull AB)|rewrite (ab_mulr AB)|rewrite (ab_divl AB)|rewrite (ab_divr AB)].

(** the dispersive media *)
Definition ruined (i j : Z) (E : tensor) : Prop := tval E i j = bad.
Lemma tset_ruined i j E a b v E' : ruined i j E -> tset E a b v = Ok E' -> (a = i -> b = j -> v = bad) -> ruined i j E'.
Proof.
  intros R H V. apply tset_inv in H. destruct H as (_ & _ & ->). unfold ruined in *.
  destruct (Z.eq_dec i a) as [->|]; [destruct (Z.eq_dec j b) as [->|]|].
  - rewrite tupd_same. now apply V.
  - rewrite tupd_other by lia. exact R.
  - rewrite tupd_other by lia. exact R.
Qed.
Lemma tget_ruined i j E v : ruined i j E -> tget E i j = Ok v -> v = bad.
Proof. intros R H. apply tget_inv in H. destruct H as (_ & _ & ->). exact R. Qed.

Lemma debye_ruined i j m q pe E q' E' : ruined i j E -> debye_update m q pe E = Ok (q', E') -> ruined i j E'.
Proof.
  intros R H. unfold debye_update in H. apply bind_ok in H. destruct H as ([E1 J] & H & K). injection K as _ <-.
  apply (for_up_pres (fun s : tensor * tensor3 => ruined i j (fst s))) in H; [exact H|exact R|].
  intros a [E2 J2] [E3 J3] _ R2 H2. cbn [fst] in *.
  apply (for_up_pres (fun s : tensor * tensor3 => ruined i j (fst s))) in H2; [exact H2|exact R2|].
  intros b [E4 J4] [E5 J5] _ R4 H4. cbn [fst] in *.
  apply (for_up_pres (fun s : tensor * tensor3 => ruined i j (fst s))) in H4; [exact H4|exact R4|].
  intros k [E6 J6] [E7 J7] _ R6 H6. cbn [fst] in *. unfold debye_body in H6. inv_ok.
  eapply tset_ruined; [exact R6|eassumption|]. intros -> ->.
  match goal with Hg : tget E6 i j = Ok ?v |- _ => assert (v = bad) as -> by (eapply tget_ruined; [exact R6|exact Hg]) end. now ab.
Qed.
Lemma drude_ruined i j m q pe E q' E' : ruined i j E -> drude_update m q pe E = Ok (q', E') -> ruined i j E'.
Proof.
  intros R H. unfold drude_update in H. apply bind_ok in H. destruct H as ([E1 J] & H & K). injection K as _ <-.
  apply (for_up_pres (fun s : tensor * tensor3 => ruined i j (fst s))) in H; [exact H|exact R|].
  intros a [E2 J2] [E3 J3] _ R2 H2. cbn [fst] in *.
  apply (for_up_pres (fun s : tensor * tensor3 => ruined i j (fst s))) in H2; [exact H2|exact R2|].
  intros b [E4 J4] [E5 J5] _ R4 H4. cbn [fst] in *.
  apply (for_up_pres (fun s : tensor * tensor3 => ruined i j (fst s))) in H4; [exact H4|exact R4|].
  intros k [E6 J6] [E7 J7] _ R6 H6. cbn [fst] in *. unfold drude_body in H6. inv_ok.
  eapply tset_ruined; [exact R6|eassumption|]. intros -> ->.
  match goal with Hg : tget E6 i j = Ok ?v |- _ => assert (v = bad) as -> by (eapply tget_ruined; [exact R6|exact Hg]) end. now ab.
Qed.
Lemma lorentz_ruined i j m q pe E q' E' : ruined i j E -> lorentz_update m q pe E = Ok (q', E') -> ruined i j E'.
Proof.
  intros R H. unfold lorentz_update in H. apply bind_ok in H. destruct H as ([[E1 J] pJ] & H & K). injection K as _ <-.
  apply (for_up_pres (fun s : tensor * tensor3 * tensor3 => ruined i j (fst (fst s)))) in H; [exact H|exact R|].
  intros a [[E2 J2] P2] [[E3 J3] P3] _ R2 H2. cbn [fst] in *.
  apply (for_up_pres (fun s : tensor * tensor3 * tensor3 => ruined i j (fst (fst s)))) in H2; [exact H2|exact R2|].
  intros b [[E4 J4] P4] [[E5 J5] P5] _ R4 H4. cbn [fst] in *.
  apply (for_up_pres (fun s : tensor * tensor3 * tensor3 => ruined i j (fst (fst s)))) in H4; [exact H4|exact R4|].
  intros k [[E6 J6] P6] [[E7 J7] P7] _ R6 H6. cbn [fst] in *. unfold lorentz_body in H6. inv_ok.
  eapply tset_ruined; [exact R6|eassumption|]. intros -> ->.
  match goal with Hg : tget E6 i j = Ok ?v |- _ => assert (v = bad) as -> by (eapply tget_ruined; [exact R6|exact Hg]) end. now ab.
Qed.
Lemma polar_all_ruined {M} (f : M -> polar -> tensor -> tensor -> res (polar * tensor)) prev i j :
  (forall m q pe E q' E', ruined i j E -> f m q pe E = Ok (q', E') -> ruined i j E') ->
  forall P E P' E', ruined i j E -> polar_all f prev E P = Ok (P', E') -> ruined i j E'.
Proof.
  intros Hf. induction P as [|[nm [x q]] P IH]; intros E P' E' R H; cbn [polar_all] in H.
  - injection H as _ <-. exact R.
  - apply bind_ok in H. destruct H as (pe & _ & H). apply bind_ok in H. destruct H as ([q1 E1] & H1 & H).
    apply bind_ok in H. destruct H as ([r E2] & H2 & H). injection H as _ <-.
    apply (IH E1 r E2); [exact (Hf _ _ _ _ _ _ R H1)|exact H2].
Qed.

(** sources and the TFSF corrections only add *)
Lemma add_at_bad v L i j : add_at v L i j bad = bad.
Proof. induction L as [|[a b] L IH]; [reflexivity|]. cbn [add_at fold_left]. unfold add_at in *. cbn [fold_left]. destruct (_ && _); ab; exact IH. Qed.
Lemma lit_bad t RL c i j : lit t RL c i j bad = bad.
Proof.
  induction RL as [|[r L] RL IH]; [reflexivity|]. unfold lit in *. cbn [fold_left].
  destruct (comp_eqb (sr_c r) c); [rewrite add_at_bad|]; exact IH.
Qed.
Lemma tf_bad f o a i j : (forall q, f q i j bad = bad) -> a i j = bad -> tf f o a i j = bad.
Proof. intros Hf Ha. unfold tf. destruct o; rewrite Ha; auto. Qed.
Lemma tfD1_bad q i j : tfD1 q i j bad = bad.
Proof. unfold tfD1. destruct (band _ _ _), (j =? q_ja q), (j =? q_jb q); cbn zeta; ab; reflexivity. Qed.
Lemma tfHx1_bad q i j : tfHx1 q i j bad = bad.
Proof. unfold tfHx1. destruct (band _ _ _), (j =? q_ja q - 1), (j =? q_jb q); cbn zeta; ab; reflexivity. Qed.
Lemma tfHy1_bad q i j : tfHy1 q i j bad = bad.
Proof. unfold tfHy1. destruct (band _ _ _), (i =? q_ia q - 1), (i =? q_ib q); cbn zeta; ab; reflexivity. Qed.

(** ** The fields at the rim *)
Definition spoilt (g : grid) (d : Z) (p : phys) : Prop :=
  forall i j, rim (g_Nx g) (g_Ny g) d i j ->
    tval (fEz (ph_F p)) i j = bad /\ tval (fHx (ph_F p)) i j = bad /\ tval (fHy (ph_F p)) i j = bad /\
    (1 <= i - 1 -> tval (fHy (ph_F p)) (i - 1) j = bad) /\ (1 <= j - 1 -> tval (fHx (ph_F p)) i (j - 1) = bad).

Lemma rim_core g d i j : rim (g_Nx g) (g_Ny g) d i j -> core (g_Nx g) (g_Ny g) i j = true.
Proof. unfold rim, core. lia. Qed.

Lemma spoils g p p' d : ph_grid p = g -> apart g -> g_pml g = 1 -> wf_phys p ->
  bEx (med p) 1 = bad -> bEy (med p) 1 = bad -> 0 <= d -> spoilt g d p -> phys_step p = Fine p' ->
  spoilt g (d + 1) p'.
Proof.
  intros Gg Ha Th Hw Bx By Hd Hs Hst.
  destruct (full_step p p') as (F0 & F1 & F2 & E3 & Ls & u & h & C); [now rewrite Gg|exact Hw|exact Hst|]. destruct C.
  rewrite Gg in *.
  assert (A0 : forall i j, rim (g_Nx g) (g_Ny g) (d + 1) i j -> eE u i j = bad).
  { intros i j Hr. rewrite cw_u. unfold grid_next_e, next_e. rewrite Gg. cbn [eE]. rewrite (rim_core g (d + 1)) by exact Hr.
    assert (Hc := Hr). destruct Hc as [[Hi Hj] Hc]. unfold addX, addY. rewrite Th.
    assert (XL : forall q, i = 1 -> memXl (g_Ny g) 1 (g_dx g) (med p) (hY (h_of p)) q i j = bad).
    { intros q ->. unfold memXl. replace (_ && _ && _ && _) with true by lia. unfold recur. rewrite Bx. now ab. }
    assert (XH : forall q, i = g_Nx g - 2 -> memXh (g_Nx g) (g_Ny g) 1 (g_dx g) (med p) (hY (h_of p)) q (g_Nx g - 1 - i) j = bad).
    { intros q ->. replace (g_Nx g - 1 - (g_Nx g - 2)) with 1 by lia. unfold memXh. replace (_ && _ && _ && _) with true by lia. unfold recur. rewrite Bx. now ab. }
    assert (YL : forall q, j = 1 -> memYl (g_Nx g) 1 (g_dx g) (med p) (hX (h_of p)) q i j = bad).
    { intros q ->. unfold memYl. replace (_ && _ && _ && _) with true by lia. unfold recur. rewrite By. now ab. }
    assert (YH : forall q, j = g_Ny g - 2 -> memYh (g_Nx g) (g_Ny g) 1 (g_dx g) (med p) (hX (h_of p)) q i (g_Ny g - 1 - j) = bad).
    { intros q ->. replace (g_Ny g - 1 - (g_Ny g - 2)) with 1 by lia. unfold memYh. replace (_ && _ && _ && _) with true by lia. unfold recur. rewrite By. now ab. }
    assert (Yee : 2 <= i -> i <= g_Nx g - 3 -> 2 <= j -> j <= g_Ny g - 3 ->
                  yeeE (med p) (hX (h_of p)) (hY (h_of p)) (eE (e_of p)) i j = bad).
    { intros K1 K2 K3 K4. unfold yeeE. cbn [hX hY h_of eE e_of].
      destruct Hc as [K|[K|[K|K]]].
      - destruct (Hs (i - 1) j) as (_ & _ & -> & _); [unfold rim; lia|]. now ab.
      - destruct (Hs (i + 1) j) as (_ & _ & _ & Q & _); [unfold rim; lia|]. replace (i + 1 - 1) with i in Q by lia. rewrite Q by lia. now ab.
      - destruct (Hs i (j - 1)) as (_ & -> & _); [unfold rim; lia|]. now ab.
      - destruct (Hs i (j + 1)) as (_ & _ & _ & _ & Q); [unfold rim; lia|]. replace (j + 1 - 1) with j in Q by lia. rewrite Q by lia. now ab. }
    destruct (Z.leb_spec i 1) as [I1|I1]; [rewrite XL by lia; now ab|].
    destruct (Z.leb_spec (g_Nx g - 1 - 1) i) as [I2|I2]; [rewrite XH by lia; now ab|].
    destruct (Z.leb_spec j 1) as [J1|J1]; [rewrite YL by lia; now ab|].
    destruct (Z.leb_spec (g_Ny g - 1 - 1) j) as [J2|J2]; [rewrite YH by lia; now ab|].
    apply Yee; lia. }
  assert (A3 : forall i j, rim (g_Nx g) (g_Ny g) (d + 1) i j -> tval E3 i j = bad).
  { intros i j Hr. apply (polar_all_ruined lorentz_update _ i j (lorentz_ruined i j)) in cw_lorentz; [exact cw_lorentz|].
    apply (polar_all_ruined drude_update _ i j (drude_ruined i j)) in cw_drude; [exact cw_drude|].
    apply (polar_all_ruined debye_update _ i j (debye_ruined i j)) in cw_debye; [exact cw_debye|].
    unfold ruined. rewrite cw_E0. now apply A0. }
  assert (Ae : forall i j, rim (g_Nx g) (g_Ny g) (d + 1) i j -> eE (e_of p') i j = bad).
  { intros i j Hr. destruct cw_e as [Q _]. rewrite (Q i j). cbn [eE]. unfold lits. rewrite tf_bad; [apply lit_bad|intros; apply tfD1_bad|now apply A3]. }
  destruct cw_h as (QX & _ & _ & QY & _). cbn [hX hY with_xy] in QX, QY.
  assert (Ax : forall i j, core (g_Nx g) (g_Ny g) i j = true -> rim (g_Nx g) (g_Ny g) (d + 1) i j \/ rim (g_Nx g) (g_Ny g) (d + 1) i (j + 1) ->
             tval (fHx (ph_F p')) i j = bad).
  { intros i j Hc Hr. change (tval (fHx (ph_F p')) i j) with (hX (h_of p') i j). rewrite (QX i j). apply tf_bad; [intros; apply tfHx1_bad|].
    rewrite cw_hm. unfold grid_next_h, next_h. rewrite Gg. cbn [hX]. rewrite Hc. unfold addHx, yeeHx.
    destruct Hr as [Hr|Hr]; rewrite (Ae _ _ Hr); ab; repeat match goal with |- context [if ?b then _ else _] => destruct b end; ab; reflexivity. }
  assert (Ay : forall i j, core (g_Nx g) (g_Ny g) i j = true -> rim (g_Nx g) (g_Ny g) (d + 1) i j \/ rim (g_Nx g) (g_Ny g) (d + 1) (i + 1) j ->
             tval (fHy (ph_F p')) i j = bad).
  { intros i j Hc Hr. change (tval (fHy (ph_F p')) i j) with (hY (h_of p') i j). rewrite (QY i j). apply tf_bad; [intros; apply tfHy1_bad|].
    rewrite cw_hm. unfold grid_next_h, next_h. rewrite Gg. cbn [hY]. rewrite Hc. unfold addHy, yeeHy.
    destruct Hr as [Hr|Hr]; rewrite (Ae _ _ Hr); ab; repeat match goal with |- context [if ?b then _ else _] => destruct b end; ab; reflexivity. }
  intros i j Hr. assert (Hc := rim_core g _ _ _ Hr).
  split; [exact (Ae i j Hr)|]. split; [apply Ax; auto|]. split; [apply Ay; auto|]. unfold core in Hc. split; intros K.
  - apply Ay; [unfold core; lia|]. right. now replace (i - 1 + 1) with i by lia.
  - apply Ax; [unfold core; lia|]. right. now replace (j - 1 + 1) with j by lia.
Qed.

Lemma rim0 g p : spoilt g 0 p.
Proof. intros i j [[Hi Hj] K]. lia. Qed.

Lemma spoils_run g (Ha : apart g) (Th : g_pml g = 1) :
  (forall s, reachable g s -> bEx (med (f_ph s)) 1 = bad /\ bEy (med (f_ph s)) 1 = bad) ->
  forall n d s s', 0 <= d -> reachable g s -> spoilt g d (f_ph s) -> run (repeat Update n) s = Fine s' ->
  spoilt g (d + Z.of_nat n) (f_ph s').
Proof.
  intros Hb. induction n as [|n IH]; intros d s s' Hd Hr Hs H; cbn [repeat run] in H.
  - injection H as <-. now rewrite Z.add_0_r.
  - apply obind_fine in H. destruct H as (s1 & H1 & H2). cbn [exec] in H1.
    assert (R1 : reachable g s1) by (apply (run_reachable g s [Update] s1 Hr); cbn [run exec]; rewrite H1; reflexivity).
    replace (d + Z.of_nat (S n)) with (d + 1 + Z.of_nat n) by lia.
    apply (IH (d + 1) s1); [lia|exact R1| |exact H2].
    destruct (reachable_good g s (apart_roomy g Ha) Hr) as [Hw Gg]. destruct (Hb s Hr) as [B1 B2].
    apply (spoils g (f_ph s)); auto. now apply update_phys_step.
Qed.

End Bad.

(** ** NaN in binary64 *)
Section Nan.
Variable L : libm.

Lemma nan_absorbs : @absorbs (B64 L) B754_nan.
Proof. split; intros x; destruct x as [[]|[]| |[]]; reflexivity. Qed.

Lemma ofZ0 : f64_ofZ 0 = B754_zero false.
Proof. vm_compute. reflexivity. Qed.
Lemma one_minus_one : f64_sub (f64_ofZ 1) (f64_ofZ 1) = B754_zero false.
Proof. vm_compute. reflexivity. Qed.

Hypothesis HL : nan_libm L.

Lemma b_nan (g : @grid (B64 L)) : g_pml g = 1 -> @cpml_b (B64 L) (g_pml g) (g_dx g) (g_dt g) (@nofZ (B64 L) 1) = B754_nan.
Proof.
  intros ->. destruct HL as [He Hp]. unfold cpml_b.
  assert (A : @alpha (B64 L) 1 (@nofZ (B64 L) 1) = B754_nan).
  { unfold alpha. change (1 - 1) with 0.
    change (@nofZ (B64 L)) with f64_ofZ. change (@nsub (B64 L)) with f64_sub. change (@ndiv (B64 L)) with f64_div.
    rewrite one_minus_one, ofZ0. change (f64_div (B754_zero false) (B754_zero false)) with (B754_nan : f64).
    change (@npow (B64 L)) with (lm_pow L). rewrite Hp by discriminate. apply (ab_mulr _ nan_absorbs). }
  rewrite A. rewrite (ab_addr _ nan_absorbs). rewrite (ab_mulr _ nan_absorbs). exact He.
Qed.

Lemma zero_coefs (g : @grid (B64 L)) s : apart g -> g_pml g = 1 -> reachable g s ->
  bEx (med (f_ph s)) 1 = B754_nan /\ bEy (med (f_ph s)) 1 = B754_nan.
Proof.
  intros Ha Th Hr. destruct (reachable_coefs g s Ha Hr) as [C _]. destruct (C 1) as ((C1 & _ & C3 & _) & _); [lia|].
  rewrite C1, C3. split; now apply b_nan.
Qed.

Lemma zero_pml Lx Ly rs (g : @grid (B64 L)) s n s' i j : mk_grid Lx Ly rs 0 = Ok g -> 3 < g_Nx g -> 3 < g_Ny g ->
  reachable g s -> run (repeat Update n) s = Fine s' -> rim (g_Nx g) (g_Ny g) (Z.of_nat n) i j ->
  (aval (be_x (p_coef (ph_pml (f_ph s)))) 1 = B754_nan /\ aval (be_y (p_coef (ph_pml (f_ph s)))) 1 = B754_nan) /\
  tval (fEz (ph_F (f_ph s'))) i j = B754_nan /\ tval (fHx (ph_F (f_ph s'))) i j = B754_nan /\
  tval (fHy (ph_F (f_ph s'))) i j = B754_nan.
Proof.
  intros Eg Nx Ny Hr Hu Hrim.
  assert (Th : g_pml g = 1) by (unfold mk_grid in Eg; inv_ok; reflexivity).
  assert (Ha : apart g) by (unfold apart; lia).
  split; [exact (zero_coefs g s Ha Th Hr)|].
  destruct (@spoils_run (B64 L) B754_nan nan_absorbs g Ha Th (fun s Hs => zero_coefs g s Ha Th Hs) n 0 s s' (Z.le_refl 0) Hr (rim0 _ g (f_ph s)) Hu i j) as (A & B & C & _);
    [exact Hrim|]. auto.
Qed.

End Nan.

(** a run that meets the hypotheses *)
Lemma zero_pml_case (L : libm) : exists (g : @grid (B64 L)) s s', mk_grid (N := B64 L) (nofZ 8) (nofZ 8) (nofZ 1) 0 = Ok g /\
  g_Nx g = 8 /\ g_Ny g = 8 /\ reachable g s /\ run [Update; Update; Update] s = Fine s'.
Proof.
  assert (C : nceil (Num := B64 L) (nmul (Num := B64 L) (nofZ (Num := B64 L) 8) (nofZ (Num := B64 L) 1)) = Some 8) by (vm_compute; reflexivity).
  assert (E : exists g : @grid (B64 L), mk_grid (N := B64 L) (nofZ 8) (nofZ 8) (nofZ 1) 0 = Ok g /\
    g_Nx g = 8 /\ g_Ny g = 8 /\ g_pml g = 1).
  { unfold mk_grid. rewrite C. cbn [ofOption bind]. eexists. split; [reflexivity|]. cbn [g_Nx g_Ny g_pml]. repeat split. }
  destruct E as (g & E & Nx & Ny & P).
  assert (Hr : roomy g) by (unfold roomy; lia).
  destruct (mk_field_fresh g "out"%string) as (p & Ep & E0); [exact Hr|discriminate|].
  destruct (mk_phys_ok g Hr) as (p' & Ep' & Hw & Gp & Sp & Tp & Op & Np). rewrite Ep in Ep'. injection Ep' as <-.
  set (s := Field p [] [] [] (fresh_h5 g) mk_clocks).
  destruct (updates_ok 3 s) as (s' & Hs' & _); unfold s; cbn [f_ph f_mons f_tmons]; try reflexivity; try exact Hw.
  - now rewrite Gp.
  - split; [rewrite Sp; apply Forall_nil|rewrite Tp; discriminate].
  - split; reflexivity.
  - rewrite Np. unfold INT_MIN. lia.
  - rewrite Np. unfold INT_MAX. lia.
  - exists g, s, s'. repeat (split; [assumption|]). split; [|exact Hs'].
    exists "out"%string, s, []. split; [exact E0|reflexivity].
Qed.
Lemma reach3 : forall i j, 1 <= i < 7 -> 1 <= j < 7 -> rim 8 8 (Z.of_nat 3) i j.
Proof. intros i j Hi Hj. unfold rim. lia. Qed.
Lemma id_libm : nan_libm (Libm (fun x => x) (fun x => x) (fun x => x) (fun x _ => x)).
Proof. split; [reflexivity|]. intros; reflexivity. Qed.
