(** One update() of a cell inside or outside dispersive media, over the reals. *)
From Coq Require Import ZArith Reals String List Bool Lia Lra.
From Verif Require Import Scalar Base BaseFacts VecM GridM GeometryM MaterialM PmlM DftM TfsfM PolarM
  InterpM H5M ClockM MonitorM FieldM OutFacts PhysFacts PaintFacts WfFacts ReachFacts InvFacts SpecStep StepFacts
  EngineFacts YeeFacts SpecSource SourceFacts SpecMedium PolarFacts FullStep SpecRim MediumFacts.
Import ListNotations.
Local Open Scope Z_scope.

Section Split.
Context {N : Num}.

(** the polarization part of a step between the Yee/CPML value of Ez and the final one *)
Lemma step_media p p' : apart (ph_grid p) -> wf_phys p -> phys_step p = Fine p' ->
  let g := ph_grid p in
  let u := next_e (g_Nx g) (g_Ny g) (g_pml g) (g_dx g) (med p) (hX (h_of p)) (hY (h_of p)) (e_of p) in
  let pe := match ph_prevE p with None => None | Some _ => Some (fEz (ph_F p)) end in
  let pe2 := match ph_prev2E p with None => None | Some _ => ph_prevE p end in
  exists E0 E1 E2 E3,
    (forall i j, tval E0 i j = eE u i j) /\
    polar_all debye_update pe E0 (ph_debye p) = Ok (ph_debye p', E1) /\
    polar_all drude_update pe E1 (ph_drude p) = Ok (ph_drude p', E2) /\
    polar_all lorentz_update pe2 E2 (ph_lorentz p) = Ok (ph_lorentz p', E3) /\
    (exists Ls, Forall2 (fun r L => src_cells g (sr_kind r) L) (ph_srcs p) Ls /\
       forall i j, tval (fEz (ph_F p')) i j =
         lit (ph_t p + g_dt g)%num (combine (ph_srcs p) Ls) Ez i j (tf tfD1 (ph_tfsf p) (tval E3) i j)) /\
    ph_prevE p' = pe /\ ph_prev2E p' = pe2.
Proof.
  intros Ha Hw Hs g u pe pe2. destruct (full_step p p' Ha Hw Hs) as (E0 & E1 & E2 & E3 & Ls & u' & h & []).
  exists E0, E1, E2, E3. rewrite cw_u in cw_E0. split; [exact cw_E0|]. split; [exact cw_debye|]. split; [exact cw_drude|].
  split; [exact cw_lorentz|]. split; [|exact cw_prev]. exists Ls. split.
  - clear -cw_cells. induction cw_cells as [|r L ? ? [K _] ? ?]; constructor; auto.
  - intros i j. apply (proj1 cw_e i j).
Qed.
Lemma tf_off_E o i j a : off_E o i j -> tf tfD1 o a i j = a i j.
Proof.
  unfold off_E, tf, tfD1, band. destruct o as [q|]; [|reflexivity]. intros H.
  destruct (Z.leb_spec (q_ia q) i), (Z.leb_spec i (q_ib q)); cbn [andb]; try reflexivity.
  destruct (Z.eqb_spec j (q_ja q)), (Z.eqb_spec j (q_jb q)); try reflexivity; exfalso; apply H; auto.
Qed.
End Split.

Section Real.
#[local] Existing Instance RNum.
Local Open Scope R_scope.

Lemma add_at_zero v L i j x : (In (i, j) L -> v = 0) -> add_at v L i j x = x.
Proof.
  unfold add_at. revert x. induction L as [|q L IH]; intros x H; cbn [fold_left]; [reflexivity|].
  rewrite IH by (intros K; apply H; now right). destruct ((fst q =? i)%Z && (snd q =? j)%Z) eqn:E; [|reflexivity].
  apply andb_true_iff in E. destruct E as [E1 E2]. apply Z.eqb_eq in E1, E2. rewrite H; [rnumg; ring|].
  left. destruct q. cbn in *. congruence.
Qed.
Lemma lit_zero t RL c i j x : (forall r L, In (r, L) RL -> sr_c r = c -> In (i, j) L -> shape_val (tp_shape (sr_tp r)) t = 0) ->
  lit t RL c i j x = x.
Proof.
  unfold lit. revert x. induction RL as [|[r L] RL IH]; intros x H; cbn [fold_left]; [reflexivity|].
  rewrite IH by (intros; eapply H; [right; eassumption|assumption|assumption]).
  destruct (comp_eqb (sr_c r) c) eqn:E; [|reflexivity].
  apply add_at_zero. apply (H r L); [now left|]. destruct (sr_c r), c; cbn in E; congruence.
Qed.
Lemma undriven_lit t g srcs Ls c i j x : undriven t g srcs c i j -> Forall2 (fun r L => src_cells g (sr_kind r) L) srcs Ls ->
  lit t (combine srcs Ls) c i j x = x.
Proof.
  intros Hu HL. apply lit_zero. intros r L Hin Hc. apply (Forall2_combine _ _ _ _ _ HL) in Hin. destruct Hin as [Hr Hs].
  now apply (Hu r L).
Qed.

(** the electric half-step of an interior cell *)
Lemma next_e_curl n m th dx md hx hy u i j : core n m i j = true ->
  let u' := next_e n m th dx md hx hy u in
  eE u' i j = mCa md i j * eE u i j + mCb md i j * curl_h n m th md u' hx hy i j.
Proof.
  intros Hc u'. unfold u', next_e at 1. cbn [eE]. rewrite Hc. unfold addX, addY, yeeE, curl_h, next_e. cbn [eXl eXh eYl eYh]. rnumg.
  destruct (i <=? th)%Z, (n - 1 - th <=? i)%Z, (j <=? th)%Z, (m - 1 - th <=? j)%Z; ring.
Qed.

(** ** The invariant: the polarizations have the size and steps of the grid, a strength is either
    absent or the one of the stored material, and without strength there is no current *)
Definition shape_ok (g : grid) (np : nat) (q : polar) : Prop :=
  pl_Nx q = g_Nx g /\ pl_Ny q = g_Ny g /\ pl_dx q = g_dx g /\ pl_dt q = g_dt g /\ pl_n q = Z.of_nat np.
Definition still (q : polar) (i j k : Z) : Prop := t3val (pl_J q) i j k = 0 /\ t3val (pl_pJ q) i j k = 0.
Definition tame1 (g : grid) (np : nat) (vals : list R) (q : polar) : Prop :=
  shape_ok g np q /\
  forall i j k, (0 <= i < g_Nx g)%Z -> (0 <= j < g_Ny g)%Z -> (0 <= k < Z.of_nat np)%Z ->
    (t3val (pl_c q) i j k = 0 \/ t3val (pl_c q) i j k = nth (Z.to_nat k) vals 0) /\
    (t3val (pl_c q) i j k = 0 -> still q i j k).
Definition tame_debye g (_ : string) x q := tame1 g (np_debye x) (debye_beta x (g_dt g)) q.
Definition tame_drude g (_ : string) x q := tame1 g (np_drude x) (drude_beta x (g_dt g)) q.
Definition tame_lorentz g (_ : string) x q := tame1 g (np_lorentz x) (lorentz_delta x (g_dt g)) q.
Definition tame (p : phys) : Prop := maps_ok (ph_grid p) (tame_debye (ph_grid p)) (tame_drude (ph_grid p)) (tame_lorentz (ph_grid p)) p.

Lemma tame_insert g np vals q inside q' : tame1 g np vals q -> insert_polar q vals inside = Ok q' -> tame1 g np vals q'.
Proof.
  intros [(A & B & C & D & E) H] Hi. apply insert_polar_cells in Hi; [|lia].
  destruct Hi as (A' & B' & C' & D' & E' & J & pJ & V). split; [unfold shape_ok; rewrite A', B', C', D', E'; auto|].
  intros i j k Hi Hj Hk. destruct (H i j k Hi Hj Hk) as [H1 H2]. unfold still in *. rewrite J, pJ. rewrite V by lia.
  destruct (inside _); [|auto]. split; [auto|]. intros H0. apply H2. destruct H1 as [H1|H1]; [exact H1|]. rnum. congruence.
Qed.
Lemma tame_new g np vals q : mk_polar g np = Ok q -> tame1 g np vals q.
Proof.
  unfold mk_polar. intros H. apply bind_ok in H. destruct H as (z & Hz & H). injection H as <-.
  split; [repeat split|]. unfold t3const in Hz. destruct (_ && _); [|discriminate]. injection Hz as <-. cbn. intros; split; [auto|]. split; reflexivity.
Qed.
Lemma tame_reset g np vals q : tame1 g np vals q -> tame1 g np vals (reset_polar q).
Proof. intros [A _]. split; [exact A|]. intros; split; [left; reflexivity|]. split; reflexivity. Qed.

Lemma chain_still n fe fj e0 e1 J' : (forall k e, (0 <= k < n)%Z -> fe k e = e) -> chain (N := RNum) n fe fj e0 e1 J' ->
  (0 <= n)%Z -> e1 = e0.
Proof.
  intros H (e & A & B & C) Hn. rewrite <- A, <- B. clear A B. assert (G : forall k, (k <= Z.to_nat n)%nat -> e (Z.of_nat k) = e 0%Z).
  { induction k as [|k IH]; intros Hk; [reflexivity|]. rewrite Nat2Z.inj_succ, <- Z.add_1_r. rewrite (proj1 (C (Z.of_nat k) ltac:(lia))).
    rewrite H by lia. apply IH. lia. }
  specialize (G (Z.to_nat n) (le_n _)). now rewrite Z2Nat.id in G by exact Hn.
Qed.

Lemma tame_debye_update g nm x q pe E q' E' : tame_debye g nm x q -> debye_update x q pe E = Ok (q', E') -> tame_debye g nm x q'.
Proof.
  intros [S H] Hu. assert (pJ : pl_pJ q' = pl_pJ q).
  { unfold debye_update in Hu. apply bind_ok in Hu. destruct Hu as ([a b] & _ & Hu). now injection Hu as <- <-. }
  destruct S as (A & B & C & D & F). apply debye_update_cells in Hu; [|lia].
  destruct Hu as ((A' & B' & C' & D' & F' & c') & V & _).
  split; [unfold shape_ok; rewrite A', B', C', D', F'; auto|]. intros i j k Hi Hj Hk. rewrite c'. destruct (H i j k Hi Hj Hk) as [H1 H2].
  split; [exact H1|]. intros H0. destruct (H2 H0) as [J0 P0]. split; [|now rewrite pJ].
  destruct (V i j) as (e & _ & _ & Ve); [lia..|]. destruct (Ve k) as [_ ->]; [lia|]. rnum. rewrite J0, H0. unfold Rdiv. ring.
Qed.
Lemma tame_drude_update g nm x q pe E q' E' : tame_drude g nm x q -> drude_update x q pe E = Ok (q', E') -> tame_drude g nm x q'.
Proof.
  intros [S H] Hu. assert (pJ : pl_pJ q' = pl_pJ q).
  { unfold drude_update in Hu. apply bind_ok in Hu. destruct Hu as ([a b] & _ & Hu). now injection Hu as <- <-. }
  destruct S as (A & B & C & D & F). apply drude_update_cells in Hu; [|lia].
  destruct Hu as ((A' & B' & C' & D' & F' & c') & V & _).
  split; [unfold shape_ok; rewrite A', B', C', D', F'; auto|]. intros i j k Hi Hj Hk. rewrite c'. destruct (H i j k Hi Hj Hk) as [H1 H2].
  split; [exact H1|]. intros H0. destruct (H2 H0) as [J0 P0]. split; [|now rewrite pJ].
  destruct (V i j) as (e & _ & _ & Ve); [lia..|]. destruct (Ve k) as [_ ->]; [lia|]. rnum. rewrite J0, H0. ring.
Qed.
Lemma tame_lorentz_update g nm x q pe E q' E' : tame_lorentz g nm x q -> lorentz_update x q pe E = Ok (q', E') -> tame_lorentz g nm x q'.
Proof.
  intros [S H] Hu. destruct S as (A & B & C & D & F). apply lorentz_update_cells in Hu; [|lia].
  destruct Hu as ((A' & B' & C' & D' & F' & c') & V & _).
  split; [unfold shape_ok; rewrite A', B', C', D', F'; auto|]. intros i j k Hi Hj Hk. rewrite c'. destruct (H i j k Hi Hj Hk) as [H1 H2].
  split; [exact H1|]. intros H0. destruct (H2 H0) as [J0 P0].
  destruct (V i j) as [(e & _ & _ & Ve) Vp]; [lia..|]. split.
  - destruct (Ve k) as [_ ->]; [lia|]. rnum. rewrite J0, P0, H0. unfold Rdiv. ring.
  - rewrite Vp by lia. exact J0.
Qed.

Lemma reachable_tame g s : reachable g s -> tame (f_ph s).
Proof.
  intros H. unfold tame. assert (M : maps_ok g (tame_debye g) (tame_drude g) (tame_lorentz g) (f_ph s)).
  { apply maps_reachable; try exact H.
    - intros *. apply tame_debye_update.
    - intros *. apply tame_drude_update.
    - intros *. apply tame_lorentz_update.
    - intros *. apply tame_insert.
    - intros *. apply tame_insert.
    - intros *. apply tame_insert.
    - intros *. apply tame_new.
    - intros *. apply tame_new.
    - intros *. apply tame_new.
    - intros *. apply tame_reset.
    - intros *. apply tame_reset.
    - intros *. apply tame_reset. }
  assert (G := proj1 M). now rewrite G.
Qed.

(** ** Cells without strength *)
Lemma idle_debye g P : forall pe E P' E' i j, all_entries (tame_debye g) P -> (0 <= i < g_Nx g)%Z -> (0 <= j < g_Ny g)%Z ->
  no_strength i j P -> polar_all debye_update pe E P = Ok (P', E') -> tval E' i j = tval E i j.
Proof.
  induction P as [|[nm [x q]] P IH]; intros pe E P' E' i j Ht Hi Hj Hz H; cbn [polar_all] in H.
  - now injection H as <- <-.
  - apply bind_ok in H. destruct H as (pe0 & _ & H). apply bind_ok in H. destruct H as ([q1 E1] & H1 & H).
    apply bind_ok in H. destruct H as ([r E2] & H2 & H). injection H as <- <-.
    rewrite (IH _ _ _ _ i j) with (3 := Hj) (5 := H2); auto; try (intros ? ? ? Hin; apply Ht; now right).
    2:{ intros a b c Hin. apply (Hz a b c). now right. }
    destruct (Ht nm x q (or_introl eq_refl)) as [(A & B & C & D & F) V]. assert (Hn : (0 <= pl_n q)%Z) by lia.
    apply debye_update_cells in H1; [|exact Hn]. destruct H1 as (_ & W & _).
    refine (chain_still _ _ _ _ _ _ _ (W i j ltac:(lia) ltac:(lia)) Hn).
    intros k e Hk. destruct (V i j k Hi Hj) as [_ V2]; [lia|]. destruct V2 as [J0 _]; [apply (Hz nm x q (or_introl eq_refl)); lia|].
    rnum. rewrite J0. ring.
Qed.
Lemma idle_drude g P : forall pe E P' E' i j, all_entries (tame_drude g) P -> (0 <= i < g_Nx g)%Z -> (0 <= j < g_Ny g)%Z ->
  no_strength i j P -> polar_all drude_update pe E P = Ok (P', E') -> tval E' i j = tval E i j.
Proof.
  induction P as [|[nm [x q]] P IH]; intros pe E P' E' i j Ht Hi Hj Hz H; cbn [polar_all] in H.
  - now injection H as <- <-.
  - apply bind_ok in H. destruct H as (pe0 & _ & H). apply bind_ok in H. destruct H as ([q1 E1] & H1 & H).
    apply bind_ok in H. destruct H as ([r E2] & H2 & H). injection H as <- <-.
    rewrite (IH _ _ _ _ i j) with (3 := Hj) (5 := H2); auto; try (intros ? ? ? Hin; apply Ht; now right).
    2:{ intros a b c Hin. apply (Hz a b c). now right. }
    destruct (Ht nm x q (or_introl eq_refl)) as [(A & B & C & D & F) V]. assert (Hn : (0 <= pl_n q)%Z) by lia.
    apply drude_update_cells in H1; [|exact Hn]. destruct H1 as (_ & W & _).
    refine (chain_still _ _ _ _ _ _ _ (W i j ltac:(lia) ltac:(lia)) Hn).
    intros k e Hk. destruct (V i j k Hi Hj) as [_ V2]; [lia|]. destruct V2 as [J0 _]; [apply (Hz nm x q (or_introl eq_refl)); lia|].
    rnum. rewrite J0. ring.
Qed.

(** a map of polarizations split at one entry *)
Lemma polar_all_split {M} f pe (P1 P2 : list (string * (M * polar))) nm x q : forall E P' E',
  polar_all f pe E (P1 ++ (nm, (x, q)) :: P2) = Ok (P', E') ->
  exists P1' E1 q' E2 P2' pe0, P' = P1' ++ (nm, (x, q')) :: P2' /\ length P1' = length P1 /\ pe = Some pe0 /\
    polar_all f pe E P1 = Ok (P1', E1) /\ f x q pe0 E1 = Ok (q', E2) /\ polar_all f pe E2 P2 = Ok (P2', E').
Proof.
  induction P1 as [|[nm1 [x1 q1]] P1 IH]; intros E P' E' H; cbn [app polar_all] in H |- *.
  - apply bind_ok in H. destruct H as (pe0 & Hp & H). apply bind_ok in H. destruct H as ([q' E2] & H1 & H).
    apply bind_ok in H. destruct H as ([P2' E3] & H2 & H). injection H as <- <-. destruct pe as [pe1|]; [|discriminate]. injection Hp as ->.
    exists [], E, q', E2, P2', pe0. auto 10.
  - apply bind_ok in H. destruct H as (pe0 & Hp & H). apply bind_ok in H. destruct H as ([q' E2] & H1 & H).
    apply bind_ok in H. destruct H as ([P2' E3] & H2 & H). injection H as <- <-.
    destruct (IH _ _ _ H2) as (P1' & Ea & qa & Eb & P2a & pea & -> & L & Hpe & K1 & K2 & K3).
    exists ((nm1, (x1, q')) :: P1'), Ea, qa, Eb, P2a, pea. cbn [app length]. rewrite L. repeat split; auto.
    rewrite Hp. cbn [bind]. rewrite H1. cbn [bind]. rewrite K1. reflexivity.
Qed.

Lemma entry_split {M} (P : list (string * (M * polar))) n nm x q : entry P n nm x q ->
  exists P1 P2, P = P1 ++ (nm, (x, q)) :: P2 /\ length P1 = n.
Proof. intros H. apply nth_error_split in H. exact H. Qed.
Lemma alone_split {M} (P1 P2 : list (string * (M * polar))) nm x q i j : alone (P1 ++ (nm, (x, q)) :: P2) (length P1) i j ->
  no_strength i j P1 /\ no_strength i j P2.
Proof.
  intros H. split; intros nm' x' q' Hin k Hk; apply In_nth_error in Hin; destruct Hin as [n Hn].
  - apply (H n nm' x' q'); [assert (n < length P1)%nat by (apply nth_error_Some; congruence); lia| |exact Hk].
    unfold entry. rewrite nth_error_app1; [exact Hn|]. apply nth_error_Some. congruence.
  - apply (H (length P1 + S n)%nat nm' x' q'); [lia| |exact Hk].
    unfold entry. rewrite nth_error_app2 by lia. replace (length P1 + S n - length P1)%nat with (S n) by lia. exact Hn.
Qed.
Lemma entries_app {M} (G : string -> M -> polar -> Prop) P1 P2 : all_entries G (P1 ++ P2) -> all_entries G P1 /\ all_entries G P2.
Proof. intros H. split; intros nm x q Hin; apply H, in_or_app; auto. Qed.
Lemma entries_tl {M} (G : string -> M -> polar -> Prop) e P2 : all_entries G (e :: P2) -> all_entries G P2.
Proof. intros H nm x q Hin; apply H; now right. Qed.

Section Cell.
Variables (p p' : phys) (i j : Z).
Notation g := (ph_grid p).
Hypotheses (Ha : apart g) (Hw : wf_phys p) (Ht : tame p) (Hf : off_E (ph_tfsf p) i j) (Hs : phys_step p = Fine p').
Hypotheses (Hi : (1 <= i < g_Nx g - 1)%Z) (Hj : (1 <= j < g_Ny g - 1)%Z).
Notation dark := (undriven (ph_t p + g_dt g) g (ph_srcs p) Ez i j).

Lemma yee_value : eE (next_e (g_Nx g) (g_Ny g) (g_pml g) (g_dx g) (med p) (hX (h_of p)) (hY (h_of p)) (e_of p)) i j =
  mCa (med p) i j * Ez_at p i j + mCb (med p) i j * curl_at p i j.
Proof. apply next_e_curl. unfold core. lia. Qed.

Lemma debye_step n nm x q : debye_only p n nm x q i j ->
  exists q', entry (ph_debye p') n nm x q' /\ pl_c q' = pl_c q /\ pl_n q = Z.of_nat (np_debye x) /\ exists e1, (dark -> Ez_at p' i j = e1) /\
  chain (Z.of_nat (np_debye x))
    (fun k e => e - debye_Cb x (g_dt g) * half * (1 + nth (Z.to_nat k) (debye_kappa x (g_dt g)) 0) * J_at q i j k)
    (fun k e => nth (Z.to_nat k) (debye_kappa x (g_dt g)) 0 * J_at q i j k
       + nth (Z.to_nat k) (debye_beta x (g_dt g)) 0 / g_dt g * (e - Ez_at p i j))
    (Ez_at p i j + debye_Cb x (g_dt g) * curl_at p i j) e1 (J_at q' i j).
Proof.
  intros ((Ca & Cb) & En & Full & Al & Nd & Nl). destruct (entry_split _ _ _ _ _ En) as (P1 & P2 & EP & <-).
  destruct (step_media p p' Ha Hw Hs) as (E0 & E1 & E2 & E3 & V0 & K1 & K2 & K3 & (Ls & HL & V3) & _).
  rewrite Nl in K3. cbn [polar_all] in K3. injection K3 as _ ->.
  destruct Ht as (_ & T1 & T2 & _).
  assert (I2 := idle_drude _ _ _ _ _ _ i j T2 ltac:(lia) ltac:(lia) Nd K2).
  rewrite EP in K1, Al, T1. apply alone_split in Al. destruct Al as [Z1 Z2].
  apply entries_app in T1. destruct T1 as [T1a T1b]. assert (Tq := T1b nm x q (or_introl eq_refl)). apply entries_tl in T1b.
  apply polar_all_split in K1. destruct K1 as (P1' & Ea & q' & Eb & P2' & pe0 & EP' & L & Hpe & Ka & Kb & Kc).
  assert (Ia := idle_debye _ _ _ _ _ _ i j T1a ltac:(lia) ltac:(lia) Z1 Ka).
  assert (Ic := idle_debye _ _ _ _ _ _ i j T1b ltac:(lia) ltac:(lia) Z2 Kc).
  destruct Tq as [(A & B & C & D & F) _]. apply debye_update_cells in Kb; [|lia]. destruct Kb as ((_ & _ & _ & _ & _ & Kc') & W & _).
  exists q'. split. { unfold entry. rewrite EP', <- L, nth_error_app2, Nat.sub_diag by lia. reflexivity. }
  split; [exact Kc'|]. split; [exact F|]. exists (tval E3 i j).
  split. { intros Hu. unfold Ez_at. rewrite V3, (tf_off_E _ _ _ _ Hf). now rewrite (undriven_lit _ _ _ _ _ _ _ _ Hu HL). }
  specialize (W i j ltac:(lia) ltac:(lia)). unfold debye_cell in W. rewrite F, D in W.
  assert (Hpe0 : tval pe0 i j = Ez_at p i j).
  { destruct (ph_prevE p); [|discriminate]. injection Hpe as <-. reflexivity. }
  rewrite I2, Ic.
  rewrite Ia, V0, yee_value, Ca, Cb in W. cbn [mat_Ca mat_Cb] in W. rnum. rewrite Rmult_1_l in W.
  eapply chain_extf; [| |exact W]; cbn beta; intros k e Hk; rnumg; [reflexivity|].
  rewrite Full by lia. rewrite Hpe0. reflexivity.
Qed.

Lemma drude_step n nm x q : drude_only p n nm x q i j ->
  exists q', entry (ph_drude p') n nm x q' /\ pl_c q' = pl_c q /\ pl_n q = Z.of_nat (np_drude x) /\ exists e1, (dark -> Ez_at p' i j = e1) /\
  chain (Z.of_nat (np_drude x))
    (fun k e => e - drude_Cb x (g_dt g) * half * (1 + nth (Z.to_nat k) (drude_kappa x (g_dt g)) 0) * J_at q i j k)
    (fun k e => nth (Z.to_nat k) (drude_kappa x (g_dt g)) 0 * J_at q i j k
       + nth (Z.to_nat k) (drude_beta x (g_dt g)) 0 * (e + Ez_at p i j))
    (drude_Ca x (g_dt g) * Ez_at p i j + drude_Cb x (g_dt g) * curl_at p i j) e1 (J_at q' i j).
Proof.
  intros ((Ca & Cb) & En & Full & Al & Nd & Nl). destruct (entry_split _ _ _ _ _ En) as (P1 & P2 & EP & <-).
  destruct (step_media p p' Ha Hw Hs) as (E0 & E1 & E2 & E3 & V0 & K1 & K2 & K3 & (Ls & HL & V3) & _).
  rewrite Nl in K3. cbn [polar_all] in K3. injection K3 as _ ->.
  destruct Ht as (_ & T1 & T2 & _).
  assert (I1 := idle_debye _ _ _ _ _ _ i j T1 ltac:(lia) ltac:(lia) Nd K1).
  rewrite EP in K2, Al, T2. apply alone_split in Al. destruct Al as [Z1 Z2].
  apply entries_app in T2. destruct T2 as [T1a T1b]. assert (Tq := T1b nm x q (or_introl eq_refl)). apply entries_tl in T1b.
  apply polar_all_split in K2. destruct K2 as (P1' & Ea & q' & Eb & P2' & pe0 & EP' & L & Hpe & Ka & Kb & Kc).
  assert (Ia := idle_drude _ _ _ _ _ _ i j T1a ltac:(lia) ltac:(lia) Z1 Ka).
  assert (Ic := idle_drude _ _ _ _ _ _ i j T1b ltac:(lia) ltac:(lia) Z2 Kc).
  destruct Tq as [(A & B & C & D & F) _]. apply drude_update_cells in Kb; [|lia]. destruct Kb as ((_ & _ & _ & _ & _ & Kc') & W & _).
  exists q'. split. { unfold entry. rewrite EP', <- L, nth_error_app2, Nat.sub_diag by lia. reflexivity. }
  split; [exact Kc'|]. split; [exact F|]. exists (tval E3 i j).
  split. { intros Hu. unfold Ez_at. rewrite V3, (tf_off_E _ _ _ _ Hf). now rewrite (undriven_lit _ _ _ _ _ _ _ _ Hu HL). }
  specialize (W i j ltac:(lia) ltac:(lia)). unfold drude_cell in W. rewrite F, D in W.
  assert (Hpe0 : tval pe0 i j = Ez_at p i j).
  { destruct (ph_prevE p); [|discriminate]. injection Hpe as <-. reflexivity. }
  rewrite Ic.
  rewrite Ia, I1, V0, yee_value, Ca, Cb in W. cbn [mat_Ca mat_Cb] in W. rnum.
  eapply chain_extf; [| |exact W]; cbn beta; intros k e Hk; rnumg; [reflexivity|].
  rewrite Full by lia. rewrite Hpe0. reflexivity.
Qed.

Lemma lorentz_step nm x q : lorentz_only p nm x q i j ->
  exists q', ph_lorentz p' = [(nm, (x, q'))] /\ pl_c q' = pl_c q /\ pl_n q = Z.of_nat (np_lorentz x) /\
  exists e2 e1, ph_prev2E p' = Some e2 /\ (dark -> Ez_at p' i j = e1) /\
  (forall k, (0 <= k < Z.of_nat (np_lorentz x))%Z -> t3val (pl_pJ q') i j k = J_at q i j k) /\
  chain (Z.of_nat (np_lorentz x))
    (fun k e => e + (lorentz_Ca_prev x (g_dt g) * tval e2 i j - lorentz_Cb x (g_dt g) * half *
        ((1 + nth (Z.to_nat k) (lorentz_alpha x (g_dt g)) 0) * J_at q i j k
         + nth (Z.to_nat k) (lorentz_beta x (g_dt g)) 0 * t3val (pl_pJ q) i j k)))
    (fun k e => nth (Z.to_nat k) (lorentz_alpha x (g_dt g)) 0 * J_at q i j k
       + nth (Z.to_nat k) (lorentz_beta x (g_dt g)) 0 * t3val (pl_pJ q) i j k
       + nth (Z.to_nat k) (lorentz_delta x (g_dt g)) 0 / (2 * g_dt g) * (e - tval e2 i j))
    (lorentz_Ca x (g_dt g) * Ez_at p i j + lorentz_Cb x (g_dt g) * curl_at p i j) e1 (J_at q' i j).
Proof.
  intros ((Ca & Cb) & En & Full & Nd & Nu).
  destruct (step_media p p' Ha Hw Hs) as (E0 & E1 & E2 & E3 & V0 & K1 & K2 & K3 & (Ls & HL & V3) & PE & PE2).
  destruct Ht as (_ & T1 & T2 & T3).
  assert (I1 := idle_debye _ _ _ _ _ _ i j T1 ltac:(lia) ltac:(lia) Nd K1).
  assert (I2 := idle_drude _ _ _ _ _ _ i j T2 ltac:(lia) ltac:(lia) Nu K2).
  rewrite En in K3, T3. assert (Tq := T3 nm x q (or_introl eq_refl)).
  cbn [polar_all] in K3. apply bind_ok in K3. destruct K3 as (e2 & He2 & K3). apply bind_ok in K3. destruct K3 as ([q' E4] & Kb & K3).
  cbn [bind] in K3. injection K3 as K3 <-.
  destruct Tq as [(A & B & C & D & F) _]. apply lorentz_update_cells in Kb; [|lia]. destruct Kb as ((_ & _ & _ & _ & _ & Kc') & W & _).
  exists q'. split; [auto|]. split; [exact Kc'|]. split; [exact F|]. exists e2, (tval E4 i j). split.
  { rewrite PE2. destruct (ph_prev2E p); [|discriminate]. destruct (ph_prevE p); [|discriminate]. now injection He2 as ->. }
  destruct (W i j ltac:(lia) ltac:(lia)) as [Wc Wp]. rewrite F in Wc, Wp. rewrite D in Wc. split.
  { intros Hu. unfold Ez_at. rewrite V3, (tf_off_E _ _ _ _ Hf). now rewrite (undriven_lit _ _ _ _ _ _ _ _ Hu HL). }
  split; [exact Wp|].
  rewrite I2, I1, V0, yee_value, Ca, Cb in Wc. cbn [mat_Ca mat_Cb] in Wc. rnum.
  eapply chain_extf; [| |exact Wc]; cbn beta; intros k e Hk; rnumg; [reflexivity|].
  rewrite Full by lia. reflexivity.
Qed.
End Cell.
End Real.
