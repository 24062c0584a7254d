(** Superposition: update() keeps sums. *)
From Coq Require Import ZArith Reals String List Bool Lia Lra.
From Verif Require Import Scalar Base BaseFacts VecM GridM GeometryM MaterialM PmlM DftM TfsfM PolarM InterpM H5M ClockM
  MonitorM FieldM SpecGrid GridFacts OutFacts PhysFacts PaintFacts WfFacts ReachFacts SpecStep StepFacts EngineFacts YeeFacts PolarFacts SpecSource SourceFacts
  FullStep SpecCone ConeFacts ConeRun SpecSum.
Import ListNotations.
Local Open Scope Z_scope.
#[local] Existing Instance RNum.

Lemma chain_sum n fe1 fj1 fe2 fj2 fe3 fj3 (x1 y1 x2 y2 x3 y3 : R) (J1 J2 J3 : Z -> R) : 0 <= n ->
  chain n fe1 fj1 x1 y1 J1 -> chain n fe2 fj2 x2 y2 J2 -> chain n fe3 fj3 x3 y3 J3 -> (x3 = x1 + x2)%R ->
  (forall k (u v : R), 0 <= k < n -> (fe3 k (u + v) = fe1 k u + fe2 k v)%R /\ (fj3 k (u + v) = fj1 k u + fj2 k v)%R) ->
  (y3 = y1 + y2)%R /\ forall k, 0 <= k < n -> (J3 k = J1 k + J2 k)%R.
Proof.
  intros Hn (e1 & A1 & B1 & C1) (e2 & A2 & B2 & C2) (e3 & A3 & B3 & C3) E0 Hf.
  assert (K : forall d : nat, Z.of_nat d <= n -> (e3 (Z.of_nat d) = e1 (Z.of_nat d) + e2 (Z.of_nat d))%R).
  { induction d as [|d IH]; intros Hd; [cbn; rewrite A1, A2, A3; exact E0|]. replace (Z.of_nat (S d)) with (Z.of_nat d + 1) by lia.
    destruct (C1 (Z.of_nat d) ltac:(lia)) as [D1 _]. destruct (C2 (Z.of_nat d) ltac:(lia)) as [D2 _]. destruct (C3 (Z.of_nat d) ltac:(lia)) as [D3 _].
    rewrite D1, D2, D3, IH by lia. apply Hf. lia. }
  split.
  - rewrite <- B1, <- B2, <- B3. rewrite <- (Z2Nat.id n) by exact Hn. apply K. lia.
  - intros k Hk. destruct (C1 k Hk) as [_ D1]. destruct (C2 k Hk) as [_ D2]. destruct (C3 k Hk) as [_ D3]. rewrite D1, D2, D3.
    replace (e3 (k + 1)) with (e1 (k + 1)%Z + e2 (k + 1)%Z)%R; [apply Hf; exact Hk|]. rewrite <- (Z2Nat.id (k + 1)) by lia. symmetry. apply K. lia.
Qed.

Section Cell.
Variables (i j n m : Z).
Hypothesis Hi : 0 <= i < n.
Hypothesis Hj : 0 <= j < m.

Definition adds {M} (f : M -> polar -> tensor -> tensor -> res (polar * tensor)) : Prop :=
  forall x a b c pa pb pc Ea Eb Ec a1 b1 c1 Fa Fb Fc,
  (0 <= pl_n c /\ pl_Nx a = n /\ pl_Ny a = m /\ pl_Nx b = n /\ pl_Ny b = m /\ pl_Nx c = n /\ pl_Ny c = m) ->
  f x a pa Ea = Ok (a1, Fa) -> f x b pb Eb = Ok (b1, Fb) -> f x c pc Ec = Ok (c1, Fc) ->
  sum_polar i j a b c -> sums pa pb pc i j -> sums Ea Eb Ec i j -> sum_polar i j a1 b1 c1 /\ sums Fa Fb Fc i j.

Ltac keepJ U f := unfold f in U; apply bind_ok in U; destruct U as ([? ?] & _ & U); injection U as <- <-; reflexivity.

Lemma debye_adds : adds debye_update.
Proof.
  intros x a b c pa pb pc Ea Eb Ec a1 b1 c1 Fa Fb Fc (Hn & X1 & X2 & X3 & X4 & X5 & X6) U V W (S1 & S2 & S3 & S4 & S5) Hp He.
  assert (Ka : pl_pJ a1 = pl_pJ a) by keepJ U @debye_update. assert (Kb : pl_pJ b1 = pl_pJ b) by keepJ V @debye_update. assert (Kc : pl_pJ c1 = pl_pJ c) by keepJ W @debye_update.
  destruct (debye_update_cells x a pa Ea a1 Fa ltac:(lia) U) as ((_ & _ & _ & D1 & N1 & C1) & Q1 & _).
  destruct (debye_update_cells x b pb Eb b1 Fb ltac:(lia) V) as ((_ & _ & _ & D2 & N2 & C2) & Q2 & _).
  destruct (debye_update_cells x c pc Ec c1 Fc ltac:(lia) W) as ((_ & _ & _ & D3 & N3 & C3) & Q3 & _).
  specialize (Q1 i j ltac:(lia) ltac:(lia)). specialize (Q2 i j ltac:(lia) ltac:(lia)). specialize (Q3 i j ltac:(lia) ltac:(lia)).
  unfold debye_cell in Q1, Q2, Q3. rewrite S1, S3 in Q1. rewrite S2, S4 in Q2.
  destruct (chain_sum _ _ _ _ _ _ _ _ _ _ _ _ _ _ _ _ Hn Q1 Q2 Q3 He) as [Ee EJ].
  { intros k u v Hk. destruct (S5 k Hk) as (B1 & B2 & B3 & B4). rewrite B1, B2, B3. unfold sums in Hp. change (@T RNum) with R in Hp. rewrite Hp. rnum. change (@T RNum) with R. unfold Rdiv. split; ring. }
  split; [|exact Ee]. unfold sum_polar. rewrite N1, N2, N3, D1, D2, D3, C1, C2, C3, Ka, Kb, Kc. split; [exact S1|]. split; [exact S2|]. split; [exact S3|]. split; [exact S4|].
  intros k Hk. destruct (S5 k Hk) as (B1 & B2 & B3 & B4). auto.
Qed.
Lemma drude_adds : adds drude_update.
Proof.
  intros x a b c pa pb pc Ea Eb Ec a1 b1 c1 Fa Fb Fc (Hn & X1 & X2 & X3 & X4 & X5 & X6) U V W (S1 & S2 & S3 & S4 & S5) Hp He.
  assert (Ka : pl_pJ a1 = pl_pJ a) by keepJ U @drude_update. assert (Kb : pl_pJ b1 = pl_pJ b) by keepJ V @drude_update. assert (Kc : pl_pJ c1 = pl_pJ c) by keepJ W @drude_update.
  destruct (drude_update_cells x a pa Ea a1 Fa ltac:(lia) U) as ((_ & _ & _ & D1 & N1 & C1) & Q1 & _).
  destruct (drude_update_cells x b pb Eb b1 Fb ltac:(lia) V) as ((_ & _ & _ & D2 & N2 & C2) & Q2 & _).
  destruct (drude_update_cells x c pc Ec c1 Fc ltac:(lia) W) as ((_ & _ & _ & D3 & N3 & C3) & Q3 & _).
  specialize (Q1 i j ltac:(lia) ltac:(lia)). specialize (Q2 i j ltac:(lia) ltac:(lia)). specialize (Q3 i j ltac:(lia) ltac:(lia)).
  unfold drude_cell in Q1, Q2, Q3. rewrite S1, S3 in Q1. rewrite S2, S4 in Q2.
  destruct (chain_sum _ _ _ _ _ _ _ _ _ _ _ _ _ _ _ _ Hn Q1 Q2 Q3 He) as [Ee EJ].
  { intros k u v Hk. destruct (S5 k Hk) as (B1 & B2 & B3 & B4). rewrite B1, B2, B3. unfold sums in Hp. change (@T RNum) with R in Hp. rewrite Hp. rnum. change (@T RNum) with R. unfold Rdiv. split; ring. }
  split; [|exact Ee]. unfold sum_polar. rewrite N1, N2, N3, D1, D2, D3, C1, C2, C3, Ka, Kb, Kc. split; [exact S1|]. split; [exact S2|]. split; [exact S3|]. split; [exact S4|].
  intros k Hk. destruct (S5 k Hk) as (B1 & B2 & B3 & B4). auto.
Qed.
Lemma lorentz_adds : adds lorentz_update.
Proof.
  intros x a b c pa pb pc Ea Eb Ec a1 b1 c1 Fa Fb Fc (Hn & X1 & X2 & X3 & X4 & X5 & X6) U V W (S1 & S2 & S3 & S4 & S5) Hp He.
  destruct (lorentz_update_cells x a pa Ea a1 Fa ltac:(lia) U) as ((_ & _ & _ & D1 & N1 & C1) & Q1 & _).
  destruct (lorentz_update_cells x b pb Eb b1 Fb ltac:(lia) V) as ((_ & _ & _ & D2 & N2 & C2) & Q2 & _).
  destruct (lorentz_update_cells x c pc Ec c1 Fc ltac:(lia) W) as ((_ & _ & _ & D3 & N3 & C3) & Q3 & _).
  specialize (Q1 i j ltac:(lia) ltac:(lia)). specialize (Q2 i j ltac:(lia) ltac:(lia)). specialize (Q3 i j ltac:(lia) ltac:(lia)).
  unfold lorentz_cell in Q1, Q2, Q3. rewrite S1, S3 in Q1. rewrite S2, S4 in Q2. destruct Q1 as [Q1 P1], Q2 as [Q2 P2], Q3 as [Q3 P3].
  destruct (chain_sum _ _ _ _ _ _ _ _ _ _ _ _ _ _ _ _ Hn Q1 Q2 Q3 He) as [Ee EJ].
  { intros k u v Hk. destruct (S5 k Hk) as (B1 & B2 & B3 & B4). rewrite B1, B2, B3, B4. unfold sums in Hp. change (@T RNum) with R in Hp. rewrite Hp. rnum. change (@T RNum) with R. unfold Rdiv. split; ring. }
  split; [|exact Ee]. unfold sum_polar. rewrite N1, N2, N3, D1, D2, D3, C1, C2, C3. split; [exact S1|]. split; [exact S2|]. split; [exact S3|]. split; [exact S4|].
  intros k Hk. rewrite P1, P2, P3 by lia. destruct (S5 k Hk) as (B1 & B2 & B3 & B4). auto.
Qed.

Lemma polar_all_adds {M} f np prev prev2 prev3 : adds f -> sum_prev i j prev prev2 prev3 ->
  forall (P Q R : list (string * (M * polar))), sum_media i j P Q R -> forall E P' E' F Q' F' G R' G',
  pmap_dims n m np P -> pmap_dims n m np Q -> pmap_dims n m np R ->
  polar_all f prev E P = Ok (P', E') -> polar_all f prev2 F Q = Ok (Q', F') -> polar_all f prev3 G R = Ok (R', G') ->
  sums E F G i j -> sum_media i j P' Q' R' /\ sums E' F' G' i j.
Proof.
  intros Hf Hv. induction 1 as [|nm x a b c P Q R Ha HP IH]; intros E P' E' F Q' F' G R' G' HP1 HQ1 HR1 H K L He.
  - cbn [polar_all] in H, K, L. injection H as <- <-. injection K as <- <-. injection L as <- <-. split; [constructor|exact He].
  - cbn [polar_all] in H, K, L.
    inversion HP1 as [|? ? D1 HP1']; subst. inversion HQ1 as [|? ? D2 HQ1']; subst. inversion HR1 as [|? ? D3 HR1']; subst. cbn [fst snd] in D1, D2, D3.
    apply bind_ok in H. destruct H as (pe & Hpe & H). apply bind_ok in H. destruct H as ([q1 E1] & Hq & H). apply bind_ok in H. destruct H as ([P1 E2] & HP' & H).
    apply bind_ok in K. destruct K as (pf & Hpf & K). apply bind_ok in K. destruct K as ([r1 F1] & Hr & K). apply bind_ok in K. destruct K as ([Q1 F2] & HQ' & K).
    apply bind_ok in L. destruct L as (pg & Hpg & L). apply bind_ok in L. destruct L as ([w1 G1] & Hw & L). apply bind_ok in L. destruct L as ([R1 G2] & HR' & L).
    injection H as <- <-. injection K as <- <-. injection L as <- <-.
    assert (Ep : sums pe pf pg i j).
    { destruct prev, prev2, prev3; cbn in Hpe, Hpf, Hpg, Hv; try discriminate; try contradiction. injection Hpe as <-. injection Hpf as <-. injection Hpg as <-. exact Hv. }
    destruct D1 as (X1 & X2 & X3 & _), D2 as (Y1 & Y2 & Y3 & _), D3 as (Z1 & Z2 & Z3 & _).
    destruct (Hf x a b c pe pf pg E F G q1 r1 w1 E1 F1 G1) as [A B]; try assumption.
    { rewrite Z3. repeat split; try assumption; lia. }
    destruct (IH E1 P1 E2 F1 Q1 F2 G1 R1 G2 HP1' HQ1' HR1' HP' HQ' HR' B) as [A' B']. split; [|exact B']. constructor; assumption.
Qed.
End Cell.

(** ** Sources *)
Lemma add_at_sum v L i j (x y : R) : (add_at v L i j (x + y) = add_at v L i j x + y)%R.
Proof.
  unfold add_at. revert x. induction L as [|q L IH]; intros x; cbn [fold_left]; [reflexivity|].
  destruct ((fst q =? i) && (snd q =? j)); [|apply IH]. rewrite <- IH. f_equal. rnum. change (@T RNum) with R in *. ring.
Qed.
Lemma lit_sum t c i j RL : forall x y : R, (lit t RL c i j (x + y) = lit t RL c i j x + y)%R.
Proof.
  unfold lit. induction RL as [|[r L] RL IH]; intros x y; cbn [fold_left]; [reflexivity|].
  destruct (comp_eqb (sr_c r) c); [|apply IH]. rewrite add_at_sum. apply IH.
Qed.
Lemma lit_app t c i j A B x : lit t (A ++ B) c i j x = lit t B c i j (lit t A c i j x).
Proof. unfold lit. apply fold_left_app. Qed.

Lemma lit_united t c i j g a b r La Lb Lr (x y : R) : map src_core r = map src_core a ++ map src_core b ->
  Forall2 (fun r L => src_cells g (sr_kind r) L) a La -> Forall2 (fun r L => src_cells g (sr_kind r) L) b Lb -> Forall2 (fun r L => src_cells g (sr_kind r) L) r Lr ->
  (lit t (combine r Lr) c i j (x + y) = lit t (combine a La) c i j x + lit t (combine b Lb) c i j y)%R.
Proof.
  intros Hc Fa Fb Fr. rewrite <- map_app in Hc.
  assert (Fr' := cells_core g r (a ++ b) Lr Hc Fr).
  assert (EL : Lr = La ++ Lb).
  { assert (F : Forall2 (fun r L => src_cells g (sr_kind r) L) (a ++ b) (La ++ Lb)) by (apply Forall2_app; assumption).
    revert Fr' F. generalize (a ++ b), (La ++ Lb). clear. intros l. revert Lr. induction l as [|s l IH]; intros Lr M Fr F; inversion Fr; inversion F; subst; [reflexivity|].
    f_equal; [eapply src_cells_fun; eassumption|]. apply IH; assumption. }
  rewrite (lit_core t c i j r (a ++ b) Lr _ Hc), EL.
  replace (combine (a ++ b) (La ++ Lb)) with (combine a La ++ combine b Lb).
  - rewrite lit_app, lit_sum. rewrite Rplus_comm at 1. rewrite lit_sum. change (@T RNum) with R. ring.
  - clear -Fa. induction Fa; cbn [app combine]; [reflexivity|]. now rewrite IHFa.
Qed.
