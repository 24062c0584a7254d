(** The polarizations of two states that are alike at a cell stay alike there. *)
From Coq Require Import ZArith String List Bool Lia.
From Verif Require Import Scalar Base BaseFacts VecM GridM GeometryM MaterialM PmlM DftM TfsfM PolarM InterpM H5M ClockM
  MonitorM FieldM OutFacts PhysFacts PaintFacts WfFacts PolarFacts SpecSource SourceFacts SpecCone.
Import ListNotations.
Local Open Scope Z_scope.

Section Pair.
Context {N : Num}.

Lemma chain_two n fe fj fe' fj' e0 e1 J e0' e1' J' : 0 <= n -> chain n fe fj e0 e1 J -> chain n fe' fj' e0' e1' J' -> e0 = e0' ->
  (forall k x, 0 <= k < n -> fe k x = fe' k x /\ fj k x = fj' k x) -> e1 = e1' /\ forall k, 0 <= k < n -> J k = J' k.
Proof.
  intros Hn (e & A & B & C) (e' & A' & B' & C') E0 Hf.
  assert (K : forall d : nat, Z.of_nat d <= n -> e (Z.of_nat d) = e' (Z.of_nat d)).
  { induction d as [|d IH]; intros Hd; [cbn; congruence|]. replace (Z.of_nat (S d)) with (Z.of_nat d + 1) by lia.
    destruct (C (Z.of_nat d) ltac:(lia)) as [C1 _]. destruct (C' (Z.of_nat d) ltac:(lia)) as [C2 _].
    rewrite C1, C2, IH by lia. apply Hf. lia. }
  split.
  - rewrite <- B, <- B'. rewrite <- (Z2Nat.id n) by exact Hn. apply K. lia.
  - intros k Hk. destruct (C k Hk) as [_ C1]. destruct (C' k Hk) as [_ C2]. rewrite C1, C2.
    replace (e (k + 1)) with (e' (k + 1)); [apply Hf; exact Hk|]. rewrite <- (Z2Nat.id (k + 1)) by lia. symmetry. apply K. lia.
Qed.

Section Cell.
Variables (i j i' j' : Z).

Definition on_cell (q r : polar) : Prop :=
  0 <= pl_n q /\ 0 <= pl_n r /\ 0 <= i < pl_Nx q /\ 0 <= j < pl_Ny q /\ 0 <= i' < pl_Nx r /\ 0 <= j' < pl_Ny r.
Definition pairs {M} (f : M -> polar -> tensor -> tensor -> res (polar * tensor)) : Prop :=
  forall x q pe E q1 E1 r pf F r1 F1, on_cell q r -> f x q pe E = Ok (q1, E1) -> f x r pf F = Ok (r1, F1) ->
  alike i j i' j' q r -> tval pe i j = tval pf i' j' -> tval E i j = tval F i' j' ->
  alike i j i' j' q1 r1 /\ tval E1 i j = tval F1 i' j'.

Lemma debye_pairs : pairs debye_update.
Proof.
  intros x q pe E q1 E1 r pf F r1 F1 (Hq & Hr & H1 & H2 & H3 & H4) U V (A1 & A2 & A3) Hp He.
  assert (Kq : pl_pJ q1 = pl_pJ q) by (unfold debye_update in U; apply bind_ok in U; destruct U as ([? ?] & _ & U); injection U as <- <-; reflexivity).
  assert (Kr : pl_pJ r1 = pl_pJ r) by (unfold debye_update in V; apply bind_ok in V; destruct V as ([? ?] & _ & V); injection V as <- <-; reflexivity).
  destruct (debye_update_cells _ _ _ _ _ _ Hq U) as ((_ & _ & _ & D1 & N1 & C1) & Cq & _).
  destruct (debye_update_cells _ _ _ _ _ _ Hr V) as ((_ & _ & _ & D2 & N2 & C2) & Cr & _).
  specialize (Cq i j H1 H2). specialize (Cr i' j' H3 H4). unfold debye_cell in Cq, Cr. rewrite <- A1 in Cr.
  destruct (chain_two _ _ _ _ _ _ _ _ _ _ _ Hq Cq Cr He) as [Ee EJ].
  { intros k e Hk. destruct (A3 k Hk) as (B1 & B2 & B3). rewrite A2, B1, B2, Hp. auto. }
  split; [|exact Ee]. split; [congruence|]. split; [congruence|]. intros k Hk. rewrite N1 in Hk. rewrite Kq, Kr, C1, C2.
  destruct (A3 k Hk) as (B1 & B2 & B3). auto.
Qed.
Lemma drude_pairs : pairs drude_update.
Proof.
  intros x q pe E q1 E1 r pf F r1 F1 (Hq & Hr & H1 & H2 & H3 & H4) U V (A1 & A2 & A3) Hp He.
  assert (Kq : pl_pJ q1 = pl_pJ q) by (unfold drude_update in U; apply bind_ok in U; destruct U as ([? ?] & _ & U); injection U as <- <-; reflexivity).
  assert (Kr : pl_pJ r1 = pl_pJ r) by (unfold drude_update in V; apply bind_ok in V; destruct V as ([? ?] & _ & V); injection V as <- <-; reflexivity).
  destruct (drude_update_cells _ _ _ _ _ _ Hq U) as ((_ & _ & _ & D1 & N1 & C1) & Cq & _).
  destruct (drude_update_cells _ _ _ _ _ _ Hr V) as ((_ & _ & _ & D2 & N2 & C2) & Cr & _).
  specialize (Cq i j H1 H2). specialize (Cr i' j' H3 H4). unfold drude_cell in Cq, Cr. rewrite <- A1 in Cr.
  destruct (chain_two _ _ _ _ _ _ _ _ _ _ _ Hq Cq Cr He) as [Ee EJ].
  { intros k e Hk. destruct (A3 k Hk) as (B1 & B2 & B3). rewrite A2, B1, B2, Hp. auto. }
  split; [|exact Ee]. split; [congruence|]. split; [congruence|]. intros k Hk. rewrite N1 in Hk. rewrite Kq, Kr, C1, C2.
  destruct (A3 k Hk) as (B1 & B2 & B3). auto.
Qed.
Lemma lorentz_pairs : pairs lorentz_update.
Proof.
  intros x q pe E q1 E1 r pf F r1 F1 (Hq & Hr & H1 & H2 & H3 & H4) U V (A1 & A2 & A3) Hp He.
  destruct (lorentz_update_cells _ _ _ _ _ _ Hq U) as ((_ & _ & _ & D1 & N1 & C1) & Cq & _).
  destruct (lorentz_update_cells _ _ _ _ _ _ Hr V) as ((_ & _ & _ & D2 & N2 & C2) & Cr & _).
  specialize (Cq i j H1 H2). specialize (Cr i' j' H3 H4). unfold lorentz_cell in Cq, Cr. rewrite <- A1 in Cr.
  destruct Cq as [Cq Pq], Cr as [Cr Pr].
  destruct (chain_two _ _ _ _ _ _ _ _ _ _ _ Hq Cq Cr He) as [Ee EJ].
  { intros k e Hk. destruct (A3 k Hk) as (B1 & B2 & B3). rewrite A2, B1, B2, B3, Hp. auto. }
  split; [|exact Ee]. split; [congruence|]. split; [congruence|]. intros k Hk. rewrite N1 in Hk. rewrite C1, C2, Pq, Pr by lia.
  destruct (A3 k Hk) as (B1 & B2 & B3). auto.
Qed.

Definition cell_of_grids (n m n' m' : Z) : Prop := 0 <= i < n /\ 0 <= j < m /\ 0 <= i' < n' /\ 0 <= j' < m'.
Lemma polar_all_pairs {M} f np n m n' m' prev prev' : pairs f -> cell_of_grids n m n' m' ->
  forall (P Q : list (string * (M * polar))), alike_all i j i' j' P Q -> forall E P' E' F Q' F',
  pmap_dims n m np P -> pmap_dims n' m' np Q -> alike_prev i j i' j' prev prev' ->
  polar_all f prev E P = Ok (P', E') -> polar_all f prev' F Q = Ok (Q', F') ->
  tval E i j = tval F i' j' -> alike_all i j i' j' P' Q' /\ tval E' i j = tval F' i' j'.
Proof.
  intros Hf (G1 & G2 & G3 & G4). induction 1 as [|[nm [x q]] [nm' [x' r]] P Q Ha HP IH]; intros E P' E' F Q' F' HP1 HQ1 Hv H K He.
  - cbn [polar_all] in H, K. injection H as <- <-. injection K as <- <-. split; [constructor|exact He].
  - cbn [polar_all] in H, K. destruct Ha as (An & Ax & Aq). cbn [fst snd] in An, Ax, Aq. subst nm' x'.
    inversion HP1 as [|? ? D1 HP1']; subst. inversion HQ1 as [|? ? D2 HQ1']; subst. cbn [fst snd] in D1, D2.
    apply bind_ok in H. destruct H as (pe & Hpe & H). apply bind_ok in H. destruct H as ([q1 E1] & Hq & H). apply bind_ok in H. destruct H as ([P1 E2] & HP' & H).
    apply bind_ok in K. destruct K as (pf & Hpf & K). apply bind_ok in K. destruct K as ([r1 F1] & Hr & K). apply bind_ok in K. destruct K as ([Q1 F2] & HQ' & K).
    injection H as <- <-. injection K as <- <-.
    assert (Ep : tval pe i j = tval pf i' j').
    { destruct prev, prev'; cbn in Hpe, Hpf, Hv; try discriminate; try contradiction. injection Hpe as <-. injection Hpf as <-. exact Hv. }
    destruct D1 as (X1 & X2 & X3 & _), D2 as (Y1 & Y2 & Y3 & _).
    destruct (Hf x q pe E q1 E1 r pf F r1 F1) as [A B]; try assumption.
    { unfold on_cell. rewrite X1, X2, X3, Y1, Y2, Y3. repeat split; lia. }
    destruct (IH E1 P1 E2 F1 Q1 F2 HP1' HQ1' Hv HP' HQ' B) as [A' B']. split; [|exact B']. constructor; [|exact A']. split; [reflexivity|]. split; [reflexivity|exact A].
Qed.
End Cell.
End Pair.
