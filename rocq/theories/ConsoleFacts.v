(** Console output (C82). *)
From Coq Require Import ZArith Reals String List Bool Lia Lra.
From Flocq Require Import Core.Raux.
From Verif Require Import Scalar Base BaseFacts VecM GridM GeometryM MaterialM PmlM DftM TfsfM PolarM InterpM H5M ClockM MonitorM
  FieldM SpecGrid GridFacts OutFacts PhysFacts SpecClock ClockFacts ConsoleM SpecConsole.
Import ListNotations.
Local Open Scope Z_scope.

Section F.
Context {N : Num}.

Lemma console_snoc l : forall s s' c, run l s = Fine s' -> console (l ++ [c]) s = console l s ++ prints c s'.
Proof.
  induction l as [|d l IH]; intros s s' c H; cbn [app console run] in *.
  - injection H as ->. destruct (exec c s'); cbn; now rewrite ?app_nil_r.
  - apply obind_fine in H. destruct H as (s1 & H1 & H). rewrite H1, <- app_assoc. f_equal. now apply IH.
Qed.
Lemma since_snoc l c : since_clear (l ++ [c]) = match c with Update => since_clear l + 1 | ClearFields => 0 | _ => since_clear l end.
Proof. unfold since_clear. rewrite fold_left_app. reflexivity. Qed.
Lemma hundredth_app l c k : (k < length l)%nat -> hundredth (l ++ [c]) k = hundredth l k.
Proof.
  intros H. unfold hundredth. rewrite nth_error_app1 by exact H. rewrite firstn_app.
  replace (S k - length l)%nat with O by lia. cbn [firstn]. rewrite app_nil_r. reflexivity.
Qed.
Lemma progress_snoc l c : progress (l ++ [c]) = progress l ++ hundredth (l ++ [c]) (length l).
Proof.
  unfold progress. rewrite app_length. cbn [length]. rewrite PeanoNat.Nat.add_1_r, seq_S, map_app, concat_app. cbn [map concat].
  rewrite app_nil_r. cbn [plus]. f_equal. f_equal. apply map_ext_in. intros k Hk. apply in_seq in Hk. apply hundredth_app. lia.
Qed.
Lemma rem_mod n : Z.rem n 100 = 0 <-> n mod 100 = 0.
Proof. rewrite Z.rem_divide by lia. rewrite Z.mod_divide by lia. reflexivity. Qed.

Lemma progress_lines g name s0 l s : mk_field g name = Ok s0 -> run l s0 = Fine s -> console l s0 = progress l.
Proof.
  intros E. revert s. induction l as [|c l IH] using rev_ind; intros s H; [reflexivity|].
  rewrite run_app in H. apply obind_fine in H. destruct H as (s1 & H1 & _).
  rewrite (console_snoc l s0 s1 c H1), (IH s1 H1), progress_snoc. f_equal.
  assert (F : ph_step (f_ph s1) = since_clear l) by (eapply step_count; eauto).
  unfold hundredth. rewrite nth_error_app2 by lia. rewrite PeanoNat.Nat.sub_diag. cbn [nth_error].
  destruct c; try reflexivity. cbn [prints]. rewrite firstn_all2 by (rewrite app_length; cbn; lia). rewrite since_snoc, F.
  set (n := since_clear l + 1). destruct (Z.eqb_spec (Z.rem n 100) 0) as [A|A]; destruct (Z.eqb_spec (n mod 100) 0) as [B|B];
    try reflexivity; exfalso; [apply B, rem_mod, A|apply A, rem_mod, B].
Qed.

Definition quiet (c : cmd) : Prop := match c with Update | ClearFields => False | _ => True end.
Lemma since_quiet l : Forall quiet l -> since_clear l = 0.
Proof.
  induction l as [|c l IH] using rev_ind; intros H; [reflexivity|]. rewrite since_snoc. apply Forall_app in H.
  destruct H as [H H1]. inversion H1; subst. rewrite (IH H). destruct c; try reflexivity; contradiction.
Qed.
Lemma progress_quiet l : Forall quiet l -> progress l = [].
Proof.
  induction l as [|c l IH] using rev_ind; intros H; [reflexivity|]. rewrite progress_snoc. apply Forall_app in H.
  destruct H as [H H1]. inversion H1; subst. rewrite (IH H). unfold hundredth. rewrite nth_error_app2 by lia.
  rewrite PeanoNat.Nat.sub_diag. cbn [nth_error]. destruct c; try reflexivity; contradiction.
Qed.
Lemma since_repeat l n : Forall quiet l -> since_clear (l ++ repeat Update n) = Z.of_nat n.
Proof.
  intros Q. induction n as [|n IH]; [cbn [repeat]; rewrite app_nil_r; now apply since_quiet|].
  rewrite <- PeanoNat.Nat.add_1_r, repeat_app, app_assoc. cbn [repeat]. rewrite since_snoc, IH. lia.
Qed.
Lemma progress_repeat l n : Forall quiet l ->
  progress (l ++ repeat Update n) = map (fun k => OnStep (100 * Z.of_nat k)) (seq 1 (n / 100)).
Proof.
  intros Q. induction n as [|n IH]; [cbn [repeat]; rewrite app_nil_r; now apply progress_quiet|].
  rewrite <- PeanoNat.Nat.add_1_r, repeat_app, app_assoc. cbn [repeat].
  rewrite progress_snoc, IH. unfold hundredth. rewrite nth_error_app2 by lia. rewrite PeanoNat.Nat.sub_diag. cbn [nth_error].
  rewrite firstn_all2 by (rewrite !app_length; cbn [length]; lia). rewrite since_snoc, (since_repeat l n Q).
  assert (D := PeanoNat.Nat.div_mod (n + 1) 100 ltac:(lia)). assert (M := PeanoNat.Nat.mod_upper_bound (n + 1) 100 ltac:(lia)).
  assert (D0 := PeanoNat.Nat.div_mod n 100 ltac:(lia)). assert (M0 := PeanoNat.Nat.mod_upper_bound n 100 ltac:(lia)).
  replace (Z.of_nat n + 1) with (Z.of_nat (n + 1)) by lia.
  assert (ZM : Z.of_nat (n + 1) mod 100 = Z.of_nat ((n + 1) mod 100)) by (rewrite Nat2Z.inj_mod; reflexivity).
  destruct (Z.eqb_spec (Z.of_nat (n + 1) mod 100) 0) as [A|A].
  - assert (B : ((n + 1) mod 100 = 0)%nat) by lia. assert (C : ((n + 1) / 100 = S (n / 100))%nat) by lia.
    rewrite C, seq_S, map_app. f_equal. cbn [map]. f_equal. f_equal. lia.
  - assert (B : ((n + 1) mod 100 <> 0)%nat) by lia. assert (C : ((n + 1) / 100 = n / 100)%nat) by lia.
    rewrite C, app_nil_r. reflexivity.
Qed.

Lemma greeting_shows g name : let ls := greeting g name in
  shows ls "dx" (g_dx g) "m" /\ shows ls "dt" (g_dt g) "s" /\
  shows ls "Lx" (g_dx g * nofZ (g_Nx g))%num "m" /\ shows ls "Ly" (g_dx g * nofZ (g_Ny g))%num "m".
Proof.
  intros ls. unfold shows.
  assert (A : forall x, In x ls -> x = NewFile name \/ In x (display_info g)).
  { intros x H. unfold ls, greeting in H. apply in_app_or in H. destruct H as [H|H]; [|now right].
    destruct (String.eqb name ""); [destruct H|destruct H as [H|[]]; left; congruence]. }
  assert (B : forall x, In x (display_info g) -> In x ls) by (intros x H; apply in_or_app; now right).
  repeat match goal with |- _ /\ _ => split end; try (apply B; cbn; tauto);
    intros w u H; apply A in H; destruct H as [H|H]; try discriminate H; cbn in H;
    repeat (destruct H as [H|H]; [try discriminate H; injection H; auto|]); destruct H.
Qed.
End F.

#[local] Existing Instance RNum.
Local Open Scope R_scope.
Lemma shown_size Lx Ly rs pml (g : grid) : 0 < Lx -> 0 < Ly -> 0 < rs -> mk_grid Lx Ly rs pml = Ok g ->
  (Lx <= g_dx g * IZR (g_Nx g) < Lx + g_dx g) /\ (Ly <= g_dx g * IZR (g_Ny g) < Ly + g_dx g) /\
  g_dx g * IZR (g_Nx g) = g_Lx g + g_dx g /\ g_dx g * IZR (g_Ny g) = g_Ly g + g_dx g /\ 0 < g_dx g.
Proof.
  intros H1 H2 H3 H. destruct (mk_grid_ok _ _ _ _ _ H1 H2 H3 H) as (D & _ & _ & A & B & _).
  assert (Hi : 0 < / rs) by (now apply Rinv_0_lt_compat).
  unfold mk_grid in H. inv_ok. rename Hr into Hx. match goal with K : ofOption _ _ = Ok _ |- _ => apply ofOption_ok in K; rename K into Hy end.
  apply ofOption_ok in Hx. rnum. apply cast_i32_some in Hx, Hy. destruct Hx as [-> _], Hy as [-> _].
  cbn [g_dx g_Nx g_Ny g_Lx g_Ly] in *. 
  assert (U1 := Zceil_ub (Lx * rs)). assert (U2 := Zceil_ub (Ly * rs)).
  assert (V1 := Zceil_lb (Lx * rs)). assert (V2 := Zceil_lb (Ly * rs)).
  assert (Q : forall L n, L * rs <= n -> n < L * rs + 1 -> L <= 1 / rs * n < L + 1 / rs).
  { intros L n P1 P2. split.
    - apply Rmult_le_reg_r with rs; [exact H3|]. replace (1 / rs * n * rs) with n by (field; lra). exact P1.
    - apply Rmult_lt_reg_r with rs; [exact H3|]. replace (1 / rs * n * rs) with n by (field; lra).
      replace ((L + 1 / rs) * rs) with (L * rs + 1) by (field; lra). exact P2. }
  split; [apply Q; assumption|]. split; [apply Q; assumption|]. split; [|split; [|exact D]]; lra.
Qed.
