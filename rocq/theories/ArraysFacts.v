(** Parameter arrays and poles (C81). *)
From Coq Require Import ZArith List Bool Lia.
From Verif Require Import Scalar Base MaterialM ArraysM.
Import ListNotations.
Local Open Scope Z_scope.

Section F.
Context {N : Num}.

Lemma each2_map A (f : T -> T -> T) (u v : A -> T) l : each2 f (map u l) (map v l) = Ok (map (fun p => f (u p) (v p)) l).
Proof.
  unfold each2. rewrite !map_length, PeanoNat.Nat.eqb_refl. f_equal.
  induction l as [|p l IH]; cbn; [reflexivity|]. f_equal. exact IH.
Qed.
Lemma each2_bad (f : T -> T -> T) a b : length a <> length b -> each2 f a b = UB SizeMismatch.
Proof. intros H. unfold each2. now rewrite (proj2 (PeanoNat.Nat.eqb_neq _ _) H). Qed.

Lemma zip2 A (c : T -> T -> A) (u v : A -> T) : (forall x y, u (c x y) = x) -> (forall x y, v (c x y) = y) ->
  forall a b, length a = length b -> exists l, map u l = a /\ map v l = b.
Proof.
  intros Hu Hv. induction a as [|x a IH]; intros [|y b] E; try discriminate; [exists []; auto|].
  destruct (IH b) as (l & Ea & Eb); [cbn in E; lia|]. exists (c x y :: l). cbn. now rewrite Hu, Hv, Ea, Eb.
Qed.
Lemma zip3 A (c : T -> T -> T -> A) (u v w : A -> T) : (forall x y z, u (c x y z) = x) -> (forall x y z, v (c x y z) = y) ->
  (forall x y z, w (c x y z) = z) ->
  forall a b d, length a = length b -> length a = length d -> exists l, map u l = a /\ map v l = b /\ map w l = d.
Proof.
  intros Hu Hv Hw. induction a as [|x a IH]; intros [|y b] [|z d] E F; try discriminate; [exists []; auto|].
  destruct (IH b d) as (l & Ea & Eb & Ed); [cbn in E; lia|cbn in F; lia|]. exists (c x y z :: l).
  cbn. now rewrite Hu, Hv, Hw, Ea, Eb, Ed.
Qed.

Lemma debye_arrays eps (l : list dpole) : let m := ADebye eps (map dp_deps l) (map dp_tau l) in let p := Debye eps l in
  ad_npoles m = Z.of_nat (length l) /\
  forall dt, ad_beta m dt = Ok (debye_beta p dt) /\ ad_kappa m dt = Ok (debye_kappa p dt) /\ ad_Cb m dt = Ok (debye_Cb p dt).
Proof.
  intros m p. split; [unfold ad_npoles; cbn; now rewrite map_length|]. intros dt.
  assert (B : ad_beta m dt = Ok (debye_beta p dt)).
  { unfold ad_beta. cbn [m ad_deps ad_tau]. rewrite !map_map, each2_map. cbn [bind]. rewrite each2_map. reflexivity. }
  split; [exact B|]. split; [unfold ad_kappa; cbn [m ad_tau]; rewrite !map_map, each2_map; reflexivity|].
  unfold ad_Cb. rewrite B. reflexivity.
Qed.
Lemma drude_arrays eps (l : list upole) : let m := ADrude eps (map up_omega l) (map up_gamma l) in let p := Drude eps l in
  au_npoles m = Z.of_nat (length l) /\
  forall dt, au_beta m dt = Ok (drude_beta p dt) /\ au_kappa m dt = Ok (drude_kappa p dt) /\ au_Ca m dt = Ok (drude_Ca p dt) /\
    au_Cb m dt = Ok (drude_Cb p dt).
Proof.
  intros m p. split; [unfold au_npoles; cbn; now rewrite map_length|]. intros dt.
  assert (B : au_beta m dt = Ok (drude_beta p dt)).
  { unfold au_beta. cbn [m au_omega au_gamma]. rewrite !map_map, each2_map. reflexivity. }
  split; [exact B|]. split; [unfold au_kappa; cbn [m au_gamma]; rewrite !map_map, each2_map; reflexivity|].
  unfold au_Ca, au_Cb. rewrite B. auto.
Qed.
Lemma lorentz_arrays eps (l : list lpole) :
  let m := ALorentz eps (map lp_omega l) (map lp_deps l) (map lp_gamma l) in let p := Lorentz eps l in
  al_npoles m = Z.of_nat (length l) /\
  forall dt, al_alpha m dt = Ok (lorentz_alpha p dt) /\ al_beta m dt = Ok (lorentz_beta p dt) /\
    al_delta m dt = Ok (lorentz_delta p dt) /\ al_Ca_prev m dt = Ok (lorentz_Ca_prev p dt) /\
    al_Ca m dt = Ok (lorentz_Ca p dt) /\ al_Cb m dt = Ok (lorentz_Cb p dt).
Proof.
  intros m p. split; [unfold al_npoles; cbn; now rewrite map_length|]. intros dt.
  assert (B : al_delta m dt = Ok (lorentz_delta p dt)).
  { unfold al_delta. cbn [m al_omega al_deps al_gamma]. rewrite !map_map, each2_map. cbn [bind].
    rewrite !map_map, each2_map. reflexivity. }
  split; [unfold al_alpha; cbn [m al_omega al_gamma]; rewrite !map_map, each2_map; reflexivity|].
  split; [unfold al_beta; cbn [m al_gamma]; rewrite !map_map, each2_map; reflexivity|].
  split; [exact B|]. unfold al_Ca_prev, al_Ca, al_Cb. rewrite B. auto.
Qed.
Lemma merge_arrays eu (u : list upole) el (l : list lpole) : let p := drude_lorentz (Drude eu u) (Lorentz el l) in
  adrude_lorentz (ADrude eu (map up_omega u) (map up_gamma u)) (ALorentz el (map lp_omega l) (map lp_deps l) (map lp_gamma l)) =
  Ok (ALorentz (lo_eps p) (map lp_omega (lo_poles p)) (map lp_deps (lo_poles p)) (map lp_gamma (lo_poles p))).
Proof.
  intros p. unfold adrude_lorentz, au_npoles, al_npoles, comma2.
  cbn [au_omega au_gamma au_eps al_omega al_deps al_gamma].
  rewrite !map_map, !map_length, !repeat_length, <- !Nat2Z.inj_add, !Z.eqb_refl. cbn [bind]. unfold mk_alorentz.
  subst p. cbn [drude_lorentz lo_eps lo_poles dr_eps dr_poles]. rewrite !map_app, !map_map. cbn [lp_omega lp_deps lp_gamma].
  do 2 f_equal. f_equal. induction u as [|x u IH]; cbn; [reflexivity|]. f_equal. exact IH.
Qed.

Lemma debye_unequal eps deps tau : length deps <> length tau -> exists m, mk_adebye eps deps tau = Ok m /\
  forall dt, ad_beta m dt = UB SizeMismatch /\ ad_Cb m dt = UB SizeMismatch.
Proof.
  intros H. eexists. split; [reflexivity|]. intros dt.
  assert (B : ad_beta (ADebye eps deps tau) dt = UB SizeMismatch).
  { unfold ad_beta. cbn [ad_deps ad_tau]. rewrite each2_bad; [reflexivity|]. now rewrite map_length. }
  split; [exact B|]. unfold ad_Cb. now rewrite B.
Qed.
Lemma drude_unequal eps omega gamma : length omega <> length gamma -> exists m, mk_adrude eps omega gamma = Ok m /\
  forall dt, au_beta m dt = UB SizeMismatch /\ au_Ca m dt = UB SizeMismatch /\ au_Cb m dt = UB SizeMismatch.
Proof.
  intros H. eexists. split; [reflexivity|]. intros dt.
  assert (B : au_beta (ADrude eps omega gamma) dt = UB SizeMismatch).
  { unfold au_beta. cbn [au_omega au_gamma]. apply each2_bad. now rewrite !map_length. }
  split; [exact B|]. unfold au_Ca, au_Cb. now rewrite B.
Qed.
Lemma lorentz_unequal eps omega deps gamma : (length omega <> length deps \/ length omega <> length gamma) ->
  exists m, mk_alorentz eps omega deps gamma = Ok m /\
  forall dt, al_delta m dt = UB SizeMismatch /\ al_Ca m dt = UB SizeMismatch /\ al_Cb m dt = UB SizeMismatch.
Proof.
  intros H. eexists. split; [reflexivity|]. intros dt.
  assert (B : al_delta (ALorentz eps omega deps gamma) dt = UB SizeMismatch).
  { unfold al_delta. cbn [al_omega al_deps al_gamma].
    destruct (PeanoNat.Nat.eq_dec (length deps) (length omega)) as [E|E].
    - unfold each2 at 1. rewrite map_length, E, PeanoNat.Nat.eqb_refl. cbn [bind]. apply each2_bad.
      rewrite !map_length, combine_length, map_length, E. destruct H as [H|H]; lia.
    - rewrite each2_bad; [reflexivity|]. rewrite map_length. exact E. }
  split; [exact B|]. unfold al_Ca, al_Cb. now rewrite B.
Qed.
(** gammas that are missing in one material and left over in the other pass unnoticed *)
Lemma merge_unequal (d : adrude) (l : alorentz) : length (al_omega l) = length (al_deps l) ->
  (length (au_omega d) + length (al_omega l) = length (au_gamma d) + length (al_gamma l))%nat ->
  exists m, adrude_lorentz d l = Ok m /\ forall dt, exists c, al_Cb m dt = Ok c.
Proof.
  intros E F. unfold adrude_lorentz, comma2, au_npoles, al_npoles. rewrite !map_length, !repeat_length.
  replace (Z.of_nat (length (au_omega d)) + Z.of_nat (length (al_omega l)) =? _) with true by (symmetry; apply Z.eqb_eq; lia).
  cbn [bind].
  replace (Z.of_nat (length (au_omega d)) + Z.of_nat (length (al_omega l)) =? _) with true by (symmetry; apply Z.eqb_eq; lia).
  cbn [bind].
  replace (Z.of_nat (length (au_omega d)) + Z.of_nat (length (al_omega l)) =? _) with true by (symmetry; apply Z.eqb_eq; lia).
  cbn [bind]. eexists. split; [reflexivity|]. intros dt. unfold al_Cb, al_delta. cbn [al_omega al_deps al_gamma].
  unfold each2 at 1. rewrite !map_length, !app_length, !map_length, !repeat_length, E, PeanoNat.Nat.eqb_refl. cbn [bind].
  unfold each2. rewrite !map_length, combine_length, !map_length, !app_length, !map_length, !repeat_length.
  rewrite (proj2 (PeanoNat.Nat.eqb_eq _ _)) by lia. cbn [bind]. eauto.
Qed.
End F.
