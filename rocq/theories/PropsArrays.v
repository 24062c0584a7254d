(** C81: parameter arrays of materials. *)
From Coq Require Import ZArith Reals List Bool Lia.
From Verif Require Import Scalar Base MaterialM ArraysM ArraysFacts.
Import ListNotations.
Local Open Scope Z_scope.

(** true part: arrays of equal lengths are one pole per entry, and every function of the class is that of MaterialM *)
Theorem C81_debye_partial : forall (N : Num) (eps : T) (deps tau : list T), length deps = length tau ->
  exists m l, mk_adebye eps deps tau = Ok m /\ map dp_deps l = deps /\ map dp_tau l = tau /\ ad_npoles m = Z.of_nat (length deps) /\
  forall dt, ad_beta m dt = Ok (debye_beta (Debye eps l) dt) /\ ad_kappa m dt = Ok (debye_kappa (Debye eps l) dt) /\
    ad_Cb m dt = Ok (mat_Cb (KDebye (Debye eps l)) dt).
Proof.
  intros N eps deps tau H. destruct (zip2 dpole DPole dp_deps dp_tau (fun _ _ => eq_refl) (fun _ _ => eq_refl) deps tau H) as (l & <- & <-).
  exists (ADebye eps (map dp_deps l) (map dp_tau l)), l. destruct (debye_arrays eps l) as (A & B).
  repeat split; auto; apply B.
Qed.
Print Assumptions C81_debye_partial.
Theorem C81_drude_partial : forall (N : Num) (eps : T) (omega gamma : list T), length omega = length gamma ->
  exists m l, mk_adrude eps omega gamma = Ok m /\ map up_omega l = omega /\ map up_gamma l = gamma /\
  au_npoles m = Z.of_nat (length omega) /\
  forall dt, au_beta m dt = Ok (drude_beta (Drude eps l) dt) /\ au_kappa m dt = Ok (drude_kappa (Drude eps l) dt) /\
    au_Ca m dt = Ok (mat_Ca (KDrude (Drude eps l)) dt) /\ au_Cb m dt = Ok (mat_Cb (KDrude (Drude eps l)) dt).
Proof.
  intros N eps omega gamma H.
  destruct (zip2 upole UPole up_omega up_gamma (fun _ _ => eq_refl) (fun _ _ => eq_refl) omega gamma H) as (l & <- & <-).
  exists (ADrude eps (map up_omega l) (map up_gamma l)), l. destruct (drude_arrays eps l) as (A & B).
  repeat split; auto; apply B.
Qed.
Print Assumptions C81_drude_partial.
Theorem C81_lorentz_partial : forall (N : Num) (eps : T) (omega deps gamma : list T), length omega = length deps ->
  length omega = length gamma -> exists m l, mk_alorentz eps omega deps gamma = Ok m /\
  map lp_omega l = omega /\ map lp_deps l = deps /\ map lp_gamma l = gamma /\ al_npoles m = Z.of_nat (length omega) /\
  forall dt, al_alpha m dt = Ok (lorentz_alpha (Lorentz eps l) dt) /\ al_beta m dt = Ok (lorentz_beta (Lorentz eps l) dt) /\
    al_delta m dt = Ok (lorentz_delta (Lorentz eps l) dt) /\ al_Ca_prev m dt = Ok (lorentz_Ca_prev (Lorentz eps l) dt) /\
    al_Ca m dt = Ok (mat_Ca (KLorentz (Lorentz eps l)) dt) /\ al_Cb m dt = Ok (mat_Cb (KLorentz (Lorentz eps l)) dt).
Proof.
  intros N eps omega deps gamma H H2.
  destruct (zip3 lpole LPole lp_omega lp_deps lp_gamma (fun _ _ _ => eq_refl) (fun _ _ _ => eq_refl) (fun _ _ _ => eq_refl)
    omega deps gamma H H2) as (l & <- & <- & <-).
  exists (ALorentz eps (map lp_omega l) (map lp_deps l) (map lp_gamma l)), l. destruct (lorentz_arrays eps l) as (A & B).
  repeat split; auto; apply B.
Qed.
Print Assumptions C81_lorentz_partial.
Example C81_equal (N : Num) : @length T [nofZ 1; nofZ 2; nofZ 3] = @length T [nofZ 4; nofZ 5; nofZ 6].
Proof. reflexivity. Qed.

(** C81 is false: arrays of different lengths are taken, and the first coefficient asked for is undefined *)
Theorem C81_debye_refuted : forall (N : Num) (eps : T) (deps tau : list T), length deps <> length tau ->
  exists m, mk_adebye eps deps tau = Ok m /\ forall dt, ad_beta m dt = UB SizeMismatch /\ ad_Cb m dt = UB SizeMismatch.
Proof. exact @debye_unequal. Qed.
Print Assumptions C81_debye_refuted.
Theorem C81_drude_refuted : forall (N : Num) (eps : T) (omega gamma : list T), length omega <> length gamma ->
  exists m, mk_adrude eps omega gamma = Ok m /\
  forall dt, au_beta m dt = UB SizeMismatch /\ au_Ca m dt = UB SizeMismatch /\ au_Cb m dt = UB SizeMismatch.
Proof. exact @drude_unequal. Qed.
Print Assumptions C81_drude_refuted.
Theorem C81_lorentz_refuted : forall (N : Num) (eps : T) (omega deps gamma : list T),
  (length omega <> length deps \/ length omega <> length gamma) -> exists m, mk_alorentz eps omega deps gamma = Ok m /\
  forall dt, al_delta m dt = UB SizeMismatch /\ al_Ca m dt = UB SizeMismatch /\ al_Cb m dt = UB SizeMismatch.
Proof. exact @lorentz_unequal. Qed.
Print Assumptions C81_lorentz_refuted.
Example C81_unequal (N : Num) : @length T [nofZ 1; nofZ 2] <> @length T [nofZ 4].
Proof. discriminate. Qed.

(** drude_lorentz of well-formed materials is the merge of MaterialM *)
Theorem C81_merge_partial : forall (N : Num) (eu el : T) (u : list upole) (l : list lpole),
  exists p, p = drude_lorentz (Drude eu u) (Lorentz el l) /\
  adrude_lorentz (ADrude eu (map up_omega u) (map up_gamma u)) (ALorentz el (map lp_omega l) (map lp_deps l) (map lp_gamma l)) =
  Ok (ALorentz (lo_eps p) (map lp_omega (lo_poles p)) (map lp_deps (lo_poles p)) (map lp_gamma (lo_poles p))).
Proof. intros N eu el u l. eexists. split; [reflexivity|]. apply merge_arrays. Qed.
Print Assumptions C81_merge_partial.
(** but two malformed materials can merge into one that passes for well formed *)
Theorem C81_merge_refuted : forall (N : Num) (d : adrude) (l : alorentz), length (au_omega d) <> length (au_gamma d) ->
  length (al_omega l) = length (al_deps l) ->
  (length (au_omega d) + length (al_omega l) = length (au_gamma d) + length (al_gamma l))%nat ->
  exists m, adrude_lorentz d l = Ok m /\ forall dt, exists c, al_Cb m dt = Ok c.
Proof. intros N d l _. apply merge_unequal. Qed.
Print Assumptions C81_merge_refuted.
Example C81_merge_case (N : Num) : exists (d : adrude) (l : alorentz), length (au_omega d) <> length (au_gamma d) /\
  length (al_omega l) = length (al_deps l) /\
  (length (au_omega d) + length (al_omega l) = length (au_gamma d) + length (al_gamma l))%nat.
Proof.
  exists (ADrude (nofZ 1) [nofZ 2; nofZ 3] [nofZ 4]), (ALorentz (nofZ 1) [nofZ 5] [nofZ 6] [nofZ 7; nofZ 8]).
  cbn. repeat split; lia.
Qed.
