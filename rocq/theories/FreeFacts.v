(** The free far-field functions. *)
From Coq Require Import ZArith Reals List Bool String Lia Lra.
From Verif Require Import Scalar Base VecM GridM DftM InterpM H5M MonitorM FieldM ReportM SpecGrid GridFacts SpecDft SpecSample SampleFacts MonFacts SpecStress FluxFacts FarFacts FarBox
  SpecFar RadiateFacts FreeM.
Import ListNotations.
Local Open Scope R_scope.
#[local] Existing Instance RNum.

Lemma free_zero (E H : dentry) (freq : list R) (c pc : R * R) : compute_ntff_point E H freq c pc = Ok (map (fun _ => (0, 0)) freq).
Proof.
  unfold compute_ntff_point. f_equal. induction freq as [|f l IH]; [reflexivity|]. cbn [map Datatypes.length repeat combine]. f_equal; [|exact IH].
  unfold cmul. cbn [fst snd]. rnumg. f_equal; ring.
Qed.

Lemma free_differs : ~ forall (a b : R * R) sg s m n (dx : R) (c pc : R * R) E H, mk_surface a b sg = Ok s -> a <> b -> sm_surf m = s ->
  recorded (sm_dft m) n ["Ez"%string; h_along a b] -> sm_len m = Z.of_nat n -> broadside a b c pc ->
  dft_get (sm_dft m) "Ez" = Ok E -> dft_get (sm_dft m) (h_along a b) = Ok H ->
  compute_ntff_point E H (d_freq (sm_dft m)) c pc = surf_ntff dx m c pc.
Proof.
  intros P. apply samples_count. intros a b sg s m1 m2 n1 n2 dx1 dx2 c pc e h Hs N S1 S2 F U1 U2 L1 L2 _ _ _ _ B.
  assert (G : forall m n (dx : R), sm_surf m = s -> uniform (sm_dft m) n (h_along a b) e h -> sm_len m = Z.of_nat n -> surf_ntff dx m c pc = Ok (map (fun _ => (0, 0)) (d_freq (sm_dft m)))).
  { intros m n dx Sm [Rm _] Lm. assert (X := Rm). destruct X as [_ X].
    destruct (X "Ez"%string (or_introl eq_refl)) as (E & LE & _). destruct (X (h_along a b) (or_intror (or_introl eq_refl))) as (H & LH & _).
    rewrite <- (P a b sg s m n dx c pc E H Hs N Sm Rm Lm B); [apply free_zero| |]; unfold dft_get; [now rewrite LE|now rewrite LH]. }
  rewrite (G m1 n1 dx1 S1 U1 L1), (G m2 n2 dx2 S2 U2 L2), F. reflexivity.
Qed.
(** no sample can be taken through locate *)
Lemma locate_never (N : Num) (g : @grid N) m name i v : @surf_locate N g m name i <> Ok v.
Proof. unfold surf_locate. destruct (to_grid_surface _ _); cbn; [destruct (comp_name name)| |]; discriminate. Qed.
