(** Reciprocity along a program. *)
From Coq Require Import ZArith Reals String List Bool Lia Lra Psatz.
From Verif Require Import Scalar Base BaseFacts VecM GridM GeometryM MaterialM PmlM DftM TfsfM PolarM
  InterpM H5M ClockM MonitorM FieldM SpecGrid GridFacts OutFacts PhysFacts SpecGeometry GeometryFacts SpecPaint PaintFacts WfFacts ReachFacts InvFacts
  SpecStep StepFacts EngineFacts YeeFacts SpecSource SourceFacts SpecMedium PolarFacts FullStep TextbookFacts SpecWave DarkFacts
  SafeFacts ExampleFacts FlipRun SpecCone ConeFacts SpecRestart RestartMap RestartFacts RestartRun SpecTfsf TfsfFacts TfsfRun
  SpecRim MediumFacts StrengthFacts SpecMaterial MediaFacts MaterialFacts SpecMedia MediaRun SpecTrace TraceFacts SpecEnergy EnergyFacts EnergyRun SpecLoss LossFacts LossRun
  ConvFacts ReverseFacts SpecRecip RecipFacts.
Import ListNotations.
Local Open Scope R_scope.
#[local] Existing Instance RNum.

Definition frame (a : field) (k : nat) : phys := match run (repeat Update k) a with Fine x => f_ph x | _ => f_ph a end.

Lemma no_current {M} (P : list (string * (M * polar))) nm i j : zP P -> current P nm i j = 0.
Proof.
  intros Z. unfold current. destruct (find _ P) as [[a [x q]]|] eqn:E; [|reflexivity]. apply find_some in E. destruct E as [E _]. exact (proj1 (Z a x q E) i j 0%Z).
Qed.

Section Program.
Variables (Lx Ly rs : R) (pml : Z) (g : grid) (name : string) (s0 s : field) (l0 : list cmd) (mat : Z -> Z -> material).
Hypotheses (HLx : 0 < Lx) (HLy : 0 < Ly) (Hrs : 0 < rs) (Hpml : (0 <= pml)%Z) (Eg : mk_grid Lx Ly rs pml = Ok g) (Ha : apart g).
Hypotheses (H0 : mk_field g name = Ok s0) (Hr : run l0 s0 = Fine s).
Hypotheses (Hl : forallb (fun c => negb (repositions c)) l0 = true) (Hc : ~ In ClearFields l0).
Hypotheses (Hs : Forall (fun o => SpecGeometry.shape_ok (o_geom o)) (added l0)) (Nl : forall o y, In o (added l0) -> m_kind (o_mat o) <> KLorentz y).
Hypotheses (Sr : ph_srcs (f_ph s) = []) (Tf : ph_tfsf (f_ph s) = None) (Mf : made_from g (added l0) mat).

Lemma poked_film u n x : in_plain g mat u -> run (repeat Update n) (poke u unlit unlit s) = Fine x ->
  (forall k w, (k <= n)%nat -> run (repeat Update k) (poke u unlit unlit s) = Fine w -> off_layers g (f_ph w)) ->
  film g mat n (frame (poke u unlit unlit s)).
Proof.
  intros Pu Rx Of. destruct (program_grid Lx Ly rs pml g HLx HLy Hrs Hpml Eg) as (Gok & Hd & Ht & Th).
  assert (Lo := poked_lossy g name s0 l0 s u unlit unlit mat Gok Ha H0 Hr Hl Hc Hs Nl Sr Tf Mf).
  assert (Re : reachable g s) by (apply (SafeFacts.run_reachable g s0 l0 s); [exists name, s0, []; split; [exact H0|reflexivity]|exact Hr]).
  assert (D := stays_dark g s Re Sr Tf). destruct D.
  set (a := poke u unlit unlit s) in *.
  assert (Ex : forall k, (k <= n)%nat -> exists w, run (repeat Update k) a = Fine w /\ frame a k = f_ph w).
  { intros k Hk. replace n with (k + (n - k))%nat in Rx by lia. apply run_updates_split in Rx. destruct Rx as (w & Rw & _). exists w. split; [exact Rw|]. unfold frame. now rewrite Rw. }
  assert (Of' : forall k, (k <= n)%nat -> off_layers g (frame a k)). { intros k Hk. destruct (Ex k Hk) as (w & Rw & ->). exact (Of k w Hk Rw). }
  assert (St : forall k, (k < n)%nat -> phys_step (frame a k) = Fine (frame a (S k))).
  { intros k Hk. destruct (Ex (S k) ltac:(lia)) as (w & Rw & ->). apply run_update_last in Rw. destruct Rw as (b & Rb & Eb). unfold frame. rewrite Rb. exact (exec_phys _ _ _ Eb). }
  constructor; auto.
  - induction m as [|m IH]; intros Hm; [exact Lo|]. destruct (lossy_step g mat (frame a m) (frame a (S m))) as (K & _); auto; [apply IH; lia|apply Of'; lia].
  - intros i j. unfold J_of. destruct (m_kind (mat i j)); try reflexivity; apply no_current; assumption.
Qed.

Lemma reciprocity u v n x y : in_plain g mat u -> in_plain g mat v ->
  let a := poke u unlit unlit s in let b := poke v unlit unlit s in
  run (repeat Update n) a = Fine x -> run (repeat Update n) b = Fine y ->
  (forall k w, (k <= n)%nat -> run (repeat Update k) a = Fine w -> off_layers g (f_ph w)) ->
  (forall k w, (k <= n)%nat -> run (repeat Update k) b = Fine w -> off_layers g (f_ph w)) ->
  total g (fun i j => strength (g_dt g) (mat i j) * u i j * Ez_of (f_ph y) i j) =
  total g (fun i j => strength (g_dt g) (mat i j) * v i j * Ez_of (f_ph x) i j).
Proof.
  intros Pu Pv a b Rx Ry Oa Ob. destruct (program_grid Lx Ly rs pml g HLx HLy Hrs Hpml Eg) as (Gok & Hd & Ht & Th).
  assert (K := reciprocal g mat n Hd Ht Ha Th (frame a) (frame b) (poked_film u n x Pu Rx Oa) (poked_film v n y Pv Ry Ob)).
  unfold frame in K. rewrite Rx, Ry in K. cbn [repeat run] in K. exact K.
Qed.

Lemma total_flash c f : in_grid (g_Nx g) (g_Ny g) c -> total g (fun i j => f i j * flash_at c i j) = f (fst c) (snd c).
Proof.
  destruct c as [a b]. intros [Hi Hj]. cbn [fst snd] in *. unfold total. rewrite (sumup_one _ a); [|lia|].
  - rewrite (sumup_one _ b); [|lia|]; unfold flash_at; cbn [fst snd]; rewrite !Z.eqb_refl; cbn; [ring|]. intros j Hn. replace (j =? b)%Z with false by lia. ring.
  - intros i Hn. rewrite (sumup_ext _ _ (fun _ => 0)); [apply sumup_zero|]. intros j _. unfold flash_at. cbn [fst snd]. replace (i =? a)%Z with false by lia. cbn. ring.
Qed.

Lemma there_and_back A B n x y : in_grid (g_Nx g) (g_Ny g) A -> in_grid (g_Nx g) (g_Ny g) B -> plain (mat (fst A) (snd A)) -> plain (mat (fst B) (snd B)) ->
  let a := poke (flash_at A) unlit unlit s in let b := poke (flash_at B) unlit unlit s in
  run (repeat Update n) a = Fine x -> run (repeat Update n) b = Fine y ->
  (forall k w, (k <= n)%nat -> run (repeat Update k) a = Fine w -> off_layers g (f_ph w)) ->
  (forall k w, (k <= n)%nat -> run (repeat Update k) b = Fine w -> off_layers g (f_ph w)) ->
  strength (g_dt g) (mat (fst B) (snd B)) * Ez_of (f_ph x) (fst B) (snd B) = strength (g_dt g) (mat (fst A) (snd A)) * Ez_of (f_ph y) (fst A) (snd A).
Proof.
  intros GA GB PA PB a b Rx Ry Oa Ob.
  assert (Pl : forall c, plain (mat (fst c) (snd c)) -> in_plain g mat (flash_at c)).
  { intros c Pc i j _ Hn. unfold flash_at in Hn. destruct ((i =? fst c)%Z && (j =? snd c)%Z) eqn:E; [|contradiction]. apply andb_true_iff in E. destruct E as [E1 E2]. apply Z.eqb_eq in E1, E2. now subst. }
  assert (K := reciprocity (flash_at A) (flash_at B) n x y (Pl A PA) (Pl B PB) Rx Ry Oa Ob).
  rewrite <- (total_flash A (fun i j => strength (g_dt g) (mat i j) * Ez_of (f_ph y) i j) GA).
  rewrite <- (total_flash B (fun i j => strength (g_dt g) (mat i j) * Ez_of (f_ph x) i j) GB).
  transitivity (total g (fun i j => strength (g_dt g) (mat i j) * flash_at B i j * Ez_of (f_ph x) i j)); [unfold total; apply sum2_ext; intros; ring|].
  rewrite <- K. unfold total. apply sum2_ext. intros. ring.
Qed.
End Program.
