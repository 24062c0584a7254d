(** Energy in absorbing media along a program. *)
From Coq Require Import ZArith Reals String List Bool Lia Lra Psatz.
From Verif Require Import Scalar Base BaseFacts VecM GridM GeometryM MaterialM PmlM DftM TfsfM PolarM
  InterpM H5M ClockM MonitorM FieldM SpecGrid GridFacts OutFacts PhysFacts SpecGeometry GeometryFacts SpecPaint PaintFacts WfFacts ReachFacts InvFacts
  SpecStep StepFacts EngineFacts YeeFacts SpecSource SourceFacts SpecMedium PolarFacts FullStep TextbookFacts SpecWave DarkFacts
  SafeFacts ExampleFacts FlipRun SpecCone ConeFacts SpecRestart RestartMap RestartFacts RestartRun SpecTfsf TfsfFacts TfsfRun
  SpecRim MediumFacts StrengthFacts SpecMaterial MediaFacts MaterialFacts SpecMedia MediaRun SpecTrace TraceFacts SpecEnergy EnergyFacts EnergyRun SpecLoss LossFacts.
Import ListNotations.
Local Open Scope R_scope.
#[local] Existing Instance RNum.

Lemma loss_run g mat : 0 < g_dx g -> g_dt g = g_dx g / 2 -> apart g -> (1 <= g_pml g)%Z ->
  forall l p q r t W, lossy g mat p -> off_layers g p -> phys_step p = Fine q -> whole g mat p q <= W ->
  forallb watching l = true -> phys_run l q = Fine r -> phys_step r = Fine t ->
  (forall k x, phys_run (firstn k (l ++ [Update])) q = Fine x -> off_layers g x) ->
  whole g mat r t <= W /\ lossy g mat r /\ off_layers g r /\ off_layers g t.
Proof.
  intros Hd Ht Ha H1.
  assert (Step : forall p q r, lossy g mat p -> off_layers g p -> off_layers g q -> off_layers g r -> phys_step p = Fine q -> phys_step q = Fine r -> whole g mat q r <= whole g mat p q).
  { intros p q r L Op Oq Or Sp Sq. rewrite (loss_step g mat p q r) by assumption.
    assert (0 <= heating g mat q r) by (eapply heating_nonneg, lossy_absorbs; exact L). assert (0 < g_dt g) by lra. nra. }
  induction l as [|c l IH]; intros p q r t W Co Op Sp HW Wl R St Of.
  - cbn in R. injection R as <-. assert (Oq := Of 0%nat q eq_refl). assert (Or : off_layers g t) by (apply (Of 1%nat); cbn; rewrite St; reflexivity).
    destruct (lossy_step g mat p q) as (Cq & _); auto. split; [|auto]. eapply Rle_trans; [|exact HW]. now apply Step.
  - cbn [forallb] in Wl. apply andb_true_iff in Wl. destruct Wl as [Wc Wl]. cbn [phys_run] in R. apply obind_fine in R. destruct R as (q1 & Eq & R).
    assert (Of1 : forall k x, phys_run (firstn k (l ++ [Update])) q1 = Fine x -> off_layers g x).
    { intros k x Hx. apply (Of (S k) x). cbn [app firstn phys_run]. rewrite Eq. exact Hx. }
    assert (Oq := Of 0%nat q eq_refl). assert (Oq1 := Of1 0%nat q1 eq_refl).
    destruct (watching_phys c q q1 Wc Eq) as [[_ Sq]|[_ ->]].
    + destruct (lossy_step g mat p q) as (Cq & _); auto.
      apply (IH q q1 r t W); auto. eapply Rle_trans; [|exact HW]. now apply Step.
    + now apply (IH p q r t W).
Qed.

Lemma airy_shown g os p : ph_grid p = g -> grid_shows g os vacuum (ph_C p) -> airy g (med p).
Proof.
  intros G Hs i j Hi Hj. destruct (material_at_exists os vacuum (g_dx g * IZR i, g_dx g * IZR j)) as [k Hk].
  assert (C := Hs i j k (conj Hi Hj) Hk). unfold cell, mat_cell in C. injection C as _ _ C3 C4. unfold med, med_of. cbn [mDa mDb]. rewrite C3, C4.
  destruct k; split; reflexivity.
Qed.

Lemma poked_lossy g name s0 l0 s ez hx hy mat : grid_ok g -> apart g -> mk_field g name = Ok s0 -> run l0 s0 = Fine s ->
  forallb (fun c => negb (repositions c)) l0 = true -> ~ In ClearFields l0 ->
  Forall (fun o => SpecGeometry.shape_ok (o_geom o)) (added l0) -> (forall o y, In o (added l0) -> m_kind (o_mat o) <> KLorentz y) ->
  ph_srcs (f_ph s) = [] -> ph_tfsf (f_ph s) = None -> made_from g (added l0) mat ->
  lossy g mat (f_ph (poke ez hx hy s)).
Proof.
  intros Gok Ha H0 Hr Hl Hc Hs Nl Sr Tf Mf. assert (Re : reachable g s) by (apply (SafeFacts.run_reachable g s0 l0 s); [exists name, s0, []; split; [exact H0|reflexivity]|exact Hr]).
  destruct (reachable_good g s (apart_roomy g Ha) Re) as [W G]. assert (D := stays_dark g s Re Sr Tf). destruct D.
  assert (Cf := reachable_coefs g s Ha Re). destruct (painting_last_wins g name s0 l0 s Gok H0 Hr Hl Hs) as [Eo Sh].
  destruct (run_str g name s0 s l0 Gok H0 Hr Hl Hc Hs) as (_ & (N1 & _) & (N2 & _) & _).
  assert (Lo := no_lorentz g name s0 s l0 Gok H0 Hr Hl Hc Hs Nl).
  constructor; try assumption.
  - destruct W. constructor; try assumption.
  - exact (reachable_tame g s Re).
  - now apply (airy_shown g (added l0)).
  - now apply coefs_flat.
  - intros i j. cbn. auto.
  - intros i j. cbn. auto.
  - intros i j Hi Hj. destruct (Mf i j (conj Hi Hj)) as [Ab K]. split; [exact Ab|]. destruct (m_kind (mat i j)) as [m|x|x|x].
    + destruct K as [K1 K2]. exact (run_simple g name s0 s l0 i j m Gok H0 Hr Hl Hc Hs Hi Hj K1 K2 Nl).
    + destruct K as [K1 K2]. split; [|exact K2]. exact (run_debye g name s0 s l0 i j Gok H0 Hr Hl Hc Hs Hi Hj _ _ K1 Nl).
    + destruct K as [K1 K2]. split; [|exact K2]. exact (run_drude g name s0 s l0 i j Gok H0 Hr Hl Hc Hs Hi Hj _ _ K1 Nl).
    + destruct Ab.
Qed.

Lemma prefixes_phys g L : forall b, (exists d, run L b = Fine d) ->
  (forall k x, run (firstn k L) b = Fine x -> off_layers g (f_ph x)) ->
  forall k q, phys_run (firstn k L) (f_ph b) = Fine q -> off_layers g q.
Proof.
  induction L as [|x L IH]; intros b [d Rl] Of1 k q Hq.
  - rewrite firstn_nil in Hq. cbn in Hq. injection Hq as <-. exact (Of1 0%nat b eq_refl).
  - destruct k as [|k]; [cbn in Hq; injection Hq as <-; exact (Of1 0%nat b eq_refl)|].
    cbn [run] in Rl. apply obind_fine in Rl. destruct Rl as (b1 & E1 & Rl). assert (P1 := exec_phys _ _ _ E1).
    cbn [firstn phys_run] in Hq. rewrite P1 in Hq. cbn [obind] in Hq. apply (IH b1 (ex_intro _ d Rl) (fun k' y Hy => Of1 (S k') y ltac:(cbn [firstn run]; rewrite E1; exact Hy)) k q Hq).
Qed.

Lemma layers_there Lx Ly rs pml (g : grid) : (0 <= pml)%Z -> mk_grid Lx Ly rs pml = Ok g -> (1 <= g_pml g)%Z.
Proof. intros Hpml Eg. unfold mk_grid in Eg. inv_ok. cbn. lia. Qed.

Section Program.
Variables (Lx Ly rs : R) (pml : Z) (g : grid) (name : string) (s0 s : field) (l0 : list cmd) (mat : Z -> Z -> material) (ez hx hy : Z -> Z -> R).
Hypotheses (HLx : 0 < Lx) (HLy : 0 < Ly) (Hrs : 0 < rs) (Hpml : (0 <= pml)%Z) (Eg : mk_grid Lx Ly rs pml = Ok g) (Ha : apart g).
Hypotheses (H0 : mk_field g name = Ok s0) (Hr : run l0 s0 = Fine s).
Hypotheses (Hl : forallb (fun c => negb (repositions c)) l0 = true) (Hc : ~ In ClearFields l0).
Hypotheses (Hs : Forall (fun o => SpecGeometry.shape_ok (o_geom o)) (added l0)) (Nl : forall o y, In o (added l0) -> m_kind (o_mat o) <> KLorentz y).
Hypotheses (Sr : ph_srcs (f_ph s) = []) (Tf : ph_tfsf (f_ph s) = None) (Mf : made_from g (added l0) mat).

Lemma program_grid : grid_ok g /\ 0 < g_dx g /\ g_dt g = g_dx g / 2 /\ (1 <= g_pml g)%Z.
Proof.
  assert (Gok := mk_grid_ok Lx Ly rs pml g HLx HLy Hrs Eg). split; [exact Gok|]. destruct Gok as (Hd & _ & _ & _ & _ & Ht2).
  split; [exact Hd|]. split; [lra|]. now apply (layers_there Lx Ly rs pml).
Qed.

Lemma never_gains l b c d : let a := poke ez hx hy s in
  exec Update a = Fine b -> forallb watching l = true -> run l b = Fine c -> exec Update c = Fine d ->
  (forall k x, run (firstn k (Update :: l ++ [Update])) a = Fine x -> off_layers g (f_ph x)) ->
  whole g mat (f_ph c) (f_ph d) <= whole g mat (f_ph a) (f_ph b) /\
  electric g (eps_map mat) (f_ph d) <= 2 * whole g mat (f_ph a) (f_ph b) /\
  magnetic g (f_ph d) <= 2 * whole g mat (f_ph a) (f_ph b).
Proof.
  intros a Ea Wl R Ec Of. destruct program_grid as (Gok & Hd & Ht & Th).
  assert (Lo := poked_lossy g name s0 l0 s ez hx hy mat Gok Ha H0 Hr Hl Hc Hs Nl Sr Tf Mf). fold a in Lo.
  assert (Oa := Of 0%nat a eq_refl).
  assert (Pa := exec_phys _ _ _ Ea). assert (Pc := exec_phys _ _ _ Ec). assert (Pl := run_phys _ _ _ R). cbn [phys_exec] in Pa, Pc.
  assert (Of1 : forall k x, run (firstn k (l ++ [Update])) b = Fine x -> off_layers g (f_ph x)).
  { intros k x Hx. apply (Of (S k)). cbn [firstn run]. rewrite Ea. exact Hx. }
  assert (Rl : run (l ++ [Update]) b = Fine d) by (rewrite run_app, R; cbn [obind run]; rewrite Ec; reflexivity).
  destruct (loss_run g mat Hd Ht Ha Th l (f_ph a) (f_ph b) (f_ph c) (f_ph d) (whole g mat (f_ph a) (f_ph b))) as (K & Lc & Oc & Od); auto; [lra| |].
  { exact (prefixes_phys g _ b (ex_intro _ d Rl) Of1). }
  destruct (loss_bounds g mat (f_ph c) (f_ph d)) as [B1 B2]; auto. split; [exact K|]. split; lra.
Qed.

Lemma heat_balance l b c d e : let a := poke ez hx hy s in
  exec Update a = Fine b -> forallb watching l = true -> run l b = Fine c -> exec Update c = Fine d -> exec Update d = Fine e ->
  (forall k x, run (firstn k (Update :: l ++ [Update; Update])) a = Fine x -> off_layers g (f_ph x)) ->
  whole g mat (f_ph d) (f_ph e) = whole g mat (f_ph c) (f_ph d) - 2 * g_dt g * heating g mat (f_ph d) (f_ph e) /\
  0 <= heating g mat (f_ph d) (f_ph e).
Proof.
  intros a Ea Wl R Ec Ed Of. destruct program_grid as (Gok & Hd & Ht & Th).
  assert (Lo := poked_lossy g name s0 l0 s ez hx hy mat Gok Ha H0 Hr Hl Hc Hs Nl Sr Tf Mf). fold a in Lo.
  assert (Oa := Of 0%nat a eq_refl).
  assert (Pa := exec_phys _ _ _ Ea). assert (Pc := exec_phys _ _ _ Ec). assert (Pd := exec_phys _ _ _ Ed). assert (Pl := run_phys _ _ _ R). cbn [phys_exec] in Pa, Pc, Pd.
  assert (Of1 : forall k x, run (firstn k (l ++ [Update; Update])) b = Fine x -> off_layers g (f_ph x)).
  { intros k x Hx. apply (Of (S k)). cbn [firstn run]. rewrite Ea. exact Hx. }
  assert (Rl : run (l ++ [Update; Update]) b = Fine e) by (rewrite run_app, R; cbn [obind run]; rewrite Ec; cbn [obind]; rewrite Ed; reflexivity).
  assert (Of2 := prefixes_phys g _ b (ex_intro _ e Rl) Of1).
  destruct (loss_run g mat Hd Ht Ha Th l (f_ph a) (f_ph b) (f_ph c) (f_ph d) (whole g mat (f_ph a) (f_ph b))) as (K & Lc & Oc & Od); auto; [lra| |].
  { intros k q Hq. replace (l ++ [Update; Update]) with ((l ++ [Update]) ++ [Update]) in Of2 by (rewrite <- app_assoc; reflexivity).
    destruct (Nat.le_gt_cases k (Datatypes.length (l ++ [Update]))) as [Hk|Hk].
    - apply (Of2 k). rewrite firstn_app. replace (k - _)%nat with 0%nat by lia. rewrite firstn_O, app_nil_r. exact Hq.
    - apply (Of2 (Datatypes.length (l ++ [Update]))). rewrite firstn_app, Nat.sub_diag, firstn_O, app_nil_r, firstn_all. rewrite firstn_all2 in Hq by lia. exact Hq. }
  assert (Oe : off_layers g (f_ph e)).
  { apply (Of2 (Datatypes.length (l ++ [Update; Update]))). rewrite firstn_all. exact (run_phys _ _ _ Rl). }
  split; [now apply loss_step|]. eapply heating_nonneg, lossy_absorbs, Lc.
Qed.
End Program.
