(** Concrete runs in double arithmetic for C18: one that stays dark and one that turns into NaN. *)
From Coq Require Import ZArith String List Bool Lia.
From Flocq Require Import IEEE754.BinarySingleNaN.
From Verif Require Import Scalar Base BaseFacts VecM GridM GeometryM MaterialM PmlM DftM TfsfM PolarM
  InterpM H5M ClockM MonitorM FieldM OutFacts PhysFacts WfFacts ReachFacts SafetyFacts SpecSafety SafeFacts ExampleFacts Float SpecZeroPml ZeroPmlFacts SpecDark DarkRun.
Import ListNotations.
Local Open Scope Z_scope.

(** *** a run that turns into NaN *)
Lemma zero_field_case (L : libm) : exists (g : @grid (B64 L)) s0 s', mk_grid (N := B64 L) (nofZ 8) (nofZ 8) (nofZ 1) 0 = Ok g /\
  g_Nx g = 8 /\ g_Ny g = 8 /\ mk_field g "out" = Ok s0 /\ run [Update; Update; Update] s0 = Fine s'.
Proof.
  assert (C : nceil (Num := B64 L) (nmul (Num := B64 L) (nofZ (Num := B64 L) 8) (nofZ (Num := B64 L) 1)) = Some 8) by (vm_compute; reflexivity).
  assert (E : exists g : @grid (B64 L), mk_grid (N := B64 L) (nofZ 8) (nofZ 8) (nofZ 1) 0 = Ok g /\
    g_Nx g = 8 /\ g_Ny g = 8 /\ g_pml g = 1).
  { unfold mk_grid. rewrite C. cbn [ofOption bind]. eexists. split; [reflexivity|]. cbn [g_Nx g_Ny g_pml]. repeat split. }
  destruct E as (g & E & Nx & Ny & P).
  assert (Hr : roomy g) by (unfold roomy; lia).
  destruct (mk_field_fresh g "out"%string) as (p & Ep & E0); [exact Hr|discriminate|].
  destruct (mk_phys_ok g Hr) as (p' & Ep' & Hw & Gp & Sp & Tp & Op & Np). rewrite Ep in Ep'. injection Ep' as <-.
  set (s := Field p [] [] [] (fresh_h5 g) mk_clocks).
  destruct (updates_ok 3 s) as (s' & Hs' & _); unfold s; cbn [f_ph f_mons f_tmons]; try reflexivity; try exact Hw.
  - now rewrite Gp.
  - split; [rewrite Sp; apply Forall_nil|rewrite Tp; discriminate].
  - split; reflexivity.
  - rewrite Np. unfold INT_MIN. lia.
  - rewrite Np. unfold INT_MAX. lia.
  - exists g, s, s'. repeat (split; [assumption|]). exact Hs'.
Qed.
Lemma dark_fails (L : libm) : nan_libm L -> exists (g : @grid (B64 L)) s0 s, mk_grid (N := B64 L) (nofZ 8) (nofZ 8) (nofZ 1) 0 = Ok g /\
  mk_field g "out" = Ok s0 /\ run [Update; Update; Update] s0 = Fine s /\
  (forall i j, 1 <= i < 7 -> 1 <= j < 7 -> tval (fEz (ph_F (f_ph s))) i j = B754_nan) /\ ~ all_dark (N := B64 L) zero64 (f_ph s).
Proof.
  intros HL. destruct (zero_field_case L) as (g & s0 & s & Eg & Nx & Ny & E0 & Hr).
  assert (R : reachable g s0) by (exists "out"%string, s0, []; split; [exact E0|reflexivity]).
  assert (A : forall i j, 1 <= i < 7 -> 1 <= j < 7 -> tval (fEz (ph_F (f_ph s))) i j = B754_nan).
  { intros i j Hi Hj. apply (zero_pml L HL _ _ _ g s0 3 s i j Eg); try lia; auto. rewrite Nx, Ny. now apply reach3. }
  exists g, s0, s. repeat (split; [assumption|]). intros (K & _). specialize (K 3 3). rewrite A in K by lia. exact K.
Qed.

(** *** a run that stays dark: simple library functions, one object of every material *)
Definition toy_pow (x : f64) (n : Z) : f64 := Pos.iter (f64_mul x) (f64_ofZ 1) (Z.to_pos n).
Definition toy : libm := Libm (fun _ => f64_div (f64_ofZ 1) (f64_ofZ 2)) (fun _ => f64_ofZ 0) (fun _ => f64_ofZ 1) toy_pow.
#[local] Instance toyNum : Num := B64 toy.
Definition stuff (n : string) (k : mat_kind) (x : Z) : obj :=
  Obj n false (Block (nofZ 3, nofZ 3)) (Material n k) (nofZ x, nofZ x) (nofZ 0).
Definition toy_cmds : list cmd :=
  [AddObject (stuff "glass" (KSimple (Simple (nofZ 2) (nofZ 1) (nofZ 1))) 2);
   AddObject (stuff "water" (KDebye (Debye (nofZ 2) [DPole (nofZ 1) (nofZ 3); DPole (nofZ 2) (nofZ 1)])) 4); Update;
   AddObject (stuff "metal" (KDrude (Drude (nofZ 1) [UPole (nofZ 1) (nofQ 1 8)])) 5); Update;
   AddObject (stuff "gas" (KLorentz (Lorentz (nofZ 1) [LPole (nofZ 1) (nofZ 1) (nofQ 1 4)])) 3); Update;
   UpdateMaterialGrid; Update; ClearFields; Update; Update].

Definition fin64b (x : f64) : bool := is_finite x.
Definition dvs64b (x : f64) : bool := match x with B754_zero _ | B754_nan => false | _ => true end.
Lemma fin64P x : fin64b x = true -> finite64 x. Proof. exact (fun H => H). Qed.
Lemma dvs64P x : dvs64b x = true -> divisor64 x. Proof. destruct x; cbn; auto; discriminate. Qed.
Fixpoint upto (f : Z -> bool) (n : nat) : bool := match n with O => true | S m => f (Z.of_nat m) && upto f m end.
Lemma uptoP f n i : upto f n = true -> 0 <= i < Z.of_nat n -> f i = true.
Proof.
  induction n as [|n IH]; intros H Hi; [lia|]. cbn in H. apply andb_prop in H. destruct H as [A B].
  destruct (Z.eq_dec i (Z.of_nat n)) as [->|]; [exact A|apply IH; auto; lia].
Qed.
Definition arrb (f : f64 -> bool) (a : arr) : bool := upto (fun i => f (aval a i)) (Z.to_nat (alen a)).
Lemma arrP f (P : f64 -> Prop) a : (forall x, f x = true -> P x) -> arrb f a = true -> all_arr P a.
Proof. intros Hf H i Hi. apply Hf. refine (uptoP _ _ i H _). lia. Qed.
Lemma forallP {A} f (P : A -> Prop) l : (forall x, f x = true -> P x) -> forallb f l = true -> Forall P l.
Proof. intros Hf H. rewrite forallb_forall in H. apply Forall_forall. auto. Qed.
Definition calmb (k : mat_kind) (dt : f64) : bool :=
  fin64b (mat_Ca k dt) && fin64b (mat_Cb k dt) && fin64b (mat_Da k dt) && fin64b (mat_Db k dt) &&
  match k with
  | KSimple _ => true
  | KDebye x => forallb (fun kp => fin64b kp && fin64b (debye_Cb x dt * half * (1 + kp))%num) (debye_kappa x dt) && forallb (fun b => fin64b (b / dt)%num) (debye_beta x dt)
  | KDrude x => forallb (fun kp => fin64b kp && fin64b (drude_Cb x dt * half * (1 + kp))%num) (drude_kappa x dt) && forallb fin64b (drude_beta x dt)
  | KLorentz x => fin64b (lorentz_Ca_prev x dt) && fin64b (lorentz_Cb x dt * half)%num && forallb (fun al => fin64b al && fin64b (1 + al)%num) (lorentz_alpha x dt) &&
      forallb fin64b (lorentz_beta x dt) && forallb (fun d => fin64b (d / (2 * dt))%num) (lorentz_delta x dt)
  end.
Lemma calmP k dt : calmb k dt = true -> calm finite64 k dt.
Proof.
  unfold calmb, calm. intros H. apply andb_prop in H. destruct H as [H K]. repeat (apply andb_prop in H; destruct H as [H ?]).
  repeat (split; [apply fin64P; assumption|]). destruct k; [exact Logic.I|..]; repeat (apply andb_prop in K; destruct K as [K ?]).
  - split; (eapply forallP; [|eassumption]); cbv beta; intros x Hx; [apply andb_prop in Hx; destruct Hx; split|]; now apply fin64P.
  - split; (eapply forallP; [|eassumption]); cbv beta; intros x Hx; [apply andb_prop in Hx; destruct Hx; split|]; now apply fin64P.
  - split; [now apply fin64P|]. split; [now apply fin64P|]. repeat split; (eapply forallP; [|eassumption]); cbv beta; intros x Hx; [apply andb_prop in Hx; destruct Hx; split|..]; now apply fin64P.
Qed.
Definition startb (g : grid) (s : field) : bool :=
  dvs64b (g_dt g) && dvs64b (2 * g_dt g)%num && calmb vacuum (g_dt g) &&
  let b := ph_pml (f_ph s) in let c := p_coef b in let sc := ph_sc (f_ph s) in
  dvs64b (p_dx (p_par b)) && forallb (arrb fin64b) [be_x c; ce_x c; bh_x c; ch_x c; be_y c; ce_y c; bh_y c; ch_y c] &&
  forallb (arrb dvs64b) [kedx sc; khdx sc; kedy sc; khdy sc].
Lemma startP g s : startb g s = true -> calm_start finite64 divisor64 g s.
Proof.
  unfold startb, calm_start. cbv zeta. intros H. apply andb_prop in H. destruct H as [H K]. repeat (apply andb_prop in H; destruct H as [H ?]).
  apply andb_prop in K. destruct K as [K K3]. apply andb_prop in K. destruct K as [K1 K2].
  rewrite forallb_forall in K2, K3. unfold calm_pml.
  split; [now apply dvs64P|]. split; [now apply dvs64P|]. split; [now apply calmP|]. split; [now apply dvs64P|].
  repeat split; first [apply (arrP fin64b _ _ fin64P), K2; cbn; tauto | apply (arrP dvs64b _ _ dvs64P), K3; cbn; tauto].
Qed.
Definition cmdb (dt : f64) (c : cmd) : bool := match c with AddSource _ | SetTfsf _ _ => false | AddObject o => calmb (m_kind (o_mat o)) dt | _ => true end.
Lemma cmdP dt c : cmdb dt c = true -> unlit_cmd finite64 dt c.
Proof. destruct c; cbn; try discriminate; auto. apply calmP. Qed.

Definition toy_ok : bool :=
  match mk_grid (nofZ 8) (nofZ 8) (nofZ 1) 2 with
  | Ok g => match mk_field g "out" with
            | Ok s0 => startb g s0 && forallb (cmdb (g_dt g)) toy_cmds && match run toy_cmds s0 with Fine _ => true | _ => false end
            | _ => false end
  | _ => false end.
Lemma toy_case : exists g s0 s, mk_grid (nofZ 8) (nofZ 8) (nofZ 1) 2 = Ok g /\ mk_field g "out" = Ok s0 /\ calm_start finite64 divisor64 g s0 /\
  Forall (unlit_cmd finite64 (g_dt g)) toy_cmds /\ run toy_cmds s0 = Fine s.
Proof.
  assert (H : toy_ok = true) by (vm_compute; reflexivity). unfold toy_ok in H.
  destruct (mk_grid _ _ _ _) as [g| |]; [|discriminate..]. destruct (mk_field g "out") as [s0| |] eqn:E0; [|discriminate..].
  apply andb_prop in H. destruct H as [H H3]. apply andb_prop in H. destruct H as [H1 H2]. destruct (run toy_cmds s0) as [s| |] eqn:Er; [|discriminate..].
  exists g, s0, s. split; [reflexivity|]. split; [exact E0|]. split; [now apply startP|]. split; [|exact Er].
  apply (forallP _ _ _ (cmdP _) H2).
Qed.
