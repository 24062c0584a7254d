(** Array sizes: every state a program can reach is well-formed, and well-formed states
    never index out of range. *)
From Coq Require Import ZArith String List Bool Lia.
From Verif Require Import Scalar Base BaseFacts VecM GridM GeometryM MaterialM PmlM DftM TfsfM PolarM
  InterpM H5M ClockM MonitorM FieldM OutFacts PhysFacts PaintFacts.
Import ListNotations.
Local Open Scope Z_scope.

Section Wf.
Context {N : Num}.

Definition tdims (n m : Z) (a : tensor) : Prop := rows a = n /\ cols a = m.
Definition t3dims (n m k : Z) (a : tensor3) : Prop := dim1 a = n /\ dim2 a = m /\ dim3 a = k.
Definition fdims (n m : Z) (F : fields) : Prop :=
  tdims n m (fEz F) /\ tdims n m (fHx F) /\ tdims n m (fHy F).
Definition cdims (n m : Z) (c : coefs) : Prop :=
  tdims n m (cCa c) /\ tdims n m (cCb c) /\ tdims n m (cDa c) /\ tdims n m (cDb c).
Definition coef_dims (n m : Z) (c : pml_coef) : Prop :=
  (alen (be_x c) = n /\ alen (ce_x c) = n /\ alen (bh_x c) = n /\ alen (ch_x c) = n) /\
  (alen (be_y c) = m /\ alen (ce_y c) = m /\ alen (bh_y c) = m /\ alen (ch_y c) = m).
Definition psi_dims (n m th : Z) (s : pml_psi) : Prop :=
  (tdims (th + 1) m (Ezx1 s) /\ tdims (th + 1) m (Ezx2 s) /\
   tdims n (th + 1) (Ezy1 s) /\ tdims n (th + 1) (Ezy2 s)) /\
  (tdims n (th + 1) (Hxy1 s) /\ tdims n (th + 1) (Hxy2 s) /\
   tdims (th + 1) m (Hyx1 s) /\ tdims (th + 1) m (Hyx2 s)).
Definition sc_dims (n m : Z) (s : scaling) : Prop :=
  alen (kedx s) = n /\ alen (khdx s) = n /\ alen (kedy s) = m /\ alen (khdy s) = m.
Definition polar_dims (n m : Z) (np : nat) (q : polar) : Prop :=
  pl_Nx q = n /\ pl_Ny q = m /\ pl_n q = Z.of_nat np /\
  t3dims n m (pl_n q) (pl_J q) /\ t3dims n m (pl_n q) (pl_c q) /\ t3dims n m (pl_n q) (pl_pJ q).
Definition pmap_dims {M} (n m : Z) (np : M -> nat) (P : list (string * (M * polar))) : Prop :=
  Forall (fun e => polar_dims n m (np (fst (snd e))) (snd (snd e))) P.

(** the sizes of the auxiliary line of a TFSF source *)
Definition tfsf_dims (q : tfsf) : Prop :=
  q_N q = Z.abs (q_ja q - q_jb q) + 5 /\
  (alen (q_E q) = q_N q /\ alen (q_D q) = q_N q /\ alen (q_H q) = q_N q /\ alen (q_I q) = q_N q /\
   alen (q_ca q) = q_N q /\ alen (q_cb q) = q_N q) /\
  (forall d, q_dft q = Some d -> forall e, In e (d_map d) -> fst e = "E"%string \/ fst e = "H"%string).
(** a TFSF region inside the grid, one cell away from the lower edges *)
Definition tfsf_placed (n m : Z) (q : tfsf) : Prop :=
  1 <= q_ia q < n /\ 1 <= q_ib q < n /\ 1 <= q_ja q < m /\ 1 <= q_jb q < m.

(** a source whose cells are in the grid *)
Definition field_comp (c : comp) : Prop := c = Ez \/ c = Hx \/ c = Hy.
Definition in_cells (g : grid) (q : ivec) : Prop := 0 <= fst q < g_Nx g /\ 0 <= snd q < g_Ny g.
Definition kind_ok (g : grid) (k : src_kind) : Prop :=
  match k with
  | SPoint p => exists q, to_grid g p = Ok q /\ in_cells g q
  | SLine s => exists l, to_grid_surface g s = Ok l /\ Forall (in_cells g) (line_cells l)
  end.
Definition src_ok (g : grid) (r : source) : Prop := field_comp (sr_c r) /\ kind_ok g (sr_kind r).

(** dispersive objects of the list have their polarization *)
Definition keys_ok (p : phys) (o : obj) : Prop :=
  match m_kind (o_mat o) with
  | KSimple _ => True
  | KDebye _ => slookup (m_name (o_mat o)) (ph_debye p) <> None
  | KDrude _ => slookup (m_name (o_mat o)) (ph_drude p) <> None
  | KLorentz _ => slookup (m_name (o_mat o)) (ph_lorentz p) <> None
  end.

Record wf_phys (p : phys) : Prop := WfPhys {
  wf_F : fdims (g_Nx (ph_grid p)) (g_Ny (ph_grid p)) (ph_F p);
  wf_C : cdims (g_Nx (ph_grid p)) (g_Ny (ph_grid p)) (ph_C p);
  wf_par : p_par (ph_pml p) = mk_pml_par (ph_grid p);
  wf_coef : coef_dims (g_Nx (ph_grid p)) (g_Ny (ph_grid p)) (p_coef (ph_pml p));
  wf_psi : psi_dims (g_Nx (ph_grid p)) (g_Ny (ph_grid p)) (g_pml (ph_grid p)) (p_psi (ph_pml p));
  wf_sc : sc_dims (g_Nx (ph_grid p)) (g_Ny (ph_grid p)) (ph_sc p);
  wf_prevE : forall t, ph_prevE p = Some t -> tdims (g_Nx (ph_grid p)) (g_Ny (ph_grid p)) t;
  wf_prev2E : forall t, ph_prev2E p = Some t -> tdims (g_Nx (ph_grid p)) (g_Ny (ph_grid p)) t;
  wf_debye : pmap_dims (g_Nx (ph_grid p)) (g_Ny (ph_grid p)) np_debye (ph_debye p);
  wf_drude : pmap_dims (g_Nx (ph_grid p)) (g_Ny (ph_grid p)) np_drude (ph_drude p);
  wf_lorentz : pmap_dims (g_Nx (ph_grid p)) (g_Ny (ph_grid p)) np_lorentz (ph_lorentz p);
  wf_debye_prev : ph_debye p <> [] -> ph_prevE p <> None;
  wf_drude_prev : ph_drude p <> [] -> ph_prevE p <> None;
  wf_lorentz_prev : ph_lorentz p <> [] -> ph_prev2E p <> None;
  wf_prev2_prev : ph_prev2E p <> None -> ph_prevE p <> None;
  wf_keys : Forall (keys_ok p) (ph_objs p);
  wf_tfsf : forall q, ph_tfsf p = Some q -> tfsf_dims q }.

(** sources and TFSF region inside the grid *)
Definition placed (p : phys) : Prop :=
  Forall (src_ok (ph_grid p)) (ph_srcs p) /\
  (forall q, ph_tfsf p = Some q -> tfsf_placed (g_Nx (ph_grid p)) (g_Ny (ph_grid p)) q).

(** grids on which the loops stay inside the arrays *)
Definition roomy (g : grid) : Prop := 0 <= g_pml g /\ g_pml g + 2 <= g_Nx g /\ g_pml g + 2 <= g_Ny g.

(** ** Tensors *)
Lemma tdims_tupd n m a i j v : tdims n m a -> tdims n m (tupd a i j v).
Proof. auto. Qed.
Lemma tget_dims n m a i j : tdims n m a -> 0 <= i < n -> 0 <= j < m -> tget a i j = Ok (tval a i j).
Proof. intros [<- <-]. apply tget_ok. Qed.
Lemma tset_dims n m a i j v : tdims n m a -> 0 <= i < n -> 0 <= j < m -> tset a i j v = Ok (tupd a i j v).
Proof. intros [<- <-]. apply tset_ok. Qed.
Lemma tset_keeps n m a i j v b : tset a i j v = Ok b -> tdims n m a -> tdims n m b.
Proof. intros H. apply tset_inv in H. destruct H as [-> _]. auto. Qed.
Lemma aget_len n a i : alen a = n -> 0 <= i < n -> aget a i = Ok (aval a i).
Proof. intros <-. apply aget_ok. Qed.
Lemma aset_len n a i v : alen a = n -> 0 <= i < n ->
  exists b, aset a i v = Ok b /\ alen b = n.
Proof. intros <- H. rewrite aset_ok by exact H. eexists; split; reflexivity. Qed.
Lemma tconst_inv n m v a : tconst n m v = Ok a -> tdims n m a /\ 0 <= n /\ 0 <= m.
Proof.
  unfold tconst. destruct (0 <=? n) eqn:E1, (0 <=? m) eqn:E2; cbn [andb]; intros H; inv_ok.
  split; [split; reflexivity|lia].
Qed.
Lemma tconst_ok n m v : 0 <= n -> 0 <= m -> tconst n m v = Ok (Tensor n m (fun _ _ => v)).
Proof. intros H1 H2. unfold tconst. replace (0 <=? n) with true by lia. now replace (0 <=? m) with true by lia. Qed.
Lemma aconst_ok n v : 0 <= n -> aconst n v = Ok (Arr n (fun _ => v)).
Proof. intros H. unfold aconst. now replace (0 <=? n) with true by lia. Qed.

(** rewrite every access whose bounds follow by arithmetic *)
Ltac acc :=
  repeat (first
    [ erewrite aget_len by (eassumption || lia)
    | erewrite tget_dims by (eassumption || (eapply tdims_tupd; eassumption) || lia)
    | erewrite tset_dims by (eassumption || (eapply tdims_tupd; eassumption) || lia) ]; cbn [bind]).

(** ** Construction *)
Lemma mk_pml_coef_ok p : 0 <= p_th p -> p_th p + 1 <= p_Nx p -> p_th p + 1 <= p_Ny p ->
  exists c, mk_pml_coef p = Ok c /\ coef_dims (p_Nx p) (p_Ny p) c.
Proof.
  intros H1 H2 H3. unfold mk_pml_coef. rewrite !aconst_ok by lia. cbn [bind].
  apply for_up_total; [repeat split|].
  intros i c Hi ((A1 & A2 & A3 & A4) & (B1 & B2 & B3 & B4)). unfold coef_step.
  rewrite !aset_ok by lia. cbn [bind]. eexists. split; [reflexivity|]. repeat split; cbn; assumption.
Qed.

Lemma set_scaling_ok p : p_th p <= p_Nx p -> p_th p <= p_Ny p -> 0 <= p_Nx p -> 0 <= p_Ny p ->
  exists s, set_scaling p = Ok s /\ sc_dims (p_Nx p) (p_Ny p) s.
Proof.
  intros H1 H2 H3 H4. unfold set_scaling. rewrite !aconst_ok by lia. cbn [bind].
  apply for_up_total; [repeat split|].
  intros i s Hi (A1 & A2 & A3 & A4). unfold scaling_step.
  repeat (rewrite aset_ok by (cbn [alen]; lia); cbn [bind]).
  eexists. split; [reflexivity|]. repeat split; cbn; assumption.
Qed.

Lemma mk_pml_ok g : 0 <= g_pml g -> g_pml g + 1 <= g_Nx g -> g_pml g + 1 <= g_Ny g ->
  exists b, mk_pml g = Ok b /\ p_par b = mk_pml_par g /\ coef_dims (g_Nx g) (g_Ny g) (p_coef b) /\
    psi_dims (g_Nx g) (g_Ny g) (g_pml g) (p_psi b).
Proof.
  intros H1 H2 H3. unfold mk_pml.
  destruct (mk_pml_coef_ok (mk_pml_par g)) as [c [Ec Hc]]; [cbn; lia..|]. rewrite Ec. cbn [bind].
  unfold mk_pml_psi. cbn [p_th p_Nx p_Ny mk_pml_par]. rewrite !tconst_ok by lia. cbn [bind].
  eexists. split; [reflexivity|]. split; [reflexivity|]. split; [exact Hc|]. repeat split.
Qed.

Lemma clear_coefs_total g bg c : cdims (g_Nx g) (g_Ny g) c ->
  exists c', clear_coefs g bg c = Ok c' /\ cdims (g_Nx g) (g_Ny g) c'.
Proof.
  intros Hc. unfold clear_coefs. apply for2_total; [exact Hc|].
  intros i j a Hi Hj (A1 & A2 & A3 & A4). acc. eexists. split; [reflexivity|]. repeat split; apply A1 || apply A2 || apply A3 || apply A4.
Qed.

Definition snug (g : grid) : Prop := 0 <= g_pml g /\ g_pml g + 1 <= g_Nx g /\ g_pml g + 1 <= g_Ny g.

Lemma mk_phys_snug g : snug g ->
  exists p, mk_phys g = Ok p /\ wf_phys p /\ ph_grid p = g /\ ph_srcs p = [] /\ ph_tfsf p = None /\
    ph_objs p = [] /\ ph_step p = 0.
Proof.
  intros (H0 & H1 & H2). unfold mk_phys. rewrite tconst_ok by lia. cbn [bind].
  set (z := Tensor (g_Nx g) (g_Ny g) (fun _ _ => 0%num)).
  assert (Hz : tdims (g_Nx g) (g_Ny g) z) by (split; reflexivity).
  destruct (clear_coefs_total g vacuum (Coefs z z z z)) as [c [Ec Hc]]; [repeat split|]. rewrite Ec. cbn [bind].
  destruct (mk_pml_ok g) as [b [Eb [Hp [Hcf Hps]]]]; [lia..|]. rewrite Eb. cbn [bind]. rewrite Hp.
  destruct (set_scaling_ok (mk_pml_par g)) as [s [Es Hs]]; [cbn; lia..|]. rewrite Es. cbn [bind].
  eexists. split; [reflexivity|]. split; [|auto].
  constructor; cbn; auto; try discriminate; try congruence; try (repeat split; fail); constructor.
Qed.

Lemma mk_phys_ok g : roomy g ->
  exists p, mk_phys g = Ok p /\ wf_phys p /\ ph_grid p = g /\ ph_srcs p = [] /\ ph_tfsf p = None /\
    ph_objs p = [] /\ ph_step p = 0.
Proof. intros (H0 & H1 & H2). apply mk_phys_snug. split; [exact H0|lia]. Qed.

(** ** The phases of a step *)
Section Step.
Variable p : phys.
Hypothesis Hg : roomy (ph_grid p).
Hypothesis Hwf : wf_phys p.
Notation n := (g_Nx (ph_grid p)).
Notation m := (g_Ny (ph_grid p)).
Notation th := (g_pml (ph_grid p)).

Lemma E_loop_total : exists E, E_loop (ph_grid p) (ph_C p) (ph_sc p) (fHx (ph_F p)) (fHy (ph_F p)) (fEz (ph_F p)) = Ok E
  /\ tdims n m E.
Proof.
  destruct (wf_F p Hwf) as (F1 & F2 & F3). destruct (wf_C p Hwf) as (C1 & C2 & C3 & C4).
  destruct (wf_sc p Hwf) as (S1 & S2 & S3 & S4).
  unfold E_loop. apply for2_total; [exact F1|].
  intros i j E Hi Hj HE. unfold E_body. acc. eexists; split; [reflexivity|]. exact HE.
Qed.

Lemma H_loop_total : exists hx hy, H_loop (ph_grid p) (ph_C p) (ph_sc p) (fEz (ph_F p)) (fHx (ph_F p)) (fHy (ph_F p)) = Ok (hx, hy)
  /\ tdims n m hx /\ tdims n m hy.
Proof.
  destruct (wf_F p Hwf) as (F1 & F2 & F3). destruct (wf_C p Hwf) as (C1 & C2 & C3 & C4).
  destruct (wf_sc p Hwf) as (S1 & S2 & S3 & S4).
  unfold H_loop.
  destruct (for2_total (fun s : tensor * tensor => tdims n m (fst s) /\ tdims n m (snd s))
     (fun i j s => H_body (ph_C p) (ph_sc p) (fEz (ph_F p)) i j s) 1 (g_Nx (ph_grid p) - 1) 1 (g_Ny (ph_grid p) - 1)
     (fHx (ph_F p), fHy (ph_F p))) as [[hx hy] [E HE]]; [auto| |].
  - intros i j [hx hy] Hi Hj [A B]. cbn [fst snd] in *. unfold H_body. acc.
    eexists; split; [reflexivity|]. auto.
  - exists hx, hy. auto.
Qed.

Definition dims3 (n1 m1 : Z) (s : tensor * tensor * tensor) : Prop :=
  tdims n1 m1 (fst (fst s)) /\ tdims n1 m1 (snd (fst s)) /\ tdims n m (snd s).

Lemma pml_update_E_total : exists b E,
  pml_update_E (ph_pml p) (cCb (ph_C p)) (fHx (ph_F p)) (fHy (ph_F p)) (fEz (ph_F p)) = Ok (b, E)
  /\ tdims n m E /\ p_par b = mk_pml_par (ph_grid p) /\ p_coef b = p_coef (ph_pml p) /\
  psi_dims n m th (p_psi b).
Proof.
  destruct (wf_F p Hwf) as (F1 & F2 & F3). destruct (wf_C p Hwf) as (C1 & C2 & C3 & C4).
  destruct (wf_coef p Hwf) as ((A1 & A2 & A3 & A4) & (B1 & B2 & B3 & B4)).
  destruct (wf_psi p Hwf) as ((P1 & P2 & P3 & P4) & (Q1 & Q2 & Q3 & Q4)).
  destruct Hg as (G0 & G1 & G2).
  unfold pml_update_E. rewrite (wf_par p Hwf).
  destruct (for2_total (dims3 n (th + 1))
     (fun i j s => Ey_body (mk_pml_par (ph_grid p)) (p_coef (ph_pml p)) (cCb (ph_C p)) (fHx (ph_F p)) i j s)
     1 (n - 1) 1 (th + 1) (Ezy1 (p_psi (ph_pml p)), Ezy2 (p_psi (ph_pml p)), fEz (ph_F p)))
    as [[[y1 y2] E1] [HE1 (D1 & D2 & D3)]].
  { repeat split; apply P3 || apply P4 || apply F1. }
  { intros i j [[s1 s2] E] Hi Hj (D1 & D2 & D3). cbn [fst snd] in D1, D2, D3. unfold Ey_body.
    cbn [p_Nx p_Ny mk_pml_par]. acc. eexists; split; [reflexivity|]. repeat split; apply D1 || apply D2 || apply D3. }
  unfold pml_Ey. cbn [p_Nx p_th mk_pml_par]. rewrite HE1. cbn [bind]. cbn [fst snd] in D1, D2, D3.
  destruct (for2_total (dims3 (th + 1) m)
     (fun i j s => Ex_body (mk_pml_par (ph_grid p)) (p_coef (ph_pml p)) (cCb (ph_C p)) (fHy (ph_F p)) i j s)
     1 (th + 1) 1 (m - 1) (Ezx1 (p_psi (ph_pml p)), Ezx2 (p_psi (ph_pml p)), E1))
    as [[[x1 x2] E2] [HE2 (D4 & D5 & D6)]].
  { repeat split; apply P1 || apply P2 || apply D3. }
  { intros i j [[s1 s2] E] Hi Hj (D4 & D5 & D6). cbn [fst snd] in D4, D5, D6. unfold Ex_body.
    cbn [p_Nx p_Ny mk_pml_par]. acc. eexists; split; [reflexivity|]. repeat split; apply D4 || apply D5 || apply D6. }
  unfold pml_Ex. cbn [p_Ny p_th mk_pml_par]. rewrite HE2. cbn [bind]. cbn [fst snd] in D4, D5, D6.
  eexists; eexists. split; [reflexivity|]. cbn [p_par p_coef p_psi]. split; [exact D6|]. split; [reflexivity|].
  split; [reflexivity|]. unfold psi_dims. cbn. auto 10.
Qed.

Lemma pml_update_H_total : exists b hx hy,
  pml_update_H (ph_pml p) (cDb (ph_C p)) (fEz (ph_F p)) (fHx (ph_F p)) (fHy (ph_F p)) = Ok (b, hx, hy)
  /\ tdims n m hx /\ tdims n m hy /\ p_par b = mk_pml_par (ph_grid p) /\ p_coef b = p_coef (ph_pml p) /\
  psi_dims n m th (p_psi b).
Proof.
  destruct (wf_F p Hwf) as (F1 & F2 & F3). destruct (wf_C p Hwf) as (C1 & C2 & C3 & C4).
  destruct (wf_coef p Hwf) as ((A1 & A2 & A3 & A4) & (B1 & B2 & B3 & B4)).
  destruct (wf_psi p Hwf) as ((P1 & P2 & P3 & P4) & (Q1 & Q2 & Q3 & Q4)).
  destruct Hg as (G0 & G1 & G2).
  unfold pml_update_H. rewrite (wf_par p Hwf).
  destruct (for2_total (dims3 n (th + 1))
     (fun i j s => Hx_body (mk_pml_par (ph_grid p)) (p_coef (ph_pml p)) (cDb (ph_C p)) (fEz (ph_F p)) i j s)
     1 (n - 1) 1 th (Hxy1 (p_psi (ph_pml p)), Hxy2 (p_psi (ph_pml p)), fHx (ph_F p)))
    as [[[y1 y2] E1] [HE1 (D1 & D2 & D3)]].
  { repeat split; apply Q1 || apply Q2 || apply F2. }
  { intros i j [[s1 s2] E] Hi Hj (D1 & D2 & D3). cbn [fst snd] in D1, D2, D3. unfold Hx_body.
    cbn [p_Nx p_Ny mk_pml_par]. acc. eexists; split; [reflexivity|]. repeat split; apply D1 || apply D2 || apply D3. }
  unfold pml_Hx. cbn [p_Nx p_th mk_pml_par]. rewrite HE1. cbn [bind]. cbn [fst snd] in D1, D2, D3.
  destruct (for2_total (dims3 (th + 1) m)
     (fun i j s => Hy_body (mk_pml_par (ph_grid p)) (p_coef (ph_pml p)) (cDb (ph_C p)) (fEz (ph_F p)) i j s)
     1 th 1 (m - 1) (Hyx1 (p_psi (ph_pml p)), Hyx2 (p_psi (ph_pml p)), fHy (ph_F p)))
    as [[[x1 x2] E2] [HE2 (D4 & D5 & D6)]].
  { repeat split; apply Q3 || apply Q4 || apply F3. }
  { intros i j [[s1 s2] E] Hi Hj (D4 & D5 & D6). cbn [fst snd] in D4, D5, D6. unfold Hy_body.
    cbn [p_Nx p_Ny mk_pml_par]. acc. eexists; split; [reflexivity|]. repeat split; apply D4 || apply D5 || apply D6. }
  unfold pml_Hy. cbn [p_Ny p_th mk_pml_par]. rewrite HE2. cbn [bind]. cbn [fst snd] in D4, D5, D6.
  eexists; eexists; eexists. split; [reflexivity|]. cbn [p_par p_coef p_psi]. split; [exact D3|]. split; [exact D6|].
  split; [reflexivity|]. split; [reflexivity|]. unfold psi_dims. cbn. auto 10.
Qed.
End Step.

(** ** Polarization currents *)
Lemma lget_ok l k : 0 <= k < Z.of_nat (length l) -> lget l k = Ok (nth (Z.to_nat k) l 0%num).
Proof. intros H. unfold lget. apply inr_true in H. now rewrite H. Qed.
Lemma t3get_dims n m q a i j k : t3dims n m q a -> 0 <= i < n -> 0 <= j < m -> 0 <= k < q ->
  t3get a i j k = Ok (t3val a i j k).
Proof. intros (<- & <- & <-). apply t3get_ok. Qed.
Lemma t3set_dims n m q a i j k v : t3dims n m q a -> 0 <= i < n -> 0 <= j < m -> 0 <= k < q ->
  t3set a i j k v = Ok (t3upd a i j k v).
Proof. intros (<- & <- & <-). apply t3set_ok. Qed.
Ltac acc3 :=
  repeat (first
    [ rewrite lget_ok by (rewrite ?map_length; lia)
    | erewrite t3get_dims by (eassumption || lia)
    | erewrite t3set_dims by (eassumption || lia)
    | erewrite tget_dims by (eassumption || (eapply tdims_tupd; eassumption) || lia)
    | erewrite tset_dims by (eassumption || (eapply tdims_tupd; eassumption) || lia) ]; cbn [bind]).

Lemma for3_total {A} (P : A -> Prop) (body : Z -> Z -> Z -> A -> res A) n m q a :
  P a -> (forall i j k a, 0 <= i < n -> 0 <= j < m -> 0 <= k < q -> P a -> exists a', body i j k a = Ok a' /\ P a') ->
  exists a', for_up 0 n (fun i a => for_up 0 m (fun j a => for_up 0 q (fun k a => body i j k a) a) a) a = Ok a' /\ P a'.
Proof.
  intros H0 Hs. apply for_up_total; [exact H0|]. intros i b Hi Hb. apply for_up_total; [exact Hb|].
  intros j c Hj Hc. apply for_up_total; auto.
Qed.

Definition polar_fun_ok {M} (n m : Z) (np : M -> nat) (f : M -> polar -> tensor -> tensor -> res (polar * tensor)) : Prop :=
  forall x q pe E, polar_dims n m (np x) q -> tdims n m pe -> tdims n m E ->
  exists q' E', f x q pe E = Ok (q', E') /\ polar_dims n m (np x) q' /\ tdims n m E'.

Lemma debye_update_ok n m : polar_fun_ok n m np_debye debye_update.
Proof.
  intros x q pe E (Q1 & Q2 & Q3 & Q4 & Q5 & Q6) Hp HE. unfold debye_update. rewrite Q1, Q2.
  edestruct (for3_total (fun s : tensor * tensor3 => tdims n m (fst s) /\ t3dims n m (pl_n q) (snd s))
    (fun i j k s => debye_body q (debye_kappa x (pl_dt q)) (debye_Cb x (pl_dt q)) pe i j k s) n m (pl_n q) (E, pl_J q))
    as [[E' J'] [H1 [H2 H3]]]; [auto| |].
  - intros i j k [E1 J1] Hi Hj Hk [D1 D2]. cbn [fst snd] in *. unfold debye_body.
    assert (Hl : length (debye_kappa x (pl_dt q)) = np_debye x) by (unfold debye_kappa; apply map_length).
    rewrite <- Hl in Q3. acc3. eexists. split; [reflexivity|]. split; [exact D1|exact D2].
  - rewrite H1. cbn [bind]. eexists. eexists. split; [reflexivity|]. split; [|exact H2].
    repeat split; cbn; auto; try apply Q5; try apply Q6; apply H3.
Qed.
Lemma drude_update_ok n m : polar_fun_ok n m np_drude drude_update.
Proof.
  intros x q pe E (Q1 & Q2 & Q3 & Q4 & Q5 & Q6) Hp HE. unfold drude_update. rewrite Q1, Q2.
  edestruct (for3_total (fun s : tensor * tensor3 => tdims n m (fst s) /\ t3dims n m (pl_n q) (snd s))
    (fun i j k s => drude_body q (drude_kappa x (pl_dt q)) (drude_Cb x (pl_dt q)) pe i j k s) n m (pl_n q) (E, pl_J q))
    as [[E' J'] [H1 [H2 H3]]]; [auto| |].
  - intros i j k [E1 J1] Hi Hj Hk [D1 D2]. cbn [fst snd] in *. unfold drude_body.
    assert (Hl : length (drude_kappa x (pl_dt q)) = np_drude x) by (unfold drude_kappa; apply map_length).
    rewrite <- Hl in Q3. acc3. eexists. split; [reflexivity|]. split; [exact D1|exact D2].
  - rewrite H1. cbn [bind]. eexists. eexists. split; [reflexivity|]. split; [|exact H2].
    repeat split; cbn; auto; try apply Q5; try apply Q6; apply H3.
Qed.
Lemma lorentz_update_ok n m : polar_fun_ok n m np_lorentz lorentz_update.
Proof.
  intros x q pe E (Q1 & Q2 & Q3 & Q4 & Q5 & Q6) Hp HE. unfold lorentz_update. rewrite Q1, Q2.
  edestruct (for3_total (fun s : tensor * tensor3 * tensor3 =>
      tdims n m (fst (fst s)) /\ t3dims n m (pl_n q) (snd (fst s)) /\ t3dims n m (pl_n q) (snd s))
    (fun i j k s => lorentz_body q (lorentz_alpha x (pl_dt q)) (lorentz_beta x (pl_dt q))
       (lorentz_Cb x (pl_dt q)) (lorentz_Ca_prev x (pl_dt q)) pe i j k s) n m (pl_n q) (E, pl_J q, pl_pJ q))
    as [[[E' J'] pJ'] [H1 [H2 [H3 H4]]]]; [auto| |].
  - intros i j k [[E1 J1] pJ1] Hi Hj Hk (D1 & D2 & D3). cbn [fst snd] in *. unfold lorentz_body.
    assert (Hl : length (lorentz_alpha x (pl_dt q)) = np_lorentz x) by (unfold lorentz_alpha; apply map_length).
    assert (Hl' : length (lorentz_beta x (pl_dt q)) = np_lorentz x) by (unfold lorentz_beta; apply map_length).
    rewrite (lget_ok (lorentz_alpha x (pl_dt q))) by lia. rewrite (lget_ok (lorentz_beta x (pl_dt q))) by lia.
    acc3. eexists. split; [reflexivity|]. split; [exact D1|split; [exact D2|exact D3]].
  - rewrite H1. cbn [bind]. eexists. eexists. split; [reflexivity|]. split; [|exact H2].
    repeat split; cbn; auto; try apply Q5; try apply H3; apply H4.
Qed.

Lemma polar_all_ok {M} n m (np : M -> nat) f prev : polar_fun_ok n m np f ->
  forall P E, pmap_dims n m np P -> (P <> [] -> prev <> None) -> (forall t, prev = Some t -> tdims n m t) ->
  tdims n m E ->
  exists P' E', polar_all f prev E P = Ok (P', E') /\ pmap_dims n m np P' /\ tdims n m E' /\
    map fst P' = map fst P.
Proof.
  intros Hf. induction P as [|[nm [x q]] P IH]; intros E HP Hne Hpd HE; cbn [polar_all].
  - exists [], E. auto.
  - destruct prev as [pe|]; [|exfalso; apply Hne; congruence]. cbn [ofOption bind].
    apply Forall_cons_iff in HP. destruct HP as [HP1 HP2]. cbn [fst snd] in HP1.
    destruct (Hf x q pe E HP1 (Hpd pe eq_refl) HE) as [q' [E1 [-> [Hq' HE1]]]]. cbn [bind].
    destruct (IH E1 HP2) as [P' [E2 [-> [HP' [HE2 Hk]]]]]; [discriminate|exact Hpd|exact HE1|].
    cbn [bind]. eexists; eexists. split; [reflexivity|]. split; [constructor; assumption|].
    split; [exact HE2|]. cbn. now rewrite Hk.
Qed.

Lemma slookup_keys {A} k (P Q : list (string * A)) : map fst P = map fst Q ->
  slookup k P <> None -> slookup k Q <> None.
Proof.
  revert Q. induction P as [|[a x] P IH]; intros [|[b y] Q] H; cbn in *; try discriminate; auto.
  injection H as -> H. destruct (String.eqb k b); [discriminate|]. now apply IH.
Qed.
Lemma map_fst_nil {A} (P Q : list (string * A)) : map fst P = map fst Q -> P <> [] -> Q <> [].
Proof. destruct P, Q; cbn; congruence. Qed.

(** ** Well-formedness is kept by every phase *)
Ltac wfcon H := constructor; cbn; try apply (wf_F _ H); try apply (wf_C _ H); try apply (wf_par _ H);
  try apply (wf_coef _ H); try apply (wf_psi _ H); try apply (wf_sc _ H); try apply (wf_prevE _ H);
  try apply (wf_prev2E _ H); try apply (wf_debye _ H); try apply (wf_drude _ H); try apply (wf_lorentz _ H);
  try apply (wf_debye_prev _ H); try apply (wf_drude_prev _ H); try apply (wf_lorentz_prev _ H);
  try apply (wf_prev2_prev _ H); try apply (wf_keys _ H); try apply (wf_tfsf _ H).

Lemma set_E_wf p E : wf_phys p -> tdims (g_Nx (ph_grid p)) (g_Ny (ph_grid p)) E -> wf_phys (set_E E p).
Proof. intros H HE. wfcon H. destruct (wf_F p H) as (A & B & C). split; auto. Qed.
Lemma set_H_wf p hx hy : wf_phys p -> tdims (g_Nx (ph_grid p)) (g_Ny (ph_grid p)) hx ->
  tdims (g_Nx (ph_grid p)) (g_Ny (ph_grid p)) hy -> wf_phys (set_H hx hy p).
Proof. intros H HE. wfcon H. destruct (wf_F p H) as (A & B & C). split; auto. Qed.
Lemma set_pml_wf p b : wf_phys p -> p_par b = mk_pml_par (ph_grid p) -> p_coef b = p_coef (ph_pml p) ->
  psi_dims (g_Nx (ph_grid p)) (g_Ny (ph_grid p)) (g_pml (ph_grid p)) (p_psi b) -> wf_phys (set_ph_pml b p).
Proof. intros H H1 H2 H3. wfcon H; auto. rewrite H2. apply (wf_coef _ H). Qed.

Lemma step_clock_wf p p' : step_clock p = Ok p' -> wf_phys p -> wf_phys p'.
Proof. unfold step_clock. intros H Hw. inv_ok. wfcon Hw. Qed.
Lemma step_prev_wf p : wf_phys p -> wf_phys (step_prev p).
Proof.
  intros H. unfold step_prev. destruct (ph_prev2E p) as [t2|] eqn:E2.
  - destruct (ph_prevE p) as [t1|] eqn:E1.
    + cbn. rewrite E1. cbn. wfcon H; cbn; try discriminate.
      * intros t Ht. injection Ht as <-. apply (wf_F p H).
      * intros t Ht. apply (wf_prevE p H). congruence.
    + exfalso. apply (wf_prev2_prev p H); congruence.
  - destruct (ph_prevE p) as [t1|] eqn:E1; cbn; [|exact H].
    wfcon H; cbn; try discriminate. intros t Ht. injection Ht as <-. apply (wf_F p H).
Qed.
Lemma step_E_ok p : roomy (ph_grid p) -> wf_phys p -> exists p', step_E p = Ok p' /\ wf_phys p'.
Proof.
  intros Hg H. unfold step_E. destruct (E_loop_total p H) as [E [-> HE]]. cbn [bind].
  eexists. split; [reflexivity|]. now apply set_E_wf.
Qed.
Lemma step_pmlE_ok p : roomy (ph_grid p) -> wf_phys p -> exists p', step_pmlE p = Ok p' /\ wf_phys p'.
Proof.
  intros Hg H. unfold step_pmlE. destruct (pml_update_E_total p Hg H) as (b & E & -> & HE & H1 & H2 & H3).
  cbn [bind]. eexists. split; [reflexivity|]. apply set_E_wf; [|exact HE]. now apply set_pml_wf.
Qed.
Lemma step_H_ok p : roomy (ph_grid p) -> wf_phys p -> exists p', step_H p = Ok p' /\ wf_phys p'.
Proof.
  intros Hg H. unfold step_H. destruct (H_loop_total p H) as [hx [hy [-> [H1 H2]]]]. cbn [bind].
  eexists. split; [reflexivity|]. now apply set_H_wf.
Qed.
Lemma step_pmlH_ok p : roomy (ph_grid p) -> wf_phys p -> exists p', step_pmlH p = Ok p' /\ wf_phys p'.
Proof.
  intros Hg H. unfold step_pmlH. destruct (pml_update_H_total p Hg H) as (b & hx & hy & -> & HE & HE' & H1 & H2 & H3).
  cbn [bind]. eexists. split; [reflexivity|]. apply set_H_wf; auto. now apply set_pml_wf.
Qed.
Lemma keys_ok_same p p' o :
  (forall k, slookup k (ph_debye p) <> None -> slookup k (ph_debye p') <> None) ->
  (forall k, slookup k (ph_drude p) <> None -> slookup k (ph_drude p') <> None) ->
  (forall k, slookup k (ph_lorentz p) <> None -> slookup k (ph_lorentz p') <> None) ->
  keys_ok p o -> keys_ok p' o.
Proof. unfold keys_ok. destruct (m_kind (o_mat o)); auto. Qed.
Lemma step_polar_ok p : wf_phys p -> exists p', step_polar p = Ok p' /\ wf_phys p'.
Proof.
  intros H. unfold step_polar.
  destruct (polar_all_ok _ _ _ _ (ph_prevE p) (debye_update_ok (g_Nx (ph_grid p)) (g_Ny (ph_grid p)))
    (ph_debye p) (fEz (ph_F p)) (wf_debye p H) (wf_debye_prev p H) (wf_prevE p H) (proj1 (wf_F p H)))
    as (P1 & E1 & -> & D1 & F1 & K1). cbn [bind].
  cbn [set_E set_ph_F set_ph_debye set_ph_drude set_ph_lorentz ph_F ph_prevE ph_drude fEz ph_lorentz ph_prev2E].
  destruct (polar_all_ok _ _ _ _ (ph_prevE p) (drude_update_ok (g_Nx (ph_grid p)) (g_Ny (ph_grid p)))
    (ph_drude p) E1 (wf_drude p H) (wf_drude_prev p H) (wf_prevE p H) F1)
    as (P2 & E2 & -> & D2 & F2 & K2). cbn [bind].
  cbn [set_E set_ph_F set_ph_debye set_ph_drude set_ph_lorentz ph_F ph_prevE ph_drude fEz ph_lorentz ph_prev2E].
  destruct (polar_all_ok _ _ _ _ (ph_prev2E p) (lorentz_update_ok (g_Nx (ph_grid p)) (g_Ny (ph_grid p)))
    (ph_lorentz p) E2 (wf_lorentz p H) (wf_lorentz_prev p H) (wf_prev2E p H) F2)
    as (P3 & E3 & -> & D3 & F3 & K3). cbn [bind].
  eexists. split; [reflexivity|]. destruct (wf_F p H) as (A & B & C).
  wfcon H; auto.
  - repeat split; apply F3 || apply B || apply C.
  - intros Hn. apply (wf_debye_prev p H). now apply (map_fst_nil P1).
  - intros Hn. apply (wf_drude_prev p H). now apply (map_fst_nil P2).
  - intros Hn. apply (wf_lorentz_prev p H). now apply (map_fst_nil P3).
  - eapply Forall_impl; [|apply (wf_keys p H)]. intros o. apply keys_ok_same; cbn; intros k;
      apply slookup_keys; auto.
Qed.

(** ** TFSF *)
Lemma dft_entries_keys {S} (f : sampler S) ph : forall m s m' s', dft_entries f ph s m = Ok (m', s') ->
  map fst m' = map fst m.
Proof.
  induction m as [|[nm e] m IH]; cbn [dft_entries]; intros s m' s' H.
  - inv_ok. reflexivity.
  - inv_ok. destruct r as [gs s1]. inv_ok. destruct r as [r s2]. inv_ok. cbn. f_equal. eauto.
Qed.
Lemma dft_update_keys {S} (f : sampler S) s d t d' s' : dft_update f s d t = Ok (d', s') ->
  map fst (d_map d') = map fst (d_map d).
Proof.
  unfold dft_update. destruct (d_t d =? t)%num; intros H; inv_ok; [reflexivity|].
  destruct r as [m s1]. inv_ok. cbn. eapply dft_entries_keys; eauto.
Qed.
Lemma keys_EH (m m' : list (string * dentry)) : map fst m' = map fst m ->
  (forall e, In e m -> fst e = "E"%string \/ fst e = "H"%string) ->
  (forall e, In e m' -> fst e = "E"%string \/ fst e = "H"%string).
Proof.
  intros Hk H e He. assert (Hi : In (fst e) (map fst m)) by (rewrite <- Hk; now apply in_map).
  apply in_map_iff in Hi. destruct Hi as [e' [He' Hin]]. rewrite <- He'. auto.
Qed.
Lemma tfsf_entries_ok e h ph : forall m : list (string * dentry), (forall e, In e m -> fst e = "E"%string \/ fst e = "H"%string) ->
  exists m', dft_entries (tfsf_sample e h) ph tt m = Ok (m', tt).
Proof.
  induction m as [|[nm x] m IH]; intros Hm; cbn [dft_entries]; [eauto|].
  destruct IH as [m' Hm']; [intros; apply Hm; now right|]. unfold tfsf_sample at 1.
  destruct (Hm (nm, x) (or_introl eq_refl)) as [E|E]; cbn in E; subst nm; cbn [String.eqb Ascii.eqb Bool.eqb bind];
    rewrite Hm'; cbn [bind]; eauto.
Qed.
Lemma tp_entries_ok v ph : forall m : list (string * dentry),
  exists m', dft_entries (fun (_ : unit) (_ : string) n => Ok (repeat v n, tt)) ph tt m = Ok (m', tt).
Proof.
  induction m as [|[nm x] m [m' Hm']]; cbn [dft_entries bind]; [eauto|]. rewrite Hm'. cbn [bind]. eauto.
Qed.
Lemma response_ok tp t : exists tp', response tp t = Ok (shape_val (tp_shape tp) t, tp').
Proof.
  unfold response, tp_update. destruct (tp_dft tp) as [d|]; [|cbn [bind]; eauto].
  unfold dft_update. destruct (d_t d =? t)%num; cbn [bind]; [eauto|].
  destruct (tp_entries_ok (shape_val (tp_shape tp) t) (phases (d_freq d) t) (d_map d)) as [m' ->].
  cbn [bind]. eauto.
Qed.

Lemma tfsf_pulse_ok q : tfsf_dims q ->
  exists q', tfsf_pulse q = Ok q' /\ tfsf_dims q' /\ q_ia q' = q_ia q /\ q_ib q' = q_ib q /\
    q_ja q' = q_ja q /\ q_jb q' = q_jb q.
Proof.
  intros (HN & (L1 & L2 & L3 & L4 & L5 & L6) & Hd). unfold tfsf_pulse.
  rewrite (aget_len _ _ 2 L1) by lia. cbn [bind].
  destruct (for_up_total (fun s : arr * arr * arr => alen (fst (fst s)) = q_N q /\ alen (snd (fst s)) = q_N q /\ alen (snd s) = q_N q)
     (pulseE_body (q_H q) (q_ca q) (q_cb q)) 1 (q_N q) (q_D q, q_E q, q_I q)) as [[[D E] Iz] [-> (M1 & M2 & M3)]]; [auto| |].
  { intros k [[D E] Iz] Hk (M1 & M2 & M3). cbn [fst snd] in *. unfold pulseE_body.
    repeat first [rewrite aget_ok by (cbn [alen]; lia) | rewrite aset_ok by (cbn [alen]; lia)]; cbn [bind alen].
    repeat (first [rewrite aget_ok by (cbn [alen]; lia) | rewrite aset_ok by (cbn [alen]; lia)]; cbn [bind alen]).
    eexists; split; [reflexivity|]. cbn. auto. }
  cbn [bind fst snd] in *. destruct (response_ok (q_tp q) (q_t q + q_dt q)%num) as [tp' ->]. cbn [bind].
  repeat (first [rewrite aget_ok by (cbn [alen]; lia) | rewrite aset_ok by (cbn [alen]; lia)]; cbn [bind alen]).
  match goal with |- context [match q_dft q with None => Ok None | Some d => @?k d end] =>
    assert (Hdft : exists d', match q_dft q with None => Ok None | Some d => k d end = Ok d' /\
      forall d, d' = Some d -> forall e, In e (d_map d) -> fst e = "E"%string \/ fst e = "H"%string) end.
  { destruct (q_dft q) as [d|] eqn:Ed; [|exists None; split; [reflexivity|discriminate]].
    repeat (first [rewrite aget_ok by (cbn [alen]; lia) | rewrite aset_ok by (cbn [alen]; lia)]; cbn [bind alen]).
    match goal with |- context [dft_update (tfsf_sample ?e ?h) tt d ?t] =>
      assert (Hu : exists d', dft_update (tfsf_sample e h) tt d t = Ok (d', tt)) end.
    { unfold dft_update. destruct (d_t d =? _)%num; [eauto|].
      match goal with |- context [tfsf_sample ?e ?h] =>
        destruct (tfsf_entries_ok e h (phases (d_freq d) (q_t q + q_dt q)%num) (d_map d) (Hd d eq_refl)) as [m' ->] end.
      cbn [bind]. eauto. }
    destruct Hu as [d' Hu]. rewrite Hu. cbn [bind]. eexists; split; [reflexivity|].
    intros d0 H0. injection H0 as <-. apply dft_update_keys in Hu.
    apply (keys_EH (d_map d)); [exact Hu|exact (Hd d eq_refl)]. }
  destruct Hdft as [d' [-> Hd']]. cbn [bind].
  match goal with |- context [for_up 0 (q_N q - 1) (pulseH_body ?E0) (q_H q)] =>
    destruct (for_up_total (fun a : arr => alen a = q_N q) (pulseH_body E0) 0 (q_N q - 1) (q_H q)) as [H [-> HH]]; [auto| |] end.
  { intros k h Hk Hh. unfold pulseH_body.
    repeat (first [rewrite aget_ok by (cbn [alen]; lia) | rewrite aset_ok by (cbn [alen]; lia)]; cbn [bind alen]).
    eexists; split; [reflexivity|]. exact Hh. }
  cbn [bind]. eexists. split; [reflexivity|]. cbn. split; [|auto]. repeat split; cbn; auto.
Qed.

Lemma tadd_keeps n m a i j v b : tadd a i j v = Ok b -> tdims n m a -> tdims n m b.
Proof. unfold tadd. intros H. inv_ok. eapply tset_keeps; eauto. Qed.
Lemma tadd_dims n m a i j v : tdims n m a -> 0 <= i < n -> 0 <= j < m ->
  exists b, tadd a i j v = Ok b /\ tdims n m b.
Proof.
  intros H Hi Hj. unfold tadd. rewrite (tget_dims n m) by assumption. cbn [bind].
  rewrite (tset_dims n m) by assumption. eexists; split; [reflexivity|]. exact H.
Qed.

Lemma tfsf_updateD_keeps q E E' n m : tfsf_updateD q E = Ok E' -> tdims n m E -> tdims n m E'.
Proof.
  unfold tfsf_updateD. intros H HE. revert H. apply for_up_pres; [exact HE|].
  intros i a b _ Ha H. inv_ok. eapply tadd_keeps; [exact H|]. eapply tadd_keeps; eauto.
Qed.
Lemma tfsf_updateH_keeps q hx hy hx' hy' n m : tfsf_updateH q hx hy = Ok (hx', hy') ->
  tdims n m hx -> tdims n m hy -> tdims n m hx' /\ tdims n m hy'.
Proof.
  unfold tfsf_updateH. intros H HE HF. inv_ok. split.
  - revert Hr. apply for_up_pres; [exact HE|]. intros i a b _ Ha H. inv_ok.
    eapply tadd_keeps; [exact H|]. eapply tadd_keeps; eauto.
  - revert Hr0. apply for_up_pres; [exact HF|]. intros i a b _ Ha H. inv_ok.
    eapply tadd_keeps; [exact H|]. eapply tadd_keeps; eauto.
Qed.
Lemma tfsf_updateD_ok q E n m : tfsf_dims q -> tfsf_placed n m q -> tdims n m E ->
  exists E', tfsf_updateD q E = Ok E' /\ tdims n m E'.
Proof.
  intros (HN & (L1 & L2 & L3 & L4 & L5 & L6) & Hd) (P1 & P2 & P3 & P4) HE. unfold tfsf_updateD.
  apply for_up_total; [exact HE|]. intros i a Hi Ha.
  rewrite (aget_len _ _ 2 L3) by lia. cbn [bind].
  destruct (tadd_dims n m a i (q_ja q) (half * aval (q_H q) 2)%num Ha) as [b [-> Hb]]; [lia..|]. cbn [bind].
  rewrite (aget_len _ _ (q_N q - 2) L3) by lia. cbn [bind]. apply (tadd_dims n m); auto; lia.
Qed.
Lemma tfsf_updateH_ok q hx hy n m : tfsf_dims q -> tfsf_placed n m q -> tdims n m hx -> tdims n m hy ->
  exists hx' hy', tfsf_updateH q hx hy = Ok (hx', hy') /\ tdims n m hx' /\ tdims n m hy'.
Proof.
  intros (HN & (L1 & L2 & L3 & L4 & L5 & L6) & Hd) (P1 & P2 & P3 & P4) HE HF. unfold tfsf_updateH.
  match goal with |- context [for_up ?lo ?hi ?b hx] =>
    destruct (for_up_total (tdims n m) b lo hi hx) as [hx' [-> Hx']]; [exact HE| |] end.
  { intros i a Hi Ha. rewrite (aget_len _ _ 3 L1) by lia. cbn [bind].
    destruct (tadd_dims n m a i (q_ja q - 1) (half * aval (q_E q) 3)%num Ha) as [b [-> Hb]]; [lia..|]. cbn [bind].
    rewrite (aget_len _ _ (q_N q - 2) L1) by lia. cbn [bind]. apply (tadd_dims n m); auto; lia. }
  cbn [bind].
  match goal with |- context [for_up ?lo ?hi ?b hy] =>
    destruct (for_up_total (tdims n m) b lo hi hy) as [hy' [-> Hy']]; [exact HF| |] end.
  { intros j a Hj Ha. rewrite (aget_len _ _ (j - q_ja q + 3) L1) by lia. cbn [bind].
    edestruct (tadd_dims n m a (q_ia q - 1) j) as [b [-> Hb]]; [exact Ha|lia|lia|]. cbn [bind].
    apply (tadd_dims n m); auto; lia. }
  cbn [bind]. eauto 6.
Qed.

Lemma step_tfsfD_wf p p' : step_tfsfD p = Ok p' -> wf_phys p -> wf_phys p'.
Proof.
  unfold step_tfsfD. destruct (ph_tfsf p) as [q|]; intros H Hw; inv_ok; [|exact Hw].
  apply set_E_wf; [exact Hw|]. eapply tfsf_updateD_keeps; [exact Hr|apply (wf_F p Hw)].
Qed.
Lemma step_tfsfD_ok p : wf_phys p -> placed p -> exists p', step_tfsfD p = Ok p' /\ wf_phys p'.
Proof.
  intros Hw [_ Hq]. destruct (step_tfsfD p) as [p'| |] eqn:E; [exists p'; split; [reflexivity|now apply step_tfsfD_wf in E]| |];
  exfalso; revert E; unfold step_tfsfD; destruct (ph_tfsf p) as [q|] eqn:Eq; try discriminate;
  destruct (tfsf_updateD_ok q (fEz (ph_F p)) _ _ (wf_tfsf p Hw q Eq) (Hq q eq_refl) (proj1 (wf_F p Hw))) as [E' [-> _]];
  discriminate.
Qed.
Lemma step_tfsfH_wf p p' : step_tfsfH p = Ok p' -> wf_phys p -> wf_phys p'.
Proof.
  unfold step_tfsfH. destruct (ph_tfsf p) as [q|]; intros H Hw; inv_ok; [|exact Hw].
  destruct r as [hx hy]. inv_ok. destruct (wf_F p Hw) as (A & B & C).
  destruct (tfsf_updateH_keeps q _ _ _ _ _ _ Hr B C). now apply set_H_wf.
Qed.
Lemma step_tfsfH_ok p : wf_phys p -> placed p -> exists p', step_tfsfH p = Ok p' /\ wf_phys p'.
Proof.
  intros Hw [_ Hq]. destruct (step_tfsfH p) as [p'| |] eqn:E; [exists p'; split; [reflexivity|now apply step_tfsfH_wf in E]| |];
  exfalso; revert E; unfold step_tfsfH; destruct (ph_tfsf p) as [q|] eqn:Eq; try discriminate;
  destruct (wf_F p Hw) as (A & B & C);
  destruct (tfsf_updateH_ok q (fHx (ph_F p)) (fHy (ph_F p)) _ _ (wf_tfsf p Hw q Eq) (Hq q eq_refl) B C) as [E' [E'' [-> _]]];
  discriminate.
Qed.
Lemma step_tfsf_pulse_ok p : wf_phys p -> exists p', step_tfsf_pulse p = Ok p' /\ wf_phys p' /\ (placed p -> placed p').
Proof.
  intros Hw. unfold step_tfsf_pulse. destruct (ph_tfsf p) as [q|] eqn:Eq; [|eauto].
  destruct (tfsf_pulse_ok q (wf_tfsf p Hw q Eq)) as [q' [-> [Hd (A & B & C & D)]]]. cbn [bind].
  eexists. split; [reflexivity|]. split.
  - wfcon Hw. intros q0 H0. injection H0 as <-. exact Hd.
  - intros [H1 H2]. split; [exact H1|]. cbn. intros q0 H0. injection H0 as <-.
    specialize (H2 q Eq). unfold tfsf_placed in *. rewrite A, B, C, D. exact H2.
Qed.

(** ** Sources *)
Lemma field_add_keeps F c v q F' n m : field_add F c v q = Ok F' -> fdims n m F -> fdims n m F'.
Proof.
  unfold field_add. intros H (A & B & C). inv_ok.
  destruct c; cbn in Hr; try discriminate; injection Hr as <-; unfold fdims; cbn;
    repeat split; try apply A; try apply B; try apply C; eapply tadd_keeps; eauto.
Qed.
Lemma field_add_ok F c v q n m : field_comp c -> fdims n m F -> 0 <= fst q < n -> 0 <= snd q < m ->
  exists F', field_add F c v q = Ok F' /\ fdims n m F'.
Proof.
  intros Hc (A & B & C) H1 H2. unfold field_add.
  destruct Hc as [-> | [-> | ->]]; cbn [get_field bind].
  - destruct (tadd_dims n m (fEz F) (fst q) (snd q) v A H1 H2) as [b [-> Hb]]. cbn [bind].
    eexists; split; [reflexivity|]. repeat split; apply Hb || apply B || apply C.
  - destruct (tadd_dims n m (fHx F) (fst q) (snd q) v B H1 H2) as [b [-> Hb]]. cbn [bind].
    eexists; split; [reflexivity|]. repeat split; apply Hb || apply A || apply C.
  - destruct (tadd_dims n m (fHy F) (fst q) (snd q) v C H1 H2) as [b [-> Hb]]. cbn [bind].
    eexists; split; [reflexivity|]. repeat split; apply Hb || apply A || apply B.
Qed.
Lemma pulse_field_keeps g c k v F F' n m : pulse_field g c k v F = Ok F' -> fdims n m F -> fdims n m F'.
Proof.
  unfold pulse_field. destruct k as [q|s]; intros H HF; inv_ok.
  - eapply field_add_keeps; eauto.
  - revert H HF. generalize F. induction (line_cells r) as [|x l IH]; cbn [foldM]; intros F0 H HF; inv_ok; [exact HF|].
    apply (IH r0); auto. eapply field_add_keeps; eauto.
Qed.
Lemma pulse_field_ok g c k v F : field_comp c -> kind_ok g k -> fdims (g_Nx g) (g_Ny g) F ->
  exists F', pulse_field g c k v F = Ok F' /\ fdims (g_Nx g) (g_Ny g) F'.
Proof.
  intros Hc Hk HF. unfold pulse_field. destruct k as [q|s]; cbn [kind_ok] in Hk.
  - destruct Hk as [ip [-> [H1 H2]]]. cbn [bind]. now apply field_add_ok.
  - destruct Hk as [is [-> Hl]]. cbn [bind]. revert F HF. induction Hl as [|x l [H1 H2] Hl IH]; intros F HF; cbn [foldM]; [eauto|].
    destruct (field_add_ok F c v x _ _ Hc HF H1 H2) as [F1 [-> HF1]]. cbn [bind]. auto.
Qed.

Lemma set_F_wf p F : wf_phys p -> fdims (g_Nx (ph_grid p)) (g_Ny (ph_grid p)) F -> wf_phys (set_ph_F F p).
Proof. intros H HF. wfcon H. exact HF. Qed.
Lemma set_srcs_wf p l : wf_phys p -> wf_phys (set_ph_srcs l p).
Proof. intros H. wfcon H. Qed.

Lemma upd_nth_length {A} (v : A) : forall l i, length (upd_nth i v l) = length l.
Proof. induction l as [|x l IH]; intros [|i]; cbn; auto. Qed.
Lemma upd_nth_Forall {A} (P : A -> Prop) v : forall l i, P v -> Forall P l -> Forall P (upd_nth i v l).
Proof.
  induction l as [|x l IH]; intros [|i] Hv Hl; cbn; auto; apply Forall_cons_iff in Hl; destruct Hl; constructor; auto.
Qed.
Lemma nth_error_Forall {A} (P : A -> Prop) l i x : Forall P l -> nth_error l i = Some x -> P x.
Proof. intros Hl Hn. rewrite Forall_forall in Hl. eapply Hl, nth_error_In; eauto. Qed.

Lemma pulse_src_ok i p : wf_phys p -> placed p ->
  exists p', pulse_src i p = Fine p' /\ wf_phys p' /\ placed p' /\ ph_grid p' = ph_grid p.
Proof.
  intros Hw [Hs Hq]. unfold pulse_src. destruct (nth_error (ph_srcs p) i) as [r|] eqn:En; [|unfold placed; eauto 10].
  destruct (nth_error_Forall _ _ _ _ Hs En) as [Hc Hk].
  destruct (response_ok (sr_tp r) (ph_t p)) as [tp' ->]. cbn [prim].
  set (p1 := set_ph_srcs _ p).
  destruct (pulse_field_ok (ph_grid p) (sr_c r) (sr_kind r) (shape_val (tp_shape (sr_tp r)) (ph_t p)) (ph_F p) Hc Hk (wf_F p Hw))
    as [F' [E HF']].
  change (ph_grid p1) with (ph_grid p). change (ph_F p1) with (ph_F p). rewrite E. cbn [prim].
  eexists. split; [reflexivity|]. split; [|split; [split|]].
  - apply set_F_wf; [now apply set_srcs_wf|exact HF'].
  - cbn. apply upd_nth_Forall; [split; assumption|exact Hs].
  - exact Hq.
  - reflexivity.
Qed.

(** both normal and exceptional ends satisfy P *)
Definition post {S} (P : S -> Prop) (m : out S) : Prop :=
  match m with Fine s | Raise _ s => P s | Undef _ => True end.
(** the same, and no undefined behaviour *)
Definition safe {S} (P : S -> Prop) (m : out S) : Prop :=
  match m with Fine s | Raise _ s => P s | Undef _ => False end.

Lemma post_bind {S} (P Q : S -> Prop) (m : out S) k :
  post P m -> (forall s, P s -> Q s) -> (forall s, P s -> post Q (k s)) -> post Q (m >>= k).
Proof. destruct m; cbn; auto. Qed.
Lemma post_prim {S A} (P : S -> Prop) (s : S) (r : res A) k :
  P s -> (forall a, r = Ok a -> post P (k a)) -> post P (prim s r k).
Proof. destruct r; cbn; auto. Qed.
Lemma post_oloop {S} (P : S -> Prop) body n : forall lo s, P s -> (forall i s, P s -> post P (body i s)) ->
  post P (oloop lo n body s).
Proof.
  induction n as [|n IH]; intros lo s H Hb; cbn [oloop]; [exact H|].
  apply (post_bind P); auto.
Qed.

Lemma pulse_src_post i p : wf_phys p -> post wf_phys (pulse_src i p).
Proof.
  intros Hw. unfold pulse_src. destruct (nth_error (ph_srcs p) i) as [r|]; [|exact Hw].
  apply post_prim; [exact Hw|]. intros [v tp] _. apply post_prim; [now apply set_srcs_wf|].
  intros F HF. cbn [post]. apply set_F_wf; [now apply set_srcs_wf|].
  cbn in HF. eapply pulse_field_keeps; [exact HF|]. apply (wf_F p Hw).
Qed.
Lemma step_sources_post p : wf_phys p -> post wf_phys (step_sources p).
Proof. intros H. unfold step_sources. apply post_oloop; [exact H|]. intros i s. apply pulse_src_post. Qed.

Lemma step_sources_ok p : wf_phys p -> placed p ->
  exists p', step_sources p = Fine p' /\ wf_phys p' /\ placed p' /\ ph_grid p' = ph_grid p.
Proof.
  unfold step_sources. generalize (length (ph_srcs p)) 0%nat. intros n. revert p.
  induction n as [|n IH]; intros p lo Hw Hp; cbn [oloop]; [eauto 6|].
  destruct (pulse_src_ok lo p Hw Hp) as [p1 [-> [Hw1 [Hp1 E1]]]]. cbn [obind].
  destruct (IH p1 (Datatypes.S lo) Hw1 Hp1) as [p2 [-> [Hw2 [Hp2 E2]]]]. exists p2. rewrite E2. auto.
Qed.

(** ** One step *)
Lemma placed_static p p' : static p' = static p -> ph_srcs p' = ph_srcs p -> ph_tfsf p' = ph_tfsf p ->
  placed p -> placed p'.
Proof. intros Hs E1 E2. apply static_eq in Hs. destruct Hs as (Hg & _). unfold placed. now rewrite Hg, E1, E2. Qed.
Lemma roomy_static p p' : static p' = static p -> roomy (ph_grid p) -> roomy (ph_grid p').
Proof. intros Hs. apply static_eq in Hs. destruct Hs as (Hg & _). now rewrite Hg. Qed.

Lemma phys_step_ok p : roomy (ph_grid p) -> wf_phys p -> placed p -> INT_MIN <= ph_step p < INT_MAX ->
  exists p', phys_step p = Fine p' /\ wf_phys p' /\ placed p' /\ ph_step p' = ph_step p + 1.
Proof.
  intros Hg Hw Hp Hn. unfold phys_step, step_clock. rewrite i32_ok by lia. cbn [bind prim].
  set (p0 := set_ph_t _ _).
  assert (Hw0 : wf_phys p0) by (unfold p0; wfcon Hw).
  assert (Hp0 : placed p0) by exact Hp.
  assert (E0 : static p0 = static p) by reflexivity.
  assert (S0 : ph_step p0 = ph_step p + 1) by reflexivity.
  clearbody p0.
  assert (Hw0' : wf_phys (step_prev p0)) by now apply step_prev_wf.
  assert (E0' : static (step_prev p0) = static p) by now rewrite step_prev_static.
  assert (Hp0' : placed (step_prev p0)).
  { apply (placed_static p0); [now rewrite step_prev_static| | |exact Hp0];
    unfold step_prev; destruct (ph_prev2E p0); cbn; destruct (ph_prevE p0); reflexivity. }
  assert (S0' : ph_step (step_prev p0) = ph_step p + 1).
  { rewrite <- S0. unfold step_prev; destruct (ph_prev2E p0); cbn; destruct (ph_prevE p0); reflexivity. }
  destruct (step_E_ok (step_prev p0)) as [p1 [E1 Hw1]]; [now apply (roomy_static p)|exact Hw0'|].
  rewrite E1. cbn [prim].
  assert (F1 : ph_srcs p1 = ph_srcs (step_prev p0) /\ ph_tfsf p1 = ph_tfsf (step_prev p0) /\ ph_step p1 = ph_step (step_prev p0)).
  { unfold step_E in E1. inv_ok. auto. }
  apply step_E_static in E1. rewrite E0' in E1. destruct F1 as (A1 & B1 & C1).
  assert (Hp1 : placed p1) by (apply (placed_static (step_prev p0)); auto; congruence).
  destruct (step_pmlE_ok p1) as [p2 [E2 Hw2]]; [now apply (roomy_static p)|exact Hw1|].
  rewrite E2. cbn [prim].
  assert (F2 : ph_srcs p2 = ph_srcs p1 /\ ph_tfsf p2 = ph_tfsf p1 /\ ph_step p2 = ph_step p1).
  { unfold step_pmlE in E2. inv_ok. destruct r. inv_ok. auto. }
  apply step_pmlE_static in E2. rewrite E1 in E2. destruct F2 as (A2 & B2 & C2).
  assert (Hp2 : placed p2) by (apply (placed_static p1); auto; congruence).
  destruct (step_polar_ok p2 Hw2) as [p3 [E3 Hw3]].
  rewrite E3. cbn [prim].
  assert (F3 : ph_srcs p3 = ph_srcs p2 /\ ph_tfsf p3 = ph_tfsf p2 /\ ph_step p3 = ph_step p2).
  { unfold step_polar in E3. inv_ok. destruct r. inv_ok. destruct r. inv_ok. destruct r. inv_ok. auto. }
  apply step_polar_static in E3. rewrite E2 in E3. destruct F3 as (A3 & B3 & C3).
  assert (Hp3 : placed p3) by (apply (placed_static p2); auto; congruence).
  destruct (step_tfsfD_ok p3 Hw3 Hp3) as [p4 [E4 Hw4]].
  rewrite E4. cbn [prim].
  assert (F4 : ph_srcs p4 = ph_srcs p3 /\ ph_tfsf p4 = ph_tfsf p3 /\ ph_step p4 = ph_step p3).
  { unfold step_tfsfD in E4. destruct (ph_tfsf p3) eqn:Eq3; inv_ok; cbn; auto. }
  apply step_tfsfD_static in E4. rewrite E3 in E4. destruct F4 as (A4 & B4 & C4).
  assert (Hp4 : placed p4) by (apply (placed_static p3); auto; congruence).
  destruct (step_sources_ok p4 Hw4 Hp4) as [p5 [E5 [Hw5 [Hp5 G5]]]].
  rewrite E5. cbn [obind].
  assert (C5 : ph_step p5 = ph_step p4).
  { unfold step_sources in E5. apply (oloop_pres (fun q => ph_step q = ph_step p4)) in E5; auto.
    intros i a b _ Ha Hb. rewrite <- Ha. unfold pulse_src in Hb. destruct (nth_error (ph_srcs a) i); inv_fine; [|reflexivity].
    destruct r. inv_fine. reflexivity. }
  apply step_sources_static in E5. rewrite E4 in E5.
  destruct (step_tfsf_pulse_ok p5 Hw5) as [p6 [E6 [Hw6 Hp6]]]. specialize (Hp6 Hp5).
  rewrite E6. cbn [prim].
  assert (C6 : ph_step p6 = ph_step p5).
  { unfold step_tfsf_pulse in E6. destruct (ph_tfsf p5) eqn:Eq5; inv_ok; cbn; auto. }
  apply step_tfsf_pulse_static in E6. rewrite E5 in E6.
  destruct (step_H_ok p6) as [p7 [E7 Hw7]]; [now apply (roomy_static p)|exact Hw6|].
  rewrite E7. cbn [prim].
  assert (F7 : ph_srcs p7 = ph_srcs p6 /\ ph_tfsf p7 = ph_tfsf p6 /\ ph_step p7 = ph_step p6).
  { unfold step_H in E7. inv_ok. destruct r. inv_ok. auto. }
  apply step_H_static in E7. rewrite E6 in E7. destruct F7 as (A7 & B7 & C7).
  assert (Hp7 : placed p7) by (apply (placed_static p6); auto; congruence).
  destruct (step_pmlH_ok p7) as [p8 [E8 Hw8]]; [now apply (roomy_static p)|exact Hw7|].
  rewrite E8. cbn [prim].
  assert (F8 : ph_srcs p8 = ph_srcs p7 /\ ph_tfsf p8 = ph_tfsf p7 /\ ph_step p8 = ph_step p7).
  { unfold step_pmlH in E8. inv_ok. destruct r as [[? ?] ?]. inv_ok. auto. }
  apply step_pmlH_static in E8. rewrite E7 in E8. destruct F8 as (A8 & B8 & C8).
  assert (Hp8 : placed p8) by (apply (placed_static p7); auto; congruence).
  destruct (step_tfsfH_ok p8 Hw8 Hp8) as [p9 [E9 Hw9]].
  rewrite E9. cbn [prim].
  assert (F9 : ph_srcs p9 = ph_srcs p8 /\ ph_tfsf p9 = ph_tfsf p8 /\ ph_step p9 = ph_step p8).
  { unfold step_tfsfH in E9. destruct (ph_tfsf p8) eqn:Eq8; inv_ok; [destruct r; inv_ok|]; cbn; auto. }
  apply step_tfsfH_static in E9. rewrite E8 in E9. destruct F9 as (A9 & B9 & C9).
  assert (Hp9 : placed p9) by (apply (placed_static p8); auto; congruence).
  exists p9. split; [reflexivity|]. split; [exact Hw9|]. split; [exact Hp9|congruence].
Qed.

End Wf.

Ltac wfcon H := constructor; cbn; try apply (wf_F _ H); try apply (wf_C _ H); try apply (wf_par _ H);
  try apply (wf_coef _ H); try apply (wf_psi _ H); try apply (wf_sc _ H); try apply (wf_prevE _ H);
  try apply (wf_prev2E _ H); try apply (wf_debye _ H); try apply (wf_drude _ H); try apply (wf_lorentz _ H);
  try apply (wf_debye_prev _ H); try apply (wf_drude_prev _ H); try apply (wf_lorentz_prev _ H);
  try apply (wf_prev2_prev _ H); try apply (wf_keys _ H); try apply (wf_tfsf _ H).

