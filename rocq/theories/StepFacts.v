(** The loops of one time step in closed form. *)
From Coq Require Import ZArith String List Bool Lia.
From Verif Require Import Scalar Base BaseFacts VecM GridM GeometryM MaterialM PmlM DftM TfsfM PolarM
  InterpM H5M ClockM MonitorM FieldM OutFacts PhysFacts WfFacts ReachFacts SpecStep.
Import ListNotations.
Local Open Scope Z_scope.

Section Step.
Context {N : Num}.

(** the state of a simulation as a textbook state *)
Definition med_of (C : coefs) (sc : scaling) (c : pml_coef) : medium :=
  Medium (tval (cCa C)) (tval (cCb C)) (tval (cDa C)) (tval (cDb C))
    (aval (kedx sc)) (aval (kedy sc)) (aval (khdx sc)) (aval (khdy sc))
    (aval (be_x c)) (aval (ce_x c)) (aval (be_y c)) (aval (ce_y c))
    (aval (bh_x c)) (aval (ch_x c)) (aval (bh_y c)) (aval (ch_y c)).
Definition med (p : phys) : medium := med_of (ph_C p) (ph_sc p) (p_coef (ph_pml p)).
Definition e_of (p : phys) : emag :=
  let s := p_psi (ph_pml p) in
  Emag (tval (fEz (ph_F p))) (tval (Ezx1 s)) (tval (Ezx2 s)) (tval (Ezy1 s)) (tval (Ezy2 s)).
Definition h_of (p : phys) : hmag :=
  let s := p_psi (ph_pml p) in
  Hmag (tval (fHx (ph_F p))) (tval (Hxy1 s)) (tval (Hxy2 s))
       (tval (fHy (ph_F p))) (tval (Hyx1 s)) (tval (Hyx2 s)).

(** the electric layers at opposite edges do not meet *)
Definition apart (g : grid) : Prop :=
  0 <= g_pml g /\ 2 * g_pml g < g_Nx g - 1 /\ 2 * g_pml g < g_Ny g - 1.
Lemma apart_roomy g : apart g -> roomy g.
Proof. intros (A & B & C). unfold roomy. lia. Qed.

(** ** A loop over a band that updates two memory cells and two field cells *)
Definition tadd2 (a : tensor) (c : Z * Z) (v : T) : tensor := tupd a (fst c) (snd c) v.
Definition tv (a : tensor) (c : Z * Z) : T := tval a (fst c) (snd c).

Lemma tv_same a c v : tv (tadd2 a c v) c = v.
Proof. apply tupd_same. Qed.
Lemma tv_other a c v d : d <> c -> tv (tadd2 a c v) d = tv a d.
Proof.
  intros H. apply tupd_other. intros [A B]. apply H. destruct c, d; cbn in *; congruence.
Qed.

Section Pair.
Variables (lo1 hi1 lo2 hi2 n1 m1 n m : Z) (u v : Z -> Z -> Z * Z).
Variables (f1 f2 : Z -> Z -> T -> T) (h1 h2 : Z -> Z -> T -> T -> T).
Variable body : Z -> Z -> tensor * tensor * tensor -> res (tensor * tensor * tensor).
Notation ok i j := (lo1 <= i < hi1 /\ lo2 <= j < hi2).

Hypothesis u_inj : forall i j i' j', ok i j -> ok i' j' -> u i j = u i' j' -> i = i' /\ j = j'.
Hypothesis v_inj : forall i j i' j', ok i j -> ok i' j' -> v i j = v i' j' -> i = i' /\ j = j'.
Hypothesis uv : forall i j i' j', ok i j -> ok i' j' -> u i j <> v i' j'.
Hypothesis Hbody : forall i j p1 p2 E, ok i j ->
  tdims n1 m1 p1 -> tdims n1 m1 p2 -> tdims n m E ->
  body i j (p1, p2, E) =
    Ok (tadd2 p1 (i, j) (f1 i j (tval p1 i j)), tadd2 p2 (i, j) (f2 i j (tval p2 i j)),
        tadd2 (tadd2 E (u i j) (h1 i j (tv E (u i j)) (f1 i j (tval p1 i j)))) (v i j)
              (h2 i j (tv E (v i j)) (f2 i j (tval p2 i j)))).

Lemma pair_loop p1 p2 E : tdims n1 m1 p1 -> tdims n1 m1 p2 -> tdims n m E ->
  exists p1' p2' E',
    for_up lo1 hi1 (fun i a => for_up lo2 hi2 (fun j a => body i j a) a) (p1, p2, E)
      = Ok (p1', p2', E') /\
    tdims n1 m1 p1' /\ tdims n1 m1 p2' /\ tdims n m E' /\
    (forall i j, ok i j -> tval p1' i j = f1 i j (tval p1 i j) /\
       tval p2' i j = f2 i j (tval p2 i j) /\
       tv E' (u i j) = h1 i j (tv E (u i j)) (f1 i j (tval p1 i j)) /\
       tv E' (v i j) = h2 i j (tv E (v i j)) (f2 i j (tval p2 i j))) /\
    (forall i j, ~ ok i j -> tval p1' i j = tval p1 i j /\ tval p2' i j = tval p2 i j) /\
    (forall c, (forall i j, ok i j -> c <> u i j /\ c <> v i j) -> tv E' c = tv E c).
Proof.
  intros D1 D2 D3.
  destruct (for_up_inv (fun a s => tdims n1 m1 (fst (fst s)) /\ tdims n1 m1 (snd (fst s)) /\ tdims n m (snd s) /\
     (forall i j, ok i j -> (i < a -> tval (fst (fst s)) i j = f1 i j (tval p1 i j) /\
       tval (snd (fst s)) i j = f2 i j (tval p2 i j) /\
       tv (snd s) (u i j) = h1 i j (tv E (u i j)) (f1 i j (tval p1 i j)) /\
       tv (snd s) (v i j) = h2 i j (tv E (v i j)) (f2 i j (tval p2 i j))) /\
       (a <= i -> tval (fst (fst s)) i j = tval p1 i j /\
       tval (snd (fst s)) i j = tval p2 i j /\
       tv (snd s) (u i j) = tv E (u i j) /\ tv (snd s) (v i j) = tv E (v i j))) /\
     (forall i j, ~ ok i j -> tval (fst (fst s)) i j = tval p1 i j /\ tval (snd (fst s)) i j = tval p2 i j) /\
     (forall c, (forall i j, ok i j -> c <> u i j /\ c <> v i j) -> tv (snd s) c = tv E c))
    (fun i a => for_up lo2 hi2 (fun j a => body i j a) a) lo1 (Z.max lo1 hi1) (p1, p2, E))
    as [s' (Hr & A1 & A2 & A3 & A4 & A5 & A6)]; [lia| | |].
  - cbn [fst snd]. do 3 (split; [assumption|]). split; [|split; auto].
    intros i j Hij. split; [lia|auto].
  - intros i s Hi (A1 & A2 & A3 & A4 & A5 & A6).
    destruct (Z.le_gt_cases lo2 hi2) as [Hle|Hgt].
    2:{ rewrite for_up_empty by lia. exists s. split; [reflexivity|].
        do 3 (split; [assumption|]). split; [|split; auto]. intros; lia. }
    destruct (for_up_inv (fun b r => tdims n1 m1 (fst (fst r)) /\ tdims n1 m1 (snd (fst r)) /\ tdims n m (snd r) /\
     (forall i' j, ok i' j -> i' <> i \/ b <= j -> tval (fst (fst r)) i' j = tval (fst (fst s)) i' j /\
       tval (snd (fst r)) i' j = tval (snd (fst s)) i' j /\
       tv (snd r) (u i' j) = tv (snd s) (u i' j) /\ tv (snd r) (v i' j) = tv (snd s) (v i' j)) /\
     (forall j, ok i j -> j < b -> tval (fst (fst r)) i j = f1 i j (tval p1 i j) /\
       tval (snd (fst r)) i j = f2 i j (tval p2 i j) /\
       tv (snd r) (u i j) = h1 i j (tv E (u i j)) (f1 i j (tval p1 i j)) /\
       tv (snd r) (v i j) = h2 i j (tv E (v i j)) (f2 i j (tval p2 i j))) /\
     (forall i j, ~ ok i j -> tval (fst (fst r)) i j = tval p1 i j /\ tval (snd (fst r)) i j = tval p2 i j) /\
     (forall c, (forall i j, ok i j -> c <> u i j /\ c <> v i j) -> tv (snd r) c = tv E c))
     (fun j a => body i j a) lo2 hi2 s Hle) as [r (Hr & B1 & B2 & B3 & B4 & B5 & B6 & B7)].
    + do 3 (split; [assumption|]). split; [auto|]. split; [intros; lia|auto].
    + intros j [[q1 q2] E0] Hj (B1 & B2 & B3 & B4 & B5 & B6 & B7). cbn [fst snd] in *.
      assert (Hij : ok i j) by lia.
      rewrite Hbody by assumption.
      destruct (B4 i j Hij (or_intror (Z.le_refl j))) as (C1 & C2 & C3 & C4).
      destruct (proj2 (A4 i j Hij) (Z.le_refl i)) as (C5 & C6 & C7 & C8).
      eexists. split; [reflexivity|]. cbn [fst snd].
      do 3 (split; [assumption|]).
      split.
      { intros i' j' Hij' Hne. destruct (B4 i' j' Hij') as (E1 & E2 & E3 & E4); [lia|].
        assert (Hd : (i', j') <> (i, j)) by (intros Q; injection Q; lia).
        assert (Hu : u i' j' <> u i j) by (intros Q; apply u_inj in Q; [lia|auto..]).
        assert (Hv : v i' j' <> v i j) by (intros Q; apply v_inj in Q; [lia|auto..]).
        pose proof (uv i j i' j' Hij Hij') as W1. pose proof (uv i' j' i j Hij' Hij) as W2.
        rewrite <- E1, <- E2, <- E3, <- E4.
        change (tval (tadd2 q1 (i, j) (f1 i j (tval q1 i j))) i' j') with (tv (tadd2 q1 (i, j) (f1 i j (tval q1 i j))) (i', j')).
        change (tval (tadd2 q2 (i, j) (f2 i j (tval q2 i j))) i' j') with (tv (tadd2 q2 (i, j) (f2 i j (tval q2 i j))) (i', j')).
        rewrite !tv_other by (auto || congruence). auto. }
      split.
      { intros j' Hij' Hlt. destruct (Z.eq_dec j' j) as [->|Hne].
        - change (tval (tadd2 q1 (i, j) (f1 i j (tval q1 i j))) i j) with (tv (tadd2 q1 (i, j) (f1 i j (tval q1 i j))) (i, j)).
          change (tval (tadd2 q2 (i, j) (f2 i j (tval q2 i j))) i j) with (tv (tadd2 q2 (i, j) (f2 i j (tval q2 i j))) (i, j)).
          rewrite !tv_same. rewrite tv_other by (apply uv; auto). rewrite tv_same.
          rewrite C1, C2, C3, C4, C5, C6, C7, C8. auto.
        - destruct (B5 j' Hij') as (E1 & E2 & E3 & E4); [lia|].
          assert (Hd : (i, j') <> (i, j)) by (intros Q; injection Q; lia).
          assert (Hu : u i j' <> u i j) by (intros Q; apply u_inj in Q; [lia|auto..]).
          assert (Hv : v i j' <> v i j) by (intros Q; apply v_inj in Q; [lia|auto..]).
          pose proof (uv i j i j' Hij Hij') as W1. pose proof (uv i j' i j Hij' Hij) as W2.
          change (tval (tadd2 q1 (i, j) (f1 i j (tval q1 i j))) i j') with (tv (tadd2 q1 (i, j) (f1 i j (tval q1 i j))) (i, j')).
          change (tval (tadd2 q2 (i, j) (f2 i j (tval q2 i j))) i j') with (tv (tadd2 q2 (i, j) (f2 i j (tval q2 i j))) (i, j')).
          rewrite !tv_other by (auto || congruence). auto. }
      split.
      { intros i' j' Hn. destruct (B6 i' j' Hn) as (E1 & E2).
        assert (Hd : (i', j') <> (i, j)) by (intros Q; injection Q as -> ->; auto).
        rewrite <- E1, <- E2. split; apply (tv_other _ (i, j) _ (i', j') Hd). }
      { intros c Hc. destruct (Hc i j Hij). rewrite !tv_other by auto. now apply B7. }
    + exists r. split; [exact Hr|]. do 3 (split; [assumption|]). split; [|auto].
      intros i' j Hij. split; intros Hlt.
      * destruct (Z.eq_dec i' i) as [->|Hne].
        { apply B5; [exact Hij|lia]. }
        destruct (B4 i' j Hij (or_introl Hne)) as (-> & -> & -> & ->).
        apply A4; [exact Hij|lia].
      * destruct (B4 i' j Hij) as (-> & -> & -> & ->); [lia|]. apply A4; [exact Hij|lia].
  - destruct s' as [[p1' p2'] E']. cbn [fst snd] in *. exists p1', p2', E'.
    split.
    { destruct (Z.le_gt_cases lo1 hi1); [rewrite Z.max_r in Hr by lia; exact Hr|].
      rewrite for_up_empty in Hr by lia. now rewrite for_up_empty by lia. }
    do 3 (split; [assumption|]). split; [|auto].
    intros i j Hij. apply (proj1 (A4 i j Hij)). lia.
Qed.
End Pair.


(** rewrite every access whose bounds follow by arithmetic *)
Ltac acc :=
  repeat (first
    [ erewrite aget_len by (eassumption || lia)
    | erewrite tget_dims by (eassumption || (eapply tdims_tupd; eassumption) || lia)
    | erewrite tset_dims by (eassumption || (eapply tdims_tupd; eassumption) || lia) ]; cbn [bind]).

(** ** The loops *)
Section Loops.
Variable p : phys.
Hypothesis Hg : apart (ph_grid p).
Hypothesis Hwf : wf_phys p.
Notation n := (g_Nx (ph_grid p)).
Notation m := (g_Ny (ph_grid p)).
Notation th := (g_pml (ph_grid p)).
Notation dx := (g_dx (ph_grid p)).
Notation C := (ph_C p).
Notation hx := (tval (fHx (ph_F p))).
Notation hy := (tval (fHy (ph_F p))).
Notation ez := (tval (fEz (ph_F p))).

Lemma E_loop_spec : exists E,
  E_loop (ph_grid p) C (ph_sc p) (fHx (ph_F p)) (fHy (ph_F p)) (fEz (ph_F p)) = Ok E /\ tdims n m E /\
  (forall i j, tval E i j = if core n m i j then yeeE (med p) hx hy ez i j else ez i j).
Proof.
  destruct (apart_roomy _ Hg) as (G0 & G1 & G2).
  destruct (wf_F p Hwf) as (F1 & F2 & F3). destruct (wf_C p Hwf) as (C1 & C2 & C3 & C4).
  destruct (wf_sc p Hwf) as (S1 & S2 & S3 & S4).
  destruct (for2_cells (fun E i j => tval E i j) (tdims n m) (yeeE (med p) hx hy ez)
    (fun i j E => E_body C (ph_sc p) (fHx (ph_F p)) (fHy (ph_F p)) i j E) 1 (n - 1) 1 (m - 1) (fEz (ph_F p)))
    as (E & Hr & HE & Hin & Hout); [exact F1| |].
  - intros i j E Hi Hj HE Hij. unfold E_body. acc. eexists. split; [reflexivity|]. split; [exact HE|].
    split; [rewrite tupd_same, Hij; reflexivity|]. intros i' j' Hn. now apply tupd_other.
  - exists E. split; [exact Hr|]. split; [exact HE|]. intros i j. unfold core.
    destruct ((1 <=? i) && (i <? n - 1) && (1 <=? j) && (j <? m - 1)) eqn:Q.
    + apply Hin; lia.
    + apply Hout. lia.
Qed.

Lemma H_loop_spec : exists X Y,
  H_loop (ph_grid p) C (ph_sc p) (fEz (ph_F p)) (fHx (ph_F p)) (fHy (ph_F p)) = Ok (X, Y) /\
  tdims n m X /\ tdims n m Y /\
  (forall i j, tval X i j = if core n m i j then yeeHx (med p) ez hx i j else hx i j) /\
  (forall i j, tval Y i j = if core n m i j then yeeHy (med p) ez hy i j else hy i j).
Proof.
  destruct (apart_roomy _ Hg) as (G0 & G1 & G2).
  destruct (wf_F p Hwf) as (F1 & F2 & F3). destruct (wf_C p Hwf) as (C1 & C2 & C3 & C4).
  destruct (wf_sc p Hwf) as (S1 & S2 & S3 & S4).
  destruct (for2_cells (fun s i j => (tval (fst s) i j, tval (snd s) i j))
    (fun s : tensor * tensor => tdims n m (fst s) /\ tdims n m (snd s))
    (fun i j => (yeeHx (med p) ez hx i j, yeeHy (med p) ez hy i j))
    (fun i j s => H_body C (ph_sc p) (fEz (ph_F p)) i j s) 1 (n - 1) 1 (m - 1) (fHx (ph_F p), fHy (ph_F p)))
    as ([X Y] & Hr & HE & Hin & Hout); [auto| |].
  - intros i j [X Y] Hi Hj [HX HY] Hij. cbn [fst snd] in *. injection Hij as E1 E2.
    unfold H_body. acc. eexists. split; [reflexivity|]. cbn [fst snd]. split; [auto|].
    split; [rewrite !tupd_same, E1, E2; reflexivity|]. intros i' j' Hn. now rewrite !tupd_other by exact Hn.
  - cbn [fst snd] in *. exists X, Y. split; [exact Hr|]. destruct HE as [HX HY].
    do 2 (split; [assumption|]). unfold core.
    split; intros i j; destruct ((1 <=? i) && (i <? n - 1) && (1 <=? j) && (j <? m - 1)) eqn:Q.
    1,3: specialize (Hin i j ltac:(lia) ltac:(lia)); injection Hin; auto.
    1,2: specialize (Hout i j ltac:(lia)); injection Hout; auto.
Qed.

Notation par := (mk_pml_par (ph_grid p)).
Notation cf := (p_coef (ph_pml p)).

Lemma Ey_spec p1 p2 E : tdims n (th + 1) p1 -> tdims n (th + 1) p2 -> tdims n m E ->
  exists p1' p2' E', pml_Ey par cf (cCb C) (fHx (ph_F p)) (p1, p2, E) = Ok (p1', p2', E') /\
    tdims n (th + 1) p1' /\ tdims n (th + 1) p2' /\ tdims n m E' /\
    (forall i j, tval p1' i j = memYl n th dx (med p) hx (tval p1) i j) /\
    (forall i j, tval p2' i j = memYh n m th dx (med p) hx (tval p2) i j) /\
    (forall i j, tval E' i j = if core n m i j
       then addY m th (med p) (tval p1') (tval p2') (tval E) i j else tval E i j).
Proof.
  intros D1 D2 D3. destruct Hg as (G0 & G1 & G2).
  destruct (wf_F p Hwf) as (F1 & F2 & F3). destruct (wf_C p Hwf) as (C1 & C2 & C3 & C4).
  destruct (wf_coef p Hwf) as ((A1 & A2 & A3 & A4) & (B1 & B2 & B3 & B4)).
  destruct (pair_loop 1 (n - 1) 1 (th + 1) n (th + 1) n m (fun i j => (i, j)) (fun i j => (i, m - 1 - j))
    (fun i j q => recur dx (aval (be_y cf) j) (aval (ce_y cf) j) q (hx i j - hx i (j - 1)%Z)%num)
    (fun i j q => recur dx (aval (be_y cf) j) (aval (ce_y cf) j) q (hx i (m - 1 - j)%Z - hx i (m - 1 - j - 1)%Z)%num)
    (fun i j e q => (e - tval (cCb C) i j * q)%num)
    (fun i j e q => (e - tval (cCb C) i (m - 1 - j)%Z * q)%num)
    (fun i j s => Ey_body par cf (cCb C) (fHx (ph_F p)) i j s)) with (p1 := p1) (p2 := p2) (E := E)
    as (p1' & p2' & E' & Hr & T1 & T2 & T3 & Hin & Hm & Ho); try assumption.
  - intros i j i' j' _ _ Q. now injection Q.
  - intros i j i' j' H1 H2 Q. injection Q. lia.
  - intros i j i' j' H1 H2 Q. injection Q. lia.
  - intros i j q1 q2 E0 Hij X1 X2 X3. unfold Ey_body. cbn [p_Nx p_Ny p_dx mk_pml_par]. acc.
    unfold tadd2, tv. cbn [fst snd]. rewrite !tupd_same. rewrite (tupd_other _ _ _ _ i (m - 1 - j)) by lia. reflexivity.
  - exists p1', p2', E'. split; [exact Hr|]. do 3 (split; [assumption|]).
    unfold memYl, memYh, addY, core. cbn [bEy cEy mCb med med_of].
    split; [|split]; intros i j.
    + destruct ((1 <=? i) && (i <? n - 1) && (1 <=? j) && (j <=? th)) eqn:Q; [apply Hin|apply Hm]; lia.
    + destruct ((1 <=? i) && (i <? n - 1) && (1 <=? j) && (j <=? th)) eqn:Q; [apply Hin|apply Hm]; lia.
    + destruct ((1 <=? i) && (i <? n - 1) && (1 <=? j) && (j <? m - 1)) eqn:Q.
      * destruct (j <=? th) eqn:Q1; [|destruct (m - 1 - th <=? j) eqn:Q2].
        -- destruct (Hin i j) as (I1 & I2 & I3 & I4); [lia|]. unfold tv in *. cbn [fst snd] in *. now rewrite I3, I1.
        -- destruct (Hin i (m - 1 - j)) as (I1 & I2 & I3 & I4); [lia|]. unfold tv in *. cbn [fst snd] in *.
           replace (m - 1 - (m - 1 - j)) with j in * by lia. now rewrite I4, I2.
        -- apply (Ho (i, j)). intros i' j' Hij. split; intros W; injection W; lia.
      * apply (Ho (i, j)). intros i' j' Hij. split; intros W; injection W; lia.
Qed.

Lemma Ex_spec p1 p2 E : tdims (th + 1) m p1 -> tdims (th + 1) m p2 -> tdims n m E ->
  exists p1' p2' E', pml_Ex par cf (cCb C) (fHy (ph_F p)) (p1, p2, E) = Ok (p1', p2', E') /\
    tdims (th + 1) m p1' /\ tdims (th + 1) m p2' /\ tdims n m E' /\
    (forall i j, tval p1' i j = memXl m th dx (med p) hy (tval p1) i j) /\
    (forall i j, tval p2' i j = memXh n m th dx (med p) hy (tval p2) i j) /\
    (forall i j, tval E' i j = if core n m i j
       then addX n th (med p) (tval p1') (tval p2') (tval E) i j else tval E i j).
Proof.
  intros D1 D2 D3. destruct Hg as (G0 & G1 & G2).
  destruct (wf_F p Hwf) as (F1 & F2 & F3). destruct (wf_C p Hwf) as (C1 & C2 & C3 & C4).
  destruct (wf_coef p Hwf) as ((A1 & A2 & A3 & A4) & (B1 & B2 & B3 & B4)).
  destruct (pair_loop 1 (th + 1) 1 (m - 1) (th + 1) m n m (fun i j => (i, j)) (fun i j => (n - 1 - i, j))
    (fun i j q => recur dx (aval (be_x cf) i) (aval (ce_x cf) i) q (hy i j - hy (i - 1)%Z j)%num)
    (fun i j q => recur dx (aval (be_x cf) i) (aval (ce_x cf) i) q (hy (n - 1 - i)%Z j - hy (n - 1 - i - 1)%Z j)%num)
    (fun i j e q => (e + tval (cCb C) i j * q)%num)
    (fun i j e q => (e + tval (cCb C) (n - 1 - i)%Z j * q)%num)
    (fun i j s => Ex_body par cf (cCb C) (fHy (ph_F p)) i j s)) with (p1 := p1) (p2 := p2) (E := E)
    as (p1' & p2' & E' & Hr & T1 & T2 & T3 & Hin & Hm & Ho); try assumption.
  - intros i j i' j' _ _ Q. now injection Q.
  - intros i j i' j' H1 H2 Q. injection Q. lia.
  - intros i j i' j' H1 H2 Q. injection Q. lia.
  - intros i j q1 q2 E0 Hij X1 X2 X3. unfold Ex_body. cbn [p_Nx p_Ny p_dx mk_pml_par]. acc.
    unfold tadd2, tv. cbn [fst snd]. rewrite !tupd_same. rewrite (tupd_other _ _ _ _ (n - 1 - i) j) by lia. reflexivity.
  - exists p1', p2', E'. split; [exact Hr|]. do 3 (split; [assumption|]).
    unfold memXl, memXh, addX, core. cbn [bEx cEx mCb med med_of].
    split; [|split]; intros i j.
    + destruct ((1 <=? i) && (i <=? th) && (1 <=? j) && (j <? m - 1)) eqn:Q; [apply Hin|apply Hm]; lia.
    + destruct ((1 <=? i) && (i <=? th) && (1 <=? j) && (j <? m - 1)) eqn:Q; [apply Hin|apply Hm]; lia.
    + destruct ((1 <=? i) && (i <? n - 1) && (1 <=? j) && (j <? m - 1)) eqn:Q.
      * destruct (i <=? th) eqn:Q1; [|destruct (n - 1 - th <=? i) eqn:Q2].
        -- destruct (Hin i j) as (I1 & I2 & I3 & I4); [lia|]. unfold tv in *. cbn [fst snd] in *. now rewrite I3, I1.
        -- destruct (Hin (n - 1 - i) j) as (I1 & I2 & I3 & I4); [lia|]. unfold tv in *. cbn [fst snd] in *.
           replace (n - 1 - (n - 1 - i)) with i in * by lia. now rewrite I4, I2.
        -- apply (Ho (i, j)). intros i' j' Hij. split; intros W; injection W; lia.
      * apply (Ho (i, j)). intros i' j' Hij. split; intros W; injection W; lia.
Qed.

Lemma Hx_spec p1 p2 H : tdims n (th + 1) p1 -> tdims n (th + 1) p2 -> tdims n m H ->
  exists p1' p2' H', pml_Hx par cf (cDb C) (fEz (ph_F p)) (p1, p2, H) = Ok (p1', p2', H') /\
    tdims n (th + 1) p1' /\ tdims n (th + 1) p2' /\ tdims n m H' /\
    (forall i j, tval p1' i j = memHxl n th dx (med p) ez (tval p1) i j) /\
    (forall i j, tval p2' i j = memHxh n m th dx (med p) ez (tval p2) i j) /\
    (forall i j, tval H' i j = if core n m i j
       then addHx m th (med p) (tval p1') (tval p2') (tval H) i j else tval H i j).
Proof.
  intros D1 D2 D3. destruct Hg as (G0 & G1 & G2).
  destruct (wf_F p Hwf) as (F1 & F2 & F3). destruct (wf_C p Hwf) as (C1 & C2 & C3 & C4).
  destruct (wf_coef p Hwf) as ((A1 & A2 & A3 & A4) & (B1 & B2 & B3 & B4)).
  destruct (pair_loop 1 (n - 1) 1 th n (th + 1) n m (fun i j => (i, j)) (fun i j => (i, m - 1 - j - 1))
    (fun i j q => recur dx (aval (bh_y cf) j) (aval (ch_y cf) j) q (ez i (j + 1)%Z - ez i j)%num)
    (fun i j q => recur dx (aval (bh_y cf) j) (aval (ch_y cf) j) q (ez i (m - 1 - j)%Z - ez i (m - 1 - j - 1)%Z)%num)
    (fun i j e q => (e - tval (cDb C) i j * q)%num)
    (fun i j e q => (e - tval (cDb C) i (m - 1 - j - 1)%Z * q)%num)
    (fun i j s => Hx_body par cf (cDb C) (fEz (ph_F p)) i j s)) with (p1 := p1) (p2 := p2) (E := H)
    as (p1' & p2' & E' & Hr & T1 & T2 & T3 & Hin & Hm & Ho); try assumption.
  - intros i j i' j' _ _ Q. now injection Q.
  - intros i j i' j' H1 H2 Q. injection Q. lia.
  - intros i j i' j' H1 H2 Q. injection Q. lia.
  - intros i j q1 q2 E0 Hij X1 X2 X3. unfold Hx_body. cbn [p_Nx p_Ny p_dx mk_pml_par]. acc.
    unfold tadd2, tv. cbn [fst snd]. rewrite !tupd_same. rewrite (tupd_other _ _ _ _ i (m - 1 - j - 1)) by lia. reflexivity.
  - exists p1', p2', E'. split; [exact Hr|]. do 3 (split; [assumption|]).
    unfold memHxl, memHxh, addHx, core. cbn [bHy cHy mDb med med_of].
    split; [|split]; intros i j.
    + destruct ((1 <=? i) && (i <? n - 1) && (1 <=? j) && (j <? th)) eqn:Q; [apply Hin|apply Hm]; lia.
    + destruct ((1 <=? i) && (i <? n - 1) && (1 <=? j) && (j <? th)) eqn:Q; [apply Hin|apply Hm]; lia.
    + destruct ((1 <=? i) && (i <? n - 1) && (1 <=? j) && (j <? m - 1)) eqn:Q.
      * destruct (j <? th) eqn:Q1; [|destruct ((m - 1 - th <=? j) && (j <? m - 2)) eqn:Q2].
        -- destruct (Hin i j) as (I1 & I2 & I3 & I4); [lia|]. unfold tv in *. cbn [fst snd] in *. now rewrite I3, I1.
        -- destruct (Hin i (m - 2 - j)) as (I1 & I2 & I3 & I4); [lia|]. unfold tv in *. cbn [fst snd] in *.
           replace (m - 1 - (m - 2 - j) - 1) with j in * by lia. now rewrite I4, I2.
        -- apply (Ho (i, j)). intros i' j' Hij. split; intros W; injection W; lia.
      * apply (Ho (i, j)). intros i' j' Hij. split; intros W; injection W; lia.
Qed.

Lemma Hy_spec p1 p2 H : tdims (th + 1) m p1 -> tdims (th + 1) m p2 -> tdims n m H ->
  exists p1' p2' H', pml_Hy par cf (cDb C) (fEz (ph_F p)) (p1, p2, H) = Ok (p1', p2', H') /\
    tdims (th + 1) m p1' /\ tdims (th + 1) m p2' /\ tdims n m H' /\
    (forall i j, tval p1' i j = memHyl m th dx (med p) ez (tval p1) i j) /\
    (forall i j, tval p2' i j = memHyh n m th dx (med p) ez (tval p2) i j) /\
    (forall i j, tval H' i j = if core n m i j
       then addHy n th (med p) (tval p1') (tval p2') (tval H) i j else tval H i j).
Proof.
  intros D1 D2 D3. destruct Hg as (G0 & G1 & G2).
  destruct (wf_F p Hwf) as (F1 & F2 & F3). destruct (wf_C p Hwf) as (C1 & C2 & C3 & C4).
  destruct (wf_coef p Hwf) as ((A1 & A2 & A3 & A4) & (B1 & B2 & B3 & B4)).
  destruct (pair_loop 1 th 1 (m - 1) (th + 1) m n m (fun i j => (i, j)) (fun i j => (n - 1 - i - 1, j))
    (fun i j q => recur dx (aval (bh_x cf) i) (aval (ch_x cf) i) q (ez (i + 1)%Z j - ez i j)%num)
    (fun i j q => recur dx (aval (bh_x cf) i) (aval (ch_x cf) i) q (ez (n - 1 - i)%Z j - ez (n - 1 - i - 1)%Z j)%num)
    (fun i j e q => (e + tval (cDb C) i j * q)%num)
    (fun i j e q => (e + tval (cDb C) (n - 1 - i - 1)%Z j * q)%num)
    (fun i j s => Hy_body par cf (cDb C) (fEz (ph_F p)) i j s)) with (p1 := p1) (p2 := p2) (E := H)
    as (p1' & p2' & E' & Hr & T1 & T2 & T3 & Hin & Hm & Ho); try assumption.
  - intros i j i' j' _ _ Q. now injection Q.
  - intros i j i' j' H1 H2 Q. injection Q. lia.
  - intros i j i' j' H1 H2 Q. injection Q. lia.
  - intros i j q1 q2 E0 Hij X1 X2 X3. unfold Hy_body. cbn [p_Nx p_Ny p_dx mk_pml_par]. acc.
    unfold tadd2, tv. cbn [fst snd]. rewrite !tupd_same. rewrite (tupd_other _ _ _ _ (n - 1 - i - 1) j) by lia. reflexivity.
  - exists p1', p2', E'. split; [exact Hr|]. do 3 (split; [assumption|]).
    unfold memHyl, memHyh, addHy, core. cbn [bHx cHx mDb med med_of].
    split; [|split]; intros i j.
    + destruct ((1 <=? i) && (i <? th) && (1 <=? j) && (j <? m - 1)) eqn:Q; [apply Hin|apply Hm]; lia.
    + destruct ((1 <=? i) && (i <? th) && (1 <=? j) && (j <? m - 1)) eqn:Q; [apply Hin|apply Hm]; lia.
    + destruct ((1 <=? i) && (i <? n - 1) && (1 <=? j) && (j <? m - 1)) eqn:Q.
      * destruct (i <? th) eqn:Q1; [|destruct ((n - 1 - th <=? i) && (i <? n - 2)) eqn:Q2].
        -- destruct (Hin i j) as (I1 & I2 & I3 & I4); [lia|]. unfold tv in *. cbn [fst snd] in *. now rewrite I3, I1.
        -- destruct (Hin (n - 2 - i) j) as (I1 & I2 & I3 & I4); [lia|]. unfold tv in *. cbn [fst snd] in *.
           replace (n - 1 - (n - 2 - i) - 1) with i in * by lia. now rewrite I4, I2.
        -- apply (Ho (i, j)). intros i' j' Hij. split; intros W; injection W; lia.
      * apply (Ho (i, j)). intros i' j' Hij. split; intros W; injection W; lia.
Qed.
End Loops.

(** ** The electric and the magnetic half of the step *)
Definition grid_next_e (p : phys) (u : emag) (hx hy : cells) : emag :=
  let g := ph_grid p in next_e (g_Nx g) (g_Ny g) (g_pml g) (g_dx g) (med p) hx hy u.
Definition grid_next_h (p : phys) (u : hmag) (e : cells) : hmag :=
  let g := ph_grid p in next_h (g_Nx g) (g_Ny g) (g_pml g) (g_dx g) (med p) e u.

(** everything but the fields and the PML memory *)
Definition set_EP (E : tensor) (b : pml) (p : phys) : phys := set_E E (set_ph_pml b p).
Definition set_HP (X Y : tensor) (b : pml) (p : phys) : phys := set_H X Y (set_ph_pml b p).

Lemma e_half p : apart (ph_grid p) -> wf_phys p ->
  exists p1 E b, step_E p = Ok p1 /\ step_pmlE p1 = Ok (set_EP E b p) /\
    p_par b = p_par (ph_pml p) /\ p_coef b = p_coef (ph_pml p) /\
    wf_phys (set_EP E b p) /\
    h_of (set_EP E b p) = h_of p /\
    same_e (e_of (set_EP E b p)) (grid_next_e p (e_of p) (hX (h_of p)) (hY (h_of p))).
Proof.
  intros Hg Hwf. destruct (E_loop_spec p Hg Hwf) as (E0 & R0 & D0 & V0).
  unfold step_E. rewrite R0. cbn [bind]. exists (set_E E0 p).
  destruct (wf_psi p Hwf) as ((P1 & P2 & P3 & P4) & (Q1 & Q2 & Q3 & Q4)).
  destruct (Ey_spec p Hg Hwf _ _ E0 P3 P4 D0) as (y1 & y2 & E1 & R1 & D1 & D2 & D3 & V1 & V2 & V3).
  destruct (Ex_spec p Hg Hwf _ _ E1 P1 P2 D3) as (x1 & x2 & E2 & R2 & D4 & D5 & D6 & V4 & V5 & V6).
  exists E2. eexists. split; [reflexivity|].
  split.
  { unfold step_pmlE, pml_update_E. cbn -[pml_Ey pml_Ex]. rewrite (wf_par p Hwf), R1. cbn -[pml_Ex]. rewrite R2.
    cbn [bind]. reflexivity. }
  cbn [p_par p_coef]. split; [now rewrite (wf_par p Hwf)|]. split; [reflexivity|]. split; [|split].
  - destruct (wf_F p Hwf) as (F1 & F2 & F3). destruct Hwf. constructor; cbn; auto.
    + repeat split; apply D6 || apply F2 || apply F3.
    + repeat split; apply D4 || apply D5 || apply D1 || apply D2 || apply Q1 || apply Q2 || apply Q3 || apply Q4.
  - reflexivity.
  - unfold same_e, same, grid_next_e, next_e. cbn. repeat split; intros i j.
    + rewrite V6. destruct (core (g_Nx (ph_grid p)) (g_Ny (ph_grid p)) i j) eqn:Q.
      2:{ now rewrite V3, Q, V0, Q. }
      unfold addX, addY. rewrite !V4, !V5, V3, Q. unfold addY. rewrite !V1, !V2, V0, Q. reflexivity.
    + apply V4.
    + apply V5.
    + apply V1.
    + apply V2.
Qed.

Lemma h_half p : apart (ph_grid p) -> wf_phys p ->
  exists p1 X Y b, step_H p = Ok p1 /\ step_pmlH p1 = Ok (set_HP X Y b p) /\
    p_par b = p_par (ph_pml p) /\ p_coef b = p_coef (ph_pml p) /\
    wf_phys (set_HP X Y b p) /\
    e_of (set_HP X Y b p) = e_of p /\
    same_h (h_of (set_HP X Y b p)) (grid_next_h p (h_of p) (eE (e_of p))).
Proof.
  intros Hg Hwf. destruct (H_loop_spec p Hg Hwf) as (X0 & Y0 & R0 & DX & DY & VX & VY).
  unfold step_H. rewrite R0. cbn [bind]. exists (set_H X0 Y0 p).
  destruct (wf_psi p Hwf) as ((P1 & P2 & P3 & P4) & (Q1 & Q2 & Q3 & Q4)).
  destruct (Hx_spec p Hg Hwf _ _ X0 Q1 Q2 DX) as (y1 & y2 & X1 & R1 & D1 & D2 & D3 & V1 & V2 & V3).
  destruct (Hy_spec p Hg Hwf _ _ Y0 Q3 Q4 DY) as (x1 & x2 & Y1 & R2 & D4 & D5 & D6 & V4 & V5 & V6).
  exists X1, Y1. eexists. split; [reflexivity|].
  split.
  { unfold step_pmlH, pml_update_H. cbn -[pml_Hx pml_Hy]. rewrite (wf_par p Hwf), R1. cbn -[pml_Hy]. rewrite R2.
    cbn [bind]. reflexivity. }
  cbn [p_par p_coef]. split; [now rewrite (wf_par p Hwf)|]. split; [reflexivity|]. split; [|split].
  - destruct (wf_F p Hwf) as (F1 & F2 & F3). destruct Hwf. constructor; cbn; auto.
    + repeat split; apply D6 || apply F1 || apply D3.
    + repeat split; apply D4 || apply D5 || apply D1 || apply D2 || apply P1 || apply P2 || apply P3 || apply P4.
  - reflexivity.
  - unfold same_h, same, grid_next_h, next_h. cbn. repeat split; intros i j.
    + rewrite V3. destruct (core (g_Nx (ph_grid p)) (g_Ny (ph_grid p)) i j) eqn:Q.
      2:{ now rewrite VX, Q. }
      unfold addHx. rewrite !V1, !V2, VX, Q. reflexivity.
    + apply V1.
    + apply V2.
    + rewrite V6. destruct (core (g_Nx (ph_grid p)) (g_Ny (ph_grid p)) i j) eqn:Q.
      2:{ now rewrite VY, Q. }
      unfold addHy. rewrite !V4, !V5, VY, Q. reflexivity.
    + apply V4.
    + apply V5.
Qed.

End Step.
