(** The update of the polarization currents, cell by cell. *)
From Coq Require Import ZArith String List Bool Lia.
From Verif Require Import Scalar Base BaseFacts VecM GridM GeometryM MaterialM PmlM DftM TfsfM PolarM
  InterpM H5M ClockM MonitorM FieldM OutFacts PhysFacts PaintFacts WfFacts.
Import ListNotations.
Local Open Scope Z_scope.

(** a double loop whose body at (i, j) turns the condition P0 i j into P1 i j and leaves both
    conditions alone at every other cell *)
Lemma for2_rel {S} (Fr : S -> Prop) (P0 P1 : Z -> Z -> S -> Prop) (body : Z -> Z -> S -> res S) n m s0 s1 :
  Fr s0 -> (forall i j, P0 i j s0) ->
  (forall i j s s', 0 <= i < n -> 0 <= j < m -> Fr s -> P0 i j s -> body i j s = Ok s' ->
     Fr s' /\ P1 i j s' /\ (forall i' j', ~ (i' = i /\ j' = j) ->
       (P0 i' j' s -> P0 i' j' s') /\ (P1 i' j' s -> P1 i' j' s'))) ->
  for_up 0 n (fun i a => for_up 0 m (fun j a => body i j a) a) s0 = Ok s1 ->
  Fr s1 /\ (forall i j, 0 <= i < n -> 0 <= j < m -> P1 i j s1) /\
  (forall i j, ~ (0 <= i < n /\ 0 <= j < m) -> P0 i j s1).
Proof.
  intros H0 Hp Hs Hr. destruct (Z.le_gt_cases 0 n) as [Hle|Hgt].
  2:{ rewrite for_up_empty in Hr by lia. injection Hr as <-. repeat split; auto; intros; lia. }
  apply (for_up_post (fun k s => Fr s /\
       (forall i j, 0 <= i < k -> 0 <= j < m -> P1 i j s) /\
       (forall i j, ~ (0 <= i < k /\ 0 <= j < m) -> P0 i j s))
     (fun i a => for_up 0 m (fun j a => body i j a) a) 0 n s0 s1 Hle); [| |exact Hr].
  - split; [exact H0|]. split; intros; [lia|apply Hp].
  - intros i s s' Hi [Hf [Hg Hn]] Hb.
    destruct (Z.le_gt_cases 0 m) as [Hle2|Hgt2].
    2:{ rewrite for_up_empty in Hb by lia. injection Hb as <-. split; [exact Hf|].
        split; intros; [lia|apply Hn; lia]. }
    apply (for_up_post (fun k s => Fr s /\
        (forall i' j, (0 <= i' < i /\ 0 <= j < m) \/ (i' = i /\ 0 <= j < k) -> P1 i' j s) /\
        (forall i' j', ~ ((0 <= i' < i /\ 0 <= j' < m) \/ (i' = i /\ 0 <= j' < k)) -> P0 i' j' s))
        (fun j a => body i j a) 0 m s s' Hle2) in Hb.
    + destruct Hb as (A & B & C). split; [exact A|]. split; intros; [apply B; lia|apply C; lia].
    + split; [exact Hf|]. split; intros; [apply Hg; lia|apply Hn; lia].
    + intros j s2 s3 Hj [Hf1 [Hg1 Hn1]] Hb3.
      destruct (Hs i j s2 s3 Hi Hj Hf1) as [Hf2 [Hgi Ho]]; [apply Hn1; lia|exact Hb3|].
      split; [exact Hf2|]. split.
      * intros i' j' Hk. destruct (Z.eq_dec i' i) as [->|]; [destruct (Z.eq_dec j' j) as [->|]|]; [exact Hgi|..];
          (apply Ho; [lia|apply Hg1; lia]).
      * intros i' j' Hk. apply Ho; [lia|apply Hn1; lia].
Qed.

Section Cells.
Context {N : Num}.

Lemma lget_inv (l : list T) k v : lget l k = Ok v -> 0 <= k < Z.of_nat (length l) /\ v = nth (Z.to_nat k) l 0%num.
Proof. unfold lget. destruct (inr _ k) eqn:E; intros H; inv_ok. split; [now apply inr_true in E|reflexivity]. Qed.
Lemma tget_inv a i j v : tget a i j = Ok v -> 0 <= i < rows a /\ 0 <= j < cols a /\ v = tval a i j.
Proof.
  unfold tget. destruct (inr (rows a) i && inr (cols a) j) eqn:E; intros H; inv_ok.
  apply andb_true_iff in E. destruct E as [A B]. apply inr_true in A, B. auto.
Qed.
Lemma tset_inv a i j v b : tset a i j v = Ok b -> 0 <= i < rows a /\ 0 <= j < cols a /\ b = tupd a i j v.
Proof.
  unfold tset. destruct (inr (rows a) i && inr (cols a) j) eqn:E; intros H; inv_ok.
  apply andb_true_iff in E. destruct E as [A B]. apply inr_true in A, B. auto.
Qed.
Lemma t3get_inv a i j k v : t3get a i j k = Ok v -> v = t3val a i j k.
Proof. unfold t3get. destruct (in3 a i j k); intros H; inv_ok. reflexivity. Qed.
Lemma t3set_inv a i j k v b : t3set a i j k v = Ok b -> b = t3upd a i j k v.
Proof. unfold t3set. destruct (in3 a i j k); intros H; inv_ok. reflexivity. Qed.

(** one pole after another at a cell: e k is the field when pole k is reached *)
Definition chain (n : Z) (fe : Z -> T -> T) (fj : Z -> T -> T) (e0 e1 : T) (J' : Z -> T) : Prop :=
  exists e : Z -> T, e 0 = e0 /\ e n = e1 /\ forall k, 0 <= k < n -> e (k + 1) = fe k (e k) /\ J' k = fj k (e (k + 1)).

Lemma chain_ext n fe fj e0 e1 J J' : (forall k, 0 <= k < n -> J k = J' k) -> chain n fe fj e0 e1 J -> chain n fe fj e0 e1 J'.
Proof.
  intros H (e & A & B & C). exists e. split; [exact A|]. split; [exact B|]. intros k Hk. destruct (C k Hk) as [D E].
  split; [exact D|]. now rewrite <- H.
Qed.
Lemma chain_extf n fe fj fe' fj' e0 e1 J : (forall k e, 0 <= k < n -> fe k e = fe' k e) ->
  (forall k e, 0 <= k < n -> fj k e = fj' k e) -> chain n fe fj e0 e1 J -> chain n fe' fj' e0 e1 J.
Proof.
  intros H H' (e & A & B & C). exists e. split; [exact A|]. split; [exact B|]. intros k Hk. destruct (C k Hk) as [D E].
  rewrite <- H, <- H' by exact Hk. auto.
Qed.

(** the loops of the two kinds without J history *)
Section Two.
Variables (n m np : Z) (fe : Z -> Z -> Z -> T -> T -> T) (fj : Z -> Z -> Z -> T -> T -> T).
Variable body : Z -> Z -> Z -> tensor * tensor3 -> res (tensor * tensor3).
Hypothesis Hnp : 0 <= np.
(** fe i j k w e, fj i j k w e: new field and new current from the old current w *)
Hypothesis Hbody : forall i j k E J E' J', body i j k (E, J) = Ok (E', J') ->
  E' = tupd E i j (fe i j k (t3val J i j k) (tval E i j)) /\
  J' = t3upd J i j k (fj i j k (t3val J i j k) (tval E' i j)).

Lemma two_column i j E J E' J' : for_up 0 np (fun k s => body i j k s) (E, J) = Ok (E', J') ->
  (forall i' j', ~ (i' = i /\ j' = j) -> tval E' i' j' = tval E i' j') /\
  (forall i' j' k, ~ (i' = i /\ j' = j) -> t3val J' i' j' k = t3val J i' j' k) /\
  (forall k, ~ 0 <= k < np -> t3val J' i j k = t3val J i j k) /\
  chain np (fun k => fe i j k (t3val J i j k)) (fun k => fj i j k (t3val J i j k)) (tval E i j) (tval E' i j) (t3val J' i j).
Proof.
  intros H. apply (for_up_post (fun q s =>
     (forall i' j', ~ (i' = i /\ j' = j) -> tval (fst s) i' j' = tval E i' j') /\
     (forall i' j' k, ~ (i' = i /\ j' = j) -> t3val (snd s) i' j' k = t3val J i' j' k) /\
     (forall k, ~ 0 <= k < q -> t3val (snd s) i j k = t3val J i j k) /\
     chain q (fun k => fe i j k (t3val J i j k)) (fun k => fj i j k (t3val J i j k)) (tval E i j) (tval (fst s) i j) (t3val (snd s) i j)))
    in H; [exact H|exact Hnp| |].
  - cbn [fst snd]. repeat split; auto. exists (fun _ => tval E i j). repeat split; lia.
  - clear H E' J'. intros k [E1 J1] [E2 J2] Hk (A & B & C & e & D1 & D2 & D3) Hb. cbn [fst snd] in *.
    apply Hbody in Hb. destruct Hb as [-> ->]. rewrite tupd_same, (C k) by lia.
    split; [intros; rewrite tupd_other by assumption; auto|].
    split; [intros i' j' k' Hn; rewrite t3upd_other by tauto; auto|].
    split; [intros k' Hk'; rewrite t3upd_other by lia; apply C; lia|].
    exists (fun q => if q <=? k then e q else fe i j k (t3val J i j k) (tval E1 i j)).
    split; [replace (0 <=? k) with true by lia; exact D1|].
    split; [now replace (k + 1 <=? k) with false by lia|].
    intros q Hq. destruct (Z.eq_dec q k) as [->|Hne].
    + replace (k + 1 <=? k) with false by lia. replace (k <=? k) with true by lia.
      rewrite t3upd_same, D2. auto.
    + replace (q + 1 <=? k) with true by lia. replace (q <=? k) with true by lia.
      rewrite t3upd_other by lia. apply D3. lia.
Qed.

Lemma two_loop E J E' J' : for_up 0 n (fun i s => for_up 0 m (fun j s => for_up 0 np (fun k s => body i j k s) s) s) (E, J) = Ok (E', J') ->
  (forall i j, 0 <= i < n -> 0 <= j < m ->
    (forall k, ~ 0 <= k < np -> t3val J' i j k = t3val J i j k) /\
    chain np (fun k => fe i j k (t3val J i j k)) (fun k => fj i j k (t3val J i j k)) (tval E i j) (tval E' i j) (t3val J' i j)) /\
  (forall i j, ~ (0 <= i < n /\ 0 <= j < m) -> tval E' i j = tval E i j /\ forall k, t3val J' i j k = t3val J i j k).
Proof.
  intros H. apply (for2_rel (fun _ => True)
    (fun i j s => tval (fst s) i j = tval E i j /\ forall k, t3val (snd s) i j k = t3val J i j k)
    (fun i j s => (forall k, ~ 0 <= k < np -> t3val (snd s) i j k = t3val J i j k) /\
      chain np (fun k => fe i j k (t3val J i j k)) (fun k => fj i j k (t3val J i j k)) (tval E i j) (tval (fst s) i j) (t3val (snd s) i j)))
    in H; [exact (proj2 H)|exact I|auto|].
  clear H E' J'. intros i j [E1 J1] [E2 J2] Hi Hj _ [P Q] Hb. cbn [fst snd] in *. apply two_column in Hb.
  destruct Hb as (A & B & C & D). split; [exact I|]. split.
  - split; [intros; rewrite C, Q; auto|]. rewrite P in D. eapply chain_extf; [| |exact D]; cbn beta; intros k e Hk; now rewrite Q.
  - intros i' j' Hn. rewrite (A _ _ Hn). split.
    + intros [P' Q']. split; [exact P'|]. intros k. now rewrite B.
    + intros [P' Q']. split; [intros k Hk; rewrite B; auto|]. eapply chain_ext; [|exact Q']. intros k Hk. cbn beta. now rewrite B.
Qed.
End Two.

(** ** The three kinds *)
Definition debye_cell (x : debye) (q : polar) (pe E : tensor) (q' : polar) (E' : tensor) (i j : Z) : Prop :=
  chain (pl_n q)
    (fun k e => (e - debye_Cb x (pl_dt q) * half * (1 + nth (Z.to_nat k) (debye_kappa x (pl_dt q)) 0) * t3val (pl_J q) i j k)%num)
    (fun k e => (nth (Z.to_nat k) (debye_kappa x (pl_dt q)) 0 * t3val (pl_J q) i j k
                 + t3val (pl_c q) i j k / pl_dt q * (e - tval pe i j))%num)
    (tval E i j) (tval E' i j) (t3val (pl_J q') i j).
Definition drude_cell (x : drude) (q : polar) (pe E : tensor) (q' : polar) (E' : tensor) (i j : Z) : Prop :=
  chain (pl_n q)
    (fun k e => (e - drude_Cb x (pl_dt q) * half * (1 + nth (Z.to_nat k) (drude_kappa x (pl_dt q)) 0) * t3val (pl_J q) i j k)%num)
    (fun k e => (nth (Z.to_nat k) (drude_kappa x (pl_dt q)) 0 * t3val (pl_J q) i j k
                 + t3val (pl_c q) i j k * (e + tval pe i j))%num)
    (tval E i j) (tval E' i j) (t3val (pl_J q') i j).
Definition lorentz_cell (x : lorentz) (q : polar) (p2 E : tensor) (q' : polar) (E' : tensor) (i j : Z) : Prop :=
  let al k := nth (Z.to_nat k) (lorentz_alpha x (pl_dt q)) 0%num in
  let be k := nth (Z.to_nat k) (lorentz_beta x (pl_dt q)) 0%num in
  chain (pl_n q)
    (fun k e => (e + (lorentz_Ca_prev x (pl_dt q) * tval p2 i j - lorentz_Cb x (pl_dt q) * half *
        ((1 + al k) * t3val (pl_J q) i j k + be k * t3val (pl_pJ q) i j k)))%num)
    (fun k e => (al k * t3val (pl_J q) i j k + be k * t3val (pl_pJ q) i j k
                 + t3val (pl_c q) i j k / (2 * pl_dt q) * (e - tval p2 i j))%num)
    (tval E i j) (tval E' i j) (t3val (pl_J q') i j) /\
  forall k, 0 <= k < pl_n q -> t3val (pl_pJ q') i j k = t3val (pl_J q) i j k.

(** everything but the currents is kept *)
Definition kept (q q' : polar) : Prop :=
  pl_Nx q' = pl_Nx q /\ pl_Ny q' = pl_Ny q /\ pl_dx q' = pl_dx q /\ pl_dt q' = pl_dt q /\ pl_n q' = pl_n q /\ pl_c q' = pl_c q.

(** result of one polarization: the cells of the grid by the law, everything else untouched *)
Definition by_cells (q q' : polar) (E E' : tensor) (cell : Z -> Z -> Prop) : Prop :=
  kept q q' /\
  (forall i j, 0 <= i < pl_Nx q -> 0 <= j < pl_Ny q -> cell i j) /\
  (forall i j, ~ (0 <= i < pl_Nx q /\ 0 <= j < pl_Ny q) -> tval E' i j = tval E i j).

Lemma debye_update_cells x q pe E q' E' : 0 <= pl_n q -> debye_update x q pe E = Ok (q', E') ->
  by_cells q q' E E' (debye_cell x q pe E q' E').
Proof.
  intros Hn H. unfold debye_update in H. apply bind_ok in H. destruct H as ([E1 J1] & H & K). injection K as <- <-.
  split; [repeat split|]. unfold debye_cell. cbn [pl_J with_J pl_Nx pl_Ny].
  apply (two_loop (pl_Nx q) (pl_Ny q) (pl_n q)
    (fun i j k w e => (e - debye_Cb x (pl_dt q) * half * (1 + nth (Z.to_nat k) (debye_kappa x (pl_dt q)) 0) * w)%num)
    (fun i j k w e => (nth (Z.to_nat k) (debye_kappa x (pl_dt q)) 0 * w + t3val (pl_c q) i j k / pl_dt q * (e - tval pe i j))%num)) in H.
  - destruct H as [A B]. split; [intros i j Hi Hj; apply A; assumption|intros i j Hij; apply B; exact Hij].
  - exact Hn.
  - clear. intros i j k E J E' J' H. unfold debye_body in H. inv_ok.
    repeat match goal with
    | H : tget _ _ _ = Ok _ |- _ => apply tget_inv in H; destruct H as (_ & _ & ->)
    | H : tset _ _ _ _ = Ok _ |- _ => apply tset_inv in H; destruct H as (_ & _ & ->)
    | H : t3get _ _ _ _ = Ok _ |- _ => apply t3get_inv in H; subst
    | H : t3set _ _ _ _ _ = Ok _ |- _ => apply t3set_inv in H; subst
    | H : lget _ _ = Ok _ |- _ => apply lget_inv in H; destruct H as (_ & ->)
    end. split; reflexivity.
Qed.
Lemma drude_update_cells x q pe E q' E' : 0 <= pl_n q -> drude_update x q pe E = Ok (q', E') ->
  by_cells q q' E E' (drude_cell x q pe E q' E').
Proof.
  intros Hn H. unfold drude_update in H. apply bind_ok in H. destruct H as ([E1 J1] & H & K). injection K as <- <-.
  split; [repeat split|]. unfold drude_cell. cbn [pl_J with_J pl_Nx pl_Ny].
  apply (two_loop (pl_Nx q) (pl_Ny q) (pl_n q)
    (fun i j k w e => (e - drude_Cb x (pl_dt q) * half * (1 + nth (Z.to_nat k) (drude_kappa x (pl_dt q)) 0) * w)%num)
    (fun i j k w e => (nth (Z.to_nat k) (drude_kappa x (pl_dt q)) 0 * w + t3val (pl_c q) i j k * (e + tval pe i j))%num)) in H.
  - destruct H as [A B]. split; [intros i j Hi Hj; apply A; assumption|intros i j Hij; apply B; exact Hij].
  - exact Hn.
  - clear. intros i j k E J E' J' H. unfold drude_body in H. inv_ok.
    repeat match goal with
    | H : tget _ _ _ = Ok _ |- _ => apply tget_inv in H; destruct H as (_ & _ & ->)
    | H : tset _ _ _ _ = Ok _ |- _ => apply tset_inv in H; destruct H as (_ & _ & ->)
    | H : t3get _ _ _ _ = Ok _ |- _ => apply t3get_inv in H; subst
    | H : t3set _ _ _ _ _ = Ok _ |- _ => apply t3set_inv in H; subst
    | H : lget _ _ = Ok _ |- _ => apply lget_inv in H; destruct H as (_ & ->)
    end. split; reflexivity.
Qed.

(** Lorentz: a second loop lemma with the previous current *)
Lemma three_column np (fe : Z -> T -> T -> T -> T) (fj : Z -> T -> T -> T -> T)
    (body : Z -> tensor * tensor3 * tensor3 -> res (tensor * tensor3 * tensor3)) i j E J Q E' J' Q' :
  0 <= np ->
  (forall k E J Q E' J' Q', body k (E, J, Q) = Ok (E', J', Q') ->
    E' = tupd E i j (fe k (t3val J i j k) (t3val Q i j k) (tval E i j)) /\
    J' = t3upd J i j k (fj k (t3val J i j k) (t3val Q i j k) (tval E' i j)) /\ Q' = t3upd Q i j k (t3val J i j k)) ->
  for_up 0 np body (E, J, Q) = Ok (E', J', Q') ->
  (forall i' j', ~ (i' = i /\ j' = j) -> tval E' i' j' = tval E i' j') /\
  (forall i' j' k, ~ (i' = i /\ j' = j) -> t3val J' i' j' k = t3val J i' j' k /\ t3val Q' i' j' k = t3val Q i' j' k) /\
  (forall k, 0 <= k < np -> t3val Q' i j k = t3val J i j k) /\
  chain np (fun k => fe k (t3val J i j k) (t3val Q i j k)) (fun k => fj k (t3val J i j k) (t3val Q i j k)) (tval E i j) (tval E' i j) (t3val J' i j).
Proof.
  intros Hnp Hbody H. apply (for_up_post (fun q s =>
     (forall i' j', ~ (i' = i /\ j' = j) -> tval (fst (fst s)) i' j' = tval E i' j') /\
     (forall i' j' k, ~ (i' = i /\ j' = j) -> t3val (snd (fst s)) i' j' k = t3val J i' j' k /\ t3val (snd s) i' j' k = t3val Q i' j' k) /\
     (forall k, 0 <= k < q -> t3val (snd s) i j k = t3val J i j k) /\
     (forall k, ~ 0 <= k < q -> t3val (snd (fst s)) i j k = t3val J i j k /\ t3val (snd s) i j k = t3val Q i j k) /\
     chain q (fun k => fe k (t3val J i j k) (t3val Q i j k)) (fun k => fj k (t3val J i j k) (t3val Q i j k)) (tval E i j)
        (tval (fst (fst s)) i j) (t3val (snd (fst s)) i j)))
    in H; [cbn [fst snd] in H; intuition|exact Hnp| |].
  - cbn [fst snd]. repeat split; auto; try lia. exists (fun _ => tval E i j). repeat split; lia.
  - clear H E' J' Q'. intros k [[E1 J1] Q1] [[E2 J2] Q2] Hk (A & B & C & C' & e & D1 & D2 & D3) Hb. cbn [fst snd] in *.
    apply Hbody in Hb. destruct Hb as (-> & -> & ->). destruct (C' k ltac:(lia)) as [K1 K2]. rewrite tupd_same, K1, K2.
    split; [intros; rewrite tupd_other by assumption; auto|].
    split; [intros i' j' k' Hn; rewrite !t3upd_other by tauto; auto|].
    split. { intros k' Hk'. destruct (Z.eq_dec k' k) as [->|]; [now rewrite t3upd_same|rewrite t3upd_other by lia; apply C; lia]. }
    split; [intros k' Hk'; rewrite !t3upd_other by lia; apply C'; lia|].
    exists (fun q => if q <=? k then e q else fe k (t3val J i j k) (t3val Q i j k) (tval E1 i j)).
    split; [replace (0 <=? k) with true by lia; exact D1|].
    split; [now replace (k + 1 <=? k) with false by lia|].
    intros q Hq. destruct (Z.eq_dec q k) as [->|Hne].
    + replace (k + 1 <=? k) with false by lia. replace (k <=? k) with true by lia.
      rewrite t3upd_same, D2. auto.
    + replace (q + 1 <=? k) with true by lia. replace (q <=? k) with true by lia.
      rewrite t3upd_other by lia. apply D3. lia.
Qed.

Lemma lorentz_update_cells x q pe E q' E' : 0 <= pl_n q -> lorentz_update x q pe E = Ok (q', E') ->
  by_cells q q' E E' (lorentz_cell x q pe E q' E').
Proof.
  intros Hn H. unfold lorentz_update in H. apply bind_ok in H. destruct H as ([[E1 J1] Q1] & H & K). injection K as <- <-.
  split; [repeat split|]. unfold lorentz_cell. cbn [pl_J pl_pJ with_JJ pl_Nx pl_Ny].
  set (al := fun k => nth (Z.to_nat k) (lorentz_alpha x (pl_dt q)) 0%num).
  set (be := fun k => nth (Z.to_nat k) (lorentz_beta x (pl_dt q)) 0%num).
  set (fe := fun (i j k : Z) (w v e : T) => (e + (lorentz_Ca_prev x (pl_dt q) * tval pe i j - lorentz_Cb x (pl_dt q) * half * ((1 + al k) * w + be k * v)))%num).
  set (fj := fun i j k (w v e : T) => (al k * w + be k * v + t3val (pl_c q) i j k / (2 * pl_dt q) * (e - tval pe i j))%num).
  apply (for2_rel (fun _ => True)
    (fun i j s => tval (fst (fst s)) i j = tval E i j /\ forall k, t3val (snd (fst s)) i j k = t3val (pl_J q) i j k /\ t3val (snd s) i j k = t3val (pl_pJ q) i j k)
    (fun i j s => chain (pl_n q) (fun k => fe i j k (t3val (pl_J q) i j k) (t3val (pl_pJ q) i j k))
        (fun k => fj i j k (t3val (pl_J q) i j k) (t3val (pl_pJ q) i j k)) (tval E i j) (tval (fst (fst s)) i j) (t3val (snd (fst s)) i j) /\
      forall k, 0 <= k < pl_n q -> t3val (snd s) i j k = t3val (pl_J q) i j k)) in H; [|exact I|auto|].
  - destruct H as (_ & A & B). cbn [fst snd] in A, B. split; [intros i j Hi Hj; apply A; assumption|intros i j Hij; apply B; exact Hij].
  - clear H E1 J1 Q1. intros i j [[E1 J1] Q1] [[E2 J2] Q2] Hi Hj _ [P R] Hb. cbn [fst snd] in *.
    apply (three_column (pl_n q) (fe i j) (fj i j) _ i j) in Hb; [|exact Hn|].
    + destruct Hb as (A & B & C & D). split; [exact I|]. split.
      * split; [|intros k Hk; rewrite C by exact Hk; apply R]. rewrite P in D.
        eapply chain_extf; [| |exact D]; cbn beta; intros k e Hk; destruct (R k) as [-> ->]; reflexivity.
      * intros i' j' Hne. rewrite (A _ _ Hne). split.
        -- intros [P' R']. split; [exact P'|]. intros k. destruct (B i' j' k Hne) as [-> ->]. apply R'.
        -- intros [P' R']. split; [|intros k Hk; destruct (B i' j' k Hne) as [_ ->]; auto].
           eapply chain_ext; [|exact P']. intros k Hk. cbn beta. now destruct (B i' j' k Hne) as [-> _].
    + clear. intros k E J Q E' J' Q' H. unfold lorentz_body in H. inv_ok.
      repeat match goal with
      | H : tget _ _ _ = Ok _ |- _ => apply tget_inv in H; destruct H as (_ & _ & ->)
      | H : tset _ _ _ _ = Ok _ |- _ => apply tset_inv in H; destruct H as (_ & _ & ->)
      | H : t3get _ _ _ _ = Ok _ |- _ => apply t3get_inv in H; subst
      | H : t3set _ _ _ _ _ = Ok _ |- _ => apply t3set_inv in H; subst
      | H : lget _ _ = Ok _ |- _ => apply lget_inv in H; destruct H as (_ & ->)
      end. repeat split.
Qed.
End Cells.
