(** Lemmas for the spectra in the file. *)
From Coq Require Import ZArith Reals Lra Lia String List Bool.
From Verif Require Import Scalar Base BaseFacts VecM GridM GeometryM MaterialM PmlM DftM TfsfM PolarM InterpM H5M ClockM MonitorM NamesM FieldM ReportM ShippedM
  SpecFile FileFacts SpecSpectra.
Import ListNotations.
Local Open Scope R_scope.
#[local] Existing Instance RNum.

Lemma components {N : Num} (F : list (T * T)) : by_component F (force_pay F).
Proof.
  exists (map fst F ++ map snd F). split; [reflexivity|]. split; [rewrite app_length, !map_length; lia|].
  intros k x y E. assert (L : (k < List.length F)%nat) by (apply nth_error_Some; rewrite E; discriminate). split.
  - rewrite nth_error_app1 by (rewrite map_length; exact L). rewrite nth_error_map, E. reflexivity.
  - rewrite nth_error_app2 by (rewrite map_length; lia). rewrite map_length. replace (List.length F + k - List.length F)%nat with k by lia.
    rewrite nth_error_map, E. reflexivity.
Qed.
Lemma force_data {N : Num} dx m v : mon_report dx m QForce = Ok v ->
  exists F, match m with MSurf a => surf_force dx a | MBox a => box_force dx a | MCyl a => cyl_force a | _ => UB MissingReturn end = Ok F /\ by_component F v.
Proof.
  destruct m; cbn [mon_report]; try discriminate; intros H; apply bind_ok in H as (F & E & H); injection H as <-; exists F; (split; [exact E|apply components]).
Qed.

Lemma zrange_nth n k : (k < Z.to_nat n)%nat -> nth_error (zrange 0 n) k = Some (Z.of_nat k).
Proof. intros L. unfold zrange. rewrite Z.sub_0_r, (nth_error_nth' _ 0%Z) by (rewrite zseq_length; exact L). now rewrite zseq_nth by exact L. Qed.
Lemma spread n : (2 <= n)%nat -> evenly n (1 / 30) (3 / 30) (frequencies (Z.of_nat n)).
Proof.
  intros L. split; [unfold frequencies, zrange; rewrite map_length, zseq_length; lia|]. intros k Lk.
  unfold frequencies. rewrite nth_error_map, zrange_nth by lia. cbn [option_map]. f_equal. unfold linspaced.
  assert (P : 0 < INR (n - 1)) by (apply lt_0_INR; lia).
  destruct (Z.eqb_spec (Z.of_nat k) (Z.of_nat n - 1)) as [E|E].
  - replace k with (n - 1)%nat by lia. cbn. field. lra.
  - replace (Z.of_nat n - 1)%Z with (Z.of_nat (n - 1)) by lia. cbn -[IZR INR Z.of_nat]. rewrite <- !INR_IZR_INZ. field. lra.
Qed.

Section Kept.
Context (g : grid) (name : string) (s0 s : field) (l : list call).
Context (E0 : mk_field g name = Ok s0) (E : exec_main l s0 = Fine s).
Lemma said r c : In c l -> In r (recorded c) -> holds (f_h5 s) r.
Proof.
  intros Hc Hr. assert (F := proj2 (program_records g name s0 l s E0 E)). rewrite Forall_forall in F. apply F.
  apply in_or_app. right. apply in_flat_map. exists c. auto.
Qed.
End Kept.

Lemma incident w T0 fr tp : tp_with_freq (pulse w T0) fr = Ok tp -> exists d, tp_dft tp = Some d /\ d_freq d = fr.
Proof. unfold tp_with_freq. cbn. intros [= <-]. eexists. split; reflexivity. Qed.
Lemma box_freq name v k fr m : mk_box_mon name v k fr = Ok m -> bm_name m = name /\ bm_freq m = fr.
Proof. unfold mk_box_mon. intros H. do 4 apply bind_ok in H as (? & _ & H). injection H as <-. split; reflexivity. Qed.

Lemma mie_spectra ob mat view g name s0 l s : mie_main ob mat view = Ok l -> mk_field g name = Ok s0 -> exec_main l s0 = Fine s ->
  Forall (spectrum_at (f_h5 s) 200) [["sources"; "tfsf"]; ["monitors"; "cylinder_monitor"; "scat"]; ["monitors"; "cylinder_monitor"; "absorb"]]%string.
Proof.
  intros H E0 E. unfold mie_main in H. apply bind_ok in H as (tp & Et & H). destruct (incident _ _ _ _ Et) as (d & D & F).
  assert (L : forall r c, In c l -> In r (recorded c) -> holds (f_h5 s) r) by exact (said g name s0 s l E0 E).
  injection H as <-. repeat constructor; exists (frequencies 200); (split; [exact (spread 200 ltac:(lia))|]).
  - apply (L _ (Do (SetTfsf (around 60 60 65) tp))); [left; reflexivity|]. cbn [recorded]. unfold tfsf_record. rewrite D, F. right. right. left. reflexivity.
  - apply (L _ (Do (AddMonitor (circle "scat" 50)))); [right; right; left; reflexivity|]. right. right. left. reflexivity.
  - apply (L _ (Do (AddMonitor (circle "absorb" 25)))); [right; right; right; left; reflexivity|]. right. right. left. reflexivity.
Qed.
Lemma mie_simple_spectra ob mat g name s0 l s : mie_simple_main ob mat = Ok l -> mk_field g name = Ok s0 -> exec_main l s0 = Fine s ->
  Forall (spectrum_at (f_h5 s) 200) [["sources"; "tfsf"]; ["monitors"; "cylinder_monitor"; "scat"]; ["monitors"; "cylinder_monitor"; "absorb"]]%string.
Proof.
  intros H E0 E. unfold mie_simple_main in H. apply bind_ok in H as (tp & Et & H). destruct (incident _ _ _ _ Et) as (d & D & F).
  assert (L : forall r c, In c l -> In r (recorded c) -> holds (f_h5 s) r) by exact (said g name s0 s l E0 E).
  injection H as <-. repeat constructor; exists (frequencies 200); (split; [exact (spread 200 ltac:(lia))|]).
  - apply (L _ (Do (SetTfsf (around 60 60 65) tp))); [left; reflexivity|]. cbn [recorded]. unfold tfsf_record. rewrite D, F. right. right. left. reflexivity.
  - apply (L _ (Do (AddMonitor (circle "scat" 50)))); [right; right; left; reflexivity|]. right. right. left. reflexivity.
  - apply (L _ (Do (AddMonitor (circle "absorb" 25)))); [right; right; right; left; reflexivity|]. right. right. left. reflexivity.
Qed.
Lemma mie_drude_spectra ob mat omega gamma g name s0 l s : mie_drude_main ob mat omega gamma = Ok l -> mk_field g name = Ok s0 -> exec_main l s0 = Fine s ->
  Forall (spectrum_at (f_h5 s) 200) [["sources"; "tfsf"]; ["monitors"; "box_monitor"; "scat"]]%string.
Proof.
  intros H E0 E. unfold mie_drude_main in H. apply bind_ok in H as (tp & Et & H). apply bind_ok in H as (m & Em & H).
  destruct (incident _ _ _ _ Et) as (d & D & F). destruct (box_freq _ _ _ _ _ Em) as [Nm Fm].
  assert (L : forall r c, In c l -> In r (recorded c) -> holds (f_h5 s) r) by exact (said g name s0 s l E0 E).
  injection H as <-. repeat constructor; exists (frequencies 200); (split; [exact (spread 200 ltac:(lia))|]).
  - apply (L _ (Do (SetTfsf (around 60 60 75) tp))); [left; reflexivity|]. cbn [recorded]. unfold tfsf_record. rewrite D, F. right. right. left. reflexivity.
  - apply (L _ (Do (AddMonitor (MBox m)))); [right; left; reflexivity|]. cbn [recorded monitor_record]. apply in_or_app. right. rewrite Nm, Fm.
    right. right. left. reflexivity.
Qed.
Lemma simple_spectra src g name s0 l s : simple_main src = Ok l -> mk_field g name = Ok s0 -> exec_main l s0 = Fine s ->
  Forall (spectrum_at (f_h5 s) 500) [["monitors"; "box_monitor"; "m1"]; ["monitors"; "box_monitor"; "m2"]]%string.
Proof.
  intros H E0 E. unfold simple_main in H. apply bind_ok in H as (m1 & E1 & H). apply bind_ok in H as (m2 & E2 & H).
  destruct (box_freq _ _ _ _ _ E1) as [N1 F1]. destruct (box_freq _ _ _ _ _ E2) as [N2 F2].
  assert (L : forall r c, In c l -> In r (recorded c) -> holds (f_h5 s) r) by exact (said g name s0 s l E0 E).
  injection H as <-. repeat constructor; exists (frequencies 500); (split; [exact (spread 500 ltac:(lia))|]).
  - apply (L _ (Do (AddMonitor (MBox m1)))); [left; reflexivity|]. cbn [recorded monitor_record]. apply in_or_app. right. rewrite N1, F1.
    right. right. left. reflexivity.
  - apply (L _ (Do (AddMonitor (MBox m2)))); [right; left; reflexivity|]. cbn [recorded monitor_record]. apply in_or_app. right. rewrite N2, F2.
    right. right. left. reflexivity.
Qed.
