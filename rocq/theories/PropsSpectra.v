(** What the shipped programs leave in their files, and how forces are stored: C62, C64. *)
From Coq Require Import ZArith Reals Lra Lia String List Bool.
From Verif Require Import Scalar Base BaseFacts VecM GridM GeometryM MaterialM PmlM DftM TfsfM PolarM InterpM H5M ClockM MonitorM NamesM FieldM ReportM ShippedM
  SpecFile SpecSpectra SpectraFacts PropsProgram PropsMonitor.
Import ListNotations.

(** ** C62 *)
(** the file of tests/mie.cpp has the frequencies of the incident wave and of both circles: 200, equally spaced from 1/30 to 3/30 *)
Theorem C62_mie_spectra : forall ob mat view (g : @grid RNum) name s0 l s, mie_main ob mat view = Ok l -> mk_field g name = Ok s0 -> exec_main l s0 = Fine s ->
  Forall (spectrum_at (f_h5 s) 200) [["sources"; "tfsf"]; ["monitors"; "cylinder_monitor"; "scat"]; ["monitors"; "cylinder_monitor"; "absorb"]]%string.
Proof. exact mie_spectra. Qed.
Print Assumptions C62_mie_spectra.
(** tests/mie/mie.cpp *)
Theorem C62_mie_simple_spectra : forall ob mat (g : @grid RNum) name s0 l s, mie_simple_main ob mat = Ok l -> mk_field g name = Ok s0 -> exec_main l s0 = Fine s ->
  Forall (spectrum_at (f_h5 s) 200) [["sources"; "tfsf"]; ["monitors"; "cylinder_monitor"; "scat"]; ["monitors"; "cylinder_monitor"; "absorb"]]%string.
Proof. exact mie_simple_spectra. Qed.
Print Assumptions C62_mie_simple_spectra.
(** tests/drude/mie.cpp *)
Theorem C62_mie_drude_spectra : forall ob mat omega gamma (g : @grid RNum) name s0 l s, mie_drude_main ob mat omega gamma = Ok l -> mk_field g name = Ok s0 -> exec_main l s0 = Fine s ->
  Forall (spectrum_at (f_h5 s) 200) [["sources"; "tfsf"]; ["monitors"; "box_monitor"; "scat"]]%string.
Proof. exact mie_drude_spectra. Qed.
Print Assumptions C62_mie_drude_spectra.
(** tests/simple.cpp: 500 frequencies for each box *)
Theorem C62_simple_spectra : forall src (g : @grid RNum) name s0 l s, simple_main src = Ok l -> mk_field g name = Ok s0 -> exec_main l s0 = Fine s ->
  Forall (spectrum_at (f_h5 s) 500) [["monitors"; "box_monitor"; "m1"]; ["monitors"; "box_monitor"; "m2"]]%string.
Proof. exact simple_spectra. Qed.
Print Assumptions C62_simple_spectra.
(** the programs do run to their end (C62), so there is such a file *)
Example C62_spectra_case : exists g s0 l s, mie_main "object_0" "material_0" "monitor_0" = Ok l /\ @mk_field RNum g "scat.h5" = Ok s0 /\ exec_main l s0 = Fine s /\
  spectrum_at (f_h5 s) 200 ["monitors"; "cylinder_monitor"; "absorb"]%string.
Proof.
  destruct (C62_mie "object_0" "material_0" "monitor_0") as (g & s0 & l & s & _ & E0 & El & E); try (repeat split; try discriminate; cbn; intuition discriminate).
  exists g, s0, l, s. split; [exact El|]. split; [exact E0|]. split; [exact E|].
  assert (F := C62_mie_spectra _ _ _ g _ s0 l s El E0 E). inversion F as [|? ? _ F1]. inversion F1 as [|? ? _ F2]. inversion F2 as [|? ? P _]. exact P.
Qed.

(** ** C64 *)
(** the data of a force: for each frequency the component along x, then for each frequency the component along y *)
Theorem C64_forces : forall (N : Num) dx m v, mon_report dx m QForce = Ok v ->
  exists F, match m with MSurf a => surf_force dx a | MBox a => box_force dx a | MCyl a => cyl_force a | _ => UB MissingReturn end = Ok F /\ by_component F v.
Proof. exact @force_data. Qed.
Print Assumptions C64_forces.
(** the force on a square with one frequency after three steps: two numbers *)
Example C64_forces_case : exists m v F, box_force 1%R m = Ok F /\ List.length F = 1%nat /\ @mon_report RNum 1%R (MBox m) QForce = Ok v /\
  by_component F v /\ exists l, v = PReals l /\ List.length l = 2%nat.
Proof.
  destruct C34_case as (g & l & _ & m & _ & _ & _ & _ & B & _). destruct (C34_box_force _ _ _ _ _ _ 1%R B) as (_ & F & _ & E & Lf & _).
  exists m, (force_pay F), F. split; [exact E|]. split; [exact Lf|].
  assert (Q : @mon_report RNum 1%R (MBox m) QForce = Ok (force_pay F)) by (cbn [mon_report]; now rewrite E).
  split; [exact Q|]. destruct (C64_forces _ _ _ _ Q) as (F' & E' & P). rewrite E in E'. injection E' as <-. split; [exact P|].
  destruct P as (x & -> & Lx & _). exists x. split; [reflexivity|]. transitivity (2 * List.length F)%nat; [exact Lx|]. transitivity (2 * 1)%nat; [exact (f_equal (Nat.mul 2) Lf)|reflexivity].
Qed.
