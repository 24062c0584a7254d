(** The output file: C63, C64. *)
From Coq Require Import ZArith Reals Lra Lia String List Bool.
From Verif Require Import Scalar Base BaseFacts VecM GridM GeometryM MaterialM PmlM DftM TfsfM PolarM InterpM H5M ClockM MonitorM NamesM FieldM ReportM ShippedM
  SpecGrid SpecClock SpecSafety SpecLive SpecProgram GridFacts ProgFacts ShippedFacts OutFacts SegFacts ViewFacts ShelfFacts WfFacts PaintSafe ExampleFacts SafeFacts SpecFile FileFacts.
Import ListNotations.

(** ** C63 *)
(** groups stay, datasets of fixed size never change, the others only get rows at the end: for every program, stopped by an exception or not *)
Theorem C63_append_only : forall (N : Num) l (s : field),
  match exec_main l s with Fine a | Raise _ a => kept (f_h5 s) (f_h5 a) | Undef _ => True end.
Proof. exact @file_kept. Qed.
Print Assumptions C63_append_only.
(** and for a program that catches every exception and goes on *)
Theorem C63_append_only_catching : forall (N : Num) l (s : field),
  match main_catch l s with Fine a | Raise _ a => kept (f_h5 s) (f_h5 a) | Undef _ => True end.
Proof. exact @file_kept_catch. Qed.
Print Assumptions C63_append_only_catching.
(** what one call has recorded no later call can record: it does not finish *)
Theorem C63_recorded_once : forall (N : Num) c (s : field) s1 l s2 c' s3,
  exec_call c s = Fine s1 -> main_catch l s1 = Fine s2 -> exec_call c' s2 = Fine s3 ->
  forall r r', In r (recorded c ++ result_at s c) -> In r' (recorded c' ++ result_at s2 c') -> where_ r <> where_ r'.
Proof. exact @records_once. Qed.
Print Assumptions C63_recorded_once.
(** a name is used once: not even remove_monitors frees it, and set_tfsf can be called once *)
Theorem C63_names_once : forall (N : Num) c (s : field) s1 l s2 c', clash c c' ->
  exec_call c s = Fine s1 -> main_catch l s1 = Fine s2 -> forall s3, exec_call c' s2 <> Fine s3.
Proof. exact @names_once. Qed.
Print Assumptions C63_names_once.
(** in a program that runs to its end all the paths recorded differ *)
Theorem C63_paths_differ : forall (N : Num) (g : grid) name s0 l s, mk_field g name = Ok s0 -> exec_main l s0 = Fine s ->
  NoDup (map where_ (header g ++ flat_map recorded l)).
Proof. exact (fun N g name s0 l s H E => proj1 (@program_records N g name s0 l s H E)). Qed.
Print Assumptions C63_paths_differ.

(** ** C64 *)
(** the header is in the file to the end *)
Theorem C64_header : forall (N : Num) (g : grid) name s0 l r, mk_field g name = Ok s0 -> In r (header g) ->
  match main_catch l s0 with Fine a | Raise _ a => holds (f_h5 a) r | Undef _ => True end.
Proof. exact @header_stays. Qed.
Print Assumptions C64_header.
(** so is what a call records of its arguments, and every result written *)
Theorem C64_records : forall (N : Num) c (s : field) s1 l r, exec_call c s = Fine s1 -> In r (recorded c ++ result_at s c) ->
  match main_catch l s1 with Fine a | Raise _ a => holds (f_h5 a) r | Undef _ => True end.
Proof. exact @records_stay. Qed.
Print Assumptions C64_records.
(** at the end of a program *)
Theorem C64_program : forall (N : Num) (g : grid) name s0 l s, mk_field g name = Ok s0 -> exec_main l s0 = Fine s ->
  Forall (holds (f_h5 s)) (header g ++ flat_map recorded l).
Proof. exact (fun N g name s0 l s H E => proj2 (@program_records N g name s0 l s H E)). Qed.
Print Assumptions C64_program.
(** the parameters of a material are those of the first object with that material's name *)
Theorem C64_material : forall (N : Num) (g : grid) name s0 l1 o l2 s, mk_field g name = Ok s0 -> exec_main (l1 ++ Do (AddObject o) :: l2) s0 = Fine s ->
  ~ In (m_name (o_mat o)) (materials_in l1) -> Forall (holds (f_h5 s)) (material_record (o_mat o)).
Proof. exact @material_kept. Qed.
Print Assumptions C64_material.

Local Open Scope R_scope.
#[local] Existing Instance RNum.
(** a program of twenty-five calls: seventeen records of its arguments and two results *)
Example C63_case : exists g tp s0 s1 s, mk_grid 120 120 2 5 = Ok g /\ mk_field g "out.h5" = Ok s0 /\ exec_main (tour tp) s0 = Fine s /\
  exec_call (Do (AddObject mover)) s0 = Fine s1 /\ main_catch (tl (tour tp)) s1 = Fine s /\ clash (Do (AddObject mover)) (Do (AddObject mover)) /\
  (forall s3, exec_call (Do (AddObject mover)) s <> Fine s3) /\ (20 <= List.length (header g ++ flat_map recorded (tour tp)))%nat.
Proof.
  destruct tour_rules as (g & tp & G & Et & W). destruct (ship 5 g "out.h5" (tour tp) G) as (s0 & s & E0 & E); [discriminate|exact W|].
  destruct (main_app [Do (AddObject mover)] (tl (tour tp)) s0 s E) as (s1 & E1 & E2). cbn [exec_main] in E1. apply obind_fine in E1. destruct E1 as (a & E1 & Ea). injection Ea as ->.
  assert (C : clash (Do (AddObject mover)) (Do (AddObject mover))) by (constructor; cbn; auto).
  exists g, tp, s0, s1, s. split; [apply G|]. split; [exact E0|]. split; [exact E|]. split; [exact E1|]. split; [now apply main_then_catch|]. split; [exact C|].
  split; [|cbn -[INR]; rewrite app_length; cbn -[INR]; lia]. intros s3. exact (C63_names_once _ _ s0 s1 (tl (tour tp)) s _ C E1 (main_then_catch _ _ _ E2) s3).
Qed.
(** a circle, one step and its flux: the record of the flux is in the file *)
Example C64_case : exists g s0 s1 s2 v, mk_grid 120 120 2 5 = Ok g /\ mk_field g "out.h5" = Ok s0 /\
  exec_main [Do (AddMonitor (circle "ring" 25)); Do Update] s0 = Fine s1 /\ exec_call (Report 0 QFlux) s1 = Fine s2 /\
  In (path ["monitors"; "cylinder_monitor"; "ring"; "flux"], false, v)%string (result_at s1 (Report 0 QFlux)) /\
  holds (f_h5 s2) (path ["monitors"; "cylinder_monitor"; "ring"; "flux"], false, v)%string /\
  holds (f_h5 s2) (path ["monitors"; "cylinder_monitor"; "ring"; "radius"], false, PReal 25)%string /\
  holds (f_h5 s2) (path ["grid"; "pml_thickness"], false, PInt 6)%string.
Proof.
  destruct (shipped_grid_ok 5) as [g G]; [lia|]. destruct (mk_field_fresh g "out.h5"%string (g_roomy _ _ G)) as (ph & _ & E0); [discriminate|]. set (s0 := Field _ _ _ _ _ _) in E0.
  assert (M : modest g) by (split; [apply G|]; rewrite ?(g_n1 _ _ G), ?(g_n2 _ _ G); lia). assert (Hr : roomy g) by apply G. assert (Hk : grid_ok g) by apply G.
  assert (W0 := first_sound g Hr _ _ E0).
  assert (A1 : allowed g blank (Do (AddMonitor (circle "ring" 25)))) by (apply (circle_allowed 5 _ _ _ _ G); [names|lia|lia|intros []]).
  destruct (call_sound g Hk Hr M blank _ _ s0 W0 A1 (en_monitor blank _)) as (sa & E1 & W1).
  destruct (fun A => call_sound g Hk Hr M _ (Do Update) _ sa W1 A (en_update _)) as (s1 & E2 & W2); [cbn; lia|].
  match type of W2 with sound _ ?L _ => set (L2 := L) in W2; destruct (fun A => call_sound g Hk Hr M L2 (Report 0 QFlux) _ s1 W2 A (en_report L2 0 QFlux (circle "ring" 25) eq_refl)) as (s2 & E3 & W3) end.
  { intros m Hm. injection Hm as <-. split; [exact Logic.I|]. cbn. tauto. }
  assert (X := so_mons _ _ _ W2). cbn [l_mons blank with_step with_mons app] in X. inversion X as [|a m la lb [_ Am] Hn Ea Eb]; subst. inversion Hn; subst.
  destruct m as [m|m|m|m|m]; try (exfalso; exact Am). destruct Am as (Nm & _). cbn [cm_name] in Nm.
  assert (R : exists v, In (path ["monitors"; "cylinder_monitor"; "ring"; "flux"], false, v)%string (result_at s1 (Report 0 QFlux))).
  { cbn [exec_call] in E3. unfold report in E3. rewrite <- Eb in E3. cbn [nth_error mon_sub_name] in E3. apply prim_fine in E3. destruct E3 as (v & Ev & _). exists v. cbn [result_at]. rewrite <- Eb. cbn [nth_error]. rewrite Ev. left. rewrite Nm. reflexivity. }
  destruct R as [v R]. exists g, s0, s1, s2, v. split; [apply G|]. split; [exact E0|].
  assert (Em : exec_main [Do (AddMonitor (circle "ring" 25)); Do Update] s0 = Fine s1) by (cbn [exec_main]; rewrite E1; cbn [obind]; rewrite E2; reflexivity).
  split; [exact Em|]. split; [exact E3|]. split; [exact R|].
  assert (P : exec_main [Do (AddMonitor (circle "ring" 25)); Do Update; Report 0 QFlux] s0 = Fine s2) by (cbn [exec_main]; rewrite E1; cbn [obind]; rewrite E2; cbn [obind]; rewrite E3; reflexivity).
  split; [exact (C64_records _ _ s1 s2 [] _ E3 (in_or_app _ _ _ (or_intror R)))|].
  assert (F := C64_program _ g _ s0 _ s2 E0 P). rewrite Forall_forall in F. split; apply F.
  - right. right. right. right. right. right. right. right. right. left. reflexivity.
  - right. right. right. right. right. right. right. left. unfold path. cbn [String.concat app where_ fst snd]. f_equal. rewrite (g_layer _ _ G). reflexivity.
Qed.
(** the permittivity of the glass of the cylinder *)
Example C64_material_case : exists g s0 tp s, mk_field g "out.h5" = Ok s0 /\ exec_main ([] ++ Do (AddObject mover) :: tl (tour tp)) s0 = Fine s /\
  ~ In (m_name (o_mat mover)) (materials_in []) /\ In (path ["materials"; "glass"; "eps"], false, PReal 2)%string (material_record (o_mat mover)) /\
  holds (f_h5 s) (path ["materials"; "glass"; "eps"], false, PReal 2)%string.
Proof.
  destruct tour_rules as (g & tp & G & Et & W). destruct (ship 5 g "out.h5" (tour tp) G) as (s0 & s & E0 & E); [discriminate|exact W|].
  assert (R : In (path ["materials"; "glass"; "eps"], false, PReal 2)%string (material_record (o_mat mover))) by (right; left; reflexivity).
  exists g, s0, tp, s. split; [exact E0|]. split; [exact E|]. split; [intros []|]. split; [exact R|].
  assert (F := C64_material _ g _ s0 [] mover (tl (tour tp)) s E0 E (fun x => x)). rewrite Forall_forall in F. exact (F _ R).
Qed.
