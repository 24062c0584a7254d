(** Stop-watches in whole programs and the rows of writeE: C40, C39. *)
From Coq Require Import ZArith Reals String List Bool.
From Verif Require Import Scalar Base BaseFacts VecM GridM GeometryM MaterialM PmlM DftM TfsfM PolarM InterpM H5M ClockM
  MonitorM NamesM FieldM ReportM ShippedM OutFacts SpecClock SpecOutput SpecProgram GridFacts ProgFacts ShippedFacts RestFacts.
Import ListNotations.
Local Open Scope Z_scope.

(** whole programs, with the results of the monitors and write_monitor among the calls: no stop-watch error, and
    every stop-watch but the total one is stopped at the end *)
Theorem C40_programs : forall (N : Num) l (s : field), at_rest s ->
  (forall s', exec_main l s <> Raise RuntimeError s') /\ (forall s', exec_main l s = Fine s' -> at_rest s').
Proof. exact @main_timers. Qed.
Print Assumptions C40_programs.

(** writeE adds one row with the values of Ez, row by row, and changes no other data set *)
Theorem C39_write_E : forall (N : Num) (s s' : field), exec WriteE s = Fine s' -> forall p, data_rows (f_h5 s') p = data_rows (f_h5 s) p ++
    if String.eqb p "fields/Ez" then [PReals (values (fEz (ph_F (f_ph s))) (row_major (rows (fEz (ph_F (f_ph s)))) (cols (fEz (ph_F (f_ph s))))))] else [].
Proof. exact @write_E_row. Qed.
Print Assumptions C39_write_E.

(** the program of twenty-five calls of C61_case *)
Example C40_programs_case : exists (g : @grid RNum) tp s0 s, mk_field g "out.h5" = Ok s0 /\ at_rest s0 /\ In WriteMonitorCall (tour tp) /\
  In (Do WriteE) (tour tp) /\ exec_main (tour tp) s0 = Fine s.
Proof.
  destruct tour_rules as (g & tp & G & Et & W). destruct (ship 5 g "out.h5" (tour tp) G) as (s0 & s & E0 & E); [discriminate|exact W|].
  exists g, tp, s0, s. split; [exact E0|]. split; [|split; [|split; [|exact E]]].
  - unfold mk_field in E0. destruct (mk_phys g); [|discriminate..]. cbn [bind String.eqb] in E0. inv_ok. reflexivity.
  - unfold tour. cbn. tauto.
  - unfold tour. cbn. tauto.
Qed.
Example C39_write_E_case : exists (s s' : @field RNum), exec WriteE s = Fine s'.
Proof.
  destruct tour_rules as (g & tp & G & Et & W). destruct (ship 5 g "out.h5" (tour tp) G) as (s0 & s & E0 & E); [discriminate|exact W|].
  unfold tour in E. cbn [exec_main exec_call] in E. do 13 (apply obind_fine in E; destruct E as (? & _ & E)). apply obind_fine in E. destruct E as (s' & E & _). eauto.
Qed.
