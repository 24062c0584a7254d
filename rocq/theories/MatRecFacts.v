(** What the file holds of a material, by full path. *)
From Coq Require Import ZArith List Bool String.
From Verif Require Import Scalar Base BaseFacts VecM GridM GeometryM MaterialM PmlM DftM TfsfM PolarM InterpM H5M ClockM MonitorM NamesM FieldM ReportM OutFacts PhysFacts SpecClock SpecOutput PathFacts RecordFacts SpecFile.
Import ListNotations.

Section MatRec.
Context {N : Num}.
Lemma str_assoc (a b c : string) : ((a ++ b) ++ c = a ++ b ++ c)%string.
Proof. induction a as [|x a IH]; cbn; [reflexivity|]. now rewrite IH. Qed.
Lemma material_recorded (g : grid) name l1 o l2 s0 s : mk_field g name = Ok s0 -> run (l1 ++ AddObject o :: l2) s0 = Fine s -> ~ In (m_name (o_mat o)) (object_materials l1) ->
  forall r, In r (material_record (o_mat o)) -> data_rows (f_h5 s) (where_ r) = [snd r].
Proof.
  intros H0 H Hn r Hr. unfold material_record, fixed in Hr. apply in_map_iff in Hr. destruct Hr as ([n v] & <- & Hin). cbn [where_ fst snd].
  assert (K := material_written g name l1 o l2 s0 s H0 H Hn n v).
  replace (path (["materials"%string; m_name (o_mat o)] ++ [n])) with (mat_path (m_name (o_mat o)) // n)%string; [apply K; destruct (m_kind (o_mat o)); exact Hin|].
  unfold path, mat_path, path_cat. cbn [app String.concat]. now rewrite !str_assoc.
Qed.

Lemma obj_item o n : (obj_path o // n)%string = path (object_dir o ++ [n]).
Proof. unfold obj_path, path, object_dir, obj_root, path_cat. cbn [app String.concat]. rewrite !str_assoc. now destruct (o_dyn o), (o_geom o). Qed.
Lemma trace_rows (g : grid) name l s0 s : mk_field g name = Ok s0 -> run l s0 = Fine s ->
  List.length (ph_objs (f_ph s)) = List.length (tracks l) /\
  forall i o k, nth_error (ph_objs (f_ph s)) i = Some o -> nth_error (tracks l) i = Some k ->
    o_dyn o = k_dyn k /\ o_pos o = k_pos k /\ o_theta o = k_theta k /\ k_rows k <> [] /\
    (o_dyn o = true -> data_rows (f_h5 s) (path (object_dir o ++ ["position"%string])) = map (fun q => two (fst q)) (k_rows k) /\
                       data_rows (f_h5 s) (path (object_dir o ++ ["theta"%string])) = map (fun q => PReal (snd q)) (k_rows k)).
Proof.
  intros H0 H. destruct (dynamic_trace g name l s0 s H0 H) as [A B]. split; [exact A|]. intros i o k Ho Hk. rewrite <- !obj_item. exact (B i o k Ho Hk).
Qed.
Lemma trace_count (g : grid) name l1 o l2 s0 s : mk_field g name = Ok s0 -> run (l1 ++ AddObject o :: l2) s0 = Fine s -> o_dyn o = true ->
  exists o', nth_error (ph_objs (f_ph s)) (adds l1) = Some o' /\
    List.length (data_rows (f_h5 s) (path (object_dir o' ++ ["position"%string]))) = S (writes_of (adds l1) l2) /\
    List.length (data_rows (f_h5 s) (path (object_dir o' ++ ["theta"%string]))) = S (writes_of (adds l1) l2).
Proof.
  intros H0 H Hd. destruct (trace_length g name l1 o l2 s0 s H0 H Hd) as (o' & A & B). exists o'. split; [exact A|]. rewrite <- !obj_item. exact B.
Qed.
End MatRec.
