(** * Property C87: the command that writes the schemas *)
From Coq Require Import List Arith Bool String.
From Verif Require Import Base Json_Model Files_Model Files_Spec Factory_Model Run_Model Run_Proofs Schemadir_Model Schemadir_Spec Schemadir_Proofs Factory_Props.
Import ListNotations.
Local Open Scope string_scope.
Local Open Scope list_scope.

(** The command writes schemas exactly if the directory is new or contains only files whose names
    begin with the name of a kind of file; else it throws before anything is written. *)
Theorem C87_accepts : forall dump writing can_create p problem_data s,
  (forall d l, p = Directory d l -> lists d l) -> make_full_factory_schemas problem_data = Ok s ->
  ((exists d, make_schema_files dump writing can_create p problem_data = Ok d) <-> usable can_create p) /\
  (make_schema_files dump writing can_create p problem_data = Exc <-> ~ usable can_create p).
Proof.
  intros dump writing cc p pd s L E. unfold make_schema_files. rewrite E. cbn [obind].
  destruct (make_result dump writing cc p s L) as [[U (d & E1 & _)]|[U E1]]; rewrite E1; split; split; intro H; try tauto; eauto; try discriminate.
  destruct H as [d H]; discriminate.
Qed.
Print Assumptions C87_accepts.

(** Then the five files contain the schemas (if the operating system writes them), and everything
    else in the directory is as before. *)
Theorem C87_written_partial : forall dump writing can_create p problem_data s d,
  (forall d l, p = Directory d l -> lists d l) -> make_full_factory_schemas problem_data = Ok s ->
  make_schema_files dump writing can_create p problem_data = Ok d ->
  (forall kind, In kind kinds -> write_succeeds (writing (kind ++ "_schema.json")%string) (dump (schema_of s kind)) ->
     holds d (kind ++ "_schema.json")%string (dump (schema_of s kind))) /\
  (forall n, (forall kind, In kind kinds -> n <> (kind ++ "_schema.json")%string) -> d n = content p n).
Proof.
  intros dump writing cc p pd s d L E H. unfold make_schema_files in H. rewrite E in H. cbn [obind] in H.
  destruct (make_result dump writing cc p s L) as [[U (d' & E1 & E2)]|[U E1]]; [|congruence].
  assert (d' = d) by congruence. subst d'. split.
  - intros kind I W. apply (write_holds dump writing (schema_map s) (content p) d kind); auto; [apply map_nodup| |].
    + cbn in I. repeat (destruct I as [<-|I]; [cbn; tauto|]). destruct I.
    + intros [b Hb]. destruct p as [| |d0 l]; try discriminate. cbn in U, Hb. destruct (U _ _ Hb) as [[c Hc] _]. discriminate.
  - intros n N. apply (write_other dump writing (schema_map s) _ _ n E2). intros name j I. apply N.
    change kinds with (map fst (schema_map s)). apply (in_map fst) in I. exact I.
Qed.
Print Assumptions C87_written_partial.

(** Full statement (comment of assert_only_known_schemas): a directory that contains other files than
    the schemas is rejected.  It is false: only the beginning of the name is compared. *)
Theorem C87_only_schemas_refuted : exists d l s, lists d l /\ make_full_factory_schemas None = Ok s /\
  (exists n, d n <> None /\ forall kind, In kind kinds -> n <> (kind ++ "_schema.json")%string) /\
  forall dump writing, exists d', make_schema_files dump writing true (Directory d l) None = Ok d'.
Proof.
  destruct C76_no_object_refuted as (s & _ & E & _).
  exists (fun n => if String.eqb n "controls.csv" then Some (EFile "1;2") else None), ["controls.csv"], s.
  assert (L : lists (fun n => if String.eqb n "controls.csv" then Some (EFile "1;2") else None) ["controls.csv"]).
  { intro n. destruct (String.eqb_spec n "controls.csv") as [->|N]; cbn; split; intro H; try tauto; try discriminate.
    destruct H as [H|[]]. congruence. }
  split; auto. split; auto. split.
  - exists "controls.csv". split; [discriminate|]. intros kind I. cbn in I. repeat (destruct I as [<-|I]; [discriminate|]). destruct I.
  - intros dump writing. apply (C87_accepts dump writing true _ None s); auto; [intros d l H; injection H as <- <-; exact L|].
    intros n e H. destruct (String.eqb_spec n "controls.csv") as [->|N]; [|discriminate]. injection H as <-. split; [eauto|].
    exists "control", "s.csv". split; [cbn; tauto|reflexivity].
Qed.
Print Assumptions C87_only_schemas_refuted.

(** Full statement: after the command has returned, the files contain the schemas.  It is false if
    the disk is full: the old schema is gone, the new one is not there, and nothing is reported. *)
Theorem C87_lost_schema_refuted : exists d l s old, lists d l /\ make_full_factory_schemas None = Ok s /\
  holds d "control_schema.json" old /\ old <> "" /\
  forall dump, exists writing d', make_schema_files dump writing true (Directory d l) None = Ok d' /\
    holds d' "control_schema.json" "".
Proof.
  destruct C76_no_object_refuted as (s & _ & E & _).
  set (d0 := fun n => if String.eqb n "control_schema.json" then Some (EFile "old") else None).
  assert (L : lists d0 ["control_schema.json"]).
  { intro n. unfold d0. destruct (String.eqb_spec n "control_schema.json") as [->|N]; cbn; split; intro H; try tauto; try discriminate.
    destruct H as [H|[]]. congruence. }
  exists d0, ["control_schema.json"], s, "old". split; auto. split; auto. split; [reflexivity|]. split; [discriminate|].
  intro dump. exists (fun _ => mkEnv false false []). unfold make_schema_files. rewrite E. eexists. split; reflexivity.
Qed.
Print Assumptions C87_lost_schema_refuted.

Example C87_case : exists d s, make_full_factory_schemas None = Ok s /\
  make_schema_files (fun _ => "x") (fun _ => mkEnv false false [1%nat]) true Nothing None = Ok d /\
  forall kind, In kind kinds -> holds d (kind ++ "_schema.json")%string "x".
Proof.
  destruct C76_no_object_refuted as (s & _ & E & _).
  destruct (proj2 (proj1 (C87_accepts (fun _ => "x") (fun _ => mkEnv false false [1%nat]) true Nothing None s ltac:(intros ? ? ?; discriminate) E)) eq_refl) as [d H].
  exists d, s. split; auto. split; auto. intros kind I.
  apply (proj1 (C87_written_partial (fun _ => "x") (fun _ => mkEnv false false [1%nat]) true Nothing None s d ltac:(intros ? ? ?; discriminate) E H) kind I).
  split; [reflexivity|exists []; reflexivity].
Qed.
