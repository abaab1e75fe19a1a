(** * Property C103: the names of the output directories *)
From Coq Require Import List Bool Arith ZArith String Ascii Lia.
From Verif Require Import Base Json_Model Files_Model Files_Spec Files_Proofs Files_Proofs2 Stamp_Model Stamp_Spec Stamp_Proofs.
Import ListNotations.
Local Open Scope string_scope.

(** A name can be made for every year of at most 16 digits: date, time, a dot, the milliseconds. *)
Theorem C103_name : forall localtime now sec ms, at_time now sec ms ->
  String.length (to_string (year (localtime sec))) <= 16 ->
  exists name, millisecond_datetime_timestamp localtime now = Ok name /\
    String.length (to_string (year (localtime sec))) + 17 <= String.length name
      <= String.length (to_string (year (localtime sec))) + 19.
Proof.
  intros localtime now sec ms T Y. destruct (time_parts now sec ms T) as (E & M). rewrite <- E in *.
  eexists. split; [apply stamp_ok; exact Y|]. destruct T as (_ & _ & T).
  rewrite app_length_s, date_length. cbn [append String.length].
  rewrite (ms_text (ms_since_second now)) by lia. unfold digits3.
  destruct (_ <? 10)%nat; [cbn; lia|]. destruct (_ <? 100)%nat; cbn; lia.
Qed.
Print Assumptions C103_name.

(** Two points of time get the same name only if the calendar shows the same date and time for both
    and they are in the same millisecond of the second. *)
Theorem C103_distinct : forall localtime now1 now2 sec1 ms1 sec2 ms2 name,
  at_time now1 sec1 ms1 -> at_time now2 sec2 ms2 ->
  two_digit_parts (localtime sec1) -> two_digit_parts (localtime sec2) ->
  millisecond_datetime_timestamp localtime now1 = Ok name ->
  millisecond_datetime_timestamp localtime now2 = Ok name ->
  localtime sec1 = localtime sec2 /\ ms1 = ms2.
Proof.
  intros localtime now1 now2 sec1 ms1 sec2 ms2 name T1 T2 P1 P2 N1 N2.
  apply stamp_inv in N1. apply stamp_inv in N2.
  destruct (time_parts _ _ _ T1) as (E1 & M1), (time_parts _ _ _ T2) as (E2 & M2). subst sec1 sec2 ms1 ms2.
  rewrite N1 in N2. destruct (name_injective _ _ _ _ P1 P2 N2) as (A & ->). auto.
Qed.
Print Assumptions C103_distinct.

(** Full statement: directories made later are listed later.  Missing: directories of the same
    second whose milliseconds have different numbers of digits. *)
Theorem C103_order_partial : forall localtime now1 now2 sec1 ms1 sec2 ms2 name1 name2,
  at_time now1 sec1 ms1 -> at_time now2 sec2 ms2 ->
  ordinary (localtime sec1) -> ordinary (localtime sec2) ->
  calendar_earlier (localtime sec1) (localtime sec2) \/ sec1 = sec2 /\ (ms1 < ms2)%Z /\ same_digits ms1 ms2 ->
  millisecond_datetime_timestamp localtime now1 = Ok name1 ->
  millisecond_datetime_timestamp localtime now2 = Ok name2 ->
  listed_before name1 name2.
Proof.
  intros localtime now1 now2 sec1 ms1 sec2 ms2 name1 name2 T1 T2 O1 O2 H N1 N2.
  apply stamp_inv in N1. apply stamp_inv in N2.
  destruct (time_parts _ _ _ T1) as (E1 & M1), (time_parts _ _ _ T2) as (E2 & M2). subst.
  destruct H as [H|(H & L & D)].
  - apply before_app; [apply date_before; assumption|]. rewrite !date_length, !year_length by (apply O1 || apply O2). reflexivity.
  - rewrite H. apply before_same, before_same. destruct T2 as (_ & _ & T2). apply ms_before; [lia|lia|exact D].
Qed.
Print Assumptions C103_order_partial.

(** The calendar of one hour of a day. *)
Definition one_hour (s : Z) : tm := mk_tm 2026 11 17 21 (Z.to_nat (s / 60)) (Z.to_nat (s mod 60)).
Theorem C103_order_refuted : exists localtime now1 now2 name1 name2,
  (0 <= now1 < now2)%Z /\ ordinary (localtime (now1 / 1000000000)%Z) /\ ordinary (localtime (now2 / 1000000000)%Z) /\
  millisecond_datetime_timestamp localtime now1 = Ok name1 /\ millisecond_datetime_timestamp localtime now2 = Ok name2 /\
  listed_before name2 name1.
Proof.
  exists one_hour, 1005000000%Z, 1040000000%Z. eexists. eexists.
  split; [lia|]. assert (O : ordinary (one_hour 1)) by (split; [cbn; lia|]; repeat constructor; cbn; lia).
  split; [exact O|]. split; [exact O|]. split; [vm_compute; reflexivity|]. split; [vm_compute; reflexivity|].
  repeat (apply same_character || (apply smaller_character; cbn; lia)).
Qed.
Print Assumptions C103_order_refuted.

Example C103_case : at_time 61005000999 61 5 /\ at_time 3599123000000 3599 123 /\
  ordinary (one_hour 61) /\ ordinary (one_hour 3599) /\ calendar_earlier (one_hour 61) (one_hour 3599) /\
  millisecond_datetime_timestamp one_hour 61005000999 = Ok "2026.11.17_21:01:01.5" /\
  millisecond_datetime_timestamp one_hour 3599123000000 = Ok "2026.11.17_21:59:59.123".
Proof.
  unfold at_time. split; [lia|]. split; [lia|].
  split; [split; [cbn; lia|]; repeat constructor; cbn; lia|]. split; [split; [cbn; lia|]; repeat constructor; cbn; lia|].
  split; [apply less_later, less_later, less_later, less_later, less_here; [cbn; lia|reflexivity]|].
  split; vm_compute; reflexivity.
Qed.

(** prepare_output_file creates a file that was not there in the subdirectory output and makes the
    subdirectory if needed; nothing else changes. *)
Theorem C103_output_file : forall o outer inner ms name outer' inner',
  prepare_output_file o outer inner ms = Ok (name, outer', inner') ->
  (forall c, ~ holds outer "output" c) /\ is_dir outer' "output" /\ (forall n, n <> "output" -> outer' n = outer n) /\
  (exists i before, (i < 10)%nat /\ before = moment o inner i /\ name = "output_" ++ to_string (ms i) ++ ".json" /\
     before name = None /\ holds inner' name "" /\ forall n, n <> name -> inner' n = before n).
Proof.
  intros o outer inner ms name outer' inner' H. unfold prepare_output_file in H.
  assert (K : forall c, outer "output" <> Some (EFile c)) by (intros c E; rewrite E in H; discriminate H).
  assert (L : obind (create_new_output_file o inner (fun i => attach_epoch_count "output.json" (ms i)))
    (fun '(name, _, inner') => Ok (name, put outer "output" (Some (EDir false)), inner')) = Ok (name, outer', inner')).
  { destruct (outer "output") as [[c|b]|]; [discriminate H|exact H|exact H]. }
  clear H. destruct (create_new_output_file o inner _) as [[[n before] after]| |] eqn:E; try discriminate L.
  cbn [obind] in L. injection L as <- <- <-.
  destruct (create_tries_ok _ _ _ _ _ _ _ _ E) as (k & Hk & Hn & Hb & N & -> & _ & _).
  split; [exact K|]. split; [exists false; apply put_same|]. split; [intros m Hm; apply put_other; congruence|].
  exists k, before. split; [exact Hk|]. split; [rewrite Hb; apply later_moment|]. split; [exact Hn|].
  split; [exact N|]. split; [apply put_same|]. intros m Hm. apply put_other. congruence.
Qed.
Print Assumptions C103_output_file.
Theorem C103_output_not_a_directory : forall o outer inner ms c, holds outer "output" c ->
  prepare_output_file o outer inner ms = Exc.
Proof. intros o outer inner ms c H. unfold prepare_output_file. rewrite H. reflexivity. Qed.
Print Assumptions C103_output_not_a_directory.
Example C103_output_case : exists outer' inner',
  prepare_output_file (mkOthers (fun _ d => d) (fun _ => false)) (fun _ => None) (fun _ => None) (fun _ => 7%nat)
  = Ok ("output_7.json", outer', inner') /\ is_dir outer' "output" /\ holds inner' "output_7.json" "".
Proof. eexists. eexists. split; [reflexivity|]. split; [exists false; reflexivity|reflexivity]. Qed.
