(** * Properties of the file handling: C44, C45, C61, C62 *)
From Coq Require Import List Bool Arith String Ascii Lia.
From Verif Require Import Base Json_Model Files_Model Files_Spec Files_Proofs Files_Proofs2.
Import ListNotations.
Local Open Scope string_scope.
Local Open Scope list_scope.

(** ** C44: rewriting a file *)

(** At every moment before the backup is removed, whatever fails, the old content is in the
    file or in the backup. *)
Theorem C44_until_removal :
  forall env d n text old tr ok s,
    n <> "tmp_backup" -> holds d n old -> overwrite_json env d n text = (tr, ok) ->
    In s (removelast tr) -> holds s n old \/ holds s "tmp_backup" old.
Proof.
  intros env d n text old tr ok s N H E I. destruct (overwrite_before_removal env d n text old tr ok N H E s I); auto.
Qed.
Print Assumptions C44_until_removal.

(** If the text can be written completely, the function returns normally, the new content is in
    place, and at every moment the old or the new content is available.  Missing: failing
    writes, strings that are not UTF-8, the file name "tmp_backup". *)
Theorem C44_written_partial :
  forall env d n t old,
    n <> "tmp_backup" -> holds d n old -> ~ is_dir d "tmp_backup" ->
    rename_fails env = false -> write_succeeds env t ->
    exists tr, overwrite_json env d n (Some t) = (tr, true) /\
      holds (last tr d) n t /\
      forall s, In s tr -> holds s n old \/ holds s "tmp_backup" old \/ holds s n t.
Proof.
  intros env d n t old N H ND RF W. pose proof (overwrite_returns env d n t old N H RF ND) as S.
  destruct (overwrite_json env d n (Some t)) as [tr ok] eqn:E. cbn [snd] in S. subst ok. exists tr. split; [reflexivity|].
  assert (L : holds (last tr d) n t).
  { apply (overwrite_success env d n t tr N); [|exact W|exact E]. intros (b & Hb). unfold holds in H. congruence. }
  split; [exact L|]. intros s I. destruct tr as [|x tr]; [destruct I|].
  rewrite (app_removelast_last d) in I by discriminate. apply in_app_or in I. destruct I as [I|[<-|[]]].
  - destruct (C44_until_removal env d n (Some t) old (x :: tr) true s N H E I); auto.
  - right; right. exact L.
Qed.
Print Assumptions C44_written_partial.
(** The same for a file that did not exist before. *)
Theorem C44_new_file :
  forall env d n t, n <> "tmp_backup" -> d n = None -> write_succeeds env t ->
    exists tr, overwrite_json env d n (Some t) = (tr, true) /\ holds (last tr d) n t.
Proof.
  intros env d n t N H W. assert (ND : ~ is_dir d n) by (intros (b & Hb); congruence).
  destruct (attempt_success env d n t false W ND) as [S L].
  unfold overwrite_json, exists_. rewrite H. destruct (attempt env d n (Some t) false) as [tr ok]. cbn [fst snd] in *.
  subst ok. exists tr. auto.
Qed.
Print Assumptions C44_new_file.
(** Other files are never touched. *)
Theorem C44_others :
  forall env d n text s m, In s (fst (overwrite_json env d n text)) -> m <> n -> m <> "tmp_backup" -> s m = d m.
Proof. intros env d n text s m. apply overwrite_other. Qed.
Print Assumptions C44_others.
(** If the new value cannot be written as text, the old content is back in the end, under the file's
    name and nowhere else, whether or not the file could be opened. *)
Theorem C44_not_writable :
  forall env d n old, n <> "tmp_backup" -> holds d n old -> ~ is_dir d "tmp_backup" -> rename_fails env = false ->
    exists tr, overwrite_json env d n None = (tr, true) /\ holds (last tr d) n old /\ last tr d "tmp_backup" = None.
Proof.
  intros env d n old N H ND RF. unfold holds in *.
  assert (N' : String.eqb n "tmp_backup" = false) by (apply String.eqb_neq; exact N).
  assert (N2 : String.eqb "tmp_backup" n = false) by (rewrite String.eqb_sym; exact N').
  assert (R : rename d n tmp_backup = Some (put (put d n None) tmp_backup (Some (EFile old)))).
  { unfold rename, tmp_backup. rewrite H, N'. destruct (d "tmp_backup") as [[c|b]|] eqn:E; try reflexivity.
    exfalso. apply ND. exists b. exact E. }
  assert (PS : forall e m x, put e m x m = x) by (intros; unfold put; now rewrite String.eqb_refl).
  assert (P1 : forall e x, put e n x tmp_backup = e tmp_backup) by (intros; unfold put, tmp_backup; now rewrite N').
  assert (P2 : forall e x, put e tmp_backup x n = e n) by (intros; unfold put, tmp_backup; now rewrite N2).
  unfold overwrite_json, exists_. rewrite H, RF, R. unfold attempt, open_trunc.
  change (String.eqb tmp_backup n = false) in N2.
  destruct (open_fails env).
  - unfold rename at 1. rewrite PS, N2, P2, PS. cbn [last]. unfold remove. rewrite P1, PS.
    eexists. split; [reflexivity|]. cbn [last app]. change "tmp_backup" with tmp_backup. rewrite P1, !PS. split; reflexivity.
  - rewrite P2, PS. unfold rename. rewrite P1, PS, N2, PS. cbn [last]. unfold remove. rewrite P1, PS.
    eexists. split; [reflexivity|]. cbn [last app]. change "tmp_backup" with tmp_backup. rewrite P1, !PS. split; reflexivity.
Qed.
Print Assumptions C44_not_writable.
(** If the name is that of a directory with content, the function throws after it has moved the
    directory to tmp_backup; the text is written under the name. *)
Theorem C44_directory_moved :
  forall env d n t, n <> "tmp_backup" -> d n = Some (EDir false) -> d "tmp_backup" = None ->
    rename_fails env = false -> write_succeeds env t ->
    exists tr, overwrite_json env d n (Some t) = (tr, false) /\ holds (last tr d) n t /\
      last tr d "tmp_backup" = Some (EDir false).
Proof.
  intros env d n t N H HB RF (O & before & V).
  assert (N' : String.eqb n "tmp_backup" = false) by (apply String.eqb_neq; exact N).
  assert (N2 : String.eqb "tmp_backup" n = false) by (rewrite String.eqb_sym; exact N').
  set (d0 := put (put d n None) tmp_backup (Some (EDir false))).
  assert (R : rename d n tmp_backup = Some d0) by (unfold rename; rewrite H; unfold tmp_backup; rewrite N', HB; reflexivity).
  assert (W : write_succeeds env t) by (split; [exact O|exists before; exact V]).
  assert (D0 : d0 n = None) by (unfold d0, put, tmp_backup; rewrite N2, String.eqb_refl; reflexivity).
  assert (ND : ~ is_dir d0 n) by (intros (b & Hb); congruence).
  destruct (attempt_success env d0 n t true W ND) as [S L].
  unfold overwrite_json, exists_. rewrite H, RF, R.
  destruct (attempt env d0 n (Some t) true) as [tr ok] eqn:EA. cbn [fst snd] in *. subst ok.
  assert (K : last tr d0 tmp_backup = Some (EDir false)).
  { assert (A : forall s, In s tr -> s tmp_backup = Some (EDir false)).
    { intros s Is. unfold attempt, open_trunc in EA. rewrite O, D0 in EA. injection EA as <-.
      assert (G : forall lens e, e tmp_backup = Some (EDir false) -> forall s, In s (write_steps e n t lens) -> s tmp_backup = Some (EDir false)).
      { clear - N'. induction lens as [|k lens IH]; intros e He s Is; [destruct Is|]. cbn [write_steps In] in Is.
        assert (P : put e n (Some (EFile (substring 0 k t))) tmp_backup = Some (EDir false))
          by (unfold put, tmp_backup; rewrite N'; exact He).
        destruct Is as [<-|Is]; [exact P|]. exact (IH _ P s Is). }
      assert (P : put d0 n (Some (EFile "")) tmp_backup = Some (EDir false))
        by (unfold put at 1, tmp_backup; rewrite N'; reflexivity).
      destruct Is as [<-|Is]; [exact P|]. exact (G _ _ P s Is). }
    destruct tr as [|x tr]; [reflexivity|]. apply A. rewrite (app_removelast_last d0) at 2 by discriminate.
    apply in_or_app. right. left. reflexivity. }
  unfold remove. rewrite K. exists (d0 :: tr). split; [reflexivity|].
  assert (X : last (d0 :: tr) d = last tr d0)
    by (generalize d0 as e; clear; revert d; induction tr as [|x tr IH]; intros d e; [reflexivity|];
        change (last (x :: tr) d = last (x :: tr) e); rewrite !(IH _ x); reflexivity).
  rewrite X. split; [exact L|exact K].
Qed.
Print Assumptions C44_directory_moved.
Example C44_directory_case : let d := fun n => if String.eqb n "f.json" then Some (EDir false) else None in
  d "f.json" = Some (EDir false) /\ d "tmp_backup" = None /\ write_succeeds (mkEnv false false [3%nat]) "new".
Proof. split; [reflexivity|]. split; [reflexivity|]. split; [reflexivity|]. exists []. reflexivity. Qed.

Definition a_file : directory := fun n => if String.eqb n "f.json" then Some (EFile "old") else None.
Example C44_case : holds a_file "f.json" "old" /\ ~ is_dir a_file "tmp_backup" /\
  write_succeeds (mkEnv false false [2%nat; 3%nat]) "new".
Proof.
  split; [reflexivity|]. split; [intros (b & H); discriminate|]. split; [reflexivity|]. exists [2%nat]. reflexivity.
Qed.

(** If the disk is full, nobody notices, the backup is removed and both contents are lost. *)
Theorem C44_disk_full_refuted :
  exists env d n t old tr, holds d n old /\ n <> "tmp_backup" /\ overwrite_json env d n (Some t) = (tr, true) /\
    forall m, ~ holds (last tr d) m old /\ ~ holds (last tr d) m t.
Proof.
  set (env := mkEnv false false [1%nat]).
  exists env, a_file, "f.json", "new", "old", (fst (overwrite_json env a_file "f.json" (Some "new"))).
  split; [reflexivity|]. split; [discriminate|]. split; [reflexivity|].
  intros m. destruct (String.string_dec m "tmp_backup") as [->|N1]; [split; discriminate|].
  destruct (String.string_dec m "f.json") as [->|N2]; [split; discriminate|]. unfold holds.
  assert (E : last (fst (overwrite_json env a_file "f.json" (Some "new"))) a_file m = None).
  { rewrite (C44_others env a_file "f.json" (Some "new") _ m); [|right; right; right; left; reflexivity|exact N2|exact N1].
    unfold a_file. destruct (String.eqb_spec m "f.json"); congruence. }
  rewrite E. split; discriminate.
Qed.
Print Assumptions C44_disk_full_refuted.
(** If the file cannot be opened for writing, it is gone. *)
Theorem C44_open_fails_refuted :
  exists env d n t old tr, holds d n old /\ n <> "tmp_backup" /\ overwrite_json env d n (Some t) = (tr, true) /\
    forall m, last tr d m = None.
Proof.
  set (env := mkEnv false true []).
  exists env, a_file, "f.json", "new", "old", (fst (overwrite_json env a_file "f.json" (Some "new"))).
  split; [reflexivity|]. split; [discriminate|]. split; [reflexivity|].
  intros m. destruct (String.string_dec m "tmp_backup") as [->|N1]; [reflexivity|].
  destruct (String.string_dec m "f.json") as [->|N2]; [reflexivity|].
  rewrite (C44_others env a_file "f.json" (Some "new") _ m); [|right; left; reflexivity|exact N2|exact N1].
  unfold a_file. destruct (String.eqb_spec m "f.json"); congruence.
Qed.
Print Assumptions C44_open_fails_refuted.
(** A json value with invalid UTF-8 is not written, but the function returns normally; the old
    content stays. *)
Theorem C44_not_utf8_refuted :
  exists env d n old tr, holds d n old /\ overwrite_json env d n None = (tr, true) /\ holds (last tr d) n old.
Proof.
  exists (mkEnv false false []), a_file, "f.json", "old". eexists. split; [reflexivity|]. split; reflexivity.
Qed.
Print Assumptions C44_not_utf8_refuted.
(** A file named tmp_backup is deleted. *)
Theorem C44_tmp_backup_refuted :
  exists env d t old tr, holds d "tmp_backup" old /\ write_succeeds env t /\
    overwrite_json env d "tmp_backup" (Some t) = (tr, true) /\ forall m, last tr d m = None.
Proof.
  set (env := mkEnv false false [3%nat]).
  set (d := fun n => if String.eqb n "tmp_backup" then Some (EFile "old") else None).
  exists env, d, "new", "old", (fst (overwrite_json env d "tmp_backup" (Some "new"))).
  split; [reflexivity|]. split; [split; [reflexivity|exists []; reflexivity]|]. split; [reflexivity|].
  intros m. destruct (String.string_dec m "tmp_backup") as [->|N]; [reflexivity|].
  rewrite (C44_others env d "tmp_backup" (Some "new") _ m); [|right; right; right; left; reflexivity|exact N|exact N].
  unfold d. destruct (String.eqb_spec m "tmp_backup"); congruence.
Qed.
Print Assumptions C44_tmp_backup_refuted.
(** An unrelated file of that name is lost even if everything works. *)
Theorem C44_clobbers_refuted :
  exists env d n t other tr, n <> "tmp_backup" /\ holds d "tmp_backup" other /\ write_succeeds env t /\
    overwrite_json env d n (Some t) = (tr, true) /\ last tr d "tmp_backup" = None.
Proof.
  exists (mkEnv false false [3%nat]),
    (fun n => if String.eqb n "f.json" then Some (EFile "old") else if String.eqb n "tmp_backup" then Some (EFile "other") else None),
    "f.json", "new", "other". eexists.
  split; [discriminate|]. split; [reflexivity|]. split; [split; [reflexivity|exists []; reflexivity]|].
  split; [reflexivity|]. reflexivity.
Qed.
Print Assumptions C44_clobbers_refuted.

(** ** C45: new files and directories *)

(** Whatever other processes do: the returned file did not exist before and is empty, nothing
    else is changed, and it has the first name of the generator that was free. *)
Theorem C45_file :
  forall o d generator n before after,
    create_new_output_file o d generator = Ok (n, before, after) ->
    before n = None /\ holds after n "" /\ (forall m, m <> n -> after m = before m) /\
    exists k, (k < 10)%nat /\ n = generator k /\ before = moment o d k /\
      forall j, (j < k)%nat -> denied o j = true \/ exists_ (moment o d j) (generator j) = true.
Proof.
  intros o d g n before after H. destruct (create_tries_ok _ _ _ _ _ _ _ _ H) as (k & Hk & Hn & Hb & N & -> & D & J).
  split; [exact N|]. split; [apply put_same|]. split; [intros m Hm; apply put_other; congruence|].
  exists k. split; [exact Hk|]. split; [exact Hn|]. split; [rewrite Hb; apply later_moment|].
  intros j Hj. rewrite <- later_moment. apply (J j Hj).
Qed.
Print Assumptions C45_file.
Theorem C45_file_throws :
  forall o d generator,
    create_new_output_file o d generator <> UB /\
    (create_new_output_file o d generator = Exc <->
     forall j, (j < 10)%nat -> denied o j = true \/ exists_ (moment o d j) (generator j) = true).
Proof.
  intros o d g. destruct (create_tries_exc 10 o 0 d g) as [U X]. split; [exact U|]. unfold create_new_output_file. rewrite X.
  split; intros H j Hj; specialize (H j Hj); [rewrite <- later_moment|rewrite <- later_moment in H]; exact H.
Qed.
Print Assumptions C45_file_throws.
Theorem C45_directory :
  forall o d generator,
    unique_output_directory o d generator <> UB /\
    forall n before after,
      unique_output_directory o d generator = Ok (n, before, after) ->
      before n = None /\ after n = Some (EDir true) /\ (forall m, m <> n -> after m = before m) /\
      exists k, (k < 20)%nat /\ n = generator k /\ before = moment o d k.
Proof.
  intros o d g. split; [apply directory_tries_no_ub|]. intros n before after H.
  destruct (directory_tries_ok _ _ _ _ _ _ _ _ H) as (k & Hk & Hn & Hb & N & ->).
  split; [exact N|]. split; [apply put_same|]. split; [intros m Hm; apply put_other; congruence|].
  exists k. split; [exact Hk|]. split; [exact Hn|]. rewrite Hb. apply later_moment.
Qed.
Print Assumptions C45_directory.
(** It gives up only after 20 names that are taken, if no file and no lack of permission is in the way. *)
Theorem C45_directory_throws :
  forall o d generator,
    (forall j, denied o j = false) -> (forall j n c, moment o d j n <> Some (EFile c)) ->
    (unique_output_directory o d generator = Exc <->
     forall j, (j < 20)%nat -> exists_ (moment o d j) (generator j) = true).
Proof.
  intros o d g D F. unfold unique_output_directory. rewrite directory_tries_exc.
  - split; intros H j Hj; specialize (H j Hj); [rewrite <- later_moment|rewrite <- later_moment in H]; exact H.
  - exact D.
  - intros j n c. rewrite later_moment. apply F.
Qed.
Print Assumptions C45_directory_throws.
(** The files in the output directory: all are new, or there is an exception. *)
Theorem C45_prepare :
  forall o d names,
    undisturbed o -> (forall j, denied o j = false) ->
    (forall d', create_files o 0 d names = Ok d' ->
       (forall n, In n names -> d n = None /\ holds d' n "") /\ (forall n, ~ In n names -> d' n = d n)) /\
    ((exists d', create_files o 0 d names = Ok d') <-> NoDup names /\ forall n, In n names -> d n = None).
Proof.
  intros o d names U D. split.
  - intros d' H. destruct (create_files_ok _ _ _ _ _ U H) as (_ & A & B). auto.
  - split.
    + intros (d' & H). destruct (create_files_ok _ _ _ _ _ U H) as (ND & A & _). split; [exact ND|].
      intros n I. apply (A n I).
    + intros [ND F]. apply create_files_succeeds; assumption.
Qed.
Print Assumptions C45_prepare.
(** Different times give different names, with the same extension. *)
Theorem C45_epoch :
  forall f a b, attach_epoch_count f a = attach_epoch_count f b -> a = b.
Proof. intros f a b. apply epoch_inj. Qed.
Print Assumptions C45_epoch.
Theorem C45_extension :
  forall f ms, f <> "" -> extension (attach_epoch_count f ms) = extension f.
Proof. intros f ms. apply epoch_extension. Qed.
Print Assumptions C45_extension.

Example C45_case : attach_epoch_count "output.json" 12 = "output_12.json" /\
  match create_new_output_file (mkOthers (fun _ d => d) (fun _ => false)) a_file (fun i => if Nat.eqb i 0 then "f.json" else "g.json") with
  | Ok (n, _, after) => n = "g.json" /\ after "f.json" = Some (EFile "old")
  | _ => False
  end.
Proof. split; [reflexivity|]. split; reflexivity. Qed.

(** ** C61: files outside of the root are recognized *)

(** An answer is right. *)
Theorem C61_answer :
  forall root p b,
    List.Forall plain root -> absolute_file_path_in_root ("/" :: root) p = Ok b ->
    (b = true <-> inside root (leads_to root p)).
Proof.
  intros root p b F H. rewrite (in_root_eq root p F) in H. unfold place_and_mark in H.
  match type of H with mismatch_at_end _ (_ ++ ?m) = _ => set (mark := m) in * end.
  assert (M : mark = [] \/ mark = [""]) by (unfold mark; destruct (_ && _)%bool; auto).
  rewrite <- (prefix_mark root (leads_to root p) mark F M), <- mismatch_prefix, H. split; congruence.
Qed.
Print Assumptions C61_answer.
(** But a path that leads to a directory above the root makes the comparison run over the end
    of that path. *)
Theorem C61_refuted :
  exists root p, List.Forall plain root /\ absolute_file_path_in_root ("/" :: root) p = UB.
Proof.
  exists ["home"; "user"], ["/"; "home"]. split; [|reflexivity].
  repeat constructor; discriminate.
Qed.
Print Assumptions C61_refuted.
(** All other paths are answered; missing: paths to directories above the root. *)
Theorem C61_answers_partial :
  forall root p,
    List.Forall plain root -> (forall c, c <> [] -> root <> leads_to root p ++ c) ->
    exists b, absolute_file_path_in_root ("/" :: root) p = Ok b.
Proof.
  intros root p F H. rewrite (in_root_eq root p F). unfold place_and_mark.
  match goal with |- exists b, mismatch_at_end _ (_ ++ ?m) = _ => set (mark := m) in * end.
  destruct (mismatch_at_end root (leads_to root p ++ mark)) as [b| |] eqn:E; [exists b; reflexivity| |].
  - exfalso. apply (mismatch_no_exc _ _ E).
  - exfalso. apply mismatch_ub in E. destruct E as (c & NC & E). rewrite <- app_assoc in E.
    apply (H (mark ++ c)); [|exact E]. intros K. apply app_eq_nil in K. destruct K; congruence.
Qed.
Print Assumptions C61_answers_partial.
Example C61_case :
  absolute_file_path_in_root ["/"; "home"; "user"] ["out"; ".."; "x.csv"] = Ok true /\
  absolute_file_path_in_root ["/"; "home"; "user"] [".."; "x.csv"] = Ok false /\
  absolute_file_path_in_root ["/"; "home"; "user"] [".."; ".."; "home"] = UB.
Proof. repeat split. Qed.

(** ** C62: inserting the key "$schema" *)
Definition schema_path (type : string) : json := JStr ("../schemas/" ++ type ++ "_schema.json")%string.

(** A file that has the key already keeps its old value. *)
Theorem C62_refuted :
  exists type old, NoDup (map fst old) /\ lookup (insert_schema type old) "$schema" <> Some (schema_path type).
Proof.
  exists "boundary", [("$schema", JStr "old_schema.json")]. split; [repeat constructor; cbn; tauto|]. discriminate.
Qed.
Print Assumptions C62_refuted.
(** Otherwise the key is put in front, and nothing else changes.  Missing: files with this key. *)
Theorem C62_inserted_partial :
  forall type old, NoDup (map fst old) -> ~ In "$schema" (map fst old) ->
    insert_schema type old = ("$schema", schema_path type) :: old.
Proof. intros type old ND N. apply insert_absent; assumption. Qed.
Print Assumptions C62_inserted_partial.
Theorem C62_others_kept :
  forall type l1 v l2, NoDup (map fst (l1 ++ ("$schema", v) :: l2)) ->
    insert_schema type (l1 ++ ("$schema", v) :: l2) = ("$schema", v) :: l1 ++ l2.
Proof. intros type l1 v l2. apply insert_present. Qed.
Print Assumptions C62_others_kept.
Theorem C62_idempotent :
  forall type old, NoDup (map fst old) -> insert_schema type (insert_schema type old) = insert_schema type old.
Proof.
  intros type old ND. destruct (in_dec String.string_dec "$schema" (map fst old)) as [I|N].
  - apply in_map_iff in I. destruct I as ([k v] & E & I). cbn in E. subst k. apply in_split in I. destruct I as (l1 & l2 & ->).
    rewrite insert_present by exact ND.
    apply (insert_present type [] v (l1 ++ l2)).
    change (NoDup ("$schema" :: map fst (l1 ++ l2))). rewrite map_app in ND. cbn [map fst] in ND.
    pose proof (NoDup_remove _ _ _ ND) as [A B]. rewrite map_app. constructor; assumption.
  - rewrite (insert_absent type old ND N). apply (insert_present type [] _ old).
    change (NoDup ("$schema" :: map fst old)). constructor; assumption.
Qed.
Print Assumptions C62_idempotent.
Example C62_case : insert_schema "boundary" [("nodes", JNull)] =
  [("$schema", JStr "../schemas/boundary_schema.json"); ("nodes", JNull)].
Proof. reflexivity. Qed.
