From Coq Require Import List Arith Bool String.
From Verif Require Import Base Json_Model Files_Model Files_Spec Files_Proofs Factory_Model Run_Model Run_Proofs Schemadir_Model Schemadir_Spec.
Import ListNotations.
Local Open Scope string_scope.
Local Open Scope list_scope.

Lemma prefix_iff a s : String.prefix a s = true <-> exists r, s = (a ++ r)%string.
Proof.
  revert s. induction a as [|c a IH]; intro s.
  - split; [intros _; exists s; reflexivity|destruct s; reflexivity].
  - destruct s as [|c' s]; [split; [discriminate|intros [r H]; discriminate]|].
    cbn [String.prefix]. destruct (Ascii.ascii_dec c c') as [->|N].
    + rewrite IH. split; intros [r H]; exists r; [rewrite H; reflexivity|]. cbn [append] in H. congruence.
    + split; [discriminate|]. intros [r H]. cbn [append] in H. congruence.
Qed.
Lemma known_iff s n : key_from_map_is_prefix (schema_map s) n = true <-> exists k rest, In k kinds /\ n = (k ++ rest)%string.
Proof.
  unfold key_from_map_is_prefix. rewrite existsb_exists. split.
  - intros ([k j] & I & P). apply prefix_iff in P. destruct P as [r ->]. exists k, r. split; auto.
    change kinds with (map fst (schema_map s)). apply (in_map fst) in I. exact I.
  - intros (k & r & I & ->). change kinds with (map fst (schema_map s)) in I. apply in_map_iff in I.
    destruct I as ([k' j] & E & I). cbn in E. subst k'. exists (k, j). split; auto. apply prefix_iff. eauto.
Qed.
Lemma assert_iff s d l : (forall n, In n l -> d n <> None) ->
  (assert_only_known_schemas d l (schema_map s) = Ok tt /\
   forall n, In n l -> (exists c, d n = Some (EFile c)) /\ exists k rest, In k kinds /\ n = (k ++ rest)%string) \/
  (assert_only_known_schemas d l (schema_map s) = Exc /\
   ~ (forall n, In n l -> (exists c, d n = Some (EFile c)) /\ exists k rest, In k kinds /\ n = (k ++ rest)%string)).
Proof.
  induction l as [|n l IH]; intro L; cbn [assert_only_known_schemas]; [left; split; [reflexivity|intros n []]|].
  destruct (d n) as [[c|b]|] eqn:E.
  - destruct (key_from_map_is_prefix (schema_map s) n) eqn:K; cbn [negb].
    + apply known_iff in K. destruct IH as [[E1 E2]|[E1 E2]]; [intros m Hm; apply L; right; auto| |].
      * left. split; auto. intros m [<-|Hm]; eauto.
      * right. split; auto. intro H. apply E2. intros m Hm. apply H. right; auto.
    + right. split; auto. intro H. destruct (H n (or_introl eq_refl)) as [_ H']. apply (known_iff s) in H'. congruence.
  - right. split; auto. intro H. destruct (H n (or_introl eq_refl)) as [[c H'] _]. congruence.
  - destruct (L n (or_introl eq_refl) E).
Qed.

Lemma save_total env d n t : exists d', save env d n (Some t) = Ok d'.
Proof. unfold save. destruct (open_trunc env d n); eauto. Qed.
Lemma write_total dump writing : forall m d, exists d', write_schemas dump writing d m = Ok d'.
Proof.
  induction m as [|[name j] m IH]; intro d; cbn [write_schemas]; [eauto|].
  destruct (save_total (writing (name ++ "_schema.json")%string) d (name ++ "_schema.json")%string (dump j)) as [d1 E].
  cbn zeta. rewrite E. apply IH.
Qed.
Lemma write_other dump writing : forall m d d' n, write_schemas dump writing d m = Ok d' ->
  (forall name j, In (name, j) m -> n <> (name ++ "_schema.json")%string) -> d' n = d n.
Proof.
  induction m as [|[name j] m IH]; intros d d' n H N; cbn [write_schemas] in H; [injection H as <-; auto|].
  apply obind_Ok in H. destruct H as (d1 & E & H). rewrite (IH _ _ _ H); [|intros; apply (N name0 j0); right; auto].
  eapply save_other; [exact E|]. apply (N name j). left; auto.
Qed.
Lemma append_inj_right a b c : (a ++ c = b ++ c)%string -> String.length a = String.length b -> a = b.
Proof.
  revert b. induction a as [|x a IH]; intros [|y b] H L; try discriminate L; auto. cbn in H. injection H as -> H. f_equal. apply IH; auto.
Qed.
Lemma append_length a b : String.length (a ++ b)%string = (String.length a + String.length b)%nat.
Proof. induction a; cbn; auto. Qed.
Lemma file_name_inj a b : (a ++ "_schema.json" = b ++ "_schema.json")%string -> a = b.
Proof.
  intro H. apply append_inj_right in H; auto. apply (f_equal String.length) in H. rewrite !append_length in H.
  apply Nat.add_cancel_r in H. exact H.
Qed.
Lemma write_holds dump writing : forall m d d' name j, NoDup (map fst m) -> write_schemas dump writing d m = Ok d' -> In (name, j) m ->
  write_succeeds (writing (name ++ "_schema.json")%string) (dump j) -> ~ is_dir d (name ++ "_schema.json")%string ->
  holds d' (name ++ "_schema.json")%string (dump j).
Proof.
  induction m as [|[name' j'] m IH]; intros d d' name j ND H I W N; [destruct I|].
  cbn [write_schemas] in H. apply obind_Ok in H. destruct H as (d1 & E & H). cbn [map fst] in ND. inversion_clear ND as [|? ? ND1 ND2].
  destruct I as [I|I].
  - injection I as -> ->. unfold holds. rewrite (write_other dump writing m d1 d' _ H).
    + exact (save_holds _ _ _ _ _ E W N).
    + intros name' j' I' Q. apply file_name_inj in Q. subst name'. apply ND1. apply (in_map fst) in I'. exact I'.
  - apply (IH d1 d'); auto. intros [b Hb]. apply N. exists b. rewrite <- Hb. symmetry. eapply save_other; [exact E|].
    intro Q. apply file_name_inj in Q. subst name'. apply ND1. apply (in_map fst) in I. exact I.
Qed.

Lemma map_nodup s : NoDup (map fst (schema_map s)).
Proof. cbn. repeat constructor; cbn; intuition discriminate. Qed.

Lemma make_result dump writing cc p s : (forall d l, p = Directory d l -> lists d l) ->
  (usable cc p /\ exists d, make_schemas dump writing cc p (schema_map s) = Ok d /\ write_schemas dump writing (content p) (schema_map s) = Ok d) \/
  (~ usable cc p /\ make_schemas dump writing cc p (schema_map s) = Exc).
Proof.
  intro L. destruct p as [| |d l]; unfold make_schemas; cbn [usable content].
  - destruct cc; [left; split; auto|right; split; [discriminate|reflexivity]].
    destruct (write_total dump writing (schema_map s) (fun _ => None)) as [d E]. exists d. cbn [obind]. auto.
  - right. auto.
  - specialize (L d l eq_refl). destruct (assert_iff s d l) as [[E K]|[E K]]; [intros n; apply L|left|right]; rewrite E; cbn [omap obind].
    + split.
      * intros n e Hn. assert (I : In n l) by (apply L; congruence). destruct (K n I) as [[c Hc] Q]. split; auto. exists c. congruence.
      * destruct (write_total dump writing (schema_map s) d) as [d' E']. exists d'. auto.
    + split; auto. intro Q. apply K. intros n I. apply L in I. destruct (d n) as [e|] eqn:X; [|congruence].
      destruct (Q n e X) as [[c ->] Q']. split; eauto.
Qed.
