(** * Overwriting files *)
From Coq Require Import List Bool Arith String Ascii Lia.
From Verif Require Import Base Json_Model Files_Model Files_Spec.
Import ListNotations.
Local Open Scope string_scope.
Local Open Scope list_scope.

Lemma put_same : forall d n e, put d n e n = e.
Proof. intros. unfold put. rewrite String.eqb_refl. reflexivity. Qed.
Lemma put_other : forall d n e m, n <> m -> put d n e m = d m.
Proof. intros d n e m H. unfold put. destruct (String.eqb_spec n m); congruence. Qed.

Lemma rename_some : forall d a b d', rename d a b = Some d' -> a <> b ->
  exists e, d a = Some e /\ d' = put (put d a None) b (Some e).
Proof.
  intros d a b d' H N. unfold rename in H. destruct (d a) as [e|] eqn:E; [|discriminate].
  destruct (String.eqb_spec a b); [congruence|]. exists e. split; [reflexivity|].
  destruct e as [c|em], (d b) as [[c'|[]]|]; congruence.
Qed.
Lemma rename_other : forall d a b d' m, rename d a b = Some d' -> m <> a -> m <> b -> d' m = d m.
Proof.
  intros d a b d' m H Na Nb. destruct (String.string_dec a b) as [->|N].
  - unfold rename in H. destruct (d b); [|discriminate]. rewrite String.eqb_refl in H. congruence.
  - destruct (rename_some _ _ _ _ H N) as (e & _ & ->). rewrite !put_other; congruence.
Qed.
Lemma remove_other : forall d n d' m, remove d n = Some d' -> m <> n -> d' m = d m.
Proof.
  intros d n d' m H N. unfold remove in H. destruct (d n) as [[c|[]]|]; try discriminate; injection H as <-;
    try reflexivity; apply put_other; congruence.
Qed.

(** ** The states *)
Lemma write_steps_other : forall lens d n t s m, In s (write_steps d n t lens) -> m <> n -> s m = d m.
Proof.
  induction lens as [|k lens IH]; intros d n t s m I N; [destruct I|]. cbn in I. destruct I as [<-|I].
  - apply put_other; congruence.
  - rewrite (IH _ _ _ _ _ I N). apply put_other; congruence.
Qed.
Lemma open_trunc_other : forall env d n d' m, open_trunc env d n = Some d' -> m <> n -> d' m = d m.
Proof.
  intros env d n d' m H N. unfold open_trunc in H. destruct (open_fails env); [discriminate|].
  destruct (d n) as [[|]|]; try discriminate; injection H as <-; apply put_other; congruence.
Qed.
Lemma attempt_other : forall env d n text h s m, In s (fst (attempt env d n text h)) -> m <> n -> m <> tmp_backup -> s m = d m.
Proof.
  intros env d n text h s m I N B. unfold attempt in I. destruct (open_trunc env d n) as [d1|] eqn:E.
  - destruct text as [t|].
    + cbn in I. destruct I as [<-|I]; [apply (open_trunc_other _ _ _ _ _ E N)|].
      rewrite (write_steps_other _ _ _ _ _ _ I N). apply (open_trunc_other _ _ _ _ _ E N).
    + destruct h.
      * destruct (rename d1 tmp_backup n) as [d'|] eqn:R; cbn in I.
        -- destruct I as [<-|[<-|[]]]; [apply (open_trunc_other _ _ _ _ _ E N)|].
           rewrite (rename_other _ _ _ _ m R B N). apply (open_trunc_other _ _ _ _ _ E N).
        -- destruct I as [<-|[]]. apply (open_trunc_other _ _ _ _ _ E N).
      * cbn in I. destruct I as [<-|[]]. apply (open_trunc_other _ _ _ _ _ E N).
  - destruct text as [t|]; [destruct I|]. destruct h; [|destruct I].
    destruct (rename d tmp_backup n) as [d'|] eqn:R; cbn in I; [|destruct I].
    destruct I as [<-|[]]. apply (rename_other _ _ _ _ m R B N).
Qed.
Lemma last_in : forall {A} (l : list A) (d : A), l = [] /\ last l d = d \/ In (last l d) l.
Proof.
  intros A l d. induction l as [|x l IH]; [left; auto|]. right. destruct l as [|y l]; [left; reflexivity|].
  destruct IH as [[H _]|H]; [discriminate|]. right. exact H.
Qed.
Lemma overwrite_other : forall env d n text s m,
  In s (fst (overwrite_json env d n text)) -> m <> n -> m <> tmp_backup -> s m = d m.
Proof.
  intros env d n text s m I N B. unfold overwrite_json in I. destruct (exists_ d n).
  - destruct (rename_fails env); [destruct I|]. destruct (rename d n tmp_backup) as [d0|] eqn:R; [|destruct I].
    pose proof (rename_other _ _ _ _ m R N B) as E0.
    pose proof (attempt_other env d0 n text true) as A. destruct (attempt env d0 n text true) as [tr ok] eqn:AE.
    cbn [fst] in A.
    assert (T : forall x, In x (d0 :: tr) -> x m = d m).
    { intros x [<-|J]; [exact E0|]. rewrite (A x m J N B). exact E0. }
    destruct ok; [|apply T; exact I]. destruct (remove (last tr d0) tmp_backup) as [d'|] eqn:RE; [|apply T; exact I].
    cbn [fst] in I. change (d0 :: tr ++ [d']) with ((d0 :: tr) ++ [d']) in I. apply in_app_or in I.
    destruct I as [I|[<-|[]]]; [apply T; exact I|]. rewrite (remove_other _ _ _ m RE B). apply T.
    destruct (last_in tr d0) as [[_ ->]|J]; [left; reflexivity|right; exact J].
  - apply (attempt_other _ _ _ _ _ _ _ I N B).
Qed.

(** The old content is in the backup during the attempt, or was rolled back. *)
Lemma write_steps_backup : forall lens d n t s, In s (write_steps d n t lens) -> n <> tmp_backup -> s tmp_backup = d tmp_backup.
Proof. intros. eapply write_steps_other; [eassumption|congruence]. Qed.

Lemma attempt_keeps : forall env d n text s old, n <> tmp_backup -> holds d tmp_backup old ->
  In s (fst (attempt env d n text true)) -> holds s tmp_backup old \/ (text = None /\ holds s n old).
Proof.
  intros env d n text s old N H I. unfold holds in *. unfold attempt in I. destruct (open_trunc env d n) as [d1|] eqn:E.
  - assert (H1 : d1 tmp_backup = Some (EFile old)) by (rewrite (open_trunc_other _ _ _ _ tmp_backup E); [exact H|congruence]).
    destruct text as [t|].
    + cbn in I. destruct I as [<-|I]; [left; exact H1|]. left. rewrite (write_steps_backup _ _ _ _ _ I N). exact H1.
    + destruct (rename d1 tmp_backup n) as [d'|] eqn:R; cbn in I.
      * destruct I as [<-|[<-|[]]]; [left; exact H1|]. right. split; [reflexivity|].
        destruct (rename_some _ _ _ _ R) as (e & Ee & ->); [congruence|]. rewrite put_same. congruence.
      * destruct I as [<-|[]]. left; exact H1.
  - destruct text as [t|]; [destruct I|]. destruct (rename d tmp_backup n) as [d'|] eqn:R; cbn in I; [|destruct I].
    destruct I as [<-|[]]. right. split; [reflexivity|]. destruct (rename_some _ _ _ _ R) as (e & Ee & ->); [congruence|].
    rewrite put_same. congruence.
Qed.

(** Until the final removal of the backup the old content is there. *)
Lemma overwrite_before_removal : forall env d n text old tr ok,
  n <> tmp_backup -> holds d n old -> overwrite_json env d n text = (tr, ok) ->
  forall s, In s (removelast tr) -> holds s tmp_backup old \/ holds s n old.
Proof.
  intros env d n text old tr ok N H E s I. unfold overwrite_json in E. unfold holds in H. unfold exists_ in E. rewrite H in E.
  destruct (rename_fails env); [injection E as <- <-; destruct I|].
  destruct (rename d n tmp_backup) as [d0|] eqn:R; [|injection E as <- <-; destruct I].
  destruct (rename_some _ _ _ _ R N) as (e & Ee & D0). assert (He : e = EFile old) by congruence. subst e.
  assert (H0 : holds d0 tmp_backup old) by (unfold holds; rewrite D0; apply put_same).
  pose proof (fun s => attempt_keeps env d0 n text s old N H0) as K.
  destruct (attempt env d0 n text true) as [tr0 ok0]. cbn [fst] in K.
  assert (T : forall x, In x (d0 :: tr0) -> holds x tmp_backup old \/ holds x n old).
  { intros x [<-|J]; [left; exact H0|]. destruct (K x J) as [A|[_ A]]; auto. }
  assert (Sub : forall (l : list directory) x, In x (removelast l) -> In x l).
  { intros l x J. destruct l as [|y l]; [destruct J|]. rewrite (app_removelast_last y) by discriminate.
    apply in_or_app. left. exact J. }
  destruct ok0.
  - destruct (remove (last tr0 d0) tmp_backup) as [d'|]; injection E as <- <-.
    + change (d0 :: tr0 ++ [d']) with ((d0 :: tr0) ++ [d']) in I. rewrite removelast_last in I. apply T; exact I.
    + apply T, Sub, I.
  - injection E as <- <-. apply T, Sub, I.
Qed.

Lemma last_default : forall {A} (y : A) l a b, last (y :: l) a = last (y :: l) b.
Proof. intros A y l a b. revert y. induction l as [|z l IH]; intros y; [reflexivity|]. exact (IH z). Qed.
Lemma write_steps_app : forall l1 k d n t,
  last (write_steps d n t (l1 ++ [k])) d n = Some (EFile (substring 0 k t)).
Proof.
  induction l1 as [|x l1 IH]; intros k d n t.
  - cbn. apply put_same.
  - cbn [app write_steps]. specialize (IH k (put d n (Some (EFile (substring 0 x t)))) n t).
    destruct (write_steps (put d n (Some (EFile (substring 0 x t)))) n t (l1 ++ [k])) as [|y l] eqn:E.
    + destruct l1; discriminate.
    + change (last (put d n (Some (EFile (substring 0 x t))) :: y :: l) d) with (last (y :: l) d).
      rewrite <- IH. rewrite (last_default y l d (put d n (Some (EFile (substring 0 x t))))). reflexivity.
Qed.
Lemma substring_full : forall t, substring 0 (String.length t) t = t.
Proof. induction t as [|c t IH]; cbn; [reflexivity|]. rewrite IH. reflexivity. Qed.

Lemma attempt_success : forall env d n t h, write_succeeds env t -> ~ is_dir d n ->
  snd (attempt env d n (Some t) h) = true /\ holds (last (fst (attempt env d n (Some t) h)) d) n t.
Proof.
  intros env d n t h [O (before & V)] ND. unfold attempt, open_trunc. rewrite O.
  assert (E : exists d1, match d n with Some (EDir _) => None | _ => Some (put d n (Some (EFile ""))) end = Some d1).
  { destruct (d n) as [[c|b]|] eqn:X; [eauto| |eauto]. exfalso. apply ND. exists b. exact X. }
  destruct E as (d1 & E). rewrite E. cbn [fst snd]. split; [reflexivity|]. rewrite V.
  pose proof (write_steps_app before (String.length t) d1 n t) as L. rewrite substring_full in L. unfold holds.
  rewrite <- L. destruct (write_steps d1 n t (before ++ [String.length t])) as [|y l] eqn:W.
  - destruct before; discriminate.
  - change (last (d1 :: y :: l) d) with (last (y :: l) d). rewrite (last_default y l d d1). reflexivity.
Qed.

Lemma overwrite_success : forall env d n t tr, n <> tmp_backup -> ~ is_dir d n ->
  write_succeeds env t -> overwrite_json env d n (Some t) = (tr, true) -> holds (last tr d) n t.
Proof.
  intros env d n t tr N ND W E. unfold overwrite_json in E. destruct (exists_ d n) eqn:X.
  - destruct (rename_fails env); [discriminate|]. destruct (rename d n tmp_backup) as [d0|] eqn:R; [|discriminate].
    destruct (rename_some _ _ _ _ R N) as (e & Ee & D0).
    assert (ND0 : ~ is_dir d0 n).
    { intros (b & Hb). rewrite D0, put_other in Hb by congruence. rewrite put_same in Hb. discriminate. }
    destruct (attempt_success env d0 n t true W ND0) as [S L].
    destruct (attempt env d0 n (Some t) true) as [tr0 ok]. cbn [fst snd] in S, L. subst ok.
    destruct (remove (last tr0 d0) tmp_backup) as [d'|] eqn:RE; [|discriminate]. injection E as <-.
    assert (LL : last (d0 :: tr0 ++ [d']) d = d').
    { change (d0 :: tr0 ++ [d']) with ((d0 :: tr0) ++ [d']). apply last_last. }
    rewrite LL. unfold holds. rewrite (remove_other _ _ _ n RE); [exact L|exact N].
  - destruct (attempt_success env d n t false W ND) as [S L]. rewrite E in L. exact L.
Qed.

(** With a successful write nothing fails after the first rename, unless the file was a directory
    or a directory was in the way. *)
Lemma overwrite_returns : forall env d n t old, n <> tmp_backup -> holds d n old -> rename_fails env = false ->
  ~ is_dir d tmp_backup -> snd (overwrite_json env d n (Some t)) = true.
Proof.
  intros env d n t old N H RF ND. unfold overwrite_json. unfold exists_. unfold holds in H. rewrite H, RF.
  assert (R : rename d n tmp_backup = Some (put (put d n None) tmp_backup (Some (EFile old)))).
  { unfold rename. rewrite H. destruct (String.eqb_spec n tmp_backup); [congruence|].
    destruct (d tmp_backup) as [[c|b]|] eqn:X; [reflexivity| |reflexivity]. exfalso. apply ND. exists b. exact X. }
  rewrite R. set (d0 := put (put d n None) tmp_backup (Some (EFile old))).
  assert (H0 : holds d0 tmp_backup old) by apply put_same.
  pose proof (fun s => attempt_keeps env d0 n (Some t) s old N H0) as K.
  assert (S : snd (attempt env d0 n (Some t) true) = true).
  { unfold attempt. destruct (open_trunc env d0 n); reflexivity. }
  destruct (attempt env d0 n (Some t) true) as [tr ok]. cbn [fst snd] in *. subst ok.
  assert (L : holds (last tr d0) tmp_backup old).
  { destruct (last_in tr d0) as [[_ ->]|J]; [exact H0|]. destruct (K _ J) as [A|[A _]]; [exact A|discriminate]. }
  unfold remove. unfold holds in L. rewrite L. reflexivity.
Qed.
