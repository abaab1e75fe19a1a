(** * Proofs about the states file *)
From Coq Require Import Reals List Bool Arith Lia Lra String.
From Verif Require Import Base Interp_Model Interp_Spec Json_Model Json_Spec Json_Proofs Json_Proofs2 Json_Proofs3 Json_Props
  Defaults_Model Controls_Model Controls_Spec Controls_Proofs Controls_Proofs2 Euler_Model Euler_Spec
  States_Model States_Spec.
Import ListNotations.
Local Open Scope string_scope.
Local Open Scope list_scope.

(** ** The output of a component *)
Definition output_of (before : json) (x : string) (entries : list json) (r : json) : Prop :=
  exists fs, r = JObj fs /\ component_result before x entries r.

Lemma setup_ok before x : (before = JNull \/ exists fs, before = JObj fs) -> exists r, setup_output before x = Ok r /\ output_of before x [] r.
Proof.
  unfold setup_output. intros [->|[fs ->]]; cbn [assign obind]; eexists; (split; [reflexivity|]); eexists; (split; [reflexivity|]);
    unfold component_result; cbn [entry_of]; rewrite !field_set; cbn [String.eqb]; (split; [reflexivity|]).
  - split; [reflexivity|]. intros k N1 N2. rewrite field_set. destruct (String.eqb_spec "data" k); [congruence|]. cbn [field].
    destruct (String.eqb_spec "id" k); [congruence|reflexivity].
  - split; [reflexivity|]. intros k N1 N2. rewrite !field_set. destruct (String.eqb_spec "data" k); [congruence|].
    destruct (String.eqb_spec "id" k); [congruence|reflexivity].
Qed.
Lemma push_ok before x es r e : output_of before x es r -> exists r', push_entry r e = Ok r' /\ output_of before x (es ++ [e]) r'.
Proof.
  intros [fs [-> [A [B C]]]]. cbn [entry_of] in A, B, C. unfold push_entry, at_mut. rewrite A. cbn [obind fst snd push_back assign].
  eexists. split; [reflexivity|]. eexists. split; [reflexivity|]. unfold component_result. cbn [entry_of]. rewrite !field_set.
  split; [reflexivity|]. split; [exact B|]. intros k N1 N2. rewrite field_set. destruct (String.eqb_spec "data" k); [congruence|]. apply C; auto.
Qed.

Definition entries_of (saved_states : list (R * list R)) (c : state_component) (es : list json) : Prop :=
  omapM (fun ts => saved_entry c (fst ts) (snd ts)) saved_states = Ok es.

Lemma setup_all comps : (forall c, In c comps -> snd c = JNull \/ exists fs, snd c = JObj fs) ->
  exists cs, setup_components comps = Ok cs /\ Forall2 (fun c d => fst d = fst c /\ output_of (snd c) (sc_id (fst c)) [] (snd d)) comps cs.
Proof.
  induction comps as [|c comps IH]; intro H; [exists []; split; [reflexivity|constructor]|].
  destruct (IH (fun d I => H d (or_intror I))) as (cs & E & F). destruct (setup_ok (snd c) (sc_id (fst c)) (H c (or_introl eq_refl))) as (r & Er & Or).
  exists ((fst c, r) :: cs). split.
  - unfold setup_components in *. cbn [omapM]. rewrite Er. cbn [omap obind]. rewrite E. reflexivity.
  - constructor; [split; [reflexivity|exact Or]|exact F].
Qed.
(** One time point. *)
Lemma save_step time state comps cs (done : with_output -> list json) :
  Forall2 (fun c d => fst d = fst c /\ output_of (snd c) (sc_id (fst c)) (done c) (snd d)) comps cs ->
  forall next : with_output -> json, (forall c, In c comps -> saved_entry (fst c) time state = Ok (next c)) ->
  exists cs', json_save time state cs = Ok cs' /\
    Forall2 (fun c d => fst d = fst c /\ output_of (snd c) (sc_id (fst c)) (done c ++ [next c]) (snd d)) comps cs'.
Proof.
  induction 1 as [|c d comps cs [Ef Od] F IH]; intros next H; [exists []; split; [reflexivity|constructor]|].
  destruct (IH next (fun x I => H x (or_intror I))) as (cs' & E & F').
  destruct (push_ok _ _ _ _ (next c) Od) as (r & Er & Or).
  exists ((fst c, r) :: cs'). split.
  - unfold json_save in *. cbn [omapM]. rewrite Ef, (H c (or_introl eq_refl)). cbn [obind]. rewrite Er. cbn [omap obind]. rewrite E. reflexivity.
  - constructor; [split; [reflexivity|exact Or]|exact F'].
Qed.
Lemma save_states saved_states : forall comps cs (done : with_output -> list json),
  Forall2 (fun c d => fst d = fst c /\ output_of (snd c) (sc_id (fst c)) (done c) (snd d)) comps cs ->
  forall es : with_output -> list json, (forall c, In c comps -> entries_of saved_states (fst c) (es c)) ->
  exists cs', ofold (fun cs ts => json_save (fst ts) (snd ts) cs) saved_states cs = Ok cs' /\
    Forall2 (fun c d => fst d = fst c /\ output_of (snd c) (sc_id (fst c)) (done c ++ es c) (snd d)) comps cs'.
Proof.
  induction saved_states as [|[t s] saved IH]; intros comps cs done F es H.
  - exists cs. split; [reflexivity|]. assert (N : forall c, In c comps -> es c = []). { intros c I. specialize (H c I). unfold entries_of in H. cbn in H. congruence. }
    clear H. induction F as [|c d comps cs [A B] F IHF]; constructor; [|apply IHF; intros; apply N; right; auto].
    split; [exact A|]. rewrite N, app_nil_r by (left; reflexivity). exact B.
  - set (next := fun c => match es c with [] => JNull | e :: _ => e end). set (rest := fun c => match es c with [] => [] | _ :: l => l end).
    assert (Hn : forall c, In c comps -> saved_entry (fst c) t s = Ok (next c) /\ entries_of saved (fst c) (rest c) /\ es c = next c :: rest c).
    { intros c I. specialize (H c I). unfold entries_of in *. cbn [omapM fst snd] in H. destruct (saved_entry (fst c) t s) as [e| |]; try discriminate.
      cbn [obind] in H. destruct (omapM (fun ts => saved_entry (fst c) (fst ts) (snd ts)) saved) as [l| |]; try discriminate. cbn [obind] in H.
      injection H as H. unfold next, rest. rewrite <- H. auto. }
    cbn [ofold fst snd]. destruct (save_step t s comps cs done F next) as (cs1 & E1 & F1); [intros c I; apply (Hn c I)|]. rewrite E1. cbn [obind].
    destruct (IH comps cs1 (fun c => done c ++ [next c]) F1 rest) as (cs2 & E2 & F2); [intros c I; apply (Hn c I)|].
    exists cs2. split; [exact E2|]. clear -F2 Hn. induction F2 as [|c d comps cs [A B] F2 IH]; constructor; [|apply IH; intros; apply Hn; right; auto].
    split; [exact A|]. destruct (Hn c (or_introl eq_refl)) as [_ [_ ->]]. rewrite <- app_assoc in B. exact B.
Qed.

(** ** The file *)
Definition filed (done : list with_output) (j : json) : Prop :=
  exists fs, j = JObj fs /\
    forall class, match field fs class with
      | None => forall c, In c done -> sc_class (fst c) <> class
      | Some w => exists ts, w = JObj ts /\ sorted_types ts /\
          (forall a b, In (a, b) ts -> exists l, b = JArr l /\ forall e, In e l -> exists x, has_id e x) /\
          forall type, field ts type = match filter (of_kind class type) done with [] => None | l => Some (JArr (map snd l)) end
      end.
Definition filed_or_null (done : list with_output) (j : json) : Prop := (j = JNull /\ done = []) \/ filed done j.

Lemma none_of_class class type done : (forall c, In c done -> sc_class (fst c) <> class) -> filter (of_kind class type) done = [].
Proof.
  intro H. induction done as [|d done IH]; [reflexivity|]. cbn [filter].
  replace (of_kind class type d) with false; [apply IH; intros c I; apply H; right; exact I|].
  symmetry. unfold of_kind. destruct (String.eqb_spec (sc_class (fst d)) class) as [E|_]; [exfalso; apply (H d); [left; reflexivity|exact E]|reflexivity].
Qed.

Lemma in_set ts k w a b : sorted_types ts -> In (a, b) (set_field ts k w) -> (a = k /\ b = w) \/ (a <> k /\ In (a, b) ts).
Proof.
  intros H I. destruct (set_field_keys ts k w H) as [K1 K2].
  pose proof (field_nodup _ a b (sorted_nodup _ K1) I) as F. rewrite field_set in F.
  destruct (String.eqb_spec k a) as [->|N]; [left; split; congruence|]. right. split; [congruence|].
  destruct (K2 a b I) as [E|E]; [congruence|exact E].
Qed.
Lemma add_ok c done j : (exists x, has_id (snd c) x) -> filed_or_null done j -> exists j', add_component j c = Ok j' /\ filed (done ++ [c]) j'.
Proof.
  intros Hid Hs. set (class := sc_class (fst c)). set (type := sc_type (fst c)).
  assert (A : exists fs old, at_mut j class = Ok (JObj fs, old) /\
     (old = JNull \/ exists ts, old = JObj ts) /\
     (let ts := match old with JObj ts => ts | _ => [] end in sorted_types ts /\
       (forall a b, In (a, b) ts -> exists l, b = JArr l /\ forall e, In e l -> exists x, has_id e x) /\
       forall type, field ts type = match filter (of_kind class type) done with [] => None | l => Some (JArr (map snd l)) end) /\
     forall class', class' <> class -> match field fs class' with
      | None => forall c, In c done -> sc_class (fst c) <> class'
      | Some w => exists ts, w = JObj ts /\ sorted_types ts /\
          (forall a b, In (a, b) ts -> exists l, b = JArr l /\ forall e, In e l -> exists x, has_id e x) /\
          forall type, field ts type = match filter (of_kind class' type) done with [] => None | l => Some (JArr (map snd l)) end
      end).
  { destruct Hs as [[-> ->]|[fs [-> H]]].
    - exists [(class, JNull)], JNull. split; [reflexivity|]. split; [left; reflexivity|]. split; [split; [constructor|split; [intros a b []|reflexivity]]|].
      intros class' N. cbn [field]. destruct (String.eqb_spec class class') as [E|_]; [congruence|]. intros ? [].
    - pose proof (H class) as Hc. cbn [at_mut]. destruct (field fs class) as [w|] eqn:E.
      + destruct Hc as (ts & -> & S1 & S2 & S3). exists fs, (JObj ts). split; [reflexivity|]. split; [right; eauto|]. split; [auto|]. intros class' _. apply H.
      + eexists _, JNull. split; [reflexivity|]. split; [left; reflexivity|]. split.
        * split; [constructor|]. split; [intros a b []|]. intro ty. cbn [field]. rewrite (none_of_class class ty done Hc). reflexivity.
        * intros class' N. rewrite field_set. destruct (String.eqb_spec class class') as [E'|_]; [congruence|]. apply H. }
  destruct A as (fs & old & E1 & Old & (S1 & S2 & S3) & O1). unfold add_component. fold class type. rewrite E1. cbn [obind fst snd].
  set (ts := match old with JObj ts => ts | _ => [] end) in *.
  assert (A2 : exists ts1 l, obind (at_mut old type) (fun jt => obind (push_back (snd jt) (snd c)) (fun l =>
        obind (assign (fst jt) type l) (assign (JObj fs) class))) = Ok (JObj (set_field fs class (JObj (set_field ts1 type (JArr (l ++ [snd c])))))) /\
     l = map snd (filter (of_kind class type) done) /\ sorted_types ts1 /\
     (forall a b, In (a, b) (set_field ts1 type (JArr (l ++ [snd c]))) -> exists l, b = JArr l /\ forall e, In e l -> exists x, has_id e x) /\
     forall ty, ty <> type -> field ts1 ty = field ts ty).
  { destruct Old as [->|[ts' ->]].
    - exists [(type, JNull)], []. cbn [at_mut obind fst snd push_back assign]. split; [reflexivity|].
      specialize (S3 type). cbn [ts field] in S3. split; [destruct (filter (of_kind class type) done); [reflexivity|discriminate]|].
      assert (St : sorted_types [(type, JNull)]) by (unfold sorted_types; cbn; constructor; constructor). split; [exact St|].
      split; [|intros ty N; cbn [field]; destruct (String.eqb_spec type ty); [congruence|reflexivity]].
      intros a b I. destruct (in_set _ _ _ a b St I) as [[_ ->]|[N [Q|[]]]]; [|congruence].
      eexists. split; [reflexivity|]. intros e [<-|[]]. exact Hid.
    - subst ts. cbn [at_mut]. pose proof (S3 type) as S3t.
      destruct (filter (of_kind class type) done) as [|d l] eqn:Fd; rewrite S3t; cbn [obind fst snd push_back assign].
      + exists (set_field ts' type JNull), []. split; [reflexivity|]. split; [reflexivity|].
        destruct (set_field_keys ts' type JNull S1) as [K1 K2]. split; [exact K1|]. split.
        * intros a b I. destruct (in_set _ _ _ a b K1 I) as [[_ ->]|[N Q]].
          -- eexists. split; [reflexivity|]. intros e [<-|[]]. exact Hid.
          -- destruct (in_set _ _ _ a b S1 Q) as [[Q' _]|[_ Q']]; [congruence|apply (S2 a b Q')].
        * intros ty N. rewrite field_set. destruct (String.eqb_spec type ty); [congruence|reflexivity].
      + exists ts', (map snd (d :: l)). split; [reflexivity|]. split; [reflexivity|]. split; [exact S1|]. split; [|reflexivity].
        intros a b I. destruct (set_field_keys ts' type (JArr (map snd (d :: l) ++ [snd c])) S1) as [_ K2]. destruct (K2 a b I) as [Q|Q]; [|apply (S2 a b Q)].
        injection Q as -> ->. eexists. split; [reflexivity|]. intros e J. change (In e (map snd (d :: l) ++ [snd c])) in J. apply in_app_iff in J. destruct J as [J|[<-|[]]]; [|exact Hid].
        destruct (S2 type (JArr (map snd (d :: l)))) as (l' & El & Hl); [apply field_in, S3t|]. injection El as <-. apply Hl, J. }
  destruct A2 as (ts1 & l & E2 & -> & S1' & S2' & O2). rewrite E2. eexists. split; [reflexivity|]. eexists. split; [reflexivity|].
  intro class'. rewrite field_set. destruct (String.eqb_spec class class') as [<-|N].
  - eexists. split; [reflexivity|].
    split; [apply set_field_keys, S1'|]. split; [exact S2'|].
    intro ty. rewrite field_set, filter_app. cbn [filter].
    assert (Mc : of_kind class ty c = String.eqb type ty) by (unfold of_kind; fold class type; rewrite String.eqb_refl; reflexivity).
    rewrite Mc; clear Mc. destruct (String.eqb_spec type ty) as [Et|Nt]; [subst ty|].
    + change [snd c] with (map snd [c]). rewrite <- map_app. destruct (filter (of_kind class type) done); reflexivity.
    + rewrite app_nil_r, O2 by congruence. apply S3.
  - specialize (O1 class' ltac:(congruence)). destruct (field fs class') as [w|].
    + destruct O1 as (ts2 & -> & B1 & B2 & B3). exists ts2. split; [reflexivity|]. split; [exact B1|]. split; [exact B2|]. intro ty. rewrite filter_app.
      cbn [filter]. replace (of_kind class' ty c) with false by (symmetry; unfold of_kind; fold class; destruct (String.eqb_spec class class'); [congruence|reflexivity]).
      rewrite app_nil_r. apply B3.
    + intros d I. apply in_app_iff in I. destruct I as [I|[<-|[]]]; [apply O1, I|exact N].
Qed.
Lemma add_all comps : forall done j, (forall c, In c comps -> exists x, has_id (snd c) x) -> filed_or_null done j ->
  exists j', add_results_to_json comps j = Ok j' /\ filed_or_null (done ++ comps) j'.
Proof.
  induction comps as [|c comps IH]; intros done j H F; [exists j; rewrite app_nil_r; split; [reflexivity|exact F]|].
  destruct (add_ok c done j (H c (or_introl eq_refl)) F) as (j1 & E1 & F1).
  destruct (IH (done ++ [c]) j1 (fun d I => H d (or_intror I)) (or_intror F1)) as (j2 & E2 & F2).
  exists j2. split; [|rewrite <- app_assoc in F2; exact F2]. unfold add_results_to_json in *. cbn [ofold]. rewrite E1. cbn [obind]. exact E2.
Qed.
Lemma filed_good done j : filed done j -> good_file j.
Proof.
  intros [fs [-> H]]. exists fs. split; [reflexivity|].
  assert (G : forall class w, field fs class = Some w -> good_class w).
  { intros class w E. specialize (H class). rewrite E in H. destruct H as (ts & -> & S1 & S2 & _). exists ts. split; [reflexivity|].
    split; [apply sorted_nodup, S1|exact S2]. }
  split; intros w E; eapply G; eauto.
Qed.
Lemma filed_type done j class type : filed_or_null done j -> of_type j class type = map snd (filter (of_kind class type) done).
Proof.
  intros [[-> ->]|[fs [-> H]]]; [reflexivity|]. unfold of_type, types. specialize (H class). destruct (field fs class) as [w|].
  - destruct H as (ts & -> & _ & _ & F). rewrite F. destruct (filter (of_kind class type) done); reflexivity.
  - cbn [field]. rewrite (none_of_class class type done H). reflexivity.
Qed.

Lemma states_file_ok comps saved_states (es : with_output -> list json) :
  (forall c, In c comps -> snd c = JNull \/ exists fs, snd c = JObj fs) ->
  (forall c, In c comps -> entries_of saved_states (fst c) (es c)) ->
  exists j, states_file comps saved_states = Ok j /\ (comps <> [] -> good_file j) /\
    forall class type, Forall2 (fun c r => component_result (snd c) (sc_id (fst c)) (es c) r)
      (filter (of_kind class type) comps) (of_type j class type).
Proof.
  intros H He. unfold states_file. destruct (setup_all comps H) as (cs1 & E1 & F1). rewrite E1. cbn [obind].
  destruct (save_states saved_states comps cs1 (fun _ => []) F1 es He) as (cs2 & E2 & F2). rewrite E2. cbn [obind app] in F2 |- *.
  destruct (add_all cs2 [] JNull) as (j & E3 & F3); [|left; auto|].
  { intros d I. clear -F2 I. induction F2 as [|c d' comps cs [_ (fs & E & _ & B & _)] F IH]; [destruct I|]. destruct I as [->|I]; [|auto].
    exists (sc_id (fst c)). rewrite E in *. exists fs. auto. }
  exists j. split; [exact E3|]. cbn [app] in F3. split.
  - intro Ne. destruct F3 as [[_ ->]|F3]; [inversion F2; subst; congruence|]. eapply filed_good, F3.
  - intros class type. rewrite (filed_type cs2 j class type F3). clear -F2. induction F2 as [|c d comps cs [Ef (fs & _ & Cr)] F IH]; [constructor|].
    cbn [filter]. replace (of_kind class type d) with (of_kind class type c) by (unfold of_kind; rewrite Ef; reflexivity).
    destruct (of_kind class type c); [|exact IH]. cbn [map]. constructor; [exact Cr|exact IH].
Qed.
