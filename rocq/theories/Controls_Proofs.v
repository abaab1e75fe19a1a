(** * Proofs about control files: reading *)
From Coq Require Import Reals List Bool Arith Lia Lra String Sorted.
From Verif Require Import Base Interp_Model Interp_Spec Interp_Proofs Interp_Proofs2 Json_Model Json_Spec Json_Proofs Json_Proofs2 Json_Proofs3
  Defaults_Model Controls_Model Controls_Spec.
Import ListNotations.
Local Open Scope string_scope.
Local Open Scope list_scope.

(** ** Rows *)
Lemma row_of_entry name tr : name <> "values" -> row_of (row_entry name tr) = Ok (snd tr).
Proof.
  intro N. unfold row_of, row_entry, at_const. rewrite field_set.
  destruct (String.eqb_spec name "values") as [E|_]; [contradiction|]. cbn [field]. rewrite String.eqb_refl. cbn [obind size].
  rewrite map_length. generalize (snd tr). intro l.
  enough (H : forall pre, omapM (fun i => obind (at_index (JArr (map JNum (pre ++ l))) i) get_double) (seq (List.length pre) (List.length l)) = Ok l) by apply (H []).
  induction l as [|x l IH]; intro pre; [reflexivity|]. cbn [List.length seq omapM at_index].
  unfold get. rewrite nth_error_map, nth_error_app2, Nat.sub_diag by lia. cbn [nth_error option_map obind get_double].
  specialize (IH (pre ++ [x])). rewrite <- app_assoc in IH. cbn [app] in IH. rewrite app_length in IH. cbn [List.length] in IH.
  rewrite Nat.add_1_r in IH. cbn [at_index] in IH. unfold get in IH. rewrite IH. reflexivity.
Qed.

Lemma fill_rows_ok pts m es rows : Forall2 (fun e r => row_of e = Ok r /\ List.length r = m) es rows ->
  forall pre done tail, List.length done = (List.length pre * m)%nat -> List.length tail = (List.length es * m)%nat ->
  fill_rows (JArr (pre ++ es)) (seq (List.length pre) (List.length es)) (mk_ivec pts m (done ++ tail))
  = Ok (mk_ivec pts m (done ++ List.concat rows)).
Proof.
  induction 1 as [|e r es rows [R L] F IH]; intros pre done tail D T.
  { destruct tail; [reflexivity|discriminate]. }
  cbn [List.length seq fill_rows at_index]. unfold get. rewrite nth_error_app2, Nat.sub_diag by lia. cbn [nth_error obind].
  rewrite R. cbn [obind]. unfold set_row. cbn [iinner ivalues ipoints].
  cbn [List.length] in T.
  assert (B : (m * List.length pre + m <= List.length (done ++ tail))%nat) by (rewrite app_length; nia).
  rewrite (proj2 (Nat.ltb_ge _ _) B), L, Nat.eqb_refl. cbn [negb obind].
  rewrite firstn_app, firstn_all2 by nia. replace (m * List.length pre - List.length done)%nat with O by nia. cbn [firstn].
  rewrite app_nil_r, skipn_app, skipn_all2 by nia. replace (m * List.length pre + m - List.length done)%nat with m by nia. cbn [app].
  specialize (IH (pre ++ [e]) (done ++ r) (skipn m tail)).
  rewrite <- (app_assoc pre) in IH. cbn [app] in IH. rewrite (app_length pre [e]) in IH. cbn [List.length] in IH. rewrite Nat.add_1_r in IH.
  rewrite app_assoc. rewrite IH.
  - cbn [List.concat]. rewrite app_assoc. reflexivity.
  - rewrite app_length, D, L. lia.
  - rewrite skipn_length. lia.
Qed.

Lemma omapM_map {A B C} (g : A -> B) (f : B -> outcome C) l : omapM (fun x => f (g x)) l = omapM f (map g l).
Proof. induction l as [|x l IH]; [reflexivity|]. cbn [omapM map]. rewrite IH. reflexivity. Qed.
Lemma items_arr l : map snd (items (JArr l)) = l.
Proof.
  unfold items. generalize O. induction l as [|x l IH]; intro n; [reflexivity|]. cbn [List.length seq map combine snd]. f_equal. apply IH.
Qed.
Lemma omapM_all {A B} (f : A -> outcome B) (g : A -> B) l : (forall x, In x l -> f x = Ok (g x)) -> omapM f l = Ok (map g l).
Proof.
  induction l as [|x l IH]; intro H; [reflexivity|]. cbn [omapM map]. rewrite H by (left; reflexivity). cbn [obind].
  rewrite IH by (intros; apply H; right; auto). reflexivity.
Qed.
Lemma omapM_Forall2 {A B} (f : A -> outcome B) l r : Forall2 (fun x y => f x = Ok y) l r -> omapM f l = Ok r.
Proof. induction 1 as [|x y l r H F IH]; [reflexivity|]. cbn [omapM]. rewrite H. cbn [obind]. rewrite IH. reflexivity. Qed.

(** What is read from an entry. *)
Definition reads (name : string) (m : nat) (e : json) (tr : R * list R) : Prop :=
  obind (at_const e name) get_double = Ok (fst tr) /\ row_of e = Ok (snd tr) /\ List.length (snd tr) = m.

Lemma construct_ok uninit j schema e0 es rows vs : valid (depth schema) schema j = true ->
  at_const j "data" = Ok (JArr (e0 :: es)) -> at_const e0 "values" = Ok vs ->
  Forall2 (reads (if contains e0 "x" then "x" else "time") (size vs)) (e0 :: es) rows ->
  construct_from_json uninit j schema = Ok (mk_ivec (map fst rows) (size vs) (List.concat (map snd rows))).
Proof.
  intros V D Vs F. unfold construct_from_json, validate_json. rewrite V. cbn [obind]. rewrite D. cbn [obind front].
  set (name := if contains e0 "x" then "x" else "time") in *.
  rewrite (omapM_map snd (fun e => obind (at_const e name) get_double)), items_arr.
  rewrite (omapM_Forall2 _ _ (map fst rows)).
  2:{ clear -F. induction F as [|e tr l rows [A [B C]] F IH]; constructor; auto. }
  cbn [obind]. rewrite Vs. cbn [obind]. unfold ctor_from_vector, vector_move_construct. cbn [is_sorted negb obind].
  assert (L : List.length (map fst rows) = List.length (e0 :: es)).
  { rewrite map_length. symmetry. clear -F. induction F; cbn; congruence. }
  rewrite L.
  pose proof (fill_rows_ok (map fst rows) (size vs) (e0 :: es) (map snd rows)) as K.
  assert (F' : Forall2 (fun e r => row_of e = Ok r /\ List.length r = size vs) (e0 :: es) (map snd rows)).
  { clear -F. induction F as [|e tr l rows [A [B C]] F IH]; constructor; auto. }
  specialize (K F' [] [] (map uninit (seq 0 (size vs * List.length (e0 :: es))))).
  cbn [List.length app] in K. cbn [List.length]. apply K; [reflexivity|]. rewrite map_length, seq_length. lia.
Qed.

Lemma construct_document uninit schema name x rows m : name = "x" \/ name = "time" ->
  valid (depth schema) schema (document name x rows) = true -> rows <> [] ->
  (forall tr, In tr rows -> List.length (snd tr) = m) ->
  construct_from_json uninit (document name x rows) schema = Ok (mk_ivec (map fst rows) m (List.concat (map snd rows))).
Proof.
  intros N V Ne L. destruct rows as [|tr rows]; [congruence|].
  pose proof (construct_ok uninit (document name x (tr :: rows)) schema (row_entry name tr) (map (row_entry name) rows) (tr :: rows) (JArr (map JNum (snd tr)))) as K.
  assert (Sz : size (JArr (map JNum (snd tr))) = m) by (cbn [size]; rewrite map_length; apply L; left; reflexivity).
  rewrite Sz in K. apply K; clear K.
  - exact V.
  - unfold document, at_const. reflexivity.
  - unfold row_entry, at_const. cbn [field]. destruct N as [->| ->]; reflexivity.
  - assert (Q : (if contains (row_entry name tr) "x" then "x" else "time") = name) by (destruct N as [->| ->]; reflexivity).
    rewrite Q. change (row_entry name tr :: map (row_entry name) rows) with (map (row_entry name) (tr :: rows)).
    clear -N L. induction (tr :: rows) as [|[t r] l IH]; constructor.
    + split; [|split].
      * unfold row_entry, at_const. rewrite field_set, String.eqb_refl. reflexivity.
      * apply row_of_entry. destruct N as [->| ->]; discriminate.
      * apply L. left. reflexivity.
    + apply IH. intros tr' I. apply L. right. exact I.
Qed.

(** ** The schema *)
Lemma Rleb_INR a b : Rleb (INR a) (INR b) = true <-> (a <= b)%nat.
Proof. unfold Rleb. destruct (Rle_dec (INR a) (INR b)) as [H|H]; split; intro K; auto; try discriminate. apply INR_le; auto. exfalso. apply H, le_INR, K. Qed.

Lemma valid_number f j : valid (S f) type_number j = true <-> number j.
Proof.
  unfold number. cbn. destruct j; cbn; split; intro H; try discriminate; try (destruct H as [y H]; discriminate); eauto.
Qed.
Definition values_schema (n : nat) : json :=
  JObj [("items", type_number); ("maxItems", JNum (INR n)); ("minItems", JNum (INR n)); ("type", JStr "array")].
Lemma valid_values f n j : valid (S (S f)) (values_schema n) j = true <-> numbers n j.
Proof.
  set (g := S f). cbn [valid].
  change (keyword (values_schema n) "type") with (Some (JStr "array")).
  change (keyword (values_schema n) "required") with (@None json).
  change (keyword (values_schema n) "properties") with (@None json).
  change (keyword (values_schema n) "items") with (Some type_number).
  change (keyword (values_schema n) "minItems") with (Some (JNum (INR n))).
  change (keyword (values_schema n) "maxItems") with (Some (JNum (INR n))).
  change (keyword (values_schema n) "minimum") with (@None json).
  change (keyword (values_schema n) "maximum") with (@None json).
  change (keyword (values_schema n) "contains") with (@None json).
  change (keyword (values_schema n) "allOf") with (@None json).
  change (keyword (values_schema n) "additionalProperties") with (@None json).
  change (keyword (values_schema n) "patternProperties") with (@None json).
  change (keyword (values_schema n) "oneOf") with (@None json).
  change (keyword (values_schema n) "pattern") with (@None json).
  cbn iota. do 8 rewrite andb_true_r. rewrite !andb_true_iff. unfold numbers. destruct j as [| | | |l|l];
    try (split; [intros [[[[[H _] _] _] _] _]; discriminate H|intros [l' [H _]]; discriminate H]).
  rewrite forallb_forall, !Rleb_INR. split.
  - intros [[[[[_ _] _] H] A] B].
    assert (Q : exists r, l = map JNum r).
    { clear A B. induction l as [|x l IH]; [exists []; reflexivity|].
      destruct IH as [r ->]; [intros y I; apply H; right; exact I|].
      destruct (proj1 (valid_number f x) (H x (or_introl eq_refl))) as [y ->]. exists (y :: r). reflexivity. }
    destruct Q as [r ->]. exists r. rewrite map_length in *. split; [reflexivity|lia].
  - intros [r [E L]]. injection E as ->. rewrite map_length. repeat split; auto; try lia.
    intros y I. apply in_map_iff in I. destruct I as [z [<- _]]. apply valid_number. exists z. reflexivity.
Qed.

Lemma valid_element f n e : valid (S (S (S f))) (boundary_element n) e = true <-> entry_ok n e.
Proof.
  set (g := S (S f)). cbn [valid].
  change (keyword (boundary_element n) "type") with (@None json).
  change (keyword (boundary_element n) "required") with (@None json).
  change (keyword (boundary_element n) "properties") with (Some (JObj [("time", type_number); ("values", values_schema n)])).
  change (keyword (boundary_element n) "items") with (@None json).
  change (keyword (boundary_element n) "minItems") with (@None json).
  change (keyword (boundary_element n) "maxItems") with (@None json).
  change (keyword (boundary_element n) "minimum") with (@None json).
  change (keyword (boundary_element n) "maximum") with (@None json).
  change (keyword (boundary_element n) "contains") with (@None json).
  change (keyword (boundary_element n) "allOf") with (@None json).
  change (keyword (boundary_element n) "additionalProperties") with (@None json).
  change (keyword (boundary_element n) "patternProperties") with (@None json).
  change (keyword (boundary_element n) "oneOf") with (@None json).
  change (keyword (boundary_element n) "pattern") with (@None json).
  cbn iota. rewrite !andb_true_r. unfold entry_ok.
  destruct e as [| | | | |fs]; try (split; [intros _ fs H; discriminate H|reflexivity]).
  cbn [andb]. rewrite forallb_forall. split.
  - intros H fs' E. injection E as <-. split; intros v I; specialize (H _ I); cbn [fst snd field] in H.
    + rewrite String.eqb_refl in H. apply valid_number in H. exact H.
    + change ("time" =? "values")%string with false in H. cbv iota in H. rewrite String.eqb_refl in H. apply valid_values in H. exact H.
  - intros H [k v] I. destruct (H fs eq_refl) as [A B]. cbn [fst snd field].
    destruct (String.eqb_spec "time" k) as [<-|_]; [apply valid_number, A, I|].
    destruct (String.eqb_spec "values" k) as [<-|_]; [apply valid_values, B, I|reflexivity].
Qed.

Definition data_schema (n : nat) : json := JObj [("items", boundary_element n); ("type", JStr "array")].
Lemma valid_data f n j : valid (S (S (S (S f)))) (data_schema n) j = true <-> exists es, j = JArr es /\ forall e, In e es -> entry_ok n e.
Proof.
  set (g := S (S (S f))). cbn [valid].
  change (keyword (data_schema n) "type") with (Some (JStr "array")).
  change (keyword (data_schema n) "required") with (@None json).
  change (keyword (data_schema n) "properties") with (@None json).
  change (keyword (data_schema n) "items") with (Some (boundary_element n)).
  change (keyword (data_schema n) "minItems") with (@None json).
  change (keyword (data_schema n) "maxItems") with (@None json).
  change (keyword (data_schema n) "minimum") with (@None json).
  change (keyword (data_schema n) "maximum") with (@None json).
  change (keyword (data_schema n) "contains") with (@None json).
  change (keyword (data_schema n) "allOf") with (@None json).
  change (keyword (data_schema n) "additionalProperties") with (@None json).
  change (keyword (data_schema n) "patternProperties") with (@None json).
  change (keyword (data_schema n) "oneOf") with (@None json).
  change (keyword (data_schema n) "pattern") with (@None json).
  cbn iota. rewrite !andb_true_r.
  destruct j as [| | | |l|l]; try (split; [intro H; discriminate H|intros [l' [H _]]; discriminate H]).
  change (has_type "array" (JArr l)) with true. cbn [andb]. rewrite forallb_forall. split.
  - intro H. exists l. split; [reflexivity|]. intros e I. apply (valid_element f n e), H, I.
  - intros [es [E H]]. injection E as <-. intros e I. apply (valid_element f n e), H, I.
Qed.

Lemma valid_boundary f n j : valid (S (S (S (S (S f))))) (make_boundary_schema n) j = true <-> control_ok n j.
Proof.
  set (g := S (S (S (S f)))). cbn [valid].
  change (keyword (make_boundary_schema n) "type") with (Some (JStr "object")).
  change (keyword (make_boundary_schema n) "required") with (Some (JArr [JStr "id"; JStr "data"])).
  change (keyword (make_boundary_schema n) "properties") with (Some (JObj [("data", data_schema n); ("id", JObj [("type", JStr "string")])])).
  change (keyword (make_boundary_schema n) "items") with (@None json).
  change (keyword (make_boundary_schema n) "minItems") with (@None json).
  change (keyword (make_boundary_schema n) "maxItems") with (@None json).
  change (keyword (make_boundary_schema n) "minimum") with (@None json).
  change (keyword (make_boundary_schema n) "maximum") with (@None json).
  change (keyword (make_boundary_schema n) "contains") with (@None json).
  change (keyword (make_boundary_schema n) "allOf") with (@None json).
  change (keyword (make_boundary_schema n) "additionalProperties") with (@None json).
  change (keyword (make_boundary_schema n) "patternProperties") with (@None json).
  change (keyword (make_boundary_schema n) "oneOf") with (@None json).
  change (keyword (make_boundary_schema n) "pattern") with (@None json).
  cbn iota. rewrite !andb_true_r. unfold control_ok.
  destruct j as [| | | | |fs]; try (split; [intro H; discriminate H|intros [fs [H _]]; discriminate H]).
  change (has_type "object" (JObj fs)) with true. cbn [andb forallb contains]. rewrite !andb_true_iff, forallb_forall.
  assert (St : forall v, valid g (JObj [("type", JStr "string")]) v = true <-> exists x, v = JStr x).
  { intro v. unfold g. cbn. destruct v; cbn; split; intro H; try discriminate; try (destruct H as [y H]; discriminate); eauto. }
  split.
  - intros [[A [B _]] H]. exists fs. split; [reflexivity|].
    split; [destruct (field fs "id"); congruence|]. split; [destruct (field fs "data"); congruence|].
    split; intros v I; specialize (H _ I); cbn [fst snd field] in H.
    + change ("data" =? "id")%string with false in H. cbv iota in H. rewrite String.eqb_refl in H. apply St in H. exact H.
    + rewrite String.eqb_refl in H. apply (valid_data f) in H. exact H.
  - intros [fs' [E [A [B [C D]]]]]. injection E as <-.
    destruct (field fs "id"); [|congruence]. destruct (field fs "data"); [|congruence].
    repeat split; auto. intros [k v] I. cbn [fst snd field].
    destruct (String.eqb_spec "data" k) as [<-|_]; [apply (valid_data f), D, I|].
    destruct (String.eqb_spec "id" k) as [<-|_]; [apply St, C, I|reflexivity].
Qed.
Lemma valid_boundary_schema n j : valid (depth (make_boundary_schema n)) (make_boundary_schema n) j = true <-> control_ok n j.
Proof. change (depth (make_boundary_schema n)) with 8%nat. apply valid_boundary. Qed.

Lemma document_ok n x rows : control_ok n (document "time" x rows) <-> forall tr, In tr rows -> List.length (snd tr) = n.
Proof.
  unfold control_ok, document. split.
  - intros [fs [E [_ [_ [_ D]]]]] tr I. injection E as <-. destruct (D _ (or_introl eq_refl)) as [es [Q H]]. injection Q as <-.
    specialize (H (row_entry "time" tr) (in_map _ _ _ I)). destruct (H _ eq_refl) as [_ B].
    destruct (B _ (or_intror (or_introl eq_refl))) as [l [Q L]]. injection Q as Q. rewrite <- L.
    rewrite <- (map_length JNum (snd tr)), Q, map_length. reflexivity.
  - intro L. eexists. split; [reflexivity|]. split; [discriminate|]. split; [discriminate|]. split.
    + intros v [I|[I|[]]]; [discriminate|]. injection I as <-. eauto.
    + intros v [I|[I|[]]]; [|discriminate]. injection I as <-. eexists. split; [reflexivity|].
      intros e I. apply in_map_iff in I. destruct I as [tr [<- I]]. intros fs E. unfold row_entry in E. injection E as <-. split.
      * intros v [K|[K|[]]]; [|discriminate]. injection K as <-. eexists. reflexivity.
      * intros v [K|[K|[]]]; [discriminate|]. injection K as <-. eexists. split; [reflexivity|]. apply L, I.
Qed.
