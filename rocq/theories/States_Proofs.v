(** * Proofs about initial states: the schema and one component *)
From Coq Require Import Reals List Bool Arith Lia Lra String.
From Verif Require Import Base Interp_Model Interp_Spec Interp_Proofs Interp_Proofs2 Json_Model Json_Spec Json_Proofs Json_Proofs2 Json_Proofs3
  Defaults_Model Controls_Model Controls_Spec Controls_Proofs Controls_Proofs2 Controls_Proofs3 Calc Euler_Model Euler_Spec Euler_Proofs
  Net_Model States_Model States_Spec.
Import ListNotations.
Local Open Scope string_scope.
Local Open Scope list_scope.

(** ** The schema *)
Definition exactly (a : R) : json := JObj [("maximum", JNum a); ("minimum", JNum a)].
Lemma valid_exactly f a j : valid (S f) (exactly a) j = true <-> forall y, j = JNum y -> y = a.
Proof.
  cbn [valid].
  change (keyword (exactly a) "type") with (@None json).
  change (keyword (exactly a) "required") with (@None json).
  change (keyword (exactly a) "properties") with (@None json).
  change (keyword (exactly a) "items") with (@None json).
  change (keyword (exactly a) "minItems") with (@None json).
  change (keyword (exactly a) "maxItems") with (@None json).
  change (keyword (exactly a) "minimum") with (Some (JNum a)).
  change (keyword (exactly a) "maximum") with (Some (JNum a)).
  change (keyword (exactly a) "contains") with (@None json).
  change (keyword (exactly a) "allOf") with (@None json).
  change (keyword (exactly a) "additionalProperties") with (@None json).
  change (keyword (exactly a) "patternProperties") with (@None json).
  change (keyword (exactly a) "oneOf") with (@None json).
  change (keyword (exactly a) "pattern") with (@None json).
  cbn iota. rewrite !andb_true_r, andb_true_l.
  destruct j as [| |x| | |]; cbn [andb]; try (split; [intros _ y H; discriminate H|reflexivity]).
  rewrite andb_true_iff, !Rleb_true. split.
  - intros [A B] y E. injection E as <-. lra.
  - intro H. rewrite (H x eq_refl). lra.
Qed.

Definition x_schema (a : R) : json := JObj [("properties", JObj [("x", exactly a)])].
Lemma valid_x_schema f a e : valid (S (S f)) (x_schema a) e = true <-> at_x a e.
Proof.
  set (g := S f). cbn [valid].
  change (keyword (x_schema a) "type") with (@None json).
  change (keyword (x_schema a) "required") with (@None json).
  change (keyword (x_schema a) "properties") with (Some (JObj [("x", exactly a)])).
  change (keyword (x_schema a) "items") with (@None json).
  change (keyword (x_schema a) "minItems") with (@None json).
  change (keyword (x_schema a) "maxItems") with (@None json).
  change (keyword (x_schema a) "minimum") with (@None json).
  change (keyword (x_schema a) "maximum") with (@None json).
  change (keyword (x_schema a) "contains") with (@None json).
  change (keyword (x_schema a) "allOf") with (@None json).
  change (keyword (x_schema a) "additionalProperties") with (@None json).
  change (keyword (x_schema a) "patternProperties") with (@None json).
  change (keyword (x_schema a) "oneOf") with (@None json).
  change (keyword (x_schema a) "pattern") with (@None json).
  cbn iota. rewrite !andb_true_r. cbn [andb]. unfold at_x.
  destruct e as [| | | | |fs]; try (split; [intros _ fs v y H; discriminate H|reflexivity]).
  rewrite forallb_forall. split.
  - intros H fs' v y E I Ev. injection E as <-. specialize (H _ I). cbn [fst snd field] in H. rewrite String.eqb_refl in H.
    apply (proj1 (valid_exactly f a v) H y Ev).
  - intros H [k v] I. cbn [fst snd field]. destruct (String.eqb_spec "x" k) as [<-|_]; [|reflexivity].
    apply valid_exactly. intros y Ev. apply (H fs v y eq_refl I Ev).
Qed.

Lemma valid_contains_x f a j : valid (S (S (S f))) (contains_x a) j = true <-> forall es, j = JArr es -> exists e, In e es /\ at_x a e.
Proof.
  set (g := S (S f)). cbn [valid].
  change (keyword (contains_x a) "type") with (@None json).
  change (keyword (contains_x a) "required") with (@None json).
  change (keyword (contains_x a) "properties") with (@None json).
  change (keyword (contains_x a) "items") with (@None json).
  change (keyword (contains_x a) "minItems") with (@None json).
  change (keyword (contains_x a) "maxItems") with (@None json).
  change (keyword (contains_x a) "minimum") with (@None json).
  change (keyword (contains_x a) "maximum") with (@None json).
  change (keyword (contains_x a) "contains") with (Some (x_schema a)).
  change (keyword (contains_x a) "allOf") with (@None json).
  change (keyword (contains_x a) "additionalProperties") with (@None json).
  change (keyword (contains_x a) "patternProperties") with (@None json).
  change (keyword (contains_x a) "oneOf") with (@None json).
  change (keyword (contains_x a) "pattern") with (@None json).
  cbn iota. rewrite !andb_true_r. cbn [andb].
  destruct j as [| | | |l|]; try (split; [intros _ es H; discriminate H|reflexivity]).
  rewrite existsb_exists. split.
  - intros [e [I H]] es E. injection E as <-. exists e. split; [exact I|]. apply (valid_x_schema f), H.
  - intro H. destruct (H l eq_refl) as [e [I K]]. exists e. split; [exact I|]. apply (valid_x_schema f), K.
Qed.

Lemma valid_point f n e : valid (S (S (S f))) (point_schema n) e = true <-> point_ok n e.
Proof.
  set (g := S (S f)). cbn [valid].
  change (keyword (point_schema n) "type") with (Some (JStr "object")).
  change (keyword (point_schema n) "required") with (Some (JArr [JStr "x"; JStr "values"])).
  change (keyword (point_schema n) "properties") with (Some (JObj [("values", values_schema n); ("x", type_number)])).
  change (keyword (point_schema n) "items") with (@None json).
  change (keyword (point_schema n) "minItems") with (@None json).
  change (keyword (point_schema n) "maxItems") with (@None json).
  change (keyword (point_schema n) "minimum") with (@None json).
  change (keyword (point_schema n) "maximum") with (@None json).
  change (keyword (point_schema n) "contains") with (@None json).
  change (keyword (point_schema n) "allOf") with (@None json).
  change (keyword (point_schema n) "additionalProperties") with (@None json).
  change (keyword (point_schema n) "patternProperties") with (@None json).
  change (keyword (point_schema n) "oneOf") with (@None json).
  change (keyword (point_schema n) "pattern") with (@None json).
  cbn iota. rewrite !andb_true_r. unfold point_ok.
  destruct e as [| | | | |fs]; try (split; [intro H; discriminate H|intros [fs [H _]]; discriminate H]).
  change (has_type "object" (JObj fs)) with true. cbn [andb forallb contains]. rewrite !andb_true_iff, forallb_forall. split.
  - intros [[A [B _]] H]. exists fs. split; [reflexivity|].
    split; [destruct (field fs "x"); congruence|]. split; [destruct (field fs "values"); congruence|].
    split; intros v I; specialize (H _ I); cbn [fst snd field] in H.
    + change ("values" =? "x")%string with false in H. cbv iota in H. rewrite String.eqb_refl in H. apply valid_number in H. exact H.
    + rewrite String.eqb_refl in H. apply valid_values in H. exact H.
  - intros [fs' [E [A [B [C D]]]]]. injection E as <-.
    destruct (field fs "x"); [|congruence]. destruct (field fs "values"); [|congruence].
    repeat split; auto. intros [k v] I. cbn [fst snd field].
    destruct (String.eqb_spec "values" k) as [<-|_]; [apply valid_values, D, I|].
    destruct (String.eqb_spec "x" k) as [<-|_]; [apply valid_number, C, I|reflexivity].
Qed.

Definition count_bounds (count : option nat) : list (string * json) :=
  match count with None => [] | Some n => [("maxItems", JNum (INR n)); ("minItems", JNum (INR n))] end.
Definition points_schema (count : option nat) (n : nat) (xs : list R) : json :=
  JObj ([("allOf", JArr (map contains_x xs)); ("items", point_schema n)] ++ count_bounds count ++ [("type", JStr "array")]).
Lemma valid_points f count n xs j : valid (S (S (S (S f)))) (points_schema count n xs) j = true <->
  exists es, j = JArr es /\ (forall e, In e es -> point_ok n e) /\ (forall k, count = Some k -> List.length es = k) /\
    forall a, In a xs -> exists e, In e es /\ at_x a e.
Proof.
  set (g := S (S (S f))). cbn [valid].
  replace (keyword (points_schema count n xs) "type") with (Some (JStr "array")) by (destruct count; reflexivity).
  replace (keyword (points_schema count n xs) "required") with (@None json) by (destruct count; reflexivity).
  replace (keyword (points_schema count n xs) "properties") with (@None json) by (destruct count; reflexivity).
  replace (keyword (points_schema count n xs) "items") with (Some (point_schema n)) by (destruct count; reflexivity).
  replace (keyword (points_schema count n xs) "minItems") with (match count with None => None | Some k => Some (JNum (INR k)) end) by (destruct count; reflexivity).
  replace (keyword (points_schema count n xs) "maxItems") with (match count with None => None | Some k => Some (JNum (INR k)) end) by (destruct count; reflexivity).
  replace (keyword (points_schema count n xs) "minimum") with (@None json) by (destruct count; reflexivity).
  replace (keyword (points_schema count n xs) "maximum") with (@None json) by (destruct count; reflexivity).
  replace (keyword (points_schema count n xs) "contains") with (@None json) by (destruct count; reflexivity).
  replace (keyword (points_schema count n xs) "allOf") with (Some (JArr (map contains_x xs))) by (destruct count; reflexivity).
  replace (keyword (points_schema count n xs) "additionalProperties") with (@None json) by (destruct count; reflexivity).
  replace (keyword (points_schema count n xs) "patternProperties") with (@None json) by (destruct count; reflexivity).
  replace (keyword (points_schema count n xs) "oneOf") with (@None json) by (destruct count; reflexivity).
  replace (keyword (points_schema count n xs) "pattern") with (@None json) by (destruct count; reflexivity).
  cbn iota. rewrite !andb_true_r.
  destruct j as [| | | |l|l]; try (split; [intro H; discriminate H|intros [l' [H _]]; discriminate H]).
  change (has_type "array" (JArr l)) with true. cbn [andb].
  assert (Fx : forallb (fun s => valid g s (JArr l)) (map contains_x xs) = true <-> forall a, In a xs -> exists e, In e l /\ at_x a e).
  { rewrite forallb_forall. split.
    - intros H a I. apply (proj1 (valid_contains_x f a (JArr l)) (H _ (in_map _ _ _ I)) l eq_refl).
    - intros H s I. apply in_map_iff in I. destruct I as [a [<- I]]. apply (valid_contains_x f). intros es E. injection E as <-. apply H, I. }
  rewrite !andb_true_iff, Fx, forallb_forall. destruct count as [k|].
  - rewrite !Rleb_INR. split.
    + intros [[[H A] B] C]. exists l. split; [reflexivity|]. split; [intros e I; apply (valid_point f), H, I|]. split; [|exact C].
      intros k' E. injection E as <-. lia.
    + intros [es [E [H [A C]]]]. injection E as <-. rewrite (A k eq_refl). repeat split; auto. intros e I. apply (valid_point f), H, I.
  - split.
    + intros [[[H _] _] C]. exists l. split; [reflexivity|]. split; [intros e I; apply (valid_point f), H, I|]. split; [discriminate|exact C].
    + intros [es [E [H [_ C]]]]. injection E as <-. repeat split; auto. intros e I. apply (valid_point f), H, I.
Qed.

Definition initial_schema (count : option nat) (n : nat) (xs : list R) : json :=
  JObj [("properties", JObj [("data", points_schema count n xs); ("id", JObj [("type", JStr "string")])]);
        ("required", JArr [JStr "id"; JStr "data"]); ("type", JStr "object")].
Lemma valid_initial f count n xs j : valid (S (S (S (S (S f))))) (initial_schema count n xs) j = true <-> initial_ok count n xs j.
Proof.
  set (g := S (S (S (S f)))). cbn [valid].
  change (keyword (initial_schema count n xs) "type") with (Some (JStr "object")).
  change (keyword (initial_schema count n xs) "required") with (Some (JArr [JStr "id"; JStr "data"])).
  change (keyword (initial_schema count n xs) "properties") with (Some (JObj [("data", points_schema count n xs); ("id", JObj [("type", JStr "string")])])).
  change (keyword (initial_schema count n xs) "items") with (@None json).
  change (keyword (initial_schema count n xs) "minItems") with (@None json).
  change (keyword (initial_schema count n xs) "maxItems") with (@None json).
  change (keyword (initial_schema count n xs) "minimum") with (@None json).
  change (keyword (initial_schema count n xs) "maximum") with (@None json).
  change (keyword (initial_schema count n xs) "contains") with (@None json).
  change (keyword (initial_schema count n xs) "allOf") with (@None json).
  change (keyword (initial_schema count n xs) "additionalProperties") with (@None json).
  change (keyword (initial_schema count n xs) "patternProperties") with (@None json).
  change (keyword (initial_schema count n xs) "oneOf") with (@None json).
  change (keyword (initial_schema count n xs) "pattern") with (@None json).
  cbn iota. rewrite !andb_true_r. unfold initial_ok.
  destruct j as [| | | | |fs]; try (split; [intro H; discriminate H|intros [fs [H _]]; discriminate H]).
  change (has_type "object" (JObj fs)) with true. cbn [andb forallb contains]. rewrite !andb_true_iff, forallb_forall.
  assert (St : forall v, valid g (JObj [("type", JStr "string")]) v = true <-> exists x, v = JStr x).
  { intro v. unfold g. cbn. destruct v; cbn; split; intro H; try discriminate; try (destruct H as [y H]; discriminate); eauto. }
  split.
  - intros [[A [B _]] H]. exists fs. split; [reflexivity|].
    split; [destruct (field fs "id"); congruence|]. split; [destruct (field fs "data"); congruence|].
    split; intros v I; specialize (H _ I); cbn [fst snd field] in H.
    + change ("data" =? "id")%string with false in H. cbv iota in H. rewrite String.eqb_refl in H. apply St in H. exact H.
    + rewrite String.eqb_refl in H. apply (valid_points f) in H. exact H.
  - intros [fs' [E [A [B [C D]]]]]. injection E as <-.
    destruct (field fs "id"); [|congruence]. destruct (field fs "data"); [|congruence].
    repeat split; auto. intros [k v] I. cbn [fst snd field].
    destruct (String.eqb_spec "data" k) as [<-|_]; [apply (valid_points f), D, I|].
    destruct (String.eqb_spec "id" k) as [<-|_]; [apply St, C, I|reflexivity].
Qed.

(** The schemas of the kinds. *)
Lemma schema_of_kind k : exists s, get_initial_schema k = Ok s /\
  forall j, valid (depth s) s j = true <-> initial_ok (fst (asked k)) 2 (snd (asked k)) j.
Proof.
  destruct k as [n dx| | |G B lines vs]; cbn [get_initial_schema asked fst snd].
  - exists (initial_schema None 2 [0%R]). split; [reflexivity|]. intro j. match goal with |- context [depth ?x] => change (depth x) with 9%nat end. apply (valid_initial 4).
  - exists (initial_schema (Some 2%nat) 2 [0%R; 1%R]). split; [reflexivity|]. intro j. match goal with |- context [depth ?x] => change (depth x) with 9%nat end. apply (valid_initial 4).
  - exists (initial_schema (Some 1%nat) 2 [0%R]). split; [reflexivity|]. intro j. match goal with |- context [depth ?x] => change (depth x) with 9%nat end. apply (valid_initial 4).
  - exists (initial_schema (Some 1%nat) 2 [0%R]). split; [reflexivity|]. intro j. match goal with |- context [depth ?x] => change (depth x) with 9%nat end. apply (valid_initial 4).
Qed.

Lemma document_initial k x rows : initial_ok (fst (asked k)) 2 (snd (asked k)) (document "x" x rows) <-> rows_ok k rows.
Proof.
  unfold initial_ok, rows_ok, document. split.
  - intros [fs [E [_ [_ [_ D]]]]]. injection E as <-. destruct (D _ (or_introl eq_refl)) as [es [Q [H [Cn Cx]]]]. injection Q as <-. split; [|split].
    + intros tr I. specialize (H (row_entry "x" tr) (in_map _ _ _ I)). destruct H as [fs [E [_ [_ [_ B]]]]]. unfold row_entry in E. injection E as <-.
      destruct (B (JArr (map JNum (snd tr))) (or_introl eq_refl)) as [l [Q L]].
      injection Q as Q. rewrite <- L, <- (map_length JNum (snd tr)), Q, map_length. reflexivity.
    + intros n E. specialize (Cn n E). rewrite map_length in Cn. exact Cn.
    + intros a I. destruct (Cx a I) as [e [J K]]. apply in_map_iff in J. destruct J as [tr [<- J]].
      assert (E : fst tr = a). { apply (K _ (JNum (fst tr)) (fst tr) eq_refl); [right; left; reflexivity|reflexivity]. }
      rewrite <- E. apply in_map, J.
  - intros [L [Cn Cx]]. eexists. split; [reflexivity|]. split; [discriminate|]. split; [discriminate|]. split.
    + intros v [I|[I|[]]]; [discriminate|]. injection I as <-. eauto.
    + intros v [I|[I|[]]]; [|discriminate]. injection I as <-. eexists. split; [reflexivity|]. split; [|split].
      * intros e I. apply in_map_iff in I. destruct I as [tr [<- I]]. eexists. split; [reflexivity|]. split; [discriminate|]. split; [discriminate|]. split.
        -- intros v [K|[K|[]]]; [discriminate|]. injection K as <-. eexists. reflexivity.
        -- intros v [K|[K|[]]]; [|discriminate]. injection K as <-. eexists. split; [reflexivity|]. apply L, I.
      * intros n E. rewrite map_length. apply Cn, E.
      * intros a I. specialize (Cx a I). apply in_map_iff in Cx. destruct Cx as [tr [E J]]. exists (row_entry "x" tr). split; [apply in_map, J|].
        intros fs v y Q K Ev. unfold row_entry in Q. injection Q as <-. destruct K as [K|[K|[]]]; [discriminate|]. injection K as <-. congruence.
Qed.
