(** * Properties C41, C58, C59: schema defaults *)
From Coq Require Import Reals List Bool Arith Lia String Sorted.
From Verif Require Import Base Json_Model Json_Spec Json_Proofs Json_Proofs2 Json_Proofs3 Defaults_Model Defaults_Spec
  Defaults_Proofs Defaults_Proofs2 Defaults_Proofs3.
Import ListNotations.
Local Open Scope string_scope.
Local Open Scope list_scope.

Lemma apply_sub data schema : apply_defaults data schema =
  match sub schema with Some ps => apply_defaults_unsafe (depth ps) ps data | None => Exc end.
Proof.
  unfold apply_defaults. destruct schema; try reflexivity. cbn [is_object andb]. rewrite contains_field.
  destruct (field fields "type") as [t|] eqn:E; [|unfold sub; cbn; rewrite E; reflexivity]. cbn [at_const]. rewrite E. cbn [obind].
  rewrite (sub_unfold fields t E), contains_field. destruct (is_object_literal t); [|reflexivity].
  destruct (field fields "properties"); reflexivity.
Qed.
Lemma add_sub schema defs : add_defaults schema defs =
  match sub schema with
  | Some ps => if is_object defs then obind (add_defaults_unsafe (depth ps) ps defs) (assign schema "properties") else Exc
  | None => Exc
  end.
Proof.
  unfold add_defaults. destruct schema; try reflexivity. cbn [is_object andb]. rewrite contains_field.
  destruct (field fields "type") as [t|] eqn:E; [|unfold sub; cbn; rewrite E; reflexivity]. cbn [at_const]. rewrite E. cbn [obind].
  rewrite (sub_unfold fields t E), contains_field. destruct (is_object_literal t); [|reflexivity].
  destruct (field fields "properties"); [|reflexivity]. destruct (is_object defs); reflexivity.
Qed.

(** A schema for the examples: a number with default 7, an object with a required and a defaulted key. *)
Definition num (l : list (string * json)) : json := JObj (l ++ [("type", JStr "number")]).
Definition obj (l : list (string * json)) (ps : list (string * json)) : json :=
  JObj (l ++ [("properties", JObj ps); ("type", JStr "object")]).
Definition ps1 : list (string * json) := [("a", num [("default", JNum 7)]); ("b", obj [] [("c", num []); ("d", num [("default", JNum 8)])])].
Lemma ps1_good : good_props (JObj ps1).
Proof.
  constructor; [repeat constructor; cbn; intuition discriminate| |].
  - intros k v [H|[H|[]]]; injection H as <- <-; (split; [eexists; reflexivity|discriminate]).
  - intros k v q [H|[H|[]]] S; injection H as <- <-; [discriminate|]. cbn in S. injection S as <-.
    constructor; [repeat constructor; cbn; intuition discriminate| |].
    + intros k v [H|[H|[]]]; injection H as <- <-; (split; [eexists; reflexivity|discriminate]).
    + intros k v q [H|[H|[]]] S; injection H as <- <-; discriminate.
Qed.

(** ** C41 *)

(** Values that are present are kept: everything except objects stays, objects stay objects. *)
Theorem C41_kept : forall schema ps data data', sub schema = Some ps -> good_props ps -> object data ->
  apply_defaults data schema = Ok data' ->
  forall p v, at_path data p = Some v ->
    exists v', at_path data' p = Some v' /\ (~ object v -> v' = v) /\ (object v -> object v').
Proof.
  intros schema ps data data' S G [ds ->] H p v A. rewrite apply_sub, S in H.
  destruct (apply_main (depth ps) ps G (le_n _) ds) as [[ds' [E F]]|[E _]]; rewrite E in H; [|discriminate]. injection H as <-.
  exact (filled_kept p ps _ _ F v A).
Qed.
Print Assumptions C41_kept.

(** Every missing key with a default is filled, in every object of the data the schema describes. *)
Theorem C41_filled : forall schema ps data data', sub schema = Some ps -> good_props ps -> object data ->
  apply_defaults data schema = Ok data' ->
  forall p k o x, at_path data p = Some o -> object o -> at_path data (p ++ [k]) = None ->
    default_at ps (p ++ [k]) = Some x -> at_path data' (p ++ [k]) = Some x.
Proof.
  intros schema ps data data' S G [ds ->] H p k o x A O M D. rewrite apply_sub, S in H.
  destruct (apply_main (depth ps) ps G (le_n _) ds) as [[ds' [E F]]|[E _]]; rewrite E in H; [|discriminate]. injection H as <-.
  exact (filled_fill p ps _ _ k x o F A O M D).
Qed.
Print Assumptions C41_filled.

(** Nothing else is added: a new value is a default of a missing key or lies inside one. *)
Theorem C41_nothing_else : forall schema ps data data', sub schema = Some ps -> good_props ps -> object data ->
  apply_defaults data schema = Ok data' ->
  forall p v, at_path data' p = Some v -> at_path data p = None ->
    exists q k r x o, p = q ++ k :: r /\ at_path data q = Some o /\ object o /\ at_path data (q ++ [k]) = None /\
      default_at ps (q ++ [k]) = Some x /\ at_path x r = Some v.
Proof.
  intros schema ps data data' S G [ds ->] H p v A M. rewrite apply_sub, S in H.
  destruct (apply_main (depth ps) ps G (le_n _) ds) as [[ds' [E F]]|[E _]]; rewrite E in H; [|discriminate]. injection H as <-.
  exact (filled_only p ps _ _ v F A M).
Qed.
Print Assumptions C41_nothing_else.

(** It throws exactly if the data has something else than an object where the schema has an object
    with properties; schemas that are not of type "object" with properties are rejected. *)
Theorem C41_throws : forall schema data,
  (forall ps, sub schema = Some ps -> good_props ps -> object data ->
     apply_defaults data schema <> UB /\
     (apply_defaults data schema = Exc <->
      exists p v q, sub_at ps p = Some q /\ at_path data p = Some v /\ ~ object v)) /\
  (sub schema = None -> apply_defaults data schema = Exc).
Proof.
  intros schema data. rewrite apply_sub. split.
  - intros ps S G [ds ->]. rewrite S.
    destruct (apply_main (depth ps) ps G (le_n _) ds) as [[ds' [E F]]|[E C]]; rewrite E; (split; [discriminate|]).
    + split; [discriminate|]. intro C. exfalso. exact (filled_no_conflict ps _ _ F C).
    + split; [intros _; exact C|reflexivity].
  - intros ->. reflexivity.
Qed.
Print Assumptions C41_throws.

Example C41_ex : apply_defaults (JObj [("b", JObj [("c", JNum 1)]); ("z", JStr "x")]) (obj [] ps1) =
  Ok (JObj [("a", JNum 7); ("b", JObj [("c", JNum 1); ("d", JNum 8)]); ("z", JStr "x")]) /\
  apply_defaults (JObj [("b", JNum 1)]) (obj [] ps1) = Exc /\ sub (obj [] ps1) = Some (JObj ps1) /\ good_props (JObj ps1).
Proof. split; [reflexivity|]. split; [reflexivity|]. split; [reflexivity|exact ps1_good]. Qed.

(** Applying the defaults twice is not the same as once: a default that is itself an object is
    completed only by the second application. *)
Theorem C41_idempotent_refuted : exists schema ps data data1 data2, sub schema = Some ps /\ good_props ps /\
  object data /\ canonical data /\
  apply_defaults data schema = Ok data1 /\ apply_defaults data1 schema = Ok data2 /\ data1 <> data2.
Proof.
  exists (obj [] [("a", obj [("default", JObj [])] [("b", num [("default", JNum 1)])])]), (JObj [("a", obj [("default", JObj [])] [("b", num [("default", JNum 1)])])]).
  exists (JObj []), (JObj [("a", JObj [])]), (JObj [("a", JObj [("b", JNum 1)])]).
  split; [reflexivity|]. split.
  - constructor; [repeat constructor; cbn; intuition discriminate| |].
    + intros k v [H|[]]; injection H as <- <-; (split; [eexists; reflexivity|discriminate]).
    + intros k v q [H|[]] S; injection H as <- <-. cbn in S. injection S as <-.
      constructor; [repeat constructor; cbn; intuition discriminate| |].
      * intros k v [H|[]]; injection H as <- <-; (split; [eexists; reflexivity|discriminate]).
      * intros k v q [H|[]] S; injection H as <- <-; discriminate.
  - split; [eexists; reflexivity|]. split; [constructor; [constructor|intros k v []]|].
    split; [reflexivity|]. split; [reflexivity|discriminate].
Qed.
Print Assumptions C41_idempotent_refuted.

(** It is, if every default that the schema describes further is already complete. *)
Theorem C41_idempotent_partial : forall schema ps data data', sub schema = Some ps -> good_props ps -> object data -> canonical data ->
  (forall p x, default_at ps p = Some x -> canonical x) ->
  (forall p r k x o y, default_at ps p = Some x -> default_at ps (p ++ r ++ [k]) = Some y ->
     at_path x r = Some o -> object o -> at_path x (r ++ [k]) <> None) ->
  (forall p r x q v, default_at ps p = Some x -> sub_at ps (p ++ r) = Some q -> at_path x r = Some v -> object v) ->
  apply_defaults data schema = Ok data' -> apply_defaults data' schema = Ok data'.
Proof.
  intros schema ps data data' S G O C D C1 C2 H. rewrite apply_sub, S in *.
  eapply apply_twice; [exact G|exact O|exact C|exact D|split; [exact C1|exact C2]|exact H].
Qed.
Print Assumptions C41_idempotent_partial.

(** ** C58 *)

(** Adding defaults to a schema: the default of a path is the one given, or the one the schema
    had; apart from that, and from the properties of objects, definitions do not change. *)
Theorem C58_added : forall schema ps defs schema', sub schema = Some ps -> good_props ps -> object defs ->
  add_defaults schema defs = Ok schema' ->
  exists ps', sub schema' = Some ps' /\ good_props ps' /\
    (forall key, key <> "properties" -> entry_of schema' key = entry_of schema key) /\
    forall p, match def_at ps p with
              | None => def_at ps' p = None
              | Some def =>
                  exists def', def_at ps' p = Some def' /\
                    entry_of def' "default" = match at_path defs p with Some x => Some x | None => entry_of def "default" end /\
                    (forall key, key <> "default" -> key <> "properties" -> entry_of def' key = entry_of def key)
              end.
Proof.
  intros schema ps defs schema' S G O H. rewrite add_sub, S in H. rewrite (proj2 (is_object_spec defs) O) in H.
  destruct (add_main (depth ps) ps G (le_n _) defs O) as [[ps' [E A]]|[E _]]; rewrite E in H; [|discriminate].
  destruct (sub_props schema ps S) as [ss [t [-> [Et [Lt Ep]]]]]. cbn [obind assign] in H. injection H as <-.
  exists ps'. split; [eapply sub_set_props; exact S|]. split; [eapply added_good; eauto|]. split.
  - intros key N. cbn. rewrite field_set. destruct (String.eqb_spec "properties" key); [congruence|reflexivity].
  - intro p. pose proof (added_path p ps defs ps' A) as P. destruct (def_at ps p) as [def|]; [|exact P].
    destruct P as [def' [P1 [P2 [P3 _]]]]. exists def'. auto.
Qed.
Print Assumptions C58_added.

(** It throws exactly if the defaults have a key the schema does not know, or something else than
    an object for an object with properties. *)
Theorem C58_throws : forall schema ps defs, sub schema = Some ps -> good_props ps -> object defs ->
  add_defaults schema defs <> UB /\
  (add_defaults schema defs = Exc <->
   (exists q k v, at_path defs (q ++ [k]) = Some v /\ (q = [] \/ sub_at ps q <> None) /\ def_at ps (q ++ [k]) = None) \/
   (exists p v q, sub_at ps p = Some q /\ at_path defs p = Some v /\ ~ object v)).
Proof.
  intros schema ps defs S G O. rewrite add_sub, S. rewrite (proj2 (is_object_spec defs) O).
  destruct (sub_props schema ps S) as [ss [t [-> [Et [Lt Ep]]]]].
  destruct (add_main (depth ps) ps G (le_n _) defs O) as [[ps' [E A]]|[E C]]; rewrite E; cbn [obind assign]; (split; [discriminate|]).
  - split; [discriminate|]. intros [C|C]; exfalso; [exact (added_no_unknown ps defs ps' A C)|exact (added_no_conflict ps defs ps' A C)].
  - split; [|reflexivity]. intros _. destruct C as [C|C]; [right|left]; exact C.
Qed.
Print Assumptions C58_throws.

(** A schema whose defaults were added this way is applied idempotently. *)
Theorem C58_idempotent : forall schema ps defs schema' data data',
  sub schema = Some ps -> good_props ps -> object defs -> canonical defs -> object data -> canonical data ->
  (forall p x, default_at ps p = Some x -> at_path defs p = Some x) ->
  add_defaults schema defs = Ok schema' ->
  apply_defaults data schema' = Ok data' -> apply_defaults data' schema' = Ok data'.
Proof.
  intros schema ps defs schema' data data' S G O Cd Od C Hd H A. rewrite add_sub, S in H. rewrite (proj2 (is_object_spec defs) O) in H.
  destruct (add_main (depth ps) ps G (le_n _) defs O) as [[ps' [E Ad]]|[E _]]; rewrite E in H; [|discriminate].
  destruct (sub_props schema ps S) as [ss [t [-> [Et [Lt Ep]]]]]. cbn [obind assign] in H. injection H as <-.
  rewrite apply_sub, (sub_set_props ss ps' ps S) in *. eapply apply_twice; [eapply added_good; eauto|exact Od|exact C| |eapply added_closed; eauto|exact A].
  intros p x D. eapply canonical_at; [exact Cd|]. eapply added_default; eauto.
Qed.
Print Assumptions C58_idempotent.

Definition ps2 : list (string * json) := [("a", num []); ("b", obj [] [("c", num []); ("d", num [])])].
Example C58_ex :
  add_defaults (obj [] ps2) (JObj [("a", JNum 7); ("b", JObj [("d", JNum 8)])]) =
  Ok (obj [] [("a", num [("default", JNum 7)]);
              ("b", obj [("default", JObj [("d", JNum 8)])] [("c", num []); ("d", num [("default", JNum 8)])])]) /\
  add_defaults (obj [] ps2) (JObj [("b", JObj [("e", JNum 8)])]) = Exc /\
  (forall p x, default_at (JObj ps2) p = Some x -> at_path (JObj [("a", JNum 7); ("b", JObj [("d", JNum 8)])]) p = Some x).
Proof.
  split; [reflexivity|]. split; [reflexivity|]. intros p x H. exfalso. unfold default_at in H.
  assert (K : forall d, def_at (JObj ps2) p = Some d -> entry_of d "default" = None).
  { intros d. destruct p as [|k [|k' p]]; [discriminate| |].
    - cbn [def_at entry_of ps2 field]. destruct (String.eqb "a" k); [intro E; injection E as <-; reflexivity|].
      destruct (String.eqb "b" k); [intro E; injection E as <-; reflexivity|discriminate].
    - rewrite def_at_cons by discriminate. cbn [entry_of ps2 field]. destruct (String.eqb "a" k); [discriminate|].
      destruct (String.eqb "b" k); [|discriminate]. change (sub (obj [] [("c", num []); ("d", num [])])) with (Some (JObj [("c", num []); ("d", num [])])).
      cbv iota. destruct p as [|k2 p]; [|rewrite def_at_cons by discriminate]; cbn [def_at entry_of field];
      destruct (String.eqb "c" k'); try discriminate; try (intro E; injection E as <-; reflexivity);
      destruct (String.eqb "d" k'); try discriminate; intro E; injection E as <-; reflexivity. }
  destruct (def_at (JObj ps2) p) as [d|]; [rewrite (K d eq_refl) in H|]; discriminate.
Qed.

(** ** C59 *)

(** Keys with a default are removed from the lists of required keys, everywhere in the schema;
    nothing else changes. *)
Theorem C59_required : forall schema, well_required schema ->
  exists schema', remove_defaults schema = Ok schema' /\
  forall p, match node_at schema p with
            | None => node_at schema' p = None
            | Some n =>
                exists n', node_at schema' p = Some n' /\
                  (forall key, key <> "required" -> key <> "properties" -> entry_of n' key = entry_of n key) /\
                  (sub n = None -> n' = n) /\
                  (entry_of n "required" = None -> entry_of n' "required" = None) /\
                  (forall ps l, sub n = Some ps -> entry_of n "required" = Some (JArr (map JStr l)) ->
                     entry_of n' "required" = Some (JArr (map JStr (without_default ps l))))
            end.
Proof.
  intros schema W. destruct (remove_main (depth schema) schema W (le_n _)) as [s' [E C]]. exists s'. split; [exact E|].
  intro p. exact (cleaned_path p schema s' C).
Qed.
Print Assumptions C59_required.

Definition schema3 : json :=
  JObj [("properties", JObj ps1); ("required", JArr [JStr "a"; JStr "b"]); ("type", JStr "object")].
Example C59_ex : remove_defaults schema3 =
  Ok (JObj [("properties", JObj ps1); ("required", JArr [JStr "b"]); ("type", JStr "object")]) /\ well_required schema3.
Proof.
  split; [reflexivity|]. apply well_required_node with (fs := ps1); [reflexivity|repeat constructor; cbn; intuition discriminate| |].
  - right. exists ["a"; "b"]. reflexivity.
  - intros k v [H|[H|[]]]; injection H as <- <-; [apply well_required_leaf; reflexivity|].
    eapply well_required_node; [reflexivity|repeat constructor; cbn; intuition discriminate|left; reflexivity|].
    intros k v [H|[H|[]]]; injection H as <- <-; apply well_required_leaf; reflexivity.
Qed.
