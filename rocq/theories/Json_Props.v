(** * Properties C37, C38, C40, C57: component files *)
From Coq Require Import Reals List ListDec Arith Lia Bool String Sorted Permutation.
From Verif Require Import Base Json_Model Json_Spec Json_Proofs Json_Proofs2 Json_Proofs3.
Import ListNotations.
Local Open Scope string_scope.
Local Open Scope list_scope.

(** A small file for the examples. *)
Definition comp (x : string) : json := JObj [("id", JStr x)].
Definition file (nodes connections : list json) : json :=
  JObj [("connections", JObj [("Pipe", JArr connections)]); ("nodes", JObj [("Sink", JArr nodes)])].
Lemma file_good a b : (forall c, In c a -> exists x, has_id c x) -> (forall c, In c b -> exists x, has_id c x) -> good_file (file a b).
Proof.
  intros A B. eexists. split; [reflexivity|]. split; intros v H; cbn in H; injection H as <-; eexists; (split; [reflexivity|]).
  - split; [repeat constructor; intros []|]. intros t w [E|[]]. injection E as <- <-. eauto.
  - split; [repeat constructor; intros []|]. intros t w [E|[]]. injection E as <- <-. eauto.
Qed.
Lemma comp_id x : has_id (comp x) x.
Proof. exists [("id", JStr x)]. split; reflexivity. Qed.
Ltac comps := let H := fresh in intros ? H; cbn in H;
  repeat (destruct H as [H|H]; [subst; eexists; apply comp_id|]); contradiction.

(** ** C40 *)

(** The sorted ids are the ids of all components, with repetitions, in ascending order. *)
Theorem C40_ids : forall j, good_file j ->
  exists l, get_sorted_ids_of_json j = Ok l /\ Permutation l (all_ids j) /\
            StronglySorted (fun a b => a = b \/ before a b) l.
Proof.
  intros j G. exists (sort_strings (all_ids j)). split; [apply sorted_ids_ok; exact G|].
  split; [apply sort_perm|apply sort_sorted].
Qed.
Print Assumptions C40_ids.

(** Reading the ids never has undefined behaviour, whatever the file contains. *)
Theorem C40_no_ub : forall j, get_sorted_ids_of_json j <> UB.
Proof.
  assert (M : forall l, omapM component_id l <> UB).
  { induction l as [|c l IH]; [discriminate|]. cbn [omapM].
    assert (component_id c <> UB).
    { unfold component_id, id_of, at_const, contains. destruct c; try discriminate.
      destruct (field fields "id") as [[]|]; discriminate. }
    destruct (component_id c); [|discriminate|contradiction]. cbn [obind].
    destruct (omapM component_id l); [discriminate|discriminate|contradiction]. }
  assert (K : forall j class, class_ids j class <> UB).
  { intros j class. unfold class_ids, contains, at_const. destruct j; try discriminate.
    destruct (field fields class); [|discriminate]. cbn [obind]. apply M. }
  intro j. unfold get_sorted_ids_of_json. pose proof (K j "nodes") as A. pose proof (K j "connections") as B.
  destruct (class_ids j "nodes"); [|discriminate|contradiction]. cbn [obind].
  destruct (class_ids j "connections"); [discriminate|discriminate|contradiction].
Qed.
Print Assumptions C40_no_ub.

(** A component without an id makes the reading throw. *)
Theorem C40_missing_id : forall fs class ts t l c,
  In class ["nodes"; "connections"] -> field fs class = Some (JObj ts) -> In (t, JArr l) ts -> In c l ->
  entry_of c "id" = None -> get_sorted_ids_of_json (JObj fs) = Exc.
Proof.
  intros fs class ts t l c C F I J N.
  assert (M : forall l, In c l -> omapM component_id l <> UB -> omapM component_id l = Exc).
  { induction l0 as [|d l0 IH]; [intros []|]. intros H U. cbn [omapM] in *.
    destruct (component_id d) eqn:E; cbn [obind] in *; auto; [|contradiction].
    destruct H as [H|H].
    - subst d. exfalso. unfold component_id, contains in E. destruct c; try discriminate.
      cbn in N. rewrite N in E. discriminate.
    - rewrite IH; [reflexivity|exact H|]. intro K. rewrite K in U. contradiction. }
  pose proof (C40_no_ub (JObj fs)) as U. unfold get_sorted_ids_of_json in *.
  assert (X : class_ids (JObj fs) class <> UB -> class_ids (JObj fs) class = Exc).
  { unfold class_ids, contains, at_const. rewrite F. cbn [obind]. apply M.
    cbn [items]. apply in_flat_map. exists (t, JArr l). split; [exact I|exact J]. }
  destruct C as [<-|[<-|[]]].
  - rewrite X; [reflexivity|]. intro K. rewrite K in U. contradiction.
  - destruct (class_ids (JObj fs) "nodes") eqn:E; cbn [obind] in *; [|reflexivity|contradiction].
    rewrite X; [reflexivity|]. intro K. rewrite K in U. contradiction.
Qed.
Print Assumptions C40_missing_id.

Theorem C40_duplicates : forall j, good_file j ->
  check_for_duplicates j <> UB /\ (check_for_duplicates j = Exc <-> ~ NoDup (all_ids j)).
Proof. exact duplicates. Qed.
Print Assumptions C40_duplicates.

(** Sorting: every list is rearranged into strictly ascending order of ids, everything else is
    unchanged; a file with a repeated id is rejected. *)
Theorem C40_sort : forall j, good_file j ->
  (NoDup (all_ids j) ->
   exists j', sort_json_vectors_by_id j = Ok j' /\ good_file j' /\ sorted_file j' /\
     (forall class type, In class ["nodes"; "connections"] -> Permutation (of_type j' class type) (of_type j class type)) /\
     (forall k, ~ In k ["nodes"; "connections"] -> entry_of j' k = entry_of j k))
  /\ (~ NoDup (all_ids j) -> sort_json_vectors_by_id j = Exc).
Proof. intros j G. split; [apply sort_file_full; exact G|apply sort_dup; exact G]. Qed.
Print Assumptions C40_sort.

Example C40_ex : good_file (file [comp "b"; comp "a"] [comp "p"]) /\ NoDup (all_ids (file [comp "b"; comp "a"] [comp "p"])) /\
  sort_json_vectors_by_id (file [comp "b"; comp "a"] [comp "p"]) = Ok (file [comp "a"; comp "b"] [comp "p"]) /\
  sort_json_vectors_by_id (file [comp "b"; comp "a"] [comp "a"]) = Exc.
Proof.
  split; [apply file_good; comps|]. split; [|split; reflexivity]. cbn.
  repeat constructor; cbn; intuition discriminate.
Qed.

(** ** C37 *)

(** The check throws exactly if some id is needed more often than the file has it. *)
Theorem C37_check : forall ids j, good_file j ->
  check_components_in_json ids j <> UB /\
  (check_components_in_json ids j = Exc <->
   exists x, (count_occ string_dec (all_ids j) x < count_occ string_dec ids x)%nat).
Proof. exact check_spec. Qed.
Print Assumptions C37_check.

(** For components with different ids: exactly if a component has no entry; additional entries
    play no role. *)
Lemma check_distinct ids j : good_file j -> NoDup ids ->
  (check_components_in_json ids j = Exc <-> exists x, In x ids /\ ~ In x (all_ids j)).
Proof.
  intros G N. rewrite (proj2 (check_spec ids j G)). split.
  - intros [x H]. exists x. pose proof (proj1 (NoDup_count_occ string_dec ids) N x) as K. split.
    + apply (count_occ_In string_dec). lia.
    + intro I. apply (count_occ_In string_dec) in I. lia.
  - intros [x [I J]]. exists x. apply (count_occ_In string_dec) in I. apply (count_occ_not_In string_dec) in J. lia.
Qed.
Theorem C37_check_distinct : forall ids j, good_file j -> NoDup ids ->
  (check_components_in_json ids j = Exc <-> exists x, In x ids /\ ~ In x (all_ids j)).
Proof. exact check_distinct. Qed.
Print Assumptions C37_check_distinct.

Example C37_ex :
  check_components_in_json ["p"; "a"] (file [comp "b"; comp "a"] [comp "p"]) = Ok tt /\
  check_components_in_json ["q"; "a"] (file [comp "b"; comp "a"] [comp "p"]) = Exc.
Proof. split; reflexivity. Qed.

(** ** C57 *)

(** The entries handed to the components: entry [c] goes to component [n] iff it has its id. *)
Theorem C57_distribution : forall ids j, good_file j -> NoDup ids ->
  distribute ids j <> UB /\
  (distribute ids j = Exc <-> exists x, In x ids /\ ~ In x (all_ids j)) /\
  forall calls, distribute ids j = Ok calls ->
    (forall n c, In (n, c) calls <-> In c (all_components j) /\ nth_error ids n = Some (id c)) /\
    (forall n, (n < List.length ids)%nat -> exists c, In (n, c) calls).
Proof.
  intros ids j G N.
  assert (D : distribute ids j = obind (check_components_in_json ids j) (fun _ => Ok
            (flat_map (fun c => match position ids (id c) with Some n => [(n, c)] | None => [] end) (all_components j)))).
  { unfold distribute. rewrite (class_calls_ok ids j _ (good_nodes j G)), (class_calls_ok ids j _ (good_connections j G)).
    cbn [obind]. unfold all_components. rewrite flat_map_app. reflexivity. }
  pose proof (proj1 (check_spec ids j G)) as U. pose proof (check_distinct ids j G N) as X. rewrite D.
  destruct (check_components_in_json ids j) as [[]| |] eqn:E; cbn [obind]; [| |contradiction].
  - split; [discriminate|]. split; [rewrite <- X; split; discriminate|]. intros calls Q. injection Q as <-.
    assert (A : forall n c, In (n, c) (flat_map (fun c => match position ids (id c) with Some n => [(n, c)] | None => [] end) (all_components j))
              <-> In c (all_components j) /\ nth_error ids n = Some (id c)).
    { intros n c. rewrite in_flat_map. split.
      - intros [d [I H]]. destruct (position ids (id d)) as [m|] eqn:P; [|destruct H]. destruct H as [H|[]].
        injection H as -> ->. split; [exact I|]. apply position_spec; auto.
      - intros [I H]. exists c. split; [exact I|]. apply position_spec in H; auto. rewrite H. left. reflexivity. }
    split; [exact A|]. intros n L. destruct (nth_error ids n) as [x|] eqn:Q; [|apply nth_error_None in Q; lia].
    destruct (in_dec string_dec x (all_ids j)) as [I|I].
    + unfold all_ids in I. apply in_map_iff in I. destruct I as [c [<- I]]. exists c. apply A. auto.
    + exfalso. assert (K : @Ok unit tt = Exc); [|discriminate K]. apply X. exists x. split; [eapply nth_error_In; exact Q|exact I].
  - split; [discriminate|]. split; [rewrite <- X; split; reflexivity|]. intros calls Q. discriminate Q.
Qed.
Print Assumptions C57_distribution.

(** Without repeated ids in the file every component receives exactly one entry. *)
Theorem C57_unique : forall ids j calls, good_file j -> NoDup ids -> NoDup (all_ids j) ->
  distribute ids j = Ok calls ->
  forall n, (n < List.length ids)%nat -> exists c, filter (fun nc => Nat.eqb (fst nc) n) calls = [(n, c)].
Proof.
  intros ids j calls G N Na H n L. pose proof (proj2 (proj2 (C57_distribution ids j G N)) calls H) as [A B].
  destruct (B n L) as [c Hc]. exists c. pose proof (distribute_ok ids j G calls H) as E.
  assert (Q : nth_error ids n = Some (id c)) by (apply A; exact Hc).
  apply A in Hc. destruct Hc as [Hc _]. unfold all_ids in Na. subst calls. clear A B H L.
  induction (all_components j) as [|d l IH]; [destruct Hc|]. cbn [flat_map map] in *. inversion Na as [|? ? N1 N2]; subst.
  rewrite filter_app.
  assert (Z : ~ In (id c) (map id l) ->
    filter (fun nc => Nat.eqb (fst nc) n) (flat_map (fun c => match position ids (id c) with Some n => [(n, c)] | None => [] end) l) = []).
  { clear -N Q. induction l as [|d l IH]; intro M; [reflexivity|]. cbn [flat_map]. rewrite filter_app, IH by (intro K; apply M; right; exact K).
    destruct (position ids (id d)) as [m|] eqn:P; [|reflexivity]. cbn [filter fst].
    destruct (Nat.eqb_spec m n) as [->|]; [|reflexivity]. exfalso. apply position_spec in P; [|exact N].
    rewrite Q in P. injection P as P. apply M. left. auto. }
  destruct Hc as [->|Hc].
  - rewrite Z by exact N1. apply position_spec in Q; [|exact N]. rewrite Q. cbn. rewrite Nat.eqb_refl. reflexivity.
  - rewrite IH; [|exact N2|exact Hc]. destruct (position ids (id d)) as [m|] eqn:P; [|reflexivity]. cbn [filter fst].
    destruct (Nat.eqb_spec m n) as [->|]; [|reflexivity]. exfalso. apply position_spec in P; [|exact N].
    rewrite Q in P. injection P as P. apply N1. rewrite <- P. apply in_map. exact Hc.
Qed.
Print Assumptions C57_unique.

Example C57_ex : distribute ["p"; "a"] (file [comp "b"; comp "a"] [comp "p"]) = Ok [(1%nat, comp "a"); (0%nat, comp "p")].
Proof. reflexivity. Qed.

(** ** C38 *)

(** Boundary data: the result, up to the order of the components, is the topology with the
    entries of the same id attached; a component without entry keeps its value. *)
Theorem C38_attach : forall topology boundary t', good_file topology -> good_file boundary ->
  NoDup (all_ids topology) -> NoDup (all_ids boundary) ->
  build_full_networkproblem_json topology boundary = Ok t' ->
  (forall class type, In class ["nodes"; "connections"] ->
     exists l, Permutation l (of_type topology class type) /\ StronglySorted before (map id l) /\
       Forall2 (fun c c' => match entry_for (of_type boundary class type) c with
                            | Some s => extended c "boundary_values" s c'
                            | None => c' = c
                            end) l (of_type t' class type))
  /\ (forall k, ~ In k ["nodes"; "connections"] -> entry_of t' k = entry_of topology k).
Proof.
  intros topology boundary t' Gt Gb Nt Nb H. unfold build_full_networkproblem_json in H.
  destruct (sort_file_full topology Gt Nt) as [t [Et [G1 [S1 [P1 O1]]]]].
  destruct (sort_file_full boundary Gb Nb) as [b [Eb [G2 [S2 [P2 O2]]]]].
  rewrite Et, Eb in H. cbn [obind] in H.
  destruct (insert_ok "boundary_values" b t G2 G1 S2 S1) as [[fs [E [A B]]]|[E _]]; rewrite E in H; [|discriminate].
  injection H as <-. split.
  - intros class type C. exists (of_type t class type). split; [apply P1; exact C|]. split; [apply S1; exact C|].
    destruct (A class (proj2 (is_class_in class) C) type) as [F _]. eapply Forall2_impl_aux; [|exact F].
    intros c c' K. unfold attached in K. rewrite (entry_perm _ (of_type boundary class type)) in K; [exact K|apply P2; exact C|].
    eapply Permutation_NoDup; [apply Permutation_map; symmetry; apply P2; exact C|]. apply of_type_nodup; [exact Nb|].
    apply is_class_in. exact C.
  - intros k K. cbn. rewrite B; [apply O1; exact K|]. destruct (is_class k) eqn:Q; [|reflexivity].
    apply is_class_in in Q. contradiction.
Qed.
Print Assumptions C38_attach.

(** When it throws: a component has no entry, and the same type has an entry with a larger id. *)
Theorem C38_missing_partial : forall topology boundary, good_file topology -> good_file boundary ->
  NoDup (all_ids topology) -> NoDup (all_ids boundary) ->
  build_full_networkproblem_json topology boundary <> UB /\
  (build_full_networkproblem_json topology boundary = Exc <->
   exists class type c s, In class ["nodes"; "connections"] /\ In c (of_type topology class type) /\
     In s (of_type boundary class type) /\
     (forall s', In s' (of_type boundary class type) -> id s' <> id c) /\ before (id c) (id s)).
Proof.
  intros topology boundary Gt Gb Nt Nb. unfold build_full_networkproblem_json.
  destruct (sort_file_full topology Gt Nt) as [t [Et [G1 [S1 [P1 O1]]]]].
  destruct (sort_file_full boundary Gb Nb) as [b [Eb [G2 [S2 [P2 O2]]]]].
  rewrite Et, Eb. cbn [obind].
  assert (X : (exists class, is_class class = true /\ class_gap b t class) <->
     exists class type c s, In class ["nodes"; "connections"] /\ In c (of_type topology class type) /\
     In s (of_type boundary class type) /\
     (forall s', In s' (of_type boundary class type) -> id s' <> id c) /\ before (id c) (id s)).
  { split.
    - intros [class [C [type [c [s [K1 [K2 [K3 K4]]]]]]]]. apply is_class_in in C. exists class, type, c, s.
      split; [exact C|]. split; [eapply Permutation_in; [apply P1; exact C|exact K1]|].
      split; [eapply Permutation_in; [apply P2; exact C|exact K2]|]. split; [|exact K4].
      intros s' I Q. unfold entry_for in K3.
      assert (Z : In s' (of_type b class type)) by (eapply Permutation_in; [symmetry; apply P2; exact C|exact I]).
      apply (find_none _ _ K3) in Z. apply String.eqb_neq in Z. contradiction.
    - intros [class [type [c [s [C [K1 [K2 [K3 K4]]]]]]]]. exists class. split; [apply is_class_in; exact C|].
      exists type, c, s. split; [eapply Permutation_in; [symmetry; apply P1; exact C|exact K1]|].
      split; [eapply Permutation_in; [symmetry; apply P2; exact C|exact K2]|]. split; [|exact K4].
      apply find_none_iff_aux. intros x I. apply String.eqb_neq. apply K3. eapply Permutation_in; [apply P2; exact C|exact I]. }
  rewrite <- X.
  destruct (insert_ok "boundary_values" b t G2 G1 S2 S1) as [[fs [E [A B]]]|[E Q]]; rewrite E.
  - split; [discriminate|]. split; [discriminate|]. intros [class [C [type K]]]. exfalso. exact (proj2 (A class C type) K).
  - split; [discriminate|]. split; [intros _; exact Q|reflexivity].
Qed.
Print Assumptions C38_missing_partial.

(** Repeated ids in either file are rejected. *)
Theorem C38_duplicates : forall topology boundary, good_file topology -> good_file boundary ->
  ~ NoDup (all_ids topology) \/ ~ NoDup (all_ids boundary) ->
  build_full_networkproblem_json topology boundary = Exc.
Proof.
  intros topology boundary Gt Gb H. unfold build_full_networkproblem_json.
  destruct (duplicates topology Gt) as [Ut Dt].
  destruct (check_for_duplicates topology) as [[]| |] eqn:E; [| |contradiction].
  - assert (Nt : NoDup (all_ids topology)).
    { destruct (ListDec.NoDup_dec string_dec (all_ids topology)) as [N|N]; [exact N|]. apply Dt in N. discriminate. }
    destruct H as [H|H]; [contradiction|]. destruct (sort_file_full topology Gt Nt) as [t [Et _]]. rewrite Et. cbn [obind].
    rewrite (sort_dup boundary Gb H). reflexivity.
  - rewrite (sort_dup topology Gt); [reflexivity|]. apply Dt. reflexivity.
Qed.
Print Assumptions C38_duplicates.

(** The claim that a component without entry makes the merge throw is false: the last component
    of a type, and every component of a type missing in the boundary file, pass silently. *)
Theorem C38_missing_refuted : exists topology boundary t' c, good_file topology /\ good_file boundary /\
  NoDup (all_ids topology) /\ NoDup (all_ids boundary) /\
  In c (all_components topology) /\ ~ In (id c) (all_ids boundary) /\
  build_full_networkproblem_json topology boundary = Ok t' /\ In c (all_components t').
Proof.
  exists (file [comp "a"; comp "b"] []), (file [comp "a"] []). eexists. exists (comp "b").
  split; [apply file_good; comps|]. split; [apply file_good; comps|].
  split; [cbn; repeat constructor; cbn; intuition discriminate|].
  split; [cbn; repeat constructor; cbn; intuition discriminate|].
  split; [cbn; auto|]. split; [cbn; intuition discriminate|]. split; [reflexivity|]. cbn. auto.
Qed.
Print Assumptions C38_missing_refuted.

Example C38_ex :
  build_full_networkproblem_json (file [comp "b"; comp "a"] []) (file [comp "c"; comp "b"; comp "a"] []) =
  Ok (file [JObj [("boundary_values", comp "a"); ("id", JStr "a")]; JObj [("boundary_values", comp "b"); ("id", JStr "b")]] []) /\
  build_full_networkproblem_json (file [comp "b"; comp "a"] []) (file [comp "b"] []) = Exc.
Proof. split; reflexivity. Qed.
