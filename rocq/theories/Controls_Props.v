(** * Properties of control files *)
From Coq Require Import Reals List Bool Arith Lia Lra String Sorted.
From Verif Require Import Base Interp_Model Interp_Spec Interp_Proofs Interp_Proofs2 Json_Model Json_Spec Json_Proofs Json_Proofs2 Json_Proofs3
  Json_Props Defaults_Model Controls_Model Controls_Spec Controls_Proofs Controls_Proofs2 Controls_Proofs3.
Import ListNotations.
Local Open Scope string_scope.
Local Open Scope list_scope.

(** ** C49 *)

(** The file: for every class and type the documents of its components, in order. *)
Theorem C49_file : forall comps v, table_of (ipoints v) (iinner v) (ivalues v) -> comps <> [] -> two_classes comps ->
  (forall c, In c comps -> (cc_start c + cc_count c <= iinner v)%nat) ->
  exists j, save_controls_to_json comps v JNull = Ok j /\ good_file j /\
    (forall class type, of_type j class type =
       map (fun c => document "time" (cc_id c) (component_rows v (cc_start c) (cc_count c))) (filter (matches class type) comps)) /\
    (forall e, In e (all_components j) <-> exists c, In c comps /\ e = document "time" (cc_id c) (component_rows v (cc_start c) (cc_count c))).
Proof.
  intros comps v T N Tc B. destruct (save_all v T comps [] JNull B (or_introl (conj eq_refl eq_refl))) as (j & E & [[_ Z]|F]).
  { cbn in Z. congruence. }
  exists j. split; [exact E|]. split; [eapply file_of_good, F|]. split.
  - intros class type. apply (file_of_type v comps j class type F).
  - intro e. apply (file_of_components v comps j e Tc F).
Qed.
Print Assumptions C49_file.

(** Reading back into any vector on the same grid: the columns of the components get the saved
    values, the other columns keep theirs. *)
Theorem C49_round_trip : forall uninit comps v w, increasing (ipoints v) -> ipoints v <> [] ->
  table_of (ipoints v) (iinner v) (ivalues v) -> table_of (ipoints w) (iinner w) (ivalues w) ->
  ipoints w = ipoints v -> iinner w = iinner v ->
  NoDup (map cc_id comps) -> two_classes comps -> (forall c, In c comps -> (cc_start c + cc_count c <= iinner v)%nat) ->
  exists j w', save_controls_to_json comps v JNull = Ok j /\ set_initial_controls uninit comps w j = Ok w' /\
    ipoints w' = ipoints v /\ iinner w' = iinner v /\ List.length (ivalues w') = List.length (ivalues w) /\
    forall i m, (i < List.length (ipoints v))%nat -> (m < iinner v)%nat ->
      ((exists c, In c comps /\ column_of c m) -> entry (ivalues w') (iinner v) i m = entry (ivalues v) (iinner v) i m) /\
      ((forall c, In c comps -> ~ column_of c m) -> entry (ivalues w') (iinner v) i m = entry (ivalues w) (iinner v) i m).
Proof. exact round_trip. Qed.
Print Assumptions C49_round_trip.

(** With the indices that Networkproblem gives to its components the vector itself comes back. *)
Theorem C49_whole : forall uninit comps0 comps n v w, set_control_indices 0 comps0 = (comps, n) -> iinner v = n ->
  increasing (ipoints v) -> ipoints v <> [] ->
  table_of (ipoints v) (iinner v) (ivalues v) -> table_of (ipoints w) (iinner w) (ivalues w) ->
  ipoints w = ipoints v -> iinner w = iinner v ->
  NoDup (map cc_id comps0) -> two_classes comps0 ->
  exists j, save_controls_to_json comps v JNull = Ok j /\ set_initial_controls uninit comps w j = Ok v.
Proof.
  intros uninit comps0 comps n v w E En Hi Hn Tv Tw P I Nd Tc.
  destruct (indices_ok comps0 0) as (A & B & C & D & F). rewrite E in *. cbn [fst snd] in *.
  destruct (round_trip uninit comps v w) as (j & w' & E1 & E2 & P' & I' & L' & N'); auto.
  { rewrite B. exact Nd. }
  { intros c Ic. rewrite En. apply D, Ic. }
  exists j. split; [exact E1|]. rewrite E2. f_equal. destruct w' as [pw mw vw], v as [pv mv vv]. cbn [ipoints iinner ivalues] in *. subst pw mw.
  f_equal. unfold table_of in *. apply (table_eq mv (List.length pv)); [rewrite L', Tw, P, I; reflexivity|exact Tv|].
  intros i m Il M. apply N'; auto. apply F. lia.
Qed.
Print Assumptions C49_whole.

Definition two_comps : list control_component :=
  [mkControl "connections" "Compressorstation" "c" 0 1; mkControl "connections" "Controlvalve" "v" 0 1].
Example C49_ex : exists j, save_controls_to_json (fst (set_control_indices 0 two_comps)) (mk_ivec [0; 1]%R 2 [5; 6; 7; 8]%R) JNull = Ok j /\
  set_initial_controls (fun _ => 3%R) (fst (set_control_indices 0 two_comps)) (mk_ivec [0; 1]%R 2 [0; 0; 0; 0]%R) j = Ok (mk_ivec [0; 1]%R 2 [5; 6; 7; 8]%R).
Proof.
  apply (C49_whole (fun _ => 3%R) two_comps _ 2); try reflexivity.
  - repeat constructor; lra.
  - discriminate.
  - cbn. repeat constructor; intro H; repeat (destruct H as [H|H]; try discriminate H); exact H.
  - intros c [<-|[<-|[]]]; cbn; auto.
Qed.

(** ** C64 *)

(** A document over "time" or "x" that its schema accepts is read exactly. *)
Theorem C64_read : forall uninit schema name x rows m, name = "x" \/ name = "time" ->
  valid (depth schema) schema (document name x rows) = true -> rows <> [] ->
  (forall tr, In tr rows -> List.length (snd tr) = m) ->
  exists v, construct_from_json uninit (document name x rows) schema = Ok v /\
    ipoints v = map fst rows /\ iinner v = m /\ table_of (ipoints v) m (ivalues v) /\
    forall i k, (i < List.length rows)%nat -> (k < m)%nat -> entry (ivalues v) m i k = nth k (snd (nth i rows (0%R, []))) 0%R.
Proof.
  intros uninit schema name x rows m N V Ne L. eexists. split; [apply construct_document; eauto|].
  destruct (concat_table rows m L) as [A B]. auto.
Qed.
Print Assumptions C64_read.

(** What the schema of boundary and control values accepts, and that everything else is an error. *)
Theorem C64_schema : forall uninit n j,
  (valid (depth (make_boundary_schema n)) (make_boundary_schema n) j = true <-> control_ok n j) /\
  (~ control_ok n j -> construct_from_json uninit j (make_boundary_schema n) = Exc) /\
  (forall x rows, control_ok n (document "time" x rows) <-> forall tr, In tr rows -> List.length (snd tr) = n).
Proof.
  intros uninit n j. split; [apply valid_boundary_schema|]. split; [|apply document_ok].
  intro H. unfold construct_from_json, validate_json.
  destruct (valid (depth (make_boundary_schema n)) (make_boundary_schema n) j) eqn:E; [|reflexivity].
  exfalso. apply H, valid_boundary_schema, E.
Qed.
Print Assumptions C64_schema.

(** FALSE as "what the schema accepts can be read": the list may be empty, and the entries need
    not have a time, values, or be objects. *)
Theorem C64_accepted_refuted : exists j1 j2 j3, (forall uninit,
  control_ok 1 j1 /\ construct_from_json uninit j1 (make_boundary_schema 1) = UB /\
  control_ok 1 j2 /\ construct_from_json uninit j2 (make_boundary_schema 1) = UB /\
  control_ok 1 j3 /\ construct_from_json uninit j3 (make_boundary_schema 1) = UB) /\
  j1 = document "time" "a" [] /\
  j2 = JObj [("data", JArr [JObj [("values", JArr [JNum 1])]]); ("id", JStr "a")] /\
  j3 = JObj [("data", JArr [JObj [("time", JNum 1)]]); ("id", JStr "a")].
Proof.
  exists (document "time" "a" []), (JObj [("data", JArr [JObj [("values", JArr [JNum 1])]]); ("id", JStr "a")]),
    (JObj [("data", JArr [JObj [("time", JNum 1)]]); ("id", JStr "a")]).
  split; [|auto]. intro uninit.
  assert (A1 : control_ok 1 (document "time" "a" [])) by (apply document_ok; intros tr []).
  assert (A2 : control_ok 1 (JObj [("data", JArr [JObj [("values", JArr [JNum 1])]]); ("id", JStr "a")])).
  { eexists. split; [reflexivity|]. split; [discriminate|]. split; [discriminate|]. split; intros v [I|[I|[]]]; try discriminate; injection I as <-; [eauto|].
    eexists. split; [reflexivity|]. intros e [<-|[]] fs E. injection E as <-. split; intros v [I|[]]; [discriminate|]. injection I as <-.
    exists [1%R]. auto. }
  assert (A3 : control_ok 1 (JObj [("data", JArr [JObj [("time", JNum 1)]]); ("id", JStr "a")])).
  { eexists. split; [reflexivity|]. split; [discriminate|]. split; [discriminate|]. split; intros v [I|[I|[]]]; try discriminate; injection I as <-; [eauto|].
    eexists. split; [reflexivity|]. intros e [<-|[]] fs E. injection E as <-. split; intros v [I|[]]; [|discriminate]. injection I as <-.
    exists 1%R. auto. }
  assert (V : forall j, control_ok 1 j -> validate_json j (make_boundary_schema 1) = Ok tt).
  { intros j H. unfold validate_json. rewrite (proj2 (valid_boundary_schema 1 j) H). reflexivity. }
  split; [exact A1|]. split; [unfold construct_from_json; rewrite (V _ A1); reflexivity|].
  split; [exact A2|]. split; [unfold construct_from_json; rewrite (V _ A2); reflexivity|].
  split; [exact A3|]. unfold construct_from_json; rewrite (V _ A3); reflexivity.
Qed.
Print Assumptions C64_accepted_refuted.

(** Accepted documents with a non-empty list of objects with time and values are read; missing:
    lists that are empty or have entries without these keys. *)
Theorem C64_accepted_partial : forall uninit n fs e0 es, control_ok n (JObj fs) ->
  field fs "data" = Some (JArr (e0 :: es)) -> contains e0 "x" = false ->
  (forall e, In e (e0 :: es) -> contains e "time" = true /\ contains e "values" = true) ->
  exists rows, Forall2 (fun e tr => at_const e "time" = Ok (JNum (fst tr)) /\ at_const e "values" = Ok (JArr (map JNum (snd tr))) /\
                          List.length (snd tr) = n) (e0 :: es) rows /\
    construct_from_json uninit (JObj fs) (make_boundary_schema n) = Ok (mk_ivec (map fst rows) n (List.concat (map snd rows))).
Proof.
  intros uninit n fs e0 es C D X K.
  assert (E : forall e, In e (e0 :: es) -> entry_ok n e).
  { destruct C as (fs' & Q & _ & _ & _ & Cd). injection Q as <-. destruct (Cd _ (field_in _ _ _ D)) as (es' & Q & H). injection Q as <-. exact H. }
  assert (R : exists rows, Forall2 (fun e tr => at_const e "time" = Ok (JNum (fst tr)) /\ at_const e "values" = Ok (JArr (map JNum (snd tr))) /\
                          List.length (snd tr) = n) (e0 :: es) rows).
  { clear C D X. induction (e0 :: es) as [|e l IH]; [exists []; constructor|].
    destruct IH as [rows F]; [intros; apply K; right; auto|intros; apply E; right; auto|].
    destruct (K e (or_introl eq_refl)) as [K1 K2]. specialize (E e (or_introl eq_refl)).
    destruct e as [| | | | |ef]; try discriminate K1. cbn [contains] in K1, K2. destruct (E ef eq_refl) as [E1 E2].
    destruct (field ef "time") as [t|] eqn:Ft; [|discriminate]. destruct (field ef "values") as [vs|] eqn:Fv; [|discriminate].
    destruct (E1 t (field_in _ _ _ Ft)) as [tx ->]. destruct (E2 vs (field_in _ _ _ Fv)) as [r [-> L]].
    exists ((tx, r) :: rows). constructor; [|exact F]. cbn [at_const fst snd]. rewrite Ft, Fv. auto. }
  destruct R as [rows F]. exists rows. split; [exact F|].
  inversion F as [|? tr0 ? rows' [F1 [F2 F3]] F']; subst.
  pose proof (construct_ok uninit (JObj fs) (make_boundary_schema (List.length (snd tr0))) e0 es (tr0 :: rows') (JArr (map JNum (snd tr0)))) as G.
  cbn [size] in G. rewrite map_length in G. apply G.
  - apply valid_boundary_schema, C.
  - cbn [at_const]. rewrite D. reflexivity.
  - exact F2.
  - rewrite X. clear -F. induction F as [|e tr l rows [A [B L]] F IH]; constructor; [|exact IH]. split; [|split; [|exact L]].
    + rewrite A. reflexivity.
    + pose proof (row_of_entry "time" tr ltac:(discriminate)) as Q. unfold row_of in *. rewrite B. exact Q.
Qed.
Print Assumptions C64_accepted_partial.

Example C64_ex : construct_from_json (fun _ => 9%R) (document "time" "a" [(0, [1; 2]); (3, [4; 5])]%R) (make_boundary_schema 2) = Ok (mk_ivec [0; 3]%R 2 [1; 2; 4; 5]%R) /\
  construct_from_json (fun _ => 9%R) (document "time" "a" [(0, [1; 2]); (3, [4])]%R) (make_boundary_schema 2) = Exc.
Proof.
  split.
  - rewrite (construct_document _ _ "time" "a" _ 2%nat); auto; [apply valid_boundary_schema, document_ok|discriminate|];
      intros tr [<-|[<-|[]]]; reflexivity.
  - apply C64_schema. rewrite document_ok. intro H. specialize (H (3, [4])%R (or_intror (or_introl eq_refl))). discriminate H.
Qed.

(** ** C65 *)

(** Filling the columns of a component from a document. *)
Theorem C65_set : forall uninit start n v x rows, increasing (map fst rows) -> rows <> [] ->
  (forall tr, In tr rows -> List.length (snd tr) = n) ->
  table_of (ipoints v) (iinner v) (ivalues v) -> (start + n <= iinner v)%nat ->
  ((forall t, In t (ipoints v) -> covered tolerance (map fst rows) t) ->
     exists w f, set_simple_control_values uninit start v (document "time" x rows) (make_boundary_schema n) = Ok w /\
       columns_set v start n f w /\
       forall i t k, nth_error (ipoints v) i = Some t -> (k < n)%nat ->
         piecewise_linear tolerance (map fst rows) (fun i => nth k (snd (nth i rows (0%R, []))) 0%R) t (f i k)) /\
  ((exists t, In t (ipoints v) /\ ~ covered tolerance (map fst rows) t) ->
     set_simple_control_values uninit start v (document "time" x rows) (make_boundary_schema n) = Exc).
Proof. exact set_document. Qed.
Print Assumptions C65_set.

(** Consecutive indices: the columns of the components are disjoint and fill the rows. *)
Theorem C65_indices : forall comps0 next comps after, set_control_indices next comps0 = (comps, after) ->
  map (fun c => (cc_class c, cc_type c, cc_id c, cc_count c)) comps = map (fun c => (cc_class c, cc_type c, cc_id c, cc_count c)) comps0 /\
  after = (next + list_sum (map cc_count comps0))%nat /\
  (forall m, (next <= m < after)%nat <-> exists c, In c comps /\ column_of c m) /\
  forall a b ca cb m, nth_error comps a = Some ca -> nth_error comps b = Some cb -> column_of ca m -> column_of cb m -> a = b.
Proof.
  intros comps0 next comps after E.
  destruct (indices_ok comps0 next) as (A & B & C & D & F). rewrite E in *. cbn [fst snd] in *.
  split; [|split; [|split]].
  - clear -E. revert next comps after E. induction comps0 as [|c l IH]; intros next comps after E; cbn [set_control_indices] in E; injection E as <- <-; [reflexivity|].
    cbn [map]. f_equal. destruct (set_control_indices (next + cc_count c) l) as [r n] eqn:Q. cbn [fst]. eapply IH, Q.
  - clear -E. revert next comps after E. induction comps0 as [|c l IH]; intros next comps after E; cbn [set_control_indices] in E; injection E as <- <-; [cbn; lia|].
    destruct (set_control_indices (next + cc_count c) l) as [r n] eqn:Q. cbn [snd map list_sum fold_right]. rewrite (IH _ _ _ Q). unfold list_sum. lia.
  - intro m. split; [apply F|]. intros [c [I K]]. specialize (D c I). unfold column_of in K. lia.
  - clear -E. revert next comps after E. induction comps0 as [|c l IH]; intros next comps after E a b ca cb m Ha Hb Ka Kb;
      cbn [set_control_indices] in E; injection E as <- <-; [destruct a; discriminate Ha|].
    destruct (set_control_indices (next + cc_count c) l) as [r n] eqn:Q. cbn [fst] in *.
    destruct (indices_ok l (next + cc_count c)%nat) as (_ & _ & _ & D & _). rewrite Q in D. cbn [fst snd] in D.
    destruct a as [|a], b as [|b]; cbn [nth_error] in *; auto.
    + injection Ha as <-. specialize (D cb (nth_error_In _ _ Hb)). unfold column_of in *. cbn in Ka. lia.
    + injection Hb as <-. specialize (D ca (nth_error_In _ _ Ha)). unfold column_of in *. cbn in Kb. lia.
    + f_equal. eapply IH; eauto.
Qed.
Print Assumptions C65_indices.

(** The hypotheses of [C65_set] can be met, with a value between two rows. *)
Example C65_ex : exists w, set_simple_control_values (fun _ => 9%R) 1 (mk_ivec [0; 1; 2]%R 3 [1; 1; 1; 2; 2; 2; 3; 3; 3]%R)
    (document "time" "a" [(0, [10]); (2, [30])]%R) (make_boundary_schema 1) = Ok w /\ entry (ivalues w) 3 1 1 = 20%R /\ entry (ivalues w) 3 1 2 = 2%R.
Proof.
  destruct (C65_set (fun _ => 9%R) 1 1 (mk_ivec [0; 1; 2]%R 3 [1; 1; 1; 2; 2; 2; 3; 3; 3]%R) "a" [(0, [10]); (2, [30])]%R) as [K _].
  - repeat constructor; cbn; lra.
  - discriminate.
  - intros tr [<-|[<-|[]]]; reflexivity.
  - reflexivity.
  - cbn. lia.
  - destruct K as (w & f & E & (C1 & C2 & C3 & C4) & F).
    + assert (Tp : (0 < tolerance)%R) by (change tolerance with EPSILON; apply EPSILON_pos).
      intros t I. exists 0%R, 2%R. cbn in *. repeat split; auto; destruct I as [<-|[<-|[<-|[]]]]; lra.
    + exists w. split; [exact E|]. cbn [iinner ipoints List.length] in *. rewrite C2 in C4.
      destruct (C4 1%nat 1%nat) as [A _]; [lia|lia|]. rewrite (A 0%nat) by lia.
      destruct (C4 1%nat 2%nat) as [_ B]; [lia|lia|]. rewrite B by lia. split; [|reflexivity].
      apply (piecewise_linear_unique EPSILON [0; 2]%R (fun i => nth 0 (snd (nth i [(0, [10]); (2, [30])]%R (0%R, []))) 0%R) 1%R).
      * apply Rlt_le, EPSILON_pos.
      * repeat constructor; lra.
      * apply (F 1%nat 1%R 0%nat); [reflexivity|lia].
      * right. left. exists 0%nat, 0%R, 2%R. cbn. repeat split; try lra.
Qed.
