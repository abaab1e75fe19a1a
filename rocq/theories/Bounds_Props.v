(** * Properties: bounds of controls and constraints, values of sinks *)
From Coq Require Import Reals List Bool Arith Lia Lra String Sorted.
From Verif Require Import Base Interp_Model Interp_Spec Interp_Proofs Interp_Proofs2 Json_Model Json_Spec Json_Proofs Json_Proofs2 Json_Proofs3
  Json_Props Defaults_Model Controls_Model Controls_Spec Controls_Proofs Controls_Proofs2 Controls_Proofs3 Controls_Props
  Bounds_Model Bounds_Spec Bounds_Proofs Bounds_Proofs2.
Import ListNotations.
Local Open Scope string_scope.
Local Open Scope list_scope.

(** ** C82 *)

(** The constraints of a network get consecutive indices, in the order of the components. *)
Theorem C82_indices : forall comps0 next comps after, set_constraint_indices next comps0 = (comps, after) ->
  map (fun c => (kc_id c, kc_count c)) comps = map (fun c => (kc_id c, kc_count c)) comps0 /\
  after = (next + list_sum (map kc_count comps0))%nat /\
  (forall m, (next <= m < after)%nat <-> exists c, In c comps /\ (kc_start c <= m < kc_start c + kc_count c)%nat) /\
  forall a b ca cb m, nth_error comps a = Some ca -> nth_error comps b = Some cb ->
    (kc_start ca <= m < kc_start ca + kc_count ca)%nat -> (kc_start cb <= m < kc_start cb + kc_count cb)%nat -> a = b.
Proof.
  induction comps0 as [|c comps0 IH]; intros next comps after E; cbn [set_constraint_indices] in E.
  - injection E as <- <-. cbn. split; [reflexivity|]. split; [lia|]. split; [intro m; split; [lia|intros [c [[] _]]]|].
    intros [|a] b ca cb m Q; discriminate.
  - destruct (set_constraint_indices (next + kc_count c) comps0) as [cs af] eqn:Q. cbn [fst snd] in E. injection E as <- <-.
    destruct (IH _ _ _ Q) as (A & B & C & D). cbn [map list_sum fold_right kc_id kc_count]. split; [f_equal; exact A|].
    change (fold_right Nat.add 0%nat (map kc_count comps0)) with (list_sum (map kc_count comps0)). split; [lia|].
    assert (Cl : forall n d m, nth_error cs n = Some d -> (kc_start d <= m < kc_start d + kc_count d)%nat -> (next + kc_count c <= m < af)%nat).
    { intros n d m Qd M. apply C. exists d. split; [eapply nth_error_In, Qd|exact M]. }
    split.
    + intro m. split.
      * intro M. destruct (le_lt_dec (next + kc_count c) m) as [L|L].
        -- destruct (proj1 (C m)) as [d [I K]]; [lia|]. exists d. split; [right; exact I|exact K].
        -- eexists. split; [left; reflexivity|]. cbn. lia.
      * intros [d [[<-|I] K]]; [cbn in K; lia|]. apply In_nth_error in I. destruct I as [n I]. specialize (Cl n d m I K). lia.
    + intros [|a] [|b] ca cb m Ha Hb Ma Mb; cbn in Ha, Hb; [reflexivity| | |f_equal; eapply D; eauto].
      * injection Ha as <-. cbn in Ma. specialize (Cl b cb m Hb Mb). lia.
      * injection Hb as <-. cbn in Mb. specialize (Cl a ca m Ha Ma). lia.
Qed.
Print Assumptions C82_indices.

(** Lower and upper bounds of the constraints: if the file lists, for every component with
    constraints, values over increasing times that cover the points of time of the vector, the
    columns of every component follow its list and the other columns stay; if the times of one
    list do not cover a point of time, there is an exception. *)
Theorem C82_constraints : forall set, In set [set_constraint_lower_bounds; set_constraint_upper_bounds] ->
  forall uninit comps v j (rows : string -> list (R * list R)),
  good_file j -> NoDup (all_ids j) -> NoDup (map kc_id comps) ->
  (forall a b ca cb m, nth_error comps a = Some ca -> nth_error comps b = Some cb ->
    (kc_start ca <= m < kc_start ca + kc_count ca)%nat -> (kc_start cb <= m < kc_start cb + kc_count cb)%nat -> a = b) ->
  table_of (ipoints v) (iinner v) (ivalues v) -> (forall c, In c comps -> (kc_start c + kc_count c <= iinner v)%nat) ->
  (forall c, In c comps -> lists j (kc_id c) (kc_count c) (rows (kc_id c))) ->
  ((forall c t, In c comps -> In t (ipoints v) -> covered tolerance (map fst (rows (kc_id c))) t) ->
     exists w, set uninit comps v j = Ok w /\ same_shape v w /\
       (forall c, In c comps -> follows w (kc_start c) (kc_count c) (rows (kc_id c))) /\
       (forall m, (m < iinner v)%nat -> (forall c, In c comps -> ~ (kc_start c <= m < kc_start c + kc_count c)%nat) -> same_column v w m)) /\
  ((exists c t, In c comps /\ In t (ipoints v) /\ ~ covered tolerance (map fst (rows (kc_id c))) t) ->
     set uninit comps v j = Exc).
Proof.
  intros set [<-|[<-|[]]] uninit comps v j rows G Na Nd Ap T B L; exact (network_ok kc_id kc_start kc_count uninit comps v j rows G Na Nd Ap T B L).
Qed.
Print Assumptions C82_constraints.

(** The same for the controls: initial values, lower bounds and upper bounds. *)
Theorem C82_controls : forall uninit comps v j (rows : string -> list (R * list R)),
  good_file j -> NoDup (all_ids j) -> NoDup (map cc_id comps) ->
  (forall a b ca cb m, nth_error comps a = Some ca -> nth_error comps b = Some cb -> column_of ca m -> column_of cb m -> a = b) ->
  table_of (ipoints v) (iinner v) (ivalues v) -> (forall c, In c comps -> (cc_start c + cc_count c <= iinner v)%nat) ->
  (forall c, In c comps -> lists j (cc_id c) (cc_count c) (rows (cc_id c))) ->
  ((forall c t, In c comps -> In t (ipoints v) -> covered tolerance (map fst (rows (cc_id c))) t) ->
     exists w, set_initial_controls uninit comps v j = Ok w /\ same_shape v w /\
       (forall c, In c comps -> follows w (cc_start c) (cc_count c) (rows (cc_id c))) /\
       (forall m, (m < iinner v)%nat -> (forall c, In c comps -> ~ column_of c m) -> same_column v w m)) /\
  ((exists c t, In c comps /\ In t (ipoints v) /\ ~ covered tolerance (map fst (rows (cc_id c))) t) ->
     set_initial_controls uninit comps v j = Exc).
Proof.
  intros uninit comps v j rows G Na Nd Ap T B L; exact (network_ok cc_id cc_start cc_count uninit comps v j rows G Na Nd Ap T B L).
Qed.
Print Assumptions C82_controls.

(** A component without entry in the file: an exception. *)
Theorem C82_missing : forall uninit v j, good_file j ->
  (forall comps, NoDup (map kc_id comps) -> (exists c, In c comps /\ ~ In (kc_id c) (all_ids j)) ->
     set_constraint_lower_bounds uninit comps v j = Exc /\ set_constraint_upper_bounds uninit comps v j = Exc) /\
  (forall comps, NoDup (map cc_id comps) -> (exists c, In c comps /\ ~ In (cc_id c) (all_ids j)) ->
     set_initial_controls uninit comps v j = Exc).
Proof.
  intros uninit v j G. split; intros comps Nd [c [I N]].
  - assert (E : distribute (map kc_id comps) j = Exc).
    { apply (proj1 (proj2 (C57_distribution (map kc_id comps) j G Nd))). exists (kc_id c). split; [apply in_map, I|exact N]. }
    unfold set_constraint_lower_bounds, set_constraint_upper_bounds. rewrite E. auto.
  - assert (E : distribute (map cc_id comps) j = Exc).
    { apply (proj1 (proj2 (C57_distribution (map cc_id comps) j G Nd))). exists (cc_id c). split; [apply in_map, I|exact N]. }
    unfold set_initial_controls. rewrite E. auto.
Qed.
Print Assumptions C82_missing.

(** The bounds of an optimization: with indices from 0 and files that list every component over
    the whole time, all entries of the four vectors follow the four files, whatever the vectors
    contained before. *)
Theorem C82_bounds : forall uninit controls0 controls nc constraints0 constraints nk lo up klo kup jlo jup jklo jkup
    (rlo rup rklo rkup : string -> list (R * list R)),
  set_control_indices 0 controls0 = (controls, nc) -> set_constraint_indices 0 constraints0 = (constraints, nk) ->
  NoDup (map cc_id controls0) -> NoDup (map kc_id constraints0) ->
  (forall v, In v [lo; up; klo; kup] -> table_of (ipoints v) (iinner v) (ivalues v)) ->
  iinner lo = nc -> iinner up = nc -> iinner klo = nk -> iinner kup = nk ->
  (forall j, In j [jlo; jup; jklo; jkup] -> good_file j /\ NoDup (all_ids j)) ->
  (forall v j r, In (v, j, r) [(lo, jlo, rlo); (up, jup, rup)] -> forall c, In c controls ->
     lists j (cc_id c) (cc_count c) (r (cc_id c)) /\ forall t, In t (ipoints v) -> covered tolerance (map fst (r (cc_id c))) t) ->
  (forall v j r, In (v, j, r) [(klo, jklo, rklo); (kup, jkup, rkup)] -> forall c, In c constraints ->
     lists j (kc_id c) (kc_count c) (r (kc_id c)) /\ forall t, In t (ipoints v) -> covered tolerance (map fst (r (kc_id c))) t) ->
  exists a b c d, initialize_bounds uninit controls constraints lo up klo kup jlo jup jklo jkup = Ok (a, b, c, d) /\
    (forall v w r, In (v, w, r) [(lo, a, rlo); (up, b, rup)] -> same_shape v w /\
       forall m, (m < nc)%nat -> exists x k, In x controls /\ m = (cc_start x + k)%nat /\ (k < cc_count x)%nat /\
         follows w (cc_start x) (cc_count x) (r (cc_id x))) /\
    (forall v w r, In (v, w, r) [(klo, c, rklo); (kup, d, rkup)] -> same_shape v w /\
       forall m, (m < nk)%nat -> exists x k, In x constraints /\ m = (kc_start x + k)%nat /\ (k < kc_count x)%nat /\
         follows w (kc_start x) (kc_count x) (r (kc_id x))).
Proof.
  intros uninit controls0 controls nc constraints0 constraints nk lo up klo kup jlo jup jklo jkup rlo rup rklo rkup Ec Ek Nc Nk T Il Iu Ikl Iku G Lc Lk.
  destruct (C65_indices controls0 0 controls nc Ec) as (Mc & _ & Cc & Dc).
  destruct (C82_indices constraints0 0 constraints nk Ek) as (Mk & _ & Ck & Dk).
  assert (Nc' : NoDup (map cc_id controls)).
  { replace (map cc_id controls) with (map cc_id controls0); [exact Nc|]. apply (f_equal (map (fun q => snd (fst q)))) in Mc. rewrite !map_map in Mc. cbn in Mc. auto. }
  assert (Nk' : NoDup (map kc_id constraints)).
  { replace (map kc_id constraints) with (map kc_id constraints0); [exact Nk|]. apply (f_equal (map fst)) in Mk. rewrite !map_map in Mk. cbn in Mk. auto. }
  pose proof (indices_ok controls0 0) as Bc. rewrite Ec in Bc. cbn [fst snd] in Bc. destruct Bc as (_ & _ & _ & Bc & _).
  assert (Bk : forall c, In c constraints -> (kc_start c + kc_count c <= nk)%nat).
  { intros c I. destruct (kc_count c) as [|q] eqn:Q.
    - clear -Ek I. enough (H : forall l next cs af, set_constraint_indices next l = (cs, af) -> (next <= af)%nat /\ forall c, In c cs -> (kc_start c + kc_count c <= af)%nat).
      { destruct (H constraints0 0%nat constraints nk Ek) as [_ K]. specialize (K c I). lia. }
      clear. induction l as [|a l IH]; intros next cs af E; cbn in E.
      + injection E as <- <-. split; [lia|intros ? []].
      + destruct (set_constraint_indices (next + kc_count a) l) as [cs1 af1] eqn:Q. cbn in E. injection E as <- <-. destruct (IH _ _ _ Q) as [K1 K2].
        split; [lia|]. intros c [<-|I]; [cbn; lia|apply K2, I].
    - destruct (proj2 (Ck (kc_start c + q)%nat)) as [_ K]; [exists c; split; [exact I|lia]|lia]. }
  assert (Ctl : forall v j r, In v [lo; up] -> In j [jlo; jup] -> In (v, j, r) [(lo, jlo, rlo); (up, jup, rup)] -> iinner v = nc ->
    exists w, set_initial_controls uninit controls v j = Ok w /\ same_shape v w /\
       forall m, (m < nc)%nat -> exists x k, In x controls /\ m = (cc_start x + k)%nat /\ (k < cc_count x)%nat /\
         follows w (cc_start x) (cc_count x) (r (cc_id x))).
  { intros v j r Iv Ij It Iw. destruct (G j) as [G1 G2]; [cbn in Ij |- *; tauto|].
    destruct (C82_controls uninit controls v j r G1 G2 Nc' Dc) as [K _].
    { apply T. cbn in Iv |- *. tauto. } { intros c I. rewrite Iw. apply (Bc c I). } { intros c I. apply (Lc v j r It c I). }
    destruct K as (w & E & S & F & _); [intros c t I J; apply (Lc v j r It c I), J|].
    exists w. split; [exact E|]. split; [exact S|]. intros m M. destruct (proj1 (Cc m)) as (x & Ix & Kx); [lia|].
    exists x, (m - cc_start x)%nat. unfold column_of in Kx. split; [exact Ix|]. split; [lia|]. split; [lia|]. apply F, Ix. }
  assert (Cst : forall set v j r, In set [set_constraint_lower_bounds; set_constraint_upper_bounds] -> In v [klo; kup] -> In j [jklo; jkup] -> In (v, j, r) [(klo, jklo, rklo); (kup, jkup, rkup)] -> iinner v = nk ->
    exists w, set uninit constraints v j = Ok w /\ same_shape v w /\
       forall m, (m < nk)%nat -> exists x k, In x constraints /\ m = (kc_start x + k)%nat /\ (k < kc_count x)%nat /\
         follows w (kc_start x) (kc_count x) (r (kc_id x))).
  { intros set v j r Is Iv Ij It Iw. destruct (G j) as [G1 G2]; [cbn in Ij |- *; tauto|].
    destruct (C82_constraints set Is uninit constraints v j r G1 G2 Nk' Dk) as [K _].
    { apply T. cbn in Iv |- *. tauto. } { intros c I. rewrite Iw. apply (Bk c I). } { intros c I. apply (Lk v j r It c I). }
    destruct K as (w & E & S & F & _); [intros c t I J; apply (Lk v j r It c I), J|].
    exists w. split; [exact E|]. split; [exact S|]. intros m M. destruct (proj1 (Ck m)) as (x & Ix & Kx); [lia|].
    exists x, (m - kc_start x)%nat. split; [exact Ix|]. split; [lia|]. split; [lia|]. apply F, Ix. }
  destruct (Ctl lo jlo rlo) as (a & Ea & Ha); [left; reflexivity|left; reflexivity|left; reflexivity|exact Il|].
  destruct (Ctl up jup rup) as (b & Eb & Hb); [right; left; reflexivity|right; left; reflexivity|right; left; reflexivity|exact Iu|].
  destruct (Cst set_constraint_lower_bounds klo jklo rklo) as (c & Ecc & Hc); [left; reflexivity|left; reflexivity|left; reflexivity|left; reflexivity|exact Ikl|].
  destruct (Cst set_constraint_upper_bounds kup jkup rkup) as (d & Ed & Hd); [right; left; reflexivity|right; left; reflexivity|right; left; reflexivity|right; left; reflexivity|exact Iku|].
  exists a, b, c, d. split; [unfold initialize_bounds; rewrite Ea; cbn [obind]; rewrite Eb; cbn [obind]; rewrite Ecc; cbn [obind]; rewrite Ed; reflexivity|].
  split; intros v w r [E|[E|[]]]; injection E as <- <- <-; assumption.
Qed.
Print Assumptions C82_bounds.

(** A file with two sinks in another order than the network, with a component that has no
    constraints; the vector has a third column. *)
Definition two_sinks : list constraint_component := [mkConstraint "a" 0 1; mkConstraint "b" 1 1].
Definition rows_of (x : string) : list (R * list R) := if String.eqb x "a" then [(0, [1]); (1, [1]); (2, [1])]%R else [(0, [5]); (2, [9])]%R.
Definition bounds_file : json :=
  JObj [("nodes", JObj [("ConstraintSink", JArr [document "time" "b" (rows_of "b"); document "time" "a" (rows_of "a")]);
                        ("Other", JArr [document "time" "c" []])])].
Example C82_case : exists w, set_constraint_lower_bounds (fun _ => 0%R) two_sinks (mk_ivec [0; 1]%R 3 [7; 7; 7; 8; 8; 8]%R) bounds_file = Ok w /\
  follows w 0 1 (rows_of "a") /\ follows w 1 1 (rows_of "b") /\ entry (ivalues w) (iinner w) 1 2 = 8%R.
Proof.
  destruct (C82_constraints set_constraint_lower_bounds (or_introl eq_refl) (fun _ => 0%R) two_sinks (mk_ivec [0; 1]%R 3 [7; 7; 7; 8; 8; 8]%R) bounds_file rows_of) as [K _].
  - eexists. split; [reflexivity|]. split; intros v E; [|discriminate]. injection E as <-. eexists. split; [reflexivity|].
    split; [repeat constructor; cbn; intuition discriminate|]. intros t w [E|[E|[]]]; injection E as <- <-; (eexists; split; [reflexivity|]);
      intros c I; cbn in I; intuition subst; eexists; eexists; split; reflexivity.
  - cbn. repeat constructor; cbn; intuition discriminate.
  - cbn. repeat constructor; cbn; intuition discriminate.
  - intros [|[|a]] [|[|b]] ca cb m Ha Hb; cbn in Ha, Hb; try reflexivity; try (destruct a; discriminate); try (destruct b; discriminate);
      injection Ha as <-; injection Hb as <-; cbn; lia.
  - reflexivity.
  - intros c [<-|[<-|[]]]; cbn; lia.
  - intros c I. assert (S2 : increasing (map fst (rows_of "a")) /\ increasing (map fst (rows_of "b"))) by (split; cbn; repeat constructor; lra).
    destruct I as [<-|[<-|[]]]; (split; [cbn; tauto|]; split; [apply S2|]; split; [discriminate|]); cbn; intuition subst; reflexivity.
  - destruct K as (w & E & S & F & N).
    + intros c t [<-|[<-|[]]] I; [exists 0%R, 2%R|exists 0%R, 2%R]; (split; [reflexivity|]; split; [reflexivity|]);
        assert (tolerance > 0)%R by (unfold tolerance; apply Rinv_0_lt_compat; apply pow_lt; lra); cbn in I; destruct I as [<-|[<-|[]]]; lra.
    + exists w. split; [exact E|]. split; [apply (F (mkConstraint "a" 0 1)); left; reflexivity|].
      split; [apply (F (mkConstraint "b" 1 1)); right; left; reflexivity|].
      rewrite (N 2%nat); [reflexivity|cbn; lia| |cbn; lia]. intros c [<-|[<-|[]]]; cbn; lia.
Qed.

(** ** C83 *)

(** A sink takes exactly the data a source takes, and gets the negative function of time. *)
Theorem C83_sink : forall uninit data iv,
  source_values uninit data = Ok iv <-> sink_values uninit data = Ok (negative iv).
Proof. intros uninit data iv. split; [apply sink_forward|apply sink_backward]. Qed.
Print Assumptions C83_sink.

(** What a source takes: lists of one number over time, no others. *)
Theorem C83_source : forall uninit data x rows, entry_of data "boundary_values" = Some (document "time" x rows) -> rows <> [] ->
  ((forall tr, In tr rows -> List.length (snd tr) = 1%nat) ->
     source_values uninit data = Ok (mk_ivec (map fst rows) 1 (List.concat (map snd rows)))) /\
  ((exists tr, In tr rows /\ List.length (snd tr) <> 1%nat) -> source_values uninit data = Exc).
Proof.
  intros uninit data x rows E Ne. destruct data as [| | | | |fs]; try discriminate. cbn [entry_of] in E.
  unfold source_values. cbn [at_const]. rewrite E. cbn [obind]. split.
  - intro L. apply construct_document; auto. apply valid_boundary_schema, document_ok, L.
  - intros [tr [I N]]. unfold construct_from_json, validate_json. destruct (valid _ _ _) eqn:V; [|reflexivity]. exfalso.
    apply N. apply (proj1 (document_ok 1 x rows)); [|exact I]. apply valid_boundary_schema, V.
Qed.
Print Assumptions C83_source.

(** So at every time its value is the negative of the source's, with the same exceptions. *)
Theorem C83_value : forall uninit data iv, source_values uninit data = Ok iv ->
  exists iv', sink_values uninit data = Ok iv' /\ forall t, interp_at iv' t = omap (map Ropp) (interp_at iv t).
Proof. intros uninit data iv H. exists (negative iv). split; [apply sink_forward, H|apply interp_neg]. Qed.
Print Assumptions C83_value.

(** Everything but the boundary values stays; without boundary values there is an exception
    (undefined behaviour while its message is built, if there is no id either). *)
Theorem C83_rest : forall data,
  (forall data', revert_boundary_conditions data = Ok data' -> forall k, k <> "boundary_values" -> entry_of data' k = entry_of data k) /\
  (entry_of data "boundary_values" = None -> entry_of data "id" <> None -> revert_boundary_conditions data = Exc).
Proof.
  intro data. split.
  - intros data' H. apply (revert_rest data data' H).
  - intros N I. unfold revert_boundary_conditions. destruct data as [| | | | |fs]; cbn in *; try congruence. rewrite N.
    destruct (field fs "id"); [reflexivity|congruence].
Qed.
Print Assumptions C83_rest.

Definition sink_data : json := JObj [("boundary_values", document "time" "s" [(0, [5]); (2, [-9])]%R); ("desired_power", JNum 3); ("id", JStr "s")].
Example C83_case : forall uninit, source_values uninit sink_data = Ok (mk_ivec [0; 2]%R 1 [5; -9]%R) /\
  exists iv, sink_values uninit sink_data = Ok iv /\ interp_at iv 0 = Ok [-5]%R.
Proof.
  intro uninit.
  assert (H : source_values uninit sink_data = Ok (mk_ivec [0; 2]%R 1 [5; -9]%R)).
  { unfold source_values. change (at_const sink_data "boundary_values") with (@Ok json (document "time" "s" [(0, [5]); (2, [-9])]%R)). cbn [obind].
    rewrite (construct_document uninit (make_boundary_schema 1) "time" "s" [(0, [5]); (2, [-9])]%R 1); auto.
    - apply valid_boundary_schema, document_ok. cbn. intuition subst; reflexivity.
    - discriminate.
    - cbn. intuition subst; reflexivity. }
  split; [exact H|]. destruct (C83_value uninit sink_data _ H) as (iv & E & V). exists iv. split; [exact E|]. rewrite V.
  unfold interp_at. cbn [ipoints iinner ivalues last List.length]. unfold Rleb, Rltb.
  repeat match goal with |- context [Rle_dec ?a ?b] => destruct (Rle_dec a b); try lra | |- context [Rlt_dec ?a ?b] => destruct (Rlt_dec a b); try lra end; try reflexivity.
  exfalso. unfold EPSILON in *. lra.
Qed.
