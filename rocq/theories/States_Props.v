(** * Properties of initial states and of the states file *)
From Coq Require Import Reals ZArith List Bool Arith Lia Lra String Permutation Sorted.
From Verif Require Import Base Interp_Model Interp_Spec Interp_Proofs Interp_Proofs2 Json_Model Json_Spec Json_Proofs Json_Proofs2 Json_Proofs3
  Defaults_Model Controls_Model Controls_Spec Controls_Proofs Calc Euler_Model Euler_Spec Euler_Proofs
  Net_Model States_Model States_Spec States_Proofs States_Proofs2 States_Proofs3 States_Proofs4 States_Proofs5.
Import ListNotations.
Local Open Scope string_scope.
Local Open Scope list_scope.

(** ** C71: initial states *)

(** A document is looked at only if it has the format that the component asks for. *)
Theorem C71_schema : forall c j,
  (~ initial_ok (fst (asked (sc_kind c))) 2 (snd (asked (sc_kind c))) j -> forall uninit v, component_initial uninit c v j = Exc) /\
  (forall x rows, initial_ok (fst (asked (sc_kind c))) 2 (snd (asked (sc_kind c))) (document "x" x rows) <-> rows_ok (sc_kind c) rows).
Proof. intros c j. split; [intros H uninit v; apply component_bad, H|intros x rows; apply document_initial]. Qed.
Print Assumptions C71_schema.

(** A component sets exactly its own state variables, to the values of the piecewise linear
    function through the rows at its places; a document that does not reach all places is
    rejected. *)
Theorem C71_component : forall k rows, rows_ok k rows -> increasing (map fst rows) ->
  ((forall t, In t (places k) -> covered tolerance (map fst rows) t) ->
     exists vals, states_for k rows vals /\
       forall uninit c v x, sc_kind c = k -> (sc_start c + needed_number_of_states k <= List.length v)%nat ->
         exists w, component_initial uninit c v (document "x" x rows) = Ok w /\ replaced v (sc_start c) vals w) /\
  ((exists t, In t (places k) /\ ~ covered tolerance (map fst rows) t) ->
     forall uninit c v x, sc_kind c = k -> (sc_start c + needed_number_of_states k <= List.length v)%nat ->
       component_initial uninit c v (document "x" x rows) = Exc).
Proof.
  intros k rows Ro I. split.
  - intro C. destruct (component_ok k rows Ro I C) as (vals & S & L & E). exists vals. split; [exact S|]. intros uninit c v x Ek Lv.
    exists (splice v (sc_start c) vals). split; [apply E; auto|]. apply splice_replaced. lia.
  - intros C. apply component_uncovered; auto.
Qed.
Print Assumptions C71_component.

Example C71_component_case :
  let rows := [(0, [60; 5]); (1, [50; 7])]%R in
  rows_ok KShort rows /\ increasing (map fst rows) /\ (forall t, In t (places KShort) -> covered tolerance (map fst rows) t) /\
  let pipe_rows := [(0, [60; 5]); (800, [50; 7])]%R in
  rows_ok (KPipe 3 500) pipe_rows /\ increasing (map fst pipe_rows) /\ exists t, In t (places (KPipe 3 500)) /\ ~ covered tolerance (map fst pipe_rows) t.
Proof.
  cbv zeta. assert (T : (0 < tolerance < 1)%R) by (unfold tolerance; lra). split; [|split; [|split; [|split; [|split]]]].
  - split; [intros tr [<-|[<-|[]]]; reflexivity|]. split; [intros n E; injection E as <-; reflexivity|]. intros a [<-|[<-|[]]]; cbn; auto.
  - cbn. repeat constructor; lra.
  - intros t [<-|[<-|[]]]; exists 0%R, 1%R; cbn; repeat split; lra.
  - split; [intros tr [<-|[<-|[]]]; reflexivity|]. split; [intros n E; discriminate|]. intros a [<-|[]]; cbn; auto.
  - cbn. repeat constructor; lra.
  - exists (INR 2 * 500)%R. split; [cbn; auto|]. intros [a [b [A [B C]]]]. cbn in A, B. injection A as <-. injection B as <-. cbn in C. lra.
Qed.

(** All components together: whatever stood in the vector before, afterwards it holds the values
    of the file, and nothing else. *)
Theorem C71_network : forall comps0 comps N j, set_state_indices 0 comps0 = (comps, N) ->
  good_file j -> NoDup (map sc_id comps) -> NoDup (all_ids j) ->
  (forall c, In c comps -> exists rows, In (document "x" (sc_id c) rows) (all_components j) /\ rows_ok (sc_kind c) rows /\
     increasing (map fst rows) /\ forall t, In t (places (sc_kind c)) -> covered tolerance (map fst rows) t) ->
  exists w, List.length w = N /\
    (forall uninit v, List.length v = N -> set_initial_values uninit comps v j = Ok w) /\
    forall c rows, In c comps -> In (document "x" (sc_id c) rows) (all_components j) ->
      exists vals, states_for (sc_kind c) rows vals /\ stands w (sc_start c) vals.
Proof. exact network_ok. Qed.
Print Assumptions C71_network.

Example C71_network_case :
  let comps0 := [mkState "nodes" "Vphinode" "n" 7 (KPower 1 2 [] Vphi_values); mkState "connections" "Shortpipe" "s" 9 KShort] in
  let comps := [mkState "nodes" "Vphinode" "n" 0 (KPower 1 2 [] Vphi_values); mkState "connections" "Shortpipe" "s" 2 KShort] in
  let j := JObj [("connections", JObj [("Shortpipe", JArr [document "x" "s" [(0, [60; 5]); (1, [50; 7])]%R])]);
                 ("nodes", JObj [("Vphinode", JArr [document "x" "n" [(0, [1; 3])]%R])])] in
  set_state_indices 0 comps0 = (comps, 6%nat) /\ good_file j /\ NoDup (map sc_id comps) /\ NoDup (all_ids j) /\
  (forall c, In c comps -> exists rows, In (document "x" (sc_id c) rows) (all_components j) /\ rows_ok (sc_kind c) rows /\
     increasing (map fst rows) /\ forall t, In t (places (sc_kind c)) -> covered tolerance (map fst rows) t).
Proof.
  cbv zeta. assert (T : (0 < tolerance < 1)%R) by (unfold tolerance; lra). split; [reflexivity|]. split; [|split; [|split]].
  - eexists. split; [reflexivity|].
    split; intros v E; cbn [field String.eqb Ascii.eqb Bool.eqb] in E; injection E as <-; eexists; (split; [reflexivity|]);
      (split; [cbn; constructor; [intros []|constructor]|]); intros t w [I|[]]; injection I as <- <-; eexists; (split; [reflexivity|]);
      intros c [<-|[]]; eexists; apply document_has_id.
  - cbn. repeat constructor; cbn; intuition discriminate.
  - unfold all_ids, all_components, components. cbn [types field String.eqb Ascii.eqb Bool.eqb flat_map list_of snd app map]. rewrite !document_id.
    repeat constructor; cbn; intuition discriminate.
  - unfold all_components, components. cbn [types field String.eqb Ascii.eqb Bool.eqb flat_map list_of snd app].
    intros c [<-|[<-|[]]]; cbn [sc_id sc_kind].
    + exists [(0, [1; 3])]%R. split; [left; reflexivity|]. split; [|split].
      * split; [intros tr [<-|[]]; reflexivity|]. split; [intros n E; injection E as <-; reflexivity|]. intros a [<-|[]]; cbn; auto.
      * cbn. repeat constructor.
      * intros t [<-|[]]. exists 0%R, 0%R. cbn. repeat split; lra.
    + exists [(0, [60; 5]); (1, [50; 7])]%R. split; [right; left; reflexivity|]. split; [|split].
      * split; [intros tr [<-|[<-|[]]]; reflexivity|]. split; [intros n E; injection E as <-; reflexivity|]. intros a [<-|[<-|[]]]; cbn; auto.
      * cbn. repeat constructor; lra.
      * intros t [<-|[<-|[]]]; exists 0%R, 1%R; cbn; repeat split; lra.
Qed.

(** Unsorted documents are not rejected, and the order of the rows changes the states: the check
    for sorted points looks at a list that has been moved away. *)
Theorem C71_unsorted_refuted : exists c rows rows' v w w' x,
  Permutation rows rows' /\ increasing (map fst rows') /\ ~ Sorted Rle (map fst rows) /\
  (forall uninit, component_initial uninit c v (document "x" x rows) = Ok w) /\
  (forall uninit, component_initial uninit c v (document "x" x rows') = Ok w') /\ w <> w'.
Proof.
  set (a := (0, [60; 0])%R : R * list R). set (b := (8, [60; 8])%R : R * list R). set (c5 := (5, [60; 50])%R : R * list R). set (d := (10, [60; 10])%R : R * list R).
  set (k := mkState "connections" "Pipe" "p" 0 (KPipe 2 9)).
  assert (Te : (0 < EPSILON < 1)%R) by (unfold EPSILON; lra).
  assert (F : forall u v, Rltb u v = true <-> (u < v)%R) by apply Rltb_true.
  assert (R1 : rows_ok (sc_kind k) [a; b; c5; d]).
  { split; [intros tr [<-|[<-|[<-|[<-|[]]]]]; reflexivity|]. split; [intros n E; discriminate|]. intros z [<-|[]]; cbn; auto. }
  assert (R2 : rows_ok (sc_kind k) [a; c5; b; d]).
  { split; [intros tr [<-|[<-|[<-|[<-|[]]]]]; reflexivity|]. split; [intros n E; discriminate|]. intros z [<-|[]]; cbn; auto. }
  assert (Lt : forall u v, (u < v)%R -> Rltb u v = true) by (intros; apply Rltb_true; assumption).
  assert (Ge : forall u v, (v <= u)%R -> Rltb u v = false) by (intros; apply Rltb_false; assumption).
  assert (Le : forall u v, (u <= v)%R -> Rleb u v = true) by (intros; apply Rleb_true; assumption).
  assert (Gt : forall u v, (v < u)%R -> Rleb u v = false) by (intros; apply Rleb_false; assumption).
  assert (G : forall r1 r2, (r1 = b /\ r2 = c5) \/ (r1 = c5 /\ r2 = b) ->
     interp_at (table [a; r1; r2; d]) (INR 0 * 9)%R = Ok [60; 0]%R /\
     interp_at (table [a; r1; r2; d]) (INR 1 * 9)%R =
       Ok (combine_rows ((INR 1 * 9 - fst r2) / (fst d - fst r2))%R (snd r2) (snd d))).
  { intros r1 r2 Hr. assert (B : (fst r1 < 9 /\ fst r2 < 9)%R) by (destruct Hr as [[-> ->]|[-> ->]]; cbn; lra).
    assert (L1 : List.length (snd r1) = 2%nat) by (destruct Hr as [[-> ->]|[-> ->]]; reflexivity).
    assert (L2 : List.length (snd r2) = 2%nat) by (destruct Hr as [[-> ->]|[-> ->]]; reflexivity).
    destruct r1 as [x1 [|y1 [|z1 [|? ?]]]]; try discriminate L1. destruct r2 as [x2 [|y2 [|z2 [|? ?]]]]; try discriminate L2. cbn [fst] in B.
    unfold interp_at, table. cbn [ipoints map fst a d last List.length]. cbn [INR]. split.
    - rewrite (Gt 10%R) by lra. rewrite (Le (0 * 9)%R) by lra. rewrite (Ge (0 * 9)%R) by lra. reflexivity.
    - rewrite (Gt 10%R) by lra. rewrite (Gt (1 * 9)%R) by lra. cbn [lower_bound]. rewrite (Lt 0%R), (Lt x1), (Lt x2), (Ge 10%R) by lra.
      reflexivity. }
  assert (W : forall r1 r2, (r1 = b /\ r2 = c5) \/ (r1 = c5 /\ r2 = b) -> rows_ok (sc_kind k) [a; r1; r2; d] ->
     exists rho0 rho1, forall uninit, component_initial uninit k [0; 0; 0; 0]%R (document "x" "p" [a; r1; r2; d]) =
       Ok [rho0; 0; rho1; nth 1 (combine_rows ((INR 1 * 9 - fst r2) / (fst d - fst r2))%R (snd r2) (snd d)) 0]%R).
  { intros r1 r2 Hr Ro. destruct (G r1 r2 Hr) as [G0 G1]. assert (L2 : List.length (snd r2) = 2%nat) by (destruct Hr as [[-> ->]|[-> ->]]; reflexivity).
    destruct r2 as [x2 [|y2 [|z2 [|? ?]]]]; try discriminate L2.
    eexists _, _. intro uninit. rewrite component_document by exact Ro. cbn [k sc_kind sc_start points_and_step fst snd initial_loop conversion].
    rewrite G0. cbn [obind]. rewrite G1. reflexivity. }
  destruct (W b c5 ltac:(left; auto) R1) as (ra & rb & W1). destruct (W c5 b ltac:(right; auto) R2) as (rc & rd & W2).
  exists k, [a; b; c5; d], [a; c5; b; d], [0; 0; 0; 0]%R. eexists _, _, "p". split; [apply perm_skip, perm_swap|]. split; [|split; [|split; [exact W1|split; [exact W2|]]]].
  - cbn. repeat constructor; lra.
  - cbn. intro S. inversion S as [|? ? S1 _]; subst. inversion S1 as [|? ? _ H]; subst. inversion H; subst. lra.
  - intro E. injection E as _ _ E. cbn in E. lra.
Qed.
Print Assumptions C71_unsorted_refuted.

(** ** C72: a gas edge reports the initial values of its document *)

Theorem C72_round_trip : forall c rows, gas_kind (sc_kind c) -> rows_ok (sc_kind c) rows -> increasing (map fst rows) ->
  (forall t, In t (places (sc_kind c)) -> covered tolerance (map fst rows) t) ->
  (forall n dx t y, sc_kind c = KPipe n dx -> In t (places (sc_kind c)) -> at_place rows 0 t y -> pressure_ok (y * 10 ^ 5)) ->
  exists pressures flows,
    List.length pressures = List.length (places (sc_kind c)) /\ List.length flows = List.length (places (sc_kind c)) /\
    (forall i t, nth_error (places (sc_kind c)) i = Some t -> exists y q, nth_error pressures i = Some y /\ nth_error flows i = Some q /\
       at_place rows 0 t y /\ at_place rows 1 t q) /\
    forall uninit v x time, (sc_start c + needed_number_of_states (sc_kind c) <= List.length v)%nat ->
      exists w, component_initial uninit c v (document "x" x rows) = Ok w /\
        saved_entry c time w = Ok (gas_result time (places (sc_kind c)) pressures flows).
Proof.
  intros c rows Gk Ro I Co Pr. destruct (component_ok (sc_kind c) rows Ro I Co) as (vals & Sv & Lv & E).
  assert (Ne : forall l : list (R * (R * R)), map fst l = places (sc_kind c) -> l <> []).
  { intros l El ->. destruct (sc_kind c) as [[|n] dx| | |]; try discriminate El. apply Gk; reflexivity. }
  (* the reported rows do not depend on the vector *)
  set (v0 := repeat 0%R (sc_start c + needed_number_of_states (sc_kind c))).
  assert (St : forall v, (sc_start c + needed_number_of_states (sc_kind c) <= List.length v)%nat -> stands (splice v (sc_start c) vals) (sc_start c) vals).
  { intros v L m y Em. assert (M : (m < List.length vals)%nat) by (apply nth_error_Some; congruence).
    rewrite splice_nth by lia. destruct (Nat.leb_spec (sc_start c) (sc_start c + m)); [|lia]. destruct (Nat.ltb_spec (sc_start c + m) (sc_start c + List.length vals)); [|lia].
    cbn [andb]. replace (sc_start c + m - sc_start c)%nat with m by lia. exact Em. }
  destruct (saved_gas c rows vals 0%R _ Gk Sv (St v0 ltac:(unfold v0; rewrite repeat_length; lia)) Pr) as (l & Fl & _ & Hl).
  exists (map (fun r => fst (snd r)) l), (map (fun r => snd (snd r)) l). rewrite <- Fl at 1 2. rewrite !map_length.
  split; [reflexivity|]. split; [reflexivity|]. split.
  - intros i t Et. destruct (Hl i t Et) as (y & q & El & Y & Q). exists y, q. rewrite !nth_error_map, El. auto.
  - intros uninit v x time L. exists (splice v (sc_start c) vals). split; [apply E; auto|].
    destruct (saved_gas c rows vals time _ Gk Sv (St v L) Pr) as (l' & Fl' & Es & Hl'). rewrite Es.
    assert (l' = l).
    { assert (Ll : List.length l' = List.length l) by (rewrite <- (map_length fst l'), <- (map_length fst l); congruence).
      apply nth_error_same. intro i. destruct (nth_error (places (sc_kind c)) i) as [t|] eqn:Et.
      - destruct (Hl i t Et) as (y & q & El & Y & Q). destruct (Hl' i t Et) as (y' & q' & El' & Y' & Q'). rewrite El, El'. do 2 f_equal.
        assert (Tp : (0 <= tolerance)%R) by (unfold tolerance; lra).
        f_equal; eapply piecewise_linear_unique; eauto.
      - rewrite <- Fl in Et. apply nth_error_None in Et. rewrite map_length in Et. rewrite !(proj2 (nth_error_None _ _)) by lia. reflexivity. }
    subst l'. rewrite (gas_entry_result time l (Ne l Fl)), Fl. reflexivity.
Qed.
Print Assumptions C72_round_trip.

Example C72_round_trip_case : let c := mkState "connections" "Pipe" "p" 4 (KPipe 3 500) in
  let rows := [(0, [60; 5]); (1000, [50; 7])]%R in
  gas_kind (sc_kind c) /\ rows_ok (sc_kind c) rows /\ increasing (map fst rows) /\
  (forall t, In t (places (sc_kind c)) -> covered tolerance (map fst rows) t) /\ at_place rows 0 500 55 /\ pressure_ok (55 * 10 ^ 5).
Proof.
  cbv zeta. assert (T : (0 < tolerance < 1)%R) by (unfold tolerance; lra). split; [discriminate|]. split; [|split; [|split; [|split]]].
  - split; [intros tr [<-|[<-|[]]]; reflexivity|]. split; [intros n E; discriminate|]. intros a [<-|[]]; cbn; auto.
  - cbn. repeat constructor; lra.
  - intros t I. exists 0%R, 1000%R. split; [reflexivity|]. split; [reflexivity|]. cbn in I. destruct I as [<-|[<-|[<-|[]]]]; lra.
  - right. left. exists 0%nat, 0%R, 1000%R. cbn. repeat split; lra.
  - unfold pressure_ok, alpha, p_crit, T_crit, Temp. rewrite bar_val. lra.
Qed.

(** ** C73: the states file *)

(** Under each class and type stand the results of exactly the components of that class and type,
    in their order, each with its id, what it had before and one entry per saved state, in the
    order of the states; the file has the form of an input file. *)
Theorem C73_states_file : forall comps saved_states (entries : with_output -> list json),
  (forall c, In c comps -> snd c = JNull \/ exists fs, snd c = JObj fs) ->
  (forall c, In c comps -> Forall2 (fun ts e => saved_entry (fst c) (fst ts) (snd ts) = Ok e) saved_states (entries c)) ->
  exists j, states_file comps saved_states = Ok j /\ (comps <> [] -> good_file j) /\
    forall class type, Forall2 (fun c r => component_result (snd c) (sc_id (fst c)) (entries c) r)
      (filter (of_kind class type) comps) (of_type j class type).
Proof.
  intros comps saved es H He. apply states_file_ok; [exact H|]. intros c I. apply (omapM_Forall2 (fun ts => saved_entry (fst c) (fst ts) (snd ts))), He, I.
Qed.
Print Assumptions C73_states_file.

Example C73_states_file_case :
  let g := mkState "connections" "Gaspowerconnection" "g" 0 KGaspower in
  let n := mkState "nodes" "Vphinode" "n" 2 (KPower 1 2 [] Vphi_values) in
  let comps := [(g, JNull); (n, JObj [("seed", JArr [])])] in
  let saved_states := [(0, [40; 3; 1; 0]); (1800, [41; 2; 1; 0])]%R in
  (forall c, In c comps -> snd c = JNull \/ exists fs, snd c = JObj fs) /\
  forall c, In c comps -> exists es, Forall2 (fun ts e => saved_entry (fst c) (fst ts) (snd ts) = Ok e) saved_states es.
Proof.
  cbv zeta. split.
  - intros c [<-|[<-|[]]]; cbn; eauto.
  - intros c [<-|[<-|[]]]; eexists; repeat constructor.
Qed.

(** ** C74: reported powers *)

(** If the equations of a power node hold, then the reported power is the power that flows from
    the node into the grid at the reported voltages and angles, for every kind of node. *)
Theorem C74_reported_power : forall c G B lines values time state b1 b2, sc_kind c = KPower G B lines values ->
  (sc_start c + 1 < List.length state)%nat -> (forall g b o, In (g, b, o) lines -> o <> None) ->
  given_values values time b1 b2 -> node_solved values (mkPower (sc_start c) G B lines) b1 b2 (vec_of state) ->
  exists e P_val Q_val, saved_entry c time state = Ok e /\
    P (mkPower (sc_start c) G B lines) (vec_of state) = Ok P_val /\ Q (mkPower (sc_start c) G B lines) (vec_of state) = Ok Q_val /\
    reports e "P" P_val /\ reports e "Q" Q_val /\ reports e "V" (nth (sc_start c) state 0%R) /\ reports e "phi" (nth (sc_start c + 1) state 0%R) /\
    reports e "time" time.
Proof. exact saved_power. Qed.
Print Assumptions C74_reported_power.

Example C74_reported_power_case :
  let b := mk_ivec [0; 10]%R 2 [4; -3; 4; -3]%R in
  let c := mkState "nodes" "PQnode" "n" 0 (KPower 1 (3 / 4) [(0, 0, Some 2%nat)]%R (PQ_values b)) in
  given_values (PQ_values b) 0 4 (-3) /\
  node_solved (PQ_values b) (mkPower (sc_start c) 1 (3 / 4) [(0, 0, Some 2%nat)]%R) 4 (-3) (vec_of [2; 0; 1; 0]%R).
Proof.
  cbv zeta. split.
  - cbn [given_values]. unfold interp_at. cbn [ipoints last iinner ivalues List.length].
    rewrite (proj2 (Rleb_false 10 0)) by lra. rewrite (proj2 (Rleb_true 0 0)) by lra. rewrite (proj2 (Rltb_false 0 (0 - EPSILON))) by (unfold EPSILON; lra). reflexivity.
  - exists 0%nat, 1%nat. cbn. repeat f_equal; lra.
Qed.

(** ** C75: the grid of a pipe *)

(** The smallest number of equal steps that are not larger than desired. *)
Theorem C75_pipe_grid : forall length desired, (0 < length)%R -> (0 < desired)%R -> (length / desired < 2 ^ 30)%R ->
  exists n dx, pipe_number_of_points length desired = Ok n /\ pipe_Delta_x length n = Some dx /\
    (2 <= n)%Z /\ (IZR (n - 1) * dx = length)%R /\ (0 < dx <= desired)%R /\
    forall m, (2 <= m)%Z -> (length / IZR (m - 1) <= desired)%R -> (n <= m)%Z.
Proof. exact pipe_grid. Qed.
Print Assumptions C75_pipe_grid.

Example C75_pipe_grid_case : pipe_number_of_points 1000 300 = Ok 5%Z /\ pipe_Delta_x 1000 5 = Some 250%R.
Proof.
  split.
  - unfold pipe_number_of_points. rewrite (proj2 (Reqb_false 300 0)) by lra. rewrite (Rceil_unique (1000 / 300) 4) by lra. reflexivity.
  - unfold pipe_Delta_x. cbn. f_equal. lra.
Qed.

(** A negative or zero desired step is not rejected: the schema asks only for a number.  The pipe
    then has no or a negative number of points, or one point and no step at all. *)
Theorem C75_step_refuted :
  (exists length desired n, (0 < length)%R /\ pipe_number_of_points length desired = Ok n /\ (n < 0)%Z) /\
  (exists length desired, (0 < length)%R /\ pipe_number_of_points length desired = Ok 1%Z /\ pipe_Delta_x length 1 = None) /\
  (exists length desired, (0 < length)%R /\ pipe_number_of_points length desired = UB).
Proof.
  split; [|split].
  - exists 1000%R, (-500)%R, (-1)%Z. split; [lra|]. split; [|lia]. unfold pipe_number_of_points. rewrite (proj2 (Reqb_false (-500) 0)) by lra.
    rewrite (Rceil_unique (1000 / -500) (-2)) by lra. reflexivity.
  - exists 1000%R, (-5000)%R. split; [lra|]. split; [|reflexivity]. unfold pipe_number_of_points. rewrite (proj2 (Reqb_false (-5000) 0)) by lra.
    rewrite (Rceil_unique (1000 / -5000) 0) by lra. reflexivity.
  - exists 1000%R, 0%R. split; [lra|]. unfold pipe_number_of_points. rewrite (proj2 (Reqb_true 0 0)) by lra. reflexivity.
Qed.
Print Assumptions C75_step_refuted.
