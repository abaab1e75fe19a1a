(** * The result files of an optimization *)
From Coq Require Import Reals ZArith Lra Lia List Arith Bool String FunctionalExtensionality.
From Verif Require Import Base Interp_Model Interp_Spec Interp_Proofs Json_Model Json_Spec Json_Proofs Defaults_Model Controls_Model Controls_Spec Controls_Proofs Controls_Proofs2 Controls_Props
  Calc Net_Model Net_Spec States_Model Factory_Model Factory_Spec Iface_Model Input_Model Input_Spec Input_Proofs Input_Proofs2 Input_Proofs3 Input_Proofs4 Setup_Model Setup_Spec Setup_Proofs
  Answer_Model Answer_Proofs Result_Model Result_Spec.
From Verif Require Bounds_Model Iface_Proofs3 Optim_Model Optim_Spec Optim_Proofs Run_Model Evolve_Model Evolve_Props.
Import ListNotations.
Local Open Scope string_scope.
Local Open Scope list_scope.

(** ** The rows of a table of states *)
Lemma table_row st n rows i x : nth_error rows i = Some x -> vector_at_index (mk_ivec st n (states_table n rows)) i = Ok (row_of_state n x).
Proof.
  intro H. assert (L : (i < List.length rows)%nat) by (apply nth_error_Some; congruence).
  unfold vector_at_index. cbn [iinner ivalues]. rewrite table_length.
  rewrite (proj2 (Nat.ltb_ge _ _)) by nia. destruct (segment_ok (states_table n rows) (n * i) n) as (r & E & Lr & V); [rewrite table_length; nia|].
  rewrite E. f_equal. unfold row_of_state. apply (nth_ext _ _ 0%R 0%R); [rewrite map_length, seq_length; exact Lr|]. intros k K. rewrite Lr in K.
  rewrite V by exact K. pose proof (table_entry n rows i x k H K) as T. unfold Interp_Spec.entry in T. rewrite (Nat.mul_comm n i), T.
  rewrite (nth_indep _ 0%R (x 0%nat)) by (rewrite map_length, seq_length; exact K). rewrite (map_nth x), seq_nth by exact K. reflexivity.
Qed.
Lemma solution_rows_table st n rows : List.length rows = List.length st ->
  solution_rows (List.length st) (mk_ivec st n (states_table n rows)) = Ok (combine st (map (row_of_state n) rows)).
Proof.
  intro L. unfold solution_rows.
  rewrite (omapM_all _ (fun i => (nth i st 0%R, row_of_state n (nth i rows (fun _ => 0%R))))).
  - f_equal. apply (nth_ext _ _ (0%R, []) (0%R, [])); [rewrite map_length, seq_length, combine_length, map_length; symmetry; exact (eq_trans (f_equal (Nat.min _) L) (Nat.min_id _))|].
    intros i Hi. rewrite map_length, seq_length in Hi. rewrite combine_nth by (rewrite map_length; symmetry; exact L).
    set (f := fun i => (nth i st 0%R, row_of_state n (nth i rows (fun _ => 0%R)))).
    rewrite (nth_indep _ (0%R, []) (f 0%nat)) by (rewrite map_length, seq_length; exact Hi). rewrite map_nth, seq_nth by exact Hi. unfold f. cbn [Nat.add]. f_equal.
    rewrite (nth_indep (map _ rows) [] (row_of_state n (fun _ => 0%R))) by (rewrite map_length; exact (eq_ind_r (fun k => (i < k)%nat) Hi L)). rewrite map_nth. reflexivity.
  - intros i Hi. apply in_seq in Hi. cbn [ipoints]. unfold get.
    rewrite (nth_error_nth' st 0%R) by lia. cbn [obind]. rewrite (table_row st n rows i (nth i rows (fun _ => 0%R))) by (apply nth_error_nth'; exact (eq_ind_r (fun k => (i < k)%nat) (proj2 Hi) L)). reflexivity.
Qed.

(** ** The file of the controls *)
Lemma controls_written uninit ns es nodes edges comps n ct c :
  construct uninit (ns, es) = Ok (nodes, edges) -> set_control_indices 0 (control_components_of edges) = (comps, n) ->
  (0 < n)%nat -> table_of ct n c ->
  exists j, save_controls_to_json comps (mk_ivec ct n c) JNull = Ok j /\ controls_saved es (network_of nodes edges) ct c j.
Proof.
  intros C Ci Pos T. set (N := network_of nodes edges). destruct (controls_placed nodes edges comps n Ci) as (En & Pl & Back). fold N in En, Pl.
  destruct (prepared_described _ _ _ _ _ C) as [_ De]. destruct (C65_indices _ _ _ _ Ci) as (M & _ & Cm & _).
  assert (Cl : forall cc, In cc comps -> cc_class cc = "connections").
  { intros cc I. apply (in_map (fun c => (cc_class c, cc_type c, cc_id c, cc_count c))) in I. rewrite M in I. apply in_map_iff in I. destruct I as (c0 & E & I).
    apply in_flat_map in I. destruct I as (e & _ & I).
    assert (Q : cc_class c0 = "connections") by (destruct (e_type (me_edge e)); cbn in I; try contradiction; destruct I as [<-|[]]; reflexivity).
    congruence. }
  destruct (C49_file comps (mk_ivec ct n c)) as (j & E & G & Ty & _).
  - exact T.
  - intros ->. destruct (proj1 (Cm 0%nat) ltac:(lia)) as (cc & [] & _).
  - intros cc I. rewrite (Cl cc I). cbn. auto.
  - intros cc I. cbn [iinner]. destruct (Back cc I) as [Cn _]. assert (K : (cc_start cc < n)%nat); [|lia].
    apply (proj2 (Cm (cc_start cc))). exists cc. split; [exact I|]. unfold column_of. lia.
  - exists j. split; [exact E|]. split; [exact G|]. split; [|split].
    + intros i entry e Ee E1 Ct. destruct (edge_made _ _ _ _ E1) as (m & Em & <-). destruct (De i m Em) as (entry' & Ee' & Et & Eid & _). assert (entry' = entry) by congruence. subst entry'.
      rewrite Ty. pose proof (Pl i m Em Ct) as Ic. apply in_map_iff. eexists. split; [|apply filter_In; split; [exact Ic|]].
      * unfold saved_document. cbn [cc_id cc_start cc_count]. rewrite Eid. f_equal. unfold component_rows. cbn [ipoints ivalues iinner]. apply map_ext. intro q. cbn [seq map]. rewrite Nat.add_0_r, En. reflexivity.
      * unfold matches. cbn [cc_class cc_type]. rewrite Et, !String.eqb_refl. reflexivity.
    + intro type. rewrite Ty. assert (Z : filter (matches "nodes" type) comps = []); [|rewrite Z; reflexivity].
      clear -Cl. induction comps as [|cc l IH]; [reflexivity|]. cbn [filter]. unfold matches at 1. rewrite (Cl cc) by (left; reflexivity). cbn. apply IH. intros; apply Cl; right; auto.
    + intro type. rewrite Ty, map_map.
      transitivity (map (fun q : string * string * string * nat => snd (fst q)) (filter (fun q => String.eqb (fst (fst (fst q))) "connections" && String.eqb (snd (fst (fst q))) type)%bool
         (map (fun c => (cc_class c, cc_type c, cc_id c, cc_count c)) comps))).
      { clear. induction comps as [|cc l IH]; [reflexivity|]. cbn [map filter fst snd]. unfold matches at 1. destruct (_ && _)%bool; cbn [map fst snd]; rewrite IH; reflexivity. }
      rewrite M. clear -C. destruct (construct_inv _ _ _ _ _ C) as [_ B]. clear C. generalize dependent nodes. intros nodes B.
      unfold control_components_of. induction B as [|entry m l r Q F IH]; [reflexivity|]. cbn [flat_map]. rewrite map_app, filter_app, map_app, IH.
      destruct (edge_described _ _ _ Q) as (Tt & I & (_ & _ & D)).
      assert (X : edge_with_controls (fst entry) = match e_type (me_edge m) with ECompressor _ | EControlvalve => true | _ => false end) by (inversion D; reflexivity).
      cbn [filter]. rewrite X. destruct (e_type (me_edge m)); cbn [map filter app andb fst snd cc_class cc_type cc_id cc_count]; rewrite ?Tt, <- ?I; try reflexivity;
        destruct (String.eqb (fst entry) type); reflexivity.
Qed.

(** ** A run *)
Section Run.
Context {LU : Type}.
Variables (factor : unit -> R -> R -> vec -> list R -> vec -> option LU) (linsolve : LU -> vec -> vec) (solve : Adjoint_Model.solver_type).
Variables (fuel sfuel : nat) (uninit : nat -> R).
Variable ipopt : forall p o, Run_Model.ipopt (network_backend factor linsolve solve fuel sfuel p o).
Variable unset : (nat -> Adjoint_Model.vec) * (nat -> R).

Lemma run_parts read directory printed cj sj : run_optimization factor linsolve solve fuel sfuel uninit ipopt unset read directory = Ok (printed, cj, sj) ->
  exists p o status x obj saved states,
    prepare_optimization uninit read directory = Ok (p, o) /\ Run_Model.finalize (ipopt p o) = Some (status, x, obj) /\
    Run_Model.initialize (ipopt p o) = 0%Z /\
    (exists o2 cost penalty o3 lv uv,
      Optim_Model.finalize_solution (Optim_Model.after (Optim_Model.fresh (B:=network_backend factor linsolve solve fuel sfuel p o) [] unset tt) (Run_Model.callbacks (ipopt p o))) x = (o2, (cost, penalty)) /\
      Optim_Model.final_reports o2 x (ivalues (constraint_lower_bounds (init o))) (ivalues (constraint_upper_bounds (init o))) = (o3, (Ok (lv, uv), states)) /\
      printed = (if negb (status =? 0)%Z then [Run_Model.Failed_to_find_optimum 0] else []) ++
        [Run_Model.Cost (Some cost); Run_Model.Penalty (Some penalty); Run_Model.Overall_objective (Some obj); Run_Model.Lower_violation lv; Run_Model.Upper_violation uv; Run_Model.Can_be_found]) /\
    solution_rows (List.length (pp_points p)) (mk_ivec (state_timepoints o) (o_nx o) states) = Ok saved /\
    save_controls_to_json (fst (set_control_indices 0 (control_components_of (pp_edges p)))) (mk_ivec (control_timepoints o) (o_nu o) x) JNull = Ok cj /\
    states_file (map (fun c => (c, JNull)) (pp_states p)) saved = Ok sj.
Proof.
  unfold run_optimization. intro H. apply obind_Ok in H. destruct H as ([p o] & Hp & H).
  unfold Run_Model.optimize in H. destruct (Z.eqb_spec (Run_Model.initialize (ipopt p o)) Run_Model.SUCCESS) as [Hi|Hi]; cbn [negb] in H; [|discriminate H].
  destruct (Run_Model.finalize (ipopt p o)) as [[[status x] obj]|] eqn:Hf; [|discriminate H].
  destruct (Optim_Model.finalize_solution _ x) as [o2 [cost penalty]] eqn:F in H.
  unfold Run_Model.report in H. cbn [Run_Model.best_solution Run_Model.best_cost_value Run_Model.best_penalty_value Run_Model.best_objective_value] in H.
  destruct (Optim_Model.final_reports o2 x _ _) as [o3 [viol states]] eqn:G in H.
  destruct viol as [[lv uv]| |]; [|discriminate H|discriminate H]. cbn [omap obind] in H.
  apply obind_Ok in H. destruct H as (saved & Hs & H). apply obind_Ok in H. destruct H as (cj' & Hc & H). apply obind_Ok in H. destruct H as (sj' & Hj & H).
  injection H as <- <- <-. exists p, o, status, x, obj, saved, states. split; [exact Hp|]. split; [exact Hf|]. split; [exact Hi|]. split; [|auto].
  exists o2, cost, penalty, o3, lv, uv. split; [exact F|]. split; [exact G|]. reflexivity.
Qed.

(** The simulation is a function of the controls, and the states that are saved are the ones of
    the solution. *)
Lemma backend_deterministic p o : Optim_Spec.deterministic (network_backend factor linsolve solve fuel sfuel p o) (simulated factor linsolve fuel sfuel p o).
Proof. intros e c. reflexivity. Qed.
Lemma run_states read directory printed cj sj p o status x obj states :
  run_optimization factor linsolve solve fuel sfuel uninit ipopt unset read directory = Ok (printed, cj, sj) ->
  prepare_optimization uninit read directory = Ok (p, o) -> Run_Model.finalize (ipopt p o) = Some (status, x, obj) ->
  simulation factor linsolve fuel sfuel p o x = Some (Ok states) ->
  List.length states = List.length (pp_points p) /\
  states_file (map (fun c => (c, JNull)) (pp_states p)) (combine (pp_points p) (map (row_of_state (o_nx o)) states)) = Ok sj.
Proof.
  intros H Hp Hf Hs. destruct (run_parts _ _ _ _ _ H) as (p' & o' & status' & x' & obj' & saved & table & Hp' & Hf' & _ & (o2 & cost & penalty & o3 & lv & uv & _ & G & _) & Hr & _ & Hj).
  rewrite Hp in Hp'. injection Hp' as <- <-. rewrite Hf in Hf'. injection Hf' as <- <- <-.
  assert (Hsim : simulated factor linsolve fuel sfuel p o x = Some (states_table (o_nx o) states)) by (unfold simulated; rewrite Hs; reflexivity).
  pose proof (Optim_Proofs.saved_states_right _ _ o2 x _ (ivalues (constraint_lower_bounds (init o))) (ivalues (constraint_upper_bounds (init o))) (backend_deterministic p o) Hsim) as Q.
  rewrite G in Q. cbn [snd] in Q. subst table.
  destruct (optimization_parts _ _ _ _ _ Hp) as (all & settings & problem & ns & es & k & _ & _ & _ & _ & _ & _ & _ & _ & _ & _ & _ & _ & _ & _ & St & _).
  assert (L : List.length states = List.length (pp_points p)).
  { rewrite <- St. unfold simulation in Hs. destruct (Evolve_Model.simulate _ _ _ _ _ _ _ _) as [r e'] eqn:Es in Hs. cbn [fst] in Hs. subst r.
    destruct (Evolve_Props.C20_simulation _ _ _ _ _ _ _ _ _ _ Es) as [L _]. exact L. }
  split; [exact L|]. rewrite St in Hr. rewrite solution_rows_table in Hr by exact L. injection Hr as <-. exact Hj.
Qed.

(** ** The same problem with another file of controls *)
Lemma replace_same read read' path super key directory j : with_file read read' path j ->
  entry_of super "GRAZER_file_directory" = Some (JStr directory) ->
  (forall name, entry_of super key = Some (JStr name) -> path <> (if String.prefix "/" name then name else directory ++ "/" ++ name)%string) ->
  replace_entry read' super key = replace_entry read super key.
Proof.
  intros [_ W] G N. unfold replace_entry. destruct super as [| | | | |fs]; try reflexivity.
  destruct (at_mut (JObj fs) key) as [[j1 v]| |] eqn:E; try reflexivity. cbn [obind fst snd].
  destruct (at_mut_cases _ _ _ _ E) as [[Ev ->]|[_ ->]]; [|reflexivity]. destruct v as [| | |name| |]; try reflexivity.
  specialize (N name Ev). unfold is_absolute. destruct (String.prefix "/" name) eqn:Pr.
  - rewrite W by congruence. reflexivity.
  - destruct (contains (JObj fs) "GRAZER_file_directory"); [|reflexivity].
    assert (A : at_const (JObj fs) "GRAZER_file_directory" = Ok (JStr directory)) by (cbn in G |- *; rewrite G; reflexivity).
    rewrite A. cbn [obind get_string]. rewrite W by congruence. reflexivity.
Qed.
Lemma replace_entries read super key super' : replace_entry read super key = Ok super' -> forall k, k <> key -> entry_of super' k = entry_of super k.
Proof.
  unfold replace_entry. destruct super as [| | | | |fs]; try discriminate. intro H. apply obind_Ok in H. destruct H as ([j1 v] & E & H). cbn [fst snd] in H.
  destruct (at_mut_cases _ _ _ _ E) as [[Ev ->]|[_ ->]]; [|discriminate]. destruct v as [| | |name| |]; try discriminate.
  - destruct (is_absolute name).
    + apply obind_Ok in H. destruct H as (w & _ & H). intros k K. apply (assign_other _ _ _ _ H). exact K.
    + destruct (contains _ _); [|discriminate]. apply obind_Ok in H. destruct H as (d & _ & H). apply obind_Ok in H. destruct H as (w & _ & H). intros k K. apply (assign_other _ _ _ _ H). exact K.
  - injection H as <-. reflexivity.
Qed.
Lemma build_same read read' all directory problem path j d r : with_file read read' path j ->
  problem_of all directory problem -> ~ named_file all directory path ->
  build_net read d problem = Ok r -> build_net read' d problem = Ok r.
Proof.
  intros W (given & Eg & Ed & Eo) Nn H. unfold build_net, full_topology in *.
  assert (A : forall key name, In key ["topology_json"; "boundary_json"] -> entry_of problem key = Some (JStr name) -> path <> (if String.prefix "/" name then name else directory ++ "/" ++ name)%string).
  { intros key name I E ->. apply Nn. exists key, given, name. split; [exact I|]. split; [exact Eg|]. split; [|reflexivity]. rewrite <- E. symmetry. apply Eo. destruct I as [<-|[<-|[]]]; discriminate. }
  rewrite (replace_same read read' path problem "topology_json" directory j W Ed) by (intros name E; apply (A "topology_json"); cbn; auto).
  apply obind_Ok in H. destruct H as (t & H & H'). apply obind_Ok in H. destruct H as (p1 & H1 & H2). rewrite H1. cbn [obind].
  pose proof (replace_entries _ _ _ _ H1) as Re.
  rewrite (replace_same read read' path p1 "boundary_json" directory j W).
  - rewrite H2. cbn [obind]. exact H'.
  - rewrite Re by discriminate. exact Ed.
  - intros name E. apply (A "boundary_json"); [cbn; auto|]. rewrite <- Re by discriminate. exact E.
Qed.
Lemma append_inj (a b c : string) : (a ++ b = a ++ c)%string -> b = c.
Proof. induction a as [|x a IH]; cbn; intro H; [exact H|]. injection H as H. auto. Qed.

Lemma prepare_again read read' directory p o c cj :
  prepare_optimization uninit read directory = Ok (p, o) ->
  save_controls_to_json (fst (set_control_indices 0 (control_components_of (pp_edges p)))) (mk_ivec (control_timepoints o) (o_nu o) c) JNull = Ok cj ->
  increasing (control_timepoints o) -> table_of (control_timepoints o) (o_nu o) c ->
  NoDup (map me_id (pp_edges p)) ->
  with_file read read' (directory ++ "/control.json")%string cj ->
  (forall all, read (directory ++ "/problem_data.json")%string = Ok all -> ~ named_file all directory (directory ++ "/control.json")%string) ->
  prepare_run uninit read' directory
  = Ok (mkPrepared (pp_settings p) (pp_nodes p) (pp_edges p) (pp_states p) (pp_number p) (pp_points p) (pp_initial p) (mk_ivec (control_timepoints o) (o_nu o) c)).
Proof.
  intros H Hc Ict T Nd W Nn. destruct (optimization_parts _ _ _ _ _ H) as (all' & settings' & problem' & ns' & es' & k & Q & _ & _ & _ & _ & _ & _ & _ & _ & _ & _ & Pos & _ & _ & _ & _ & Ho & _).
  assert (Eu : exists controls nc, set_control_indices 0 (control_components_of (pp_edges p)) = (controls, nc) /\ o_nu o = nc /\ control_timepoints o = ipoints (pp_controls p)).
  { unfold prepare_optimization in H. rewrite Q in H. cbn [obind] in H. clear -H. repeat (apply obind_Ok in H; destruct H as (? & _ & H)).
    destruct (set_control_indices 0 (control_components_of (pp_edges p))) as [controls nc]. destruct (Bounds_Model.set_constraint_indices 0 _) as [k ng].
    repeat (apply obind_Ok in H; destruct H as (? & _ & H)). repeat match type of H with context [let '(_, _) := ?a in _] => destruct a end.
    exists controls, nc. split; [reflexivity|]. apply omap_Ok in H. destruct H as (o' & Ho & E). injection E as <-.
    destruct (Iface_Proofs3.constructed _ _ _ _ _ _ _ _ _ Ho) as (_ & pairs & l & _ & ->). split; reflexivity. }
  destruct Eu as (controls & nc & Ci & Eu & Ect).
  destruct (prepare_inv _ _ _ _ Q) as (all0 & s0 & problem & ns & es & t0 & i0 & c0 & n0 & A & _ & C & D & _).
  destruct (Iface_Proofs3.constructed _ _ _ _ _ _ _ _ _ Ho) as ((_ & _ & _ & _ & _ & _ & (Nct & _) & _) & _).
  specialize (Nn all0 A). rename Q into P. clear -Nct P A C D Nn Ci Eu Ect Hc Ict T Nd W Pos. rewrite Ci in Hc. cbn [fst] in Hc. rewrite Eu in *.
  destruct W as [Wc Wo]. assert (Wp : read' (directory ++ "/problem_data.json")%string = read (directory ++ "/problem_data.json")%string).
  { apply Wo. intro E. apply append_inj in E. discriminate. }
  assert (Wi : read' (directory ++ "/initial.json")%string = read (directory ++ "/initial.json")%string).
  { apply Wo. intro E. apply append_inj in E. discriminate. }
  unfold prepare_run in P |- *. rewrite Wp, Wi, Wc.
  apply obind_Ok in P. destruct P as (all & Ha & P). rewrite Ha. cbn [obind]. assert (all0 = all) by congruence. subst all0.
  apply obind_Ok in P. destruct P as ([all1 settings] & Hs & P). rewrite Hs. cbn [obind fst snd] in P |- *.
  apply obind_Ok in P. destruct P as ([all2 pd] & Hp & P). rewrite Hp. cbn [obind fst snd] in P |- *.
  apply obind_Ok in P. destruct P as (pj & Hg & P). rewrite Hg. cbn [obind].
  apply obind_Ok in P. destruct P as (initial & Hi & P). rewrite Hi. cbn [obind].
  apply obind_Ok in P. destruct P as (t & Ht & P). rewrite Ht. cbn [obind].
  apply obind_Ok in P. destruct P as (cfg & Hcf & P). rewrite Hcf. cbn [obind].
  apply obind_Ok in P. destruct P as (d & Hd & P). rewrite Hd. cbn [obind]. destruct (negb (is_object d)); [discriminate|].
  apply obind_Ok in P. destruct P as ([ns' es'] & Hb & P).
  assert (Pr : problem_of all directory pj).
  { destruct (at_mut_cases _ _ _ _ Hs) as [[Es ->]|[_ ->]]; [|discriminate].
    destruct (assign_other _ _ _ _ Hg) as [Eg Eo].
    destruct (at_mut_cases _ _ _ _ Hp) as [[Ep ->]|[_ ->]].
    2: { exfalso. apply (build_needs_topology _ _ _ _ Hb). rewrite Eo by discriminate. reflexivity. }
    exists pd. auto. }
  rewrite (build_same read read' all directory pj _ cj d _ (conj Wc Wo) Pr Nn Hb). cbn [obind].
  apply obind_Ok in P. destruct P as ([nodes edges] & Hn & P). rewrite Hn. cbn [obind].
  destruct (set_state_indices 0 (state_components_of nodes edges)) as [states n] eqn:Si.
  destruct (set_control_indices 0 (control_components_of edges)) as [controls' nc'] eqn:Ci'.
  destruct (negb (setup_ok (network_of nodes edges))) eqn:So; [discriminate|].
  apply obind_Ok in P. destruct P as (x & Hx & P). rewrite Hx. cbn [obind].
  apply obind_Ok in P. destruct P as (points & Hpt & P). rewrite Hpt. cbn [obind].
  apply obind_Ok in P. destruct P as (fc & Hfc & P). injection P as <-. cbn [pp_nodes pp_edges pp_states pp_number pp_points pp_settings pp_initial pp_controls] in *.
  rewrite Ci in Ci'. injection Ci' as <- <-.
  unfold setup_controls in Hfc |- *. rewrite (proj2 (Nat.ltb_lt 0 nc) Pos) in Hfc |- *.
  apply obind_Ok in Hfc. destruct Hfc as (ct & Hct & Hfc). rewrite Hct. cbn [obind]. apply obind_Ok in Hfc. destruct Hfc as (jc & _ & Hfc).
  pose proof (controls_points _ _ _ _ _ Hfc) as E. cbn [ipoints] in E. rewrite E in Ect. rewrite Ect in *.
  destruct (C49_whole uninit _ _ _ (mk_ivec ct nc c) (mk_ivec ct nc (map uninit (seq 0 (nc * List.length ct)))) Ci eq_refl Ict Nct) as (j & E1 & E2).
  - exact T.
  - unfold table_of. cbn [ipoints iinner ivalues]. rewrite map_length, seq_length. lia.
  - reflexivity.
  - reflexivity.
  - apply (NoDup_flat _ _ me_id); [|exact Nd]. intro a. destruct (e_type (me_edge a)); auto; right; eexists; split; reflexivity.
  - intros cc I. apply in_flat_map in I. destruct I as (e & _ & I). destruct (e_type (me_edge e)); cbn in I; try contradiction; destruct I as [<-|[]]; cbn; auto.
  - rewrite Hc in E1. injection E1 as <-. rewrite E2. reflexivity.
Qed.
End Run.
