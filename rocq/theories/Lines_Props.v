(** * Property C118, continued: only the total admittance between two nodes matters *)
From Coq Require Import Reals ZArith Lra Lia List Arith Bool.
From Coquelicot Require Import Complex.
From Verif Require Import Base Calc Euler_Model Box_Model Net_Model Net_Spec Net_Props Parallel_Spec Parallel_Props.
From Verif Require Import Lines_Spec Lines_Proofs.
Import ListNotations.
Local Open Scope R_scope.

(** The lines of a network may be exchanged for any others with the same total admittance between each two nodes. *)
Theorem C118_total : forall ns es ls ls' t0 t1 last x c,
  let N := mkNet ns (es ++ ls) in let N' := mkNet ns (es ++ ls') in
  List.Forall is_line ls -> List.Forall is_line ls' -> well_formed N -> well_formed N' -> same_totals ls ls' ->
  number_of_states N' = number_of_states N /\
  (network_equations N' t0 t1 last x c <-> network_equations N t0 t1 last x c).
Proof.
  intros ns es ls ls' t0 t1 last x c N N' Hl Hl' W W' H. split; [apply lines_total; assumption|].
  split; apply lines_equations; try assumption. intros j k. symmetry. apply H.
Qed.
Print Assumptions C118_total.

(** In particular a line without admittance can be added between any two power nodes. *)
Theorem C118_nothing : forall N a b t0 t1 last x c,
  well_formed N -> is_power_node N a -> is_power_node N b -> a <> b ->
  (network_equations (mkNet (nodes N) (edges N ++ [mkEdge a b (ELine 0 0)])) t0 t1 last x c <-> network_equations N t0 t1 last x c).
Proof.
  intros [ns es] a b t0 t1 last x c W Pa Pb Nab. cbn [nodes edges].
  pose proof (C118_total ns es [] [mkEdge a b (ELine 0 0)] t0 t1 last x c) as T. cbv zeta in T. rewrite app_nil_r in T. apply T; [constructor|repeat constructor|exact W| |].
  - unfold well_formed in *. cbn [edges]. apply List.Forall_app. split.
    + apply List.Forall_forall. intros e I. exact (proj1 (List.Forall_forall _ _) W e I).
    + repeat constructor; assumption.
  - intros j k. unfold total_admittance. cbn. destruct (joins (mkEdge a b (ELine 0 0)) j k); apply Cplus_0_r.
Qed.
Print Assumptions C118_nothing.

Theorem C118_total_residual : forall ns es ls ls' t0 t1 last x c v,
  let N := mkNet ns (es ++ ls) in let N' := mkNet ns (es ++ ls') in
  List.Forall is_line ls -> List.Forall is_line ls' -> well_formed N -> well_formed N' -> same_totals ls ls' ->
  pipes_ok N -> boundary_defined N t1 ->
  exists r r', evaluate N t0 t1 last x c v = Ok r /\ evaluate N' t0 t1 last x c v = Ok r' /\
    ((forall k, (k < number_of_states N)%nat -> r' k = 0) <-> (forall k, (k < number_of_states N)%nat -> r k = 0)).
Proof.
  intros ns es ls ls' t0 t1 last x c v N N' Hl Hl' W W' H HP HB. destruct (C118_total ns es ls ls' t0 t1 last x c Hl Hl' W W' H) as (Hn & He). fold N N' in Hn, He.
  assert (HP' : pipes_ok N').
  { unfold pipes_ok in *. cbn [N N' edges] in *. apply List.Forall_app in HP. apply List.Forall_app. split; [apply HP|].
    apply List.Forall_forall. intros e I. pose proof (proj1 (List.Forall_forall _ _) Hl' e I) as L. unfold is_line in L. destruct (e_type e); try contradiction. exact Logic.I. }
  destruct (C54_solution N t0 t1 last x c v W HP HB) as (r & E & Z). destruct (C54_solution N' t0 t1 last x c v W' HP' HB) as (r' & E' & Z').
  rewrite Hn in Z'. exists r, r'. split; [exact E|]. split; [exact E'|]. rewrite Z, Z'. exact He.
Qed.
Print Assumptions C118_total_residual.

(** The lines of the case in Parallel_Props.v, and one with no part left and three new ones. *)
Example C118_total_case :
  let ls := edges one_line in
  let ls' := [mkEdge 1 0 (ELine (-1) 2); mkEdge 0 1 (ELine (-4) 0); mkEdge 1 0 (ELine 2 (-2))] in
  same_totals ls ls' /\ List.Forall is_line ls /\ List.Forall is_line ls' /\
  well_formed (mkNet (nodes one_line) ([] ++ ls)) /\ well_formed (mkNet (nodes one_line) ([] ++ ls')) /\
  network_equations (mkNet (nodes one_line) ([] ++ ls')) 0 1 line_state line_state (fun _ => 0).
Proof.
  intros ls ls'. assert (T : same_totals ls ls').
  { intros j k. unfold total_admittance, ls, ls', joins. cbn [csum fold_right one_line edges e_from e_to e_type].
    destruct j as [|[|j]], k as [|[|k]]; cbn; unfold Cplus, RtoC; cbn; f_equal; lra. }
  assert (L : List.Forall is_line ls) by (repeat constructor). assert (L' : List.Forall is_line ls') by (repeat constructor).
  assert (W : well_formed (mkNet (nodes one_line) ([] ++ ls))) by apply C118_case.
  assert (W' : well_formed (mkNet (nodes one_line) ([] ++ ls'))) by (unfold well_formed; cbn [ls' app edges]; repeat constructor; cbn; auto; discriminate).
  repeat (split; [assumption|]). apply (C118_total (nodes one_line) [] ls ls' 0 1 line_state line_state (fun _ => 0) L L' W W' T). apply C118_case.
Qed.
