(** * Property C118: two lines in place of one *)
From Coq Require Import Reals ZArith Lra Lia List Arith.
From Coquelicot Require Import Complex.
From Verif Require Import Base Calc Euler_Model Box_Model Net_Model Net_Spec Net_Props.
From Verif Require Import Parallel_Spec Parallel_Proofs.
Import ListNotations.
Local Open Scope R_scope.

(** The network with the two lines is one that can be solved, with as many variables in the same places. *)
Theorem C118_network : forall N i e G B a b, well_formed N -> nth_error (edges N) i = Some e -> is_line e -> same_ends e a b ->
  let N' := split_line N i G B a b in
  well_formed N' /\ (pipes_ok N -> pipes_ok N') /\ (forall t, boundary_defined N t -> boundary_defined N' t) /\
  number_of_states N' = number_of_states N /\
  (forall j, (j < length (nodes N))%nat -> node_block N' j = node_block N j) /\
  (forall k, (k < length (edges N))%nat -> edge_block N' k = edge_block N k).
Proof.
  intros N i e G B a b W He Hl Hab N'. split; [eapply split_well_formed; eassumption|]. split; [eapply split_pipes; eassumption|].
  split; [intros t H; exact H|]. split; [apply split_states|]. split; intros; [apply split_node_block|apply split_edge_block]; assumption.
Qed.
Print Assumptions C118_network.

(** A step solves the equations with the two lines exactly if it solves them with the one. *)
Theorem C118_equations : forall N i e G B a b t0 t1 last x c,
  well_formed N -> nth_error (edges N) i = Some e -> is_line e -> same_ends e a b ->
  (network_equations (split_line N i G B a b) t0 t1 last x c <-> network_equations N t0 t1 last x c).
Proof. intros. eapply split_equations; eassumption. Qed.
Print Assumptions C118_equations.

Theorem C118_residual : forall N i e G B a b t0 t1 last x c v,
  well_formed N -> pipes_ok N -> boundary_defined N t1 ->
  nth_error (edges N) i = Some e -> is_line e -> same_ends e a b ->
  exists r r', evaluate N t0 t1 last x c v = Ok r /\ evaluate (split_line N i G B a b) t0 t1 last x c v = Ok r' /\
    ((forall k, (k < number_of_states N)%nat -> r' k = 0) <-> (forall k, (k < number_of_states N)%nat -> r k = 0)).
Proof.
  intros N i e G B a b t0 t1 last x c v W HP HB He Hl Hab. destruct (C118_network N i e G B a b W He Hl Hab) as (W' & HP' & HB' & Hn & _).
  destruct (C54_solution N t0 t1 last x c v W HP HB) as (r & E & Z). destruct (C54_solution _ t0 t1 last x c v W' (HP' HP) (HB' t1 HB)) as (r' & E' & Z').
  rewrite Hn in Z'. exists r, r'. split; [exact E|]. split; [exact E'|]. rewrite Z, Z'. eapply C118_equations; eassumption.
Qed.
Print Assumptions C118_residual.

(** A line of conductance -3 between a slack node and a load of 3/4; a third of it goes into a second line that
    runs the other way. *)
Definition one_line : network :=
  mkNet [Powernode Vphi false 3 0 (fun _ => Ok (v2 1 0)); Powernode PQ false 3 0 (fun _ => Ok (v2 (-3 / 4) 0))] [mkEdge 0 1 (ELine (-3) 0)].
Definition two_lines : network :=
  mkNet [Powernode Vphi false 3 0 (fun _ => Ok (v2 1 0)); Powernode PQ false 3 0 (fun _ => Ok (v2 (-3 / 4) 0))]
    [mkEdge 0 1 (ELine (-2) 0); mkEdge 1 0 (ELine (-1) 0)].
Definition line_state : vec := fun k => nth k [1; 0; / 2; 0] 0.
Example C118_case :
  well_formed one_line /\ split_line one_line 0 (-1) 0 1 0 = two_lines /\
  network_equations one_line 0 1 line_state line_state (fun _ => 0) /\
  network_equations two_lines 0 1 line_state line_state (fun _ => 0).
Proof.
  assert (W : well_formed one_line) by (unfold well_formed; cbn [one_line edges]; repeat constructor; cbn; auto; discriminate).
  assert (Q : network_equations one_line 0 1 line_state line_state (fun _ => 0)).
  { split.
    - intros [|[|j]] t H; cbn in H; [injection H as <-|injection H as <-|destruct j; discriminate]; eexists; (split; [reflexivity|]).
      + split; reflexivity.
      + unfold power, current, voltage. cbn. unfold line_state. cbn. rewrite cos_0, sin_0. unfold Cmult, Cplus, Cconj, RtoC. cbn. f_equal; field.
    - intros [|i] e H; cbn in H; [injection H as <-; exact Logic.I|destruct i; discriminate]. }
  assert (S0 : split_line one_line 0 (-1) 0 1 0 = two_lines).
  { unfold split_line, two_lines, one_line, numbered, thinner. cbn. repeat f_equal; ring. }
  split; [exact W|]. split; [exact S0|]. split; [exact Q|]. rewrite <- S0.
  apply (C118_equations one_line 0 (mkEdge 0 1 (ELine (-3) 0))); [exact W|reflexivity|exact Logic.I|right; split; reflexivity|exact Q].
Qed.
