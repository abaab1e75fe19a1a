(** * Property C116: a short pipe between a node and one of its edges changes nothing *)
From Coq Require Import Reals ZArith Lra Lia List Arith.
From Verif Require Import Base Calc Euler_Model Box_Model Net_Model Net_Spec Net_Props Level_Spec Sim_Proofs3.
From Verif Require Import Insert_Spec Insert_Proofs Insert_Proofs2.
Import ListNotations.
Local Open Scope R_scope.

(** The new network passes what the old one passes, and has four variables more, after those of the old one. *)
Theorem C116_network : forall N i e d,
  well_formed N -> nth_error (edges N) i = Some e -> gas_end e d ->
  let N' := insert_shortpipe N i d (end_node e d) in
  well_formed N' /\ (pipes_ok N -> pipes_ok N') /\ (forall t, boundary_defined N t -> boundary_defined N' t) /\
  number_of_states N' = (number_of_states N + 4)%nat.
Proof.
  intros N i e d W He Hd N'. split; [apply inserted_well_formed; assumption|]. split; [apply inserted_pipes; assumption|].
  split; [intro t; apply inserted_boundary|apply inserted_states; assumption].
Qed.
Print Assumptions C116_network.

(** A state solves the equations of the new network exactly if it solves those of the old one and the short pipe has the
    pressure and the flow of the end of the edge. *)
Theorem C116_equations : forall N i e d t0 t1 last x c,
  well_formed N -> nth_error (edges N) i = Some e -> gas_end e d ->
  (network_equations (insert_shortpipe N i d (end_node e d)) t0 t1 last x c <->
   network_equations N t0 t1 last x c /\ shortpipe_values N i e d x).
Proof. intros. apply inserted_equations; assumption. Qed.
Print Assumptions C116_equations.

(** The same for the zeros of what the code computes. *)
Theorem C116_residual : forall N i e d t0 t1 last x c v,
  well_formed N -> pipes_ok N -> boundary_defined N t1 -> nth_error (edges N) i = Some e -> gas_end e d ->
  let N' := insert_shortpipe N i d (end_node e d) in
  exists r r', evaluate N t0 t1 last x c v = Ok r /\ evaluate N' t0 t1 last x c v = Ok r' /\
    ((forall k, (k < number_of_states N')%nat -> r' k = 0) <->
     (forall k, (k < number_of_states N)%nat -> r k = 0) /\ shortpipe_values N i e d x).
Proof.
  intros N i e d t0 t1 last x c v W HP HB He Hd N'. destruct (C116_network N i e d W He Hd) as (W' & HP' & HB' & _). fold N' in W', HP', HB'.
  destruct (C54_solution N t0 t1 last x c v W HP HB) as (r & E & Z). destruct (C54_solution N' t0 t1 last x c v W' (HP' HP) (HB' t1 HB)) as (r' & E' & Z').
  exists r, r'. split; [exact E|]. split; [exact E'|]. rewrite Z, Z'. apply C116_equations; assumption.
Qed.
Print Assumptions C116_residual.

(** Solutions correspond one to one: every solution of the old network belongs to exactly one of the new one. *)
Theorem C116_solutions : forall N i e d t0 t1 last x c,
  well_formed N -> nth_error (edges N) i = Some e -> gas_end e d ->
  let N' := insert_shortpipe N i d (end_node e d) in
  network_equations N t0 t1 last x c ->
  exists x', (forall k, (k < number_of_states N)%nat -> x' k = x k) /\ network_equations N' t0 t1 last x' c /\
    forall y, (forall k, (k < number_of_states N)%nat -> y k = x k) -> network_equations N' t0 t1 last y c ->
      forall k, (k < number_of_states N')%nat -> y k = x' k.
Proof. intros. apply inserted_solutions; assumption. Qed.
Print Assumptions C116_solutions.

(** A short pipe between the pipe of C90 and its sink. *)
Example C116_case :
  let e := mkEdge 0 1 (EPipe 1 (1 / 100) steady_length 2) in
  well_formed steady_net /\ nth_error (edges steady_net) 0 = Some e /\ gas_end e dend /\
  insert_shortpipe steady_net 0 dend (end_node e dend)
    = mkNet (nodes steady_net ++ [Innode]) [mkEdge 0 2 (EPipe 1 (1 / 100) steady_length 2); mkEdge 1 2 EShortpipe] /\
  network_equations steady_net 0 1 steady_state steady_state (fun _ => 0) /\
  network_equations (insert_shortpipe steady_net 0 dend (end_node e dend)) 0 1 steady_state
    (fun k => nth k [2; slow; 1; slow; p 1 / bar; - slow; p 1 / bar; - slow] 0) (fun _ => 0).
Proof.
  cbv zeta. split; [apply steady_well_formed|]. split; [reflexivity|]. split; [exact I|]. split; [reflexivity|]. split; [apply steady_solution|].
  apply C116_equations; [apply steady_well_formed|reflexivity|exact I|]. split; [|repeat split].
  apply (equations_read steady_net 0 1 steady_state _ steady_state); [apply steady_well_formed| |apply steady_solution].
  intros k Hk. change (number_of_states steady_net) with 4%nat in Hk. do 4 (destruct k as [|k]; [reflexivity|]). lia.
Qed.
