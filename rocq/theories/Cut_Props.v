(** * Property C119: a pipe that is cut at one of its grid points *)
From Coq Require Import Reals ZArith Lra Lia List Arith.
From Verif Require Import Base Calc Euler_Model Euler_Spec Box_Model Net_Model Net_Spec Net_Props Steady_Spec Steady_Proofs Steady_Props.
From Verif Require Import Cut_Spec Cut_Proofs Cut_Proofs2.
Import ListNotations.
Local Open Scope R_scope.

(** The network with the two pipes is one that can be solved; it has two variables more. *)
Theorem C119_network : forall N i e l, well_formed N -> nth_error (edges N) i = Some e -> inner_point e l ->
  let N' := cut_pipe N i e l in
  well_formed N' /\ (pipes_ok N -> pipes_ok N') /\ (forall t, boundary_defined N t -> boundary_defined N' t) /\
  number_of_states N' = (number_of_states N + 2)%nat.
Proof.
  intros N i [a z [d r dx np| | | | |]] l W He Hp N'; try destruct Hp as (H1 & H2); try contradiction Hp.
  split; [apply cut_well_formed; assumption|]. split; [apply cut_pipes; assumption|]. split; [intro t; apply cut_boundary; assumption|apply cut_states; assumption].
Qed.
Print Assumptions C119_network.

(** Every state has a counterpart in the network with the two pipes. *)
Theorem C119_states : forall N i e l x, nth_error (edges N) i = Some e -> inner_point e l -> exists x', cut_state N i e l x x'.
Proof.
  intros N i [a z [d r dx np| | | | |]] l x He Hp; try destruct Hp as (H1 & H2); try contradiction Hp.
  eexists. apply cut_of_state; assumption.
Qed.
Print Assumptions C119_states.

(** A step solves the equations with the two pipes exactly if it solves them with the one. *)
Theorem C119_equations : forall N i e l t0 t1 last last' x x' c,
  well_formed N -> nth_error (edges N) i = Some e -> inner_point e l -> cut_state N i e l last last' -> cut_state N i e l x x' ->
  (network_equations (cut_pipe N i e l) t0 t1 last' x' c <-> network_equations N t0 t1 last x c).
Proof.
  intros N i [a z [d r dx np| | | | |]] l t0 t1 last last' x x' c W He Hp V1 V2; try destruct Hp as (H1 & H2); try contradiction Hp.
  apply cut_equations; assumption.
Qed.
Print Assumptions C119_equations.

(** Every solution with the two pipes belongs to a solution with the one, provided the densities at the cut are in the range
    where the pressure determines the density. *)
Theorem C119_solutions : forall N i e l t0 t1 last last' x' c,
  let N' := cut_pipe N i e l in
  well_formed N -> nth_error (edges N) i = Some e -> inner_point e l -> cut_state N i e l last last' ->
  network_equations N' t0 t1 last' x' c ->
  density_ok (x' (end_position N' i dend)) -> density_ok (x' (end_position N' (length (edges N)) dstart)) ->
  exists x, cut_state N i e l x x' /\ network_equations N t0 t1 last x c.
Proof.
  intros N i [a z [d r dx np| | | | |]] l t0 t1 last last' x' c N' W He Hp V1 H D1 D2; try destruct Hp as (H1 & H2); try contradiction Hp.
  assert (V2 : cut_state N i (mkEdge a z (EPipe d r dx np)) l (joined N i np l x') x').
  { apply joined_state; [assumption..|]. eapply cut_agrees; eassumption. }
  eexists. split; [exact V2|]. apply (cut_equations N i a z d r dx np l W He H1 H2 t0 t1 last last' _ x' c V1 V2). exact H.
Qed.
Print Assumptions C119_solutions.

Theorem C119_residual : forall N i e l t0 t1 last last' x x' c v,
  well_formed N -> pipes_ok N -> boundary_defined N t1 ->
  nth_error (edges N) i = Some e -> inner_point e l -> cut_state N i e l last last' -> cut_state N i e l x x' ->
  exists r r', evaluate N t0 t1 last x c v = Ok r /\ evaluate (cut_pipe N i e l) t0 t1 last' x' c v = Ok r' /\
    ((forall k, (k < number_of_states N + 2)%nat -> r' k = 0) <-> (forall k, (k < number_of_states N)%nat -> r k = 0)).
Proof.
  intros N i e l t0 t1 last last' x x' c v W HP HB He Hp V1 V2. destruct (C119_network N i e l W He Hp) as (W' & HP' & HB' & Hn).
  destruct (C54_solution N t0 t1 last x c v W HP HB) as (r & E & Z). destruct (C54_solution _ t0 t1 last' x' c v W' (HP' HP) (HB' t1 HB)) as (r' & E' & Z').
  rewrite Hn in Z'. exists r, r'. split; [exact E|]. split; [exact E'|]. rewrite Z, Z'. apply C119_equations; assumption.
Qed.
Print Assumptions C119_residual.

(** The pipe with three grid points from Steady_Props.v, cut in the middle. *)
Definition cut_net : network :=
  mkNet [Pressurenode (fun _ => Ok (v2 50 0)); Innode; Flownode true (fun _ => Ok (v2 0 0)); Innode]
        [mkEdge 0 3 (EPipe 1 (1 / 100) 1000 2); mkEdge 1 2 (ECompressor 0); mkEdge 3 1 (EPipe 1 (1 / 100) 1000 2)].
Definition cut_rest : vec := fun k =>
  nth k [rho (50 * bar); 0; rho (50 * bar); 0; 50; 0; 50; 0; rho (50 * bar); 0; rho (50 * bar); 0] 0.
Example C119_case :
  let e := mkEdge 0 1 (EPipe 1 (1 / 100) 1000 3) in
  cut_pipe rest_net 0 e 1 = cut_net /\ inner_point e 1 /\ cut_state rest_net 0 e 1 rest_state cut_rest /\
  network_equations rest_net 6 7 rest_state rest_state (fun _ => 0) /\
  network_equations cut_net 6 7 cut_rest cut_rest (fun _ => 0).
Proof.
  intro e. assert (S : cut_pipe rest_net 0 e 1 = cut_net) by reflexivity.
  assert (I : inner_point e 1) by (cbn; lia).
  assert (V : cut_state rest_net 0 e 1 rest_state cut_rest).
  { unfold cut_state. cbv zeta. rewrite S. split; [|split; [|split]].
    - intros [|[|[|j]]] c P _; try contradiction P. destruct j; contradiction P.
    - intros [|[|i0]] e0 c H Ne Hc; [congruence| |destruct i0; discriminate]. injection H as <-. cbn in Hc.
      destruct c as [|[|[|[|c]]]]; [reflexivity..|lia].
    - intros [|[|g]] [|[|c]] Hg Hc; first [reflexivity|lia].
    - intros [|[|[|g]]] [|[|c]] Hg Hc; cbn in Hg; first [lia|reflexivity]. }
  assert (Q : network_equations rest_net 6 7 rest_state rest_state (fun _ => 0)).
  { destruct C104_rest_case as (W & HP & R). apply (steady_iff rest_net 6 7); [lra|]. exact (C104_rest rest_net 50 7 rest_state (fun _ => 0) W HP R). }
  split; [exact S|]. split; [exact I|]. split; [exact V|]. split; [exact Q|]. rewrite <- S.
  destruct C104_rest_case as (W & _). apply (C119_equations rest_net 0 e 1 6 7 rest_state cut_rest rest_state cut_rest (fun _ => 0) W eq_refl I V V). exact Q.
Qed.
