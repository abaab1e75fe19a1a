(** * Gas networks without pipes: when is the state determined (C109) *)
From Coq Require Import Reals Lra Lia ZArith List Arith Bool.
From Coquelicot Require Import Coquelicot.
From Verif Require Import Base Interp_Model Calc Euler_Model Box_Model Net_Model Net_Spec Net_Props Newton_Model Evolve_Model Sim_Model Sim_Spec
  Sim_Proofs3 Sim_Props Grid_Spec Level_Spec Level_Proofs Level_Proofs2 Level_Props Stuck_Props Forest_Spec Forest_Proofs Forest_Proofs2 Forest_Proofs3 Forest_Proofs4.
Import ListNotations.
Local Open Scope R_scope.

(** The equations of a time step have exactly one solution, whatever the boundary values and controls are, exactly if
    every change of pressures and flows is seen by some equation. *)
Theorem C109_determined : forall N t0 t1 last c,
  well_formed N -> short_net N -> boundary_defined N t1 ->
  (determined N <->
   exists x, network_equations N t0 t1 last x c /\
     forall y, network_equations N t0 t1 last y c -> forall k, (k < number_of_states N)%nat -> y k = x k).
Proof.
  intros N t0 t1 last c W S HB. split.
  - intro D. destruct (determined_solvable N t0 t1 last c W S D HB) as (x & X). exists x. split; [exact X|].
    intros y Y k Hk. exact (determined_unique N t0 t1 last y x c W S D Y X k Hk).
  - intros (x & X & U) h z Un (i & e & d & He & G & Q).
    destruct (direction_changed N h z 1 x W) as (Ch & Ch'). set (y := fun k => x k + 1 * change_direction N h z k) in *.
    assert (Y : network_equations N t0 t1 last y c).
    { destruct (evaluate_changed N h z 1 x y t0 t1 last c (fun _ => 0) W (short_pipes N S) HB Un (conj Ch Ch')) as (r & r' & E & E' & Eq).
      destruct (C54_solution N t0 t1 last x c (fun _ => 0) W (short_pipes N S) HB) as (f & Ef & If). rewrite E in Ef. injection Ef as <-.
      destruct (C54_solution N t0 t1 last y c (fun _ => 0) W (short_pipes N S) HB) as (f' & Ef' & If'). rewrite E' in Ef'. injection Ef' as <-.
      apply If'. intros k Hk. rewrite Eq. apply If; assumption. }
    destruct (Ch i e d He G) as (A & B). pose proof (end_inside N i e d W He G). destruct (block_after N i e He) as (L & L').
    pose proof (U y Y (end_position N i d) ltac:(lia)) as K0. pose proof (U y Y (end_position N i d + 1)%nat ltac:(lia)) as K1. unfold y in K0, K1, A, B.
    destruct Q as [Q|Q]; apply Q; lra.
Qed.
Print Assumptions C109_determined.
(** The same for the matrix of the linear systems in Newton's method. *)
Theorem C109_matrix : forall N t0 t1 last x c ts,
  well_formed N -> short_net N -> d_evaluate_d_new_state N t0 t1 last x c = Ok ts ->
  (determined N <-> ~ singular (number_of_states N) (matrix_of ts)).
Proof.
  intros N t0 t1 last x c ts W S E. split.
  - intro D. exact (determined_regular N t0 t1 last x c ts W S D E).
  - intros NS h z U Q. apply NS. exact (C107_always N h z t0 t1 last x c ts W U Q E).
Qed.
Print Assumptions C109_matrix.
(** These are exactly the networks that consist of trees below nodes with given pressure: a closed loop, a second node
    with given pressure or a part without such a node are not possible. *)
Theorem C109_forest : forall N, well_formed N -> short_net N -> (determined N <-> forest N).
Proof. intros N W S. split; [exact (trees N W S)|exact (forest_determined N W S)]. Qed.
Print Assumptions C109_forest.

(** With a linear solver that solves all regular systems Newton's method succeeds from every start value: it accepts
    the start value or finds the solution in one step. *)
Theorem C109_newton : forall E LU n net prepare factor linsolve fuel cfg full e t0 t1 last c x,
  well_formed (net e) -> short_net (net e) -> determined (net e) -> number_of_states (net e) = n -> boundary_defined (net e) t1 ->
  solves_exactly n net factor linsolve -> 0 <= tolerance cfg -> (1 <= maximal_iterations cfg)%Z ->
  exists y s,
    solve (system_of (network_problem E LU n net prepare factor linsolve) e t0 t1 last c) fuel cfg full x = Some (Ok (y, s)) /\
    success s = true /\
    (y = x /\ used_iterations s = 0%Z \/
     used_iterations s = 1%Z /\ network_equations (net e) t0 t1 last y (control_vector c)).
Proof. intros. apply one_step; assumption. Qed.
Print Assumptions C109_newton.

(** So every simulation of such a network ends normally, and its states satisfy the equations. *)
Theorem C109_simulation : forall E LU n net prepare factor linsolve fuel sfuel cfg controls points x e,
  (forall e, well_formed (net e) /\ short_net (net e) /\ determined (net e) /\ number_of_states (net e) = n) ->
  (forall e t, In t points -> boundary_defined (net e) t) ->
  (forall t, In t points -> exists c, current_controls controls t = Ok c) ->
  (forall e t0 t1 x c, exists e', prepare e t0 t1 x c = Ok e') ->
  solves_exactly n net factor linsolve ->
  0 <= tolerance (newton cfg) < 1000000 -> (1 <= maximal_iterations (newton cfg))%Z -> (1 <= sfuel)%nat -> (2 <= length points)%nat ->
  exists rows e',
    simulate (network_problem E LU n net prepare factor linsolve) fuel sfuel cfg controls points x e = (Some (Ok rows), e') /\
    length rows = length points /\
    forall i t0 t1 u v, nth_error points i = Some t0 -> nth_error points (S i) = Some t1 ->
      nth_error rows i = Some u -> nth_error rows (S i) = Some v ->
      exists c e0 e1, current_controls controls t1 = Ok c /\ prepare e0 t0 t1 u c = Ok e1 /\
        network_equations_within (net e1) (tolerance (newton cfg)) t0 t1 u v (control_vector c).
Proof.
  intros E LU n net prepare factor linsolve fuel sfuel cfg controls points x e HN HB HC HP X (Ht & Ht') Hm Hs Hl.
  assert (Run : exists rows e', simulate (network_problem E LU n net prepare factor linsolve) fuel sfuel cfg controls points x e = (Some (Ok rows), e')).
  { unfold simulate. destruct points as [|t0 [|t1 rest]]; [cbn in Hl; lia..|].
    destruct (HC t1 ltac:(right; left; reflexivity)) as (c & ->).
    destruct (steps_finish n net prepare factor linsolve X fuel sfuel cfg controls Ht Hm Hs HN HP (t1 :: rest)
      ltac:(intros; apply HB; right; assumption) ltac:(intros; apply HC; right; assumption) t0 x x e) as (rows & e' & ->). eauto. }
  destruct Run as (rows & e' & H). exists rows, e'. split; [exact H|].
  destruct (C90_simulation E LU n net prepare factor linsolve fuel sfuel cfg controls points x e rows e'
    ltac:(intro e2; destruct (HN e2) as (W & S & _ & Hn); split; [exact W|split; [exact (short_pipes _ S)|exact Hn]]) HB ltac:(lia) Ht' H) as (L & _ & K).
  split; [exact L|]. intros i t0 t1 u v P0 P1 R0 R1. destruct (K i t0 t1 u v P0 P1 R0 R1) as (c & e0 & e1 & Hc & Q). exists c, e0, e1. split; [|exact Q].
  unfold current_controls. destruct Hc as [(-> & ->)|(Hc & Hi)]; [reflexivity|]. apply Nat.ltb_lt in Hc. rewrite Hc. exact Hi.
Qed.
Print Assumptions C109_simulation.

(** Case: a compressor that feeds two sinks, the edges pointing in different directions. *)
Definition branched : network :=
  mkNet [Pressurenode (fun t => Ok (v2 (50 + t) 0)); Innode; Flownode true (fun _ => Ok (v2 10 0)); Flownode true (fun _ => Ok (v2 7 0))]
        [mkEdge 0 1 (ECompressor 1); mkEdge 1 2 EShortpipe; mkEdge 3 1 EControlvalve].
Lemma branched_formed : well_formed branched.
Proof. repeat constructor; cbn; auto; lia. Qed.
Lemma branched_short : short_net branched.
Proof.
  split; [|intros e [<-|[<-|[<-|[]]]]; exact Logic.I].
  intros j Hj. do 4 (destruct j as [|j]; [exact Logic.I|]). cbn in Hj. lia.
Qed.
Lemma branched_forest : forest branched.
Proof.
  exists (fun i => match i with 0 => 1 | 1 => 2 | _ => 3 end)%nat, (fun j => match j with 0 => 0 | 1 => 1 | _ => 2 end)%nat. split; [|split].
  - intros i e H. destruct i as [|[|[|i]]]; cbn in H; try (injection H as <-; cbn; split; [lia|exact Logic.I]). destruct i; discriminate.
  - intros i i' H H' E. cbn in H, H'. do 3 (destruct i as [|i]; [do 3 (destruct i' as [|i']; [cbn in E; lia|]); lia|]). lia.
  - intros e j _ _ B. destruct j as [|[|[|[|j]]]].
    + destruct B.
    + exists 0%nat. cbn. lia.
    + exists 1%nat. cbn. lia.
    + exists 2%nat. cbn. lia.
    + destruct j; destruct B.
Qed.
Lemma branched_defined t : boundary_defined branched t.
Proof. intro j. do 4 (destruct j as [|j]; [cbn; eauto|]). destruct j; exact Logic.I. Qed.
Definition branched_state : vec := fun k => nth k [53; 17; 58; 17; 58; 10; 58; 10; 61; -7; 58; -7] 0.
Example C109_case :
  well_formed branched /\ short_net branched /\ boundary_defined branched 3 /\ forest branched /\ setup_ok branched = true /\
  (forall last y, network_equations branched 2 3 last y (fun k => nth k [5; 3] 0) ->
     forall k, (k < 12)%nat -> y k = branched_state k).
Proof.
  split; [exact branched_formed|]. split; [exact branched_short|]. split; [apply branched_defined|]. split; [exact branched_forest|]. split; [reflexivity|].
  intros last y Y k Hk.
  pose proof (proj2 (C109_forest branched branched_formed branched_short) branched_forest) as D.
  refine (determined_unique branched 2 3 last y branched_state (fun k => nth k [5; 3] 0) branched_formed branched_short D Y _ k Hk).
  clear. split.
  - intros j t H. destruct j as [|[|[|[|j]]]]; [cbn in H; injection H as <-; cbn [node_equation]; intros _..|destruct j; discriminate].
    + eexists. split; [reflexivity|]. intros i e d H C T. do 3 (destruct i as [|i]; [cbn in H; injection H as <-; destruct d; cbn in T; try discriminate; cbn; lra|]). destruct i; discriminate.
    + split.
      * exists 58. intros i e d H C T. do 3 (destruct i as [|i]; [cbn in H; injection H as <-; destruct d; cbn in T; try discriminate; cbn; lra|]). destruct i; discriminate.
      * unfold net_outflow, flow_at. cbn. lra.
    + eexists. split; [reflexivity|]. split.
      * exists 58. intros i e d H C T. do 3 (destruct i as [|i]; [cbn in H; injection H as <-; destruct d; cbn in T; try discriminate; cbn; lra|]). destruct i; discriminate.
      * unfold net_outflow, flow_at. cbn. lra.
    + eexists. split; [reflexivity|]. split.
      * exists 61. intros i e d H C T. do 3 (destruct i as [|i]; [cbn in H; injection H as <-; destruct d; cbn in T; try discriminate; cbn; lra|]). destruct i; discriminate.
      * unfold net_outflow, flow_at. cbn. lra.
  - intros i e H. do 3 (destruct i as [|i]; [cbn in H; injection H as <-; cbn; lra|]). destruct i; discriminate.
Qed.
(** Case: the linear solver of C90_case solves all systems of its network, so every simulation of it ends normally. *)
Example C109_run_case :
  well_formed rising_net /\ short_net rising_net /\ forest rising_net /\
  solves_exactly 4 (fun _ : unit => rising_net) (fun _ _ _ _ _ _ => Some tt) rising_solve /\
  forall x, exists y z, simulate rising_problem 0 1 sim_settings none [0; 1; 2] x tt = (Some (Ok [x; y; z]), tt).
Proof.
  assert (S : short_net rising_net).
  { split; [|intros e [<-|[]]; exact Logic.I]. intros j Hj. do 2 (destruct j as [|j]; [exact Logic.I|]). cbn in Hj. lia. }
  assert (F : forest rising_net).
  { exists (fun _ => 1%nat), (fun j => j). split; [|split].
    - intros i e H. destruct i as [|i]; cbn in H; [injection H as <-; cbn; split; [lia|exact Logic.I]|destruct i; discriminate].
    - intros i i' H H' _. cbn in H, H'. lia.
    - intros e j _ _ B. exists 0%nat. destruct j as [|[|j]]; [destruct B|cbn; lia|destruct j; destruct B]. }
  assert (X : solves_exactly 4 (fun _ : unit => rising_net) (fun _ _ _ _ _ _ => Some tt) rising_solve).
  { intros e t0 t1 last c x ts E _. exists tt. split; [reflexivity|]. intros b r Hr.
    cbn in E. injection E as <-. do 4 (destruct r as [|r]; [cbn; ring|]). lia. }
  split; [exact rising_well_formed|]. split; [exact S|]. split; [exact F|]. split; [exact X|]. intro x.
  destruct (C109_simulation unit unit 4 (fun _ => rising_net) (fun e _ _ _ _ => Ok e) (fun _ _ _ _ _ _ => Some tt) rising_solve 0 1 sim_settings none [0; 1; 2] x tt)
    as (rows & [] & H & L & _).
  - intros _. split; [exact rising_well_formed|]. split; [exact S|]. split; [exact (proj2 (C109_forest _ rising_well_formed S) F)|reflexivity].
  - intros. apply rising_boundary.
  - intros t _. exists []. reflexivity.
  - eauto.
  - exact X.
  - cbn. split; [|lra]. left. apply Rinv_0_lt_compat. lra.
  - cbn. lia.
  - lia.
  - cbn. lia.
  - destruct rows as [|x' [|y [|z [|w rows]]]]; try discriminate L. exists y, z. unfold rising_problem. rewrite H.
    assert (x' = x) as ->; [|reflexivity].
    destruct (C90_simulation unit unit 4 (fun _ => rising_net) (fun e _ _ _ _ => Ok e) (fun _ _ _ _ _ _ => Some tt) rising_solve 0 1 sim_settings none [0; 1; 2] x tt
      [x'; y; z] tt) as (_ & Hx & _); try exact H.
    + intros _. split; [exact rising_well_formed|]. split; [exact rising_pipes|reflexivity].
    + intros. apply rising_boundary.
    + cbn. lia.
    + cbn. lra.
    + cbn in Hx. injection Hx as ->. reflexivity.
Qed.
