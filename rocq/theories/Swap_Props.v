(** * Property C120: other boundary conditions at a node *)
From Coq Require Import Reals ZArith Lra Lia List Arith.
From Coquelicot Require Import Complex.
From Verif Require Import Base Calc Euler_Model Euler_Spec Box_Model Net_Model Net_Spec Net_Props.
From Verif Require Import Swap_Spec Swap_Proofs.
Import ListNotations.
Local Open Scope R_scope.

(** A node with given pressure can be replaced by one with the inflow that results, and vice versa. *)
Theorem C120_gas : forall N j t0 t1 last x c pr q, is_gas_node N j -> has_gas_edge N j ->
  (network_equations (with_node N j (given_inflow q)) t0 t1 last x c /\ equal_pressures N j x pr <->
   network_equations (with_node N j (given_pressure pr)) t0 t1 last x c /\ net_outflow N j x = q).
Proof.
  intros N j t0 t1 last x c pr q Hg Hh. unfold is_gas_node in Hg. destruct (nth_error (nodes N) j) as [t|] eqn:Hj; [|destruct Hg].
  assert (A1 : alike t (given_inflow q)) by (destruct t; cbn; auto). assert (A2 : alike t (given_pressure pr)) by (destruct t; cbn; auto).
  split; intros (E & P).
  - assert (Q : net_outflow N j x = q).
    { pose proof (with_node_alike N j t Hj _ A1) as F. destruct E as (E & _). specialize (E j (given_inflow q)). rewrite (with_node_nth N j t Hj), Nat.eqb_refl in E.
      specialize (E eq_refl). apply (alike_node_equation N (with_node N j _) eq_refl F) in E. destruct (E Hh) as (v & Hv & _ & O). injection Hv as <-. exact O. }
    split; [|exact Q]. apply (with_node_equations N j t Hj _ _ t0 t1 last x c A1 A2); [|exact E]. intros _ _. eexists. split; [reflexivity|exact P].
  - assert (Q : equal_pressures N j x pr).
    { pose proof (with_node_alike N j t Hj _ A2) as F. destruct E as (E & _). specialize (E j (given_pressure pr)). rewrite (with_node_nth N j t Hj), Nat.eqb_refl in E.
      specialize (E eq_refl). apply (alike_node_equation N (with_node N j _) eq_refl F) in E. destruct (E Hh) as (v & Hv & O). injection Hv as <-. exact O. }
    split; [|exact Q]. apply (with_node_equations N j t Hj _ _ t0 t1 last x c A2 A1); [|exact E]. intros _ _. eexists. split; [reflexivity|]. split; [eexists; exact Q|exact P].
Qed.
Print Assumptions C120_gas.

(** A source is a sink with the opposite value, and a node without boundary values is a source of nothing. *)
Theorem C120_source : forall N j t0 t1 last x c q, is_gas_node N j ->
  (network_equations (with_node N j (given_inflow q)) t0 t1 last x c <-> network_equations (with_node N j (given_outflow (- q))) t0 t1 last x c) /\
  (network_equations (with_node N j (given_inflow 0)) t0 t1 last x c <-> network_equations (with_node N j Innode) t0 t1 last x c).
Proof.
  intros N j t0 t1 last x c q Hg. unfold is_gas_node in Hg. destruct (nth_error (nodes N) j) as [t|] eqn:Hj; [|destruct Hg].
  assert (A1 : forall q, alike t (given_inflow q)) by (intro; destruct t; cbn; auto). assert (A2 : alike t (given_outflow (- q))) by (destruct t; cbn; auto).
  assert (A3 : alike t Innode) by (destruct t; cbn; auto).
  split; split; apply (with_node_equations N j t Hj); auto; intros E Hh.
  - destruct (E Hh) as (v & Hv & P & O). injection Hv as <-. eexists. split; [reflexivity|]. split; [exact P|]. cbn in *. lra.
  - destruct (E Hh) as (v & Hv & P & O). injection Hv as <-. eexists. split; [reflexivity|]. split; [exact P|]. cbn in *. lra.
  - destruct (E Hh) as (v & Hv & P & O). injection Hv as <-. split; [exact P|exact O].
  - destruct (E Hh) as (P & O). eexists. split; [reflexivity|]. split; [exact P|exact O].
Qed.
Print Assumptions C120_source.

(** At a power node any two of the four values that a power node can be given lead to the same solutions. *)
Theorem C120_power : forall N j k k' kind external G B b t0 t1 last x c P Q V phi,
  nth_error (nodes N) j = Some (Powernode kind external G B b) -> has_power N j G B x P Q V phi ->
  (network_equations (with_node N j (given_power k external G B P Q V phi)) t0 t1 last x c <->
   network_equations (with_node N j (given_power k' external G B P Q V phi)) t0 t1 last x c).
Proof.
  assert (H : forall N j k k' kind external G B b t0 t1 last x c P Q V phi,
    nth_error (nodes N) j = Some (Powernode kind external G B b) -> has_power N j G B x P Q V phi ->
    network_equations (with_node N j (given_power k external G B P Q V phi)) t0 t1 last x c ->
    network_equations (with_node N j (given_power k' external G B P Q V phi)) t0 t1 last x c).
  { intros N j k k' kind external G B b t0 t1 last x c P Q V phi Hj (H1 & H2 & H3).
    apply (with_node_equations N j _ Hj); [split; reflexivity|split; reflexivity|]. intros _. eexists. split; [reflexivity|].
    destruct k'; [exact H1|split; [exact (f_equal fst H1)|exact H2]|split; assumption]. }
  intros. split; eapply H; eassumption.
Qed.
Print Assumptions C120_power.

(** The solution of a network is a solution of that with the other boundary condition, with the values that it has. *)
Theorem C120_read_off : forall N j t t' t0 t1 last x c,
  nth_error (nodes N) j = Some t -> reads_off N j x t t' ->
  network_equations N t0 t1 last x c -> network_equations (with_node N j t') t0 t1 last x c.
Proof.
  intros N j t t' t0 t1 last x c Hj M (E & F).
  assert (A : alike t t').
  { destruct t, t'; cbn; auto. destruct M as (k1 & P & Q & V & phi & _ & M). injection M as -> -> -> -> ->. auto. }
  pose proof (with_node_alike N j t Hj t' A) as AF. split.
  - intros j0 u Hu. apply (alike_node_equation N (with_node N j _) eq_refl AF). rewrite (with_node_nth N j t Hj) in Hu.
    destruct (Nat.eqb_spec j0 j) as [->|Ne]; [|apply E; exact Hu]. injection Hu as <-. specialize (E j t Hj).
    assert (Gas : match t with Powernode _ _ _ _ _ => False | _ => True end -> node_equation N j t' t1 x).
    { intro Gt. assert (HP : has_gas_edge N j -> exists pr, equal_pressures N j x pr).
      { intro Hh. destruct t as [|sink b|b|]; [|destruct (E Hh) as (v & _ & P & _); exact P|destruct (E Hh) as (v & _ & P); eauto|destruct Gt]. apply (E Hh). }
      destruct t' as [|sink b|b|k' ext' G' B' b'].
      - intro Hh. split; [exact (HP Hh)|]. destruct t; try destruct Gt; exact M.
      - assert (M' : Flownode sink b = if sink then given_outflow (- net_outflow N j x) else given_inflow (net_outflow N j x)) by (destruct t; try destruct Gt; exact M).
        intro Hh. destruct sink; injection M' as ->; (eexists; split; [reflexivity|]); (split; [exact (HP Hh)|]); cbn; lra.
      - assert (M' : exists pr, equal_pressures N j x pr /\ Pressurenode b = given_pressure pr) by (destruct t; try destruct Gt; exact M).
        destruct M' as (pr & Q & M'). injection M' as ->. intro Hh. eexists. split; [reflexivity|exact Q].
      - destruct t; try destruct Gt; destruct M. }
    destruct t as [| | |k ext G B b]; [apply Gas; exact Logic.I..|]. destruct t' as [| | |k' ext' G' B' b']; try contradiction M.
    destruct M as (k0 & P & Q & V & phi & (H1 & H2 & H3) & M'). injection M' as -> -> -> -> ->. eexists. split; [reflexivity|].
    destruct k0; [exact H1|split; [exact (f_equal fst H1)|exact H2]|split; assumption].
  - intros i e Hi. apply (alike_edge_equation N (with_node N j _) eq_refl AF). apply F. exact Hi.
Qed.
Print Assumptions C120_read_off.

Theorem C120_residual : forall N j t t' t0 t1 last x c v,
  well_formed N -> pipes_ok N -> boundary_defined N t1 -> nth_error (nodes N) j = Some t -> reads_off N j x t t' ->
  exists r r', evaluate N t0 t1 last x c v = Ok r /\ evaluate (with_node N j t') t0 t1 last x c v = Ok r' /\
    ((forall k, (k < number_of_states N)%nat -> r k = 0) -> forall k, (k < number_of_states N)%nat -> r' k = 0).
Proof.
  intros N j t t' t0 t1 last x c v W HP HB Hj M.
  assert (A : alike t t').
  { destruct t, t'; cbn; auto. destruct M as (k1 & P & Q & V & phi & _ & M). injection M as -> -> -> -> ->. auto. }
  pose proof (with_node_alike N j t Hj t' A) as AF.
  assert (W' : well_formed (with_node N j t')) by (apply (alike_well_formed N); auto).
  assert (HB' : boundary_defined (with_node N j t') t1).
  { intro j0. rewrite (with_node_nth N j t Hj). specialize (HB j0). destruct (Nat.eqb_spec j0 j) as [->|Ne]; [|exact HB].
    assert (Ex : match t' with Flownode _ b | Pressurenode b | Powernode _ _ _ _ b => exists v, b t1 = Ok v | Innode => True end).
    { destruct t as [|sink0 b0|b0|k0 ext0 G0 B0 b0], t' as [|sink b|b|k' ext' G' B' b']; cbn in M; try contradiction M; try exact Logic.I;
        try (destruct sink; injection M as ->; eexists; reflexivity); try (destruct M as (pr & _ & M); injection M as ->; eexists; reflexivity).
      destruct M as (k1 & P & Q & V & phi & _ & M). injection M as -> -> -> -> ->. eexists; reflexivity. }
    destruct t'; exact Ex. }
  destruct (C54_solution N t0 t1 last x c v W HP HB) as (r & E & Z). destruct (C54_solution _ t0 t1 last x c v W' (alike_pipes N (with_node N j t') eq_refl HP) HB') as (r' & E' & Z').
  rewrite (alike_total N (with_node N j t') eq_refl AF) in Z'.
  exists r, r'. split; [exact E|]. split; [exact E'|]. rewrite Z, Z'. apply C120_read_off with (t := t); assumption.
Qed.
Print Assumptions C120_residual.

(** A short pipe from a node with given pressure to a sink; the node with given pressure is also a source of the same
    flow, and the sink a node with the same pressure. *)
Definition short_net : network := mkNet [given_pressure 50; given_outflow 3] [mkEdge 0 1 EShortpipe].
Definition short_state : vec := fun k => nth k [50; 3; 50; 3] 0.
Example C120_case :
  well_formed short_net /\ network_equations short_net 0 1 short_state short_state (fun _ => 0) /\
  reads_off short_net 0 short_state (given_pressure 50) (given_inflow 3) /\
  reads_off short_net 1 short_state (given_outflow 3) (given_pressure 50) /\
  with_node short_net 0 (given_inflow 3) = mkNet [given_inflow 3; given_outflow 3] [mkEdge 0 1 EShortpipe].
Proof.
  assert (B0 : edge_block short_net 0 = (0, 4)%nat) by reflexivity.
  assert (P0 : equal_pressures short_net 0 short_state 50).
  { intros [|i] e d H _ T; [|destruct i; discriminate]. injection H as <-. destruct d; [reflexivity|discriminate T]. }
  assert (P1 : equal_pressures short_net 1 short_state 50).
  { intros [|i] e d H _ T; [|destruct i; discriminate]. injection H as <-. destruct d; [discriminate T|reflexivity]. }
  assert (O0 : net_outflow short_net 0 short_state = 3) by (unfold net_outflow, flow_at, end_position; cbn; lra).
  assert (O1 : net_outflow short_net 1 short_state = -3) by (unfold net_outflow, flow_at, end_position; cbn; lra).
  split; [unfold well_formed; cbn [short_net edges]; repeat constructor; cbn; auto; discriminate|]. split.
  - split.
    + intros [|[|j]] t H; [injection H as <-|injection H as <-|destruct j; discriminate]; intros _; (eexists; split; [reflexivity|]).
      * exact P0.
      * split; [exists 50; exact P1|]. rewrite O1. cbn. lra.
    + intros [|i] e H; [|destruct i; discriminate]. injection H as <-. split; reflexivity.
  - split; [|split; [|reflexivity]].
    + cbn -[net_outflow]. rewrite O0. reflexivity.
    + exists 50. split; [exact P1|reflexivity].
Qed.
