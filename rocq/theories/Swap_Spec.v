(** * Specification: other boundary conditions at a node *)
From Coq Require Import Reals List Arith.
From Coquelicot Require Import Complex.
From Verif Require Import Base Calc Euler_Model Net_Model Net_Spec.
Import ListNotations.
Local Open Scope R_scope.

(** The network in which node [j] is [t]. *)
Definition with_node (N : network) (j : nat) (t : nodetype) : network :=
  mkNet (map (fun ju => if Nat.eqb (fst ju) j then t else snd ju) (combine (seq 0 (length (nodes N))) (nodes N))) (edges N).

(** Nodes with given inflow (a source), given pressure (bar). *)
Definition given_inflow (q : R) : nodetype := Flownode false (fun _ => Ok (v2 q 0)).
Definition given_outflow (q : R) : nodetype := Flownode true (fun _ => Ok (v2 q 0)).
Definition given_pressure (pr : R) : nodetype := Pressurenode (fun _ => Ok (v2 pr 0)).
(** Power nodes with two of the four given: real and reactive power, voltage and phase. *)
Definition given_power (k : powerkind) (external : bool) (G B : R) (P Q V phi : R) : nodetype :=
  Powernode k external G B (fun _ => Ok match k with PQ => v2 P Q | PV => v2 P V | Vphi => v2 V phi end).
(** The state has all four. *)
Definition has_power (N : network) (j : nat) (G B : R) (x : vec) (P Q V phi : R) : Prop :=
  power N j G B x = (P, Q) /\ x (fst (node_block N j)) = V /\ x (fst (node_block N j) + 1)%nat = phi.

(** The boundary values of [t'] are constant and are those that the state has at node [j]. *)
Definition reads_off (N : network) (j : nat) (x : vec) (t t' : nodetype) : Prop :=
  match t, t' with
  | Powernode _ external G B _, Powernode _ _ _ _ _ =>
      exists k P Q V phi, has_power N j G B x P Q V phi /\ t' = given_power k external G B P Q V phi
  | Powernode _ _ _ _ _, _ | _, Powernode _ _ _ _ _ => False
  | _, Pressurenode _ => exists pr, equal_pressures N j x pr /\ t' = given_pressure pr
  | _, Flownode sink _ => t' = if sink then given_outflow (- net_outflow N j x) else given_inflow (net_outflow N j x)
  | _, Innode => net_outflow N j x = 0
  end.
