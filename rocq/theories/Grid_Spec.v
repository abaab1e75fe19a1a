(** * Specification of power networks as a whole *)
From Coq Require Import Reals List Arith Bool.
From Coquelicot Require Import Complex.
From Verif Require Import Base Calc Net_Model Net_Spec.
Import ListNotations.
Local Open Scope R_scope.

(** ** Balance of power *)
(** The complex power fed into the network at node [j]. *)
Definition node_power (N : network) (x : vec) (j : nat) : C :=
  match nth_error (nodes N) j with
  | Some (Powernode _ _ G B _) => power N j G B x
  | _ => RtoC 0
  end.
Definition node_numbers (N : network) : list nat := seq 0 (length (nodes N)).
(** Active ([part] = fst) or reactive ([part] = snd) power fed in at all nodes together. *)
Definition fed_in (part : C -> R) (N : network) (x : vec) : R :=
  rsum (fun j => part (node_power N x j)) (node_numbers N).

Definition square (z : C) : R := fst z * fst z + snd z * snd z.
(** The admittance from node [j] to the ground: its own entry plus those of its lines (the entries of the lines
    are the negative admittances of the lines). *)
Definition to_ground (part : C -> R) (N : network) (j : nat) : R :=
  match nth_error (nodes N) j with
  | Some (Powernode _ _ G B _) =>
      part (G, B) +
      rsum (fun e => match e_type e with
                     | ELine g b => if (Nat.eqb (e_from e) j || Nat.eqb (e_to e) j)%bool then part (g, b) else 0
                     | _ => 0
                     end) (edges N)
  | _ => 0
  end.
(** Power that flows to the ground at the nodes, and power used up in the lines: admittance times square of the
    voltage. *)
Definition ground_power (part : C -> R) (N : network) (x : vec) : R :=
  rsum (fun j => to_ground part N j * square (voltage N j x)) (node_numbers N).
Definition line_power (part : C -> R) (N : network) (x : vec) : R :=
  rsum (fun e => match e_type e with
                 | ELine g b => - part (g, b) * square (Cminus (voltage N (e_from e) x) (voltage N (e_to e) x))
                 | _ => 0
                 end) (edges N).

(** No line and no connection to the ground produces power. *)
Definition passive (N : network) : Prop :=
  (forall e g b, In e (edges N) -> e_type e = ELine g b -> g <= 0) /\
  (forall j, 0 <= to_ground fst N j).

(** ** Islands: nodes that are not connected with others by lines *)
Definition island (N : network) (inside : nat -> bool) : Prop :=
  (forall e g b, In e (edges N) -> e_type e = ELine g b -> inside (e_from e) = inside (e_to e)) /\
  (exists j, inside j = true /\ is_power_node N j).
(** No node of the island fixes the phase. *)
Definition phase_free (N : network) (inside : nat -> bool) : Prop :=
  forall j e G B b, inside j = true -> nth_error (nodes N) j <> Some (Powernode Vphi e G B b).
(** The state [y] is the state [x] with all phases of the island turned by the angle [a]. *)
Definition turned (N : network) (inside : nat -> bool) (a : R) (x y : vec) : Prop :=
  (forall j, inside j = true -> is_power_node N j ->
     y (fst (node_block N j) + 1)%nat = x (fst (node_block N j) + 1)%nat + a) /\
  (forall k, (forall j, inside j = true -> is_power_node N j -> k <> (fst (node_block N j) + 1)%nat) -> y k = x k).

(** A square matrix without inverse: it maps a vector other than zero to zero. *)
Definition singular (n : nat) (A : mat) : Prop :=
  exists w : vec, (exists k, (k < n)%nat /\ w k <> 0) /\
    forall r, (r < n)%nat -> vsum n (fun k => A r k * w k) = 0.

(** Power prescribed at a node, and power delivered by the nodes with prescribed voltage and phase. *)
Definition given_power (N : network) (time : R) : R :=
  rsum (fun j => match nth_error (nodes N) j with
                 | Some (Powernode PQ _ _ _ b) | Some (Powernode PV _ _ _ b) =>
                     match b time with Ok v => v 0%nat | _ => 0 end
                 | _ => 0
                 end) (node_numbers N).
Definition slack_power (N : network) (x : vec) : R :=
  rsum (fun j => match nth_error (nodes N) j with
                 | Some (Powernode Vphi _ _ _ _) => fst (node_power N x j)
                 | _ => 0
                 end) (node_numbers N).
