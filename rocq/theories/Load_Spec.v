(** * What can be taken from a power network at a node *)
From Coq Require Import Reals List Arith Bool.
From Coquelicot Require Import Complex.
From Verif Require Import Base Calc Net_Model Net_Spec.
Import ListNotations.
Local Open Scope R_scope.

(** The absolute values of the admittances of the lines at node [j], each times a voltage [V] of its other end. *)
Definition line_reach (N : network) (V : nat -> R) (j : nat) : R :=
  rsum (fun e => match e_type e with
                 | ELine g b => (if Nat.eqb (e_from e) j then Cmod (g, b) * V (e_to e) else 0)
                                + (if Nat.eqb (e_to e) j then Cmod (g, b) * V (e_from e) else 0)
                 | _ => 0
                 end) (edges N).
Definition magnitude (N : network) (x : vec) (k : nat) : R := Cmod (voltage N k x).

(** Power [s] can flow at a node with own admittance [Y] to which the lines bring at most the current [reach]. *)
Definition carried (Y s : C) (reach : R) : Prop :=
  2 * (Cmod s * Cmod Y) <= reach * reach + 2 * (fst s * fst Y - snd s * snd Y).

(** The voltage that a node prescribes. *)
Definition given_voltage (N : network) (time : R) (k : nat) : option R :=
  match nth_error (nodes N) k with
  | Some (Powernode PV _ _ _ b) => match b time with Ok v => Some (v 1%nat) | _ => None end
  | Some (Powernode Vphi _ _ _ b) => match b time with Ok v => Some (v 0%nat) | _ => None end
  | _ => None
  end.
(** Node [j] prescribes a power that its lines, which all lead to nodes with given voltage, cannot carry, not even up
    to [eps]. *)
Definition overloaded (N : network) (eps time : R) (j : nat) : Prop :=
  exists ext G B bd v U,
    nth_error (nodes N) j = Some (Powernode PQ ext G B bd) /\ bd time = Ok v /\
    (forall e g b, In e (edges N) -> e_type e = ELine g b ->
       (e_from e = j -> exists u, given_voltage N time (e_to e) = Some u /\ Rabs u <= U (e_to e)) /\
       (e_to e = j -> exists u, given_voltage N time (e_from e) = Some u /\ Rabs u <= U (e_from e))) /\
    line_reach N (fun k => U k + eps) j * line_reach N (fun k => U k + eps) j
      + 2 * (v 0%nat * G - v 1%nat * B) + 8 * (eps * Cmod (G, B))
    < 2 * (Cmod (v 0%nat, v 1%nat) * Cmod (G, B)).

(** ** Networks in which the nodes with given power are joined only to nodes with given voltage and phase *)
Definition star_net (N : network) : Prop :=
  (forall j, (j < length (nodes N))%nat ->
     match nth_error (nodes N) j with
     | Some (Powernode PQ _ G B _) => (G, B) <> RtoC 0
     | Some (Powernode Vphi _ _ _ _) => True
     | _ => False
     end) /\
  (forall e, In e (edges N) -> (exists g b, e_type e = ELine g b) /\
     ~ (exists x1 G1 B1 b1 x2 G2 B2 b2, nth_error (nodes N) (e_from e) = Some (Powernode PQ x1 G1 B1 b1) /\
                                        nth_error (nodes N) (e_to e) = Some (Powernode PQ x2 G2 B2 b2))).
(** The complex voltages given at the time. *)
Definition given_phasor (N : network) (time : R) (k : nat) : C :=
  match nth_error (nodes N) k with
  | Some (Powernode Vphi _ _ _ b) =>
      match b time with Ok v => (v 0%nat * cos (v 1%nat), v 0%nat * sin (v 1%nat)) | _ => RtoC 0 end
  | _ => RtoC 0
  end.
(** The current that they send to node [j]. *)
Definition given_current (N : network) (time : R) (j : nat) : C :=
  csum (fun e => match e_type e with
                 | ELine g b =>
                     Cplus (if Nat.eqb (e_from e) j then Cmult (g, b) (given_phasor N time (e_to e)) else RtoC 0)
                           (if Nat.eqb (e_to e) j then Cmult (g, b) (given_phasor N time (e_from e)) else RtoC 0)
                 | _ => RtoC 0
                 end) (edges N).
(** At all nodes with given power the power can flow. *)
Definition loads_carried (N : network) (time : R) : Prop :=
  forall j ext G B b v, nth_error (nodes N) j = Some (Powernode PQ ext G B b) -> b time = Ok v ->
    carried (G, B) (v 0%nat, v 1%nat) (Cmod (given_current N time j)).

(** The two squares of the voltage at which a node with own admittance [Y] takes the power [s] from the current [reach]. *)
Definition square_root (high : bool) (Y s : C) (reach : R) : R :=
  let m := reach * reach + 2 * (fst s * fst Y - snd s * snd Y) in
  (m + (if high then 1 else -1) * sqrt (m * m - 4 * (Cmod s * Cmod s) * (Cmod Y * Cmod Y))) / (2 * (Cmod Y * Cmod Y)).
