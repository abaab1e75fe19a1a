(** * The balance of gas in the whole network *)
From Coq Require Import Reals List Arith.
From Verif Require Import Base Calc Euler_Model Box_Model Net_Model Net_Spec Sim_Spec.
Import ListNotations.
Local Open Scope R_scope.

(** Mass of the gas in the pipes: trapezoidal rule for the density times the area. *)
Definition linepack (N : network) (x : vec) : R :=
  rsum (fun ie => match e_type (snd ie) with
                  | EPipe d _ dx np =>
                      circle_area (/ 2 * d) *
                      rsum (fun m => dx * ((x (fst (edge_block N (fst ie)) + 2 * m)%nat
                                            + x (fst (edge_block N (fst ie)) + 2 * (m + 1))%nat) / 2))
                           (seq 0 (np - 1))
                  | _ => 0
                  end) (numbered N).

(** What a node feeds into the network at time [time]: the prescribed flow of sources and sinks,
    whatever flows at nodes with prescribed pressure. *)
Definition supply (N : network) (time : R) (x : vec) (j : nat) (t : nodetype) : R :=
  match t with
  | Flownode sink b =>
      if Nat.eqb (gas_ends N j) 0 then 0
      else match b time with Ok v => if sink then - v 0%nat else v 0%nat | _ => 0 end
  | Pressurenode _ => net_outflow N j x
  | Innode | Powernode _ _ _ _ _ => 0
  end.
Definition total_supply (N : network) (time : R) (x : vec) : R :=
  rsum (fun jt => supply N time x (fst jt) (snd jt)) (combine (seq 0 (length (nodes N))) (nodes N)).
(** What the gas power plants take. *)
Definition burnt (N : network) (x : vec) : R :=
  rsum (fun ie => match e_type (snd ie) with EGaspower _ _ => flow_at N (fst ie) dstart x | _ => 0 end) (numbered N).

(** The volume of all pipes, the number of nodes with a flow equation, the number of short
    edges. *)
Definition volume (N : network) : R :=
  rsum (fun e => match e_type e with
                 | EPipe d _ dx np => circle_area (/ 2 * d) * (INR (np - 1) * dx)
                 | _ => 0
                 end) (edges N).
Definition flow_equations (N : network) : nat :=
  length (filter (fun t => match t with Innode | Flownode _ _ => true | _ => false end) (nodes N)).
Definition short_edges (N : network) : nat :=
  length (filter (fun e => match e_type e with EShortpipe | ECompressor _ | EControlvalve => true | _ => false end)
            (edges N)).

(** Mass that entered the network between two times, with the flows of the later one. *)
Definition entered (N : network) (t0 t1 : R) (x : vec) : R :=
  (t1 - t0) * (rho_0 * (total_supply N t1 x - burnt N x)).
(** The error allowed for one step. *)
Definition mass_error (N : network) (eps t0 t1 : R) : R :=
  eps * (volume N + (t1 - t0) * (rho_0 * INR (flow_equations N + short_edges N))).

(** The same for all steps of a simulation. *)
Fixpoint entered_all (N : network) (points : list R) (rows : list vec) : R :=
  match points, rows with
  | t0 :: ((t1 :: _) as ps), _ :: ((x :: _) as rs) => entered N t0 t1 x + entered_all N ps rs
  | _, _ => 0
  end.
