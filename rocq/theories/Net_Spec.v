(** * Specification of the network equations *)
From Coq Require Import Reals List Arith.
From Coquelicot Require Import Complex.
From Verif Require Import Base Calc Euler_Model Euler_Spec Box_Model Net_Model.
Import ListNotations.
Local Open Scope R_scope.

(** The matrix made of a list of contributions: each entry is the sum of the contributions to
    it (the meaning of Eigen's setFromTriplets). *)
Definition matrix_of (ts : list entry) : mat := fun r c =>
  fold_right (fun t acc => (if (Nat.eqb (fst (fst t)) r && Nat.eqb (snd (fst t)) c)%bool
                            then snd t else 0) + acc) 0 ts.

(** The rows that are assigned a value, with repetitions. *)
Definition assigned (ws : list write) : list nat :=
  flat_map (fun w => match w with Assign i _ => [i] | AddTo _ _ => [] end) ws.

(** Pressure (bar) and volumetric flow at the end of a gas edge: pipes store density and flow,
    the other edges pressure and flow. *)
Definition end_index (d : direction) (e : gasedge) : nat :=
  match d with dstart => ge_start e | dend => (ge_after e - 2)%nat end.
Definition end_pressure (de : direction * gasedge) (x : vec) : R :=
  let i := end_index (fst de) (snd de) in
  match ge_kind (snd de) with Pipe _ _ _ => p (x i) / bar | _ => x i end.
Definition end_flow (de : direction * gasedge) (x : vec) : R :=
  x (end_index (fst de) (snd de) + 1)%nat.
(** The row of an edge end. *)
Definition end_row (de : direction * gasedge) : nat :=
  match fst de with dstart => ge_start (snd de) | dend => (ge_after (snd de) - 1)%nat end.
(** The edge has an end state there: every edge has a start, edges with two variables no end. *)
Definition has_end (de : direction * gasedge) : Prop :=
  match fst de with
  | dstart => True
  | dend => (ge_start (snd de) + 4 <= ge_after (snd de))%nat
  end.

Fixpoint rsum {A} (f : A -> R) (l : list A) : R :=
  match l with [] => 0 | a :: m => f a + rsum f m end.

(** ** Which edges may be attached to which nodes *)
Definition is_gas_node (N : network) (j : nat) : Prop :=
  match nth_error (nodes N) j with
  | Some Innode | Some (Flownode _ _) | Some (Pressurenode _) => True
  | _ => False
  end.
Definition is_power_node (N : network) (j : nat) : Prop :=
  match nth_error (nodes N) j with Some (Powernode _ _ _ _ _) => True | _ => False end.
Definition edge_ok (N : network) (e : edge) : Prop :=
  e_from e <> e_to e /\
  match e_type e with
  | EPipe _ _ _ n => (2 <= n)%nat /\ is_gas_node N (e_from e) /\ is_gas_node N (e_to e)
  | EShortpipe | ECompressor _ | EControlvalve => is_gas_node N (e_from e) /\ is_gas_node N (e_to e)
  | EGaspower _ _ => is_gas_node N (e_from e) /\ is_power_node N (e_to e)
  | ELine _ _ => is_power_node N (e_from e) /\ is_power_node N (e_to e)
  end.
Definition well_formed (N : network) : Prop := Forall (edge_ok N) (edges N).

(** The network has boundary values at time [t] for all nodes that need them. *)
Definition boundary_defined (N : network) (t : R) : Prop :=
  forall j, match nth_error (nodes N) j with
            | Some (Flownode _ b) | Some (Pressurenode b) | Some (Powernode _ _ _ _ b) =>
                exists v, b t = Ok v
            | _ => True
            end.
(** The pipe data is in the range where the friction law makes sense, and the grid width is
    positive. *)
Definition pipes_ok (N : network) : Prop :=
  Forall (fun e => match e_type e with EPipe d k dx _ => geometry d k /\ 0 < dx | _ => True end) (edges N).

(** Every grid point of every pipe has positive density, and the flow is not turbulent (the
    Jacobian of turbulent friction is wrong, see C25). *)
Definition regular_state (N : network) (x : vec) : Prop :=
  forall i e, nth_error (edges N) i = Some e ->
    match e_type e with
    | EPipe d k _ n => forall m, (m < n)%nat ->
        let g := seg x (fst (edge_block N i) + 2 * m) in
        0 < g 0%nat /\ Reynolds (g 1%nat) d < 4000
    | _ => True
    end.

(** ** The equations of the network *)

(** Position of the variables at the end of an edge, pressure (bar) and flow there. *)
Definition end_position (N : network) (i : nat) (d : direction) : nat :=
  match d with dstart => fst (edge_block N i) | dend => (snd (edge_block N i) - 2)%nat end.
Definition pressure_at (N : network) (i : nat) (e : edge) (d : direction) (x : vec) : R :=
  match e_type e with
  | EPipe _ _ _ _ => p (x (end_position N i d)) / bar
  | _ => x (end_position N i d)
  end.
Definition flow_at (N : network) (i : nat) (d : direction) (x : vec) : R :=
  x (end_position N i d + 1)%nat.
Definition carries_gas (e : edge) : bool := match e_type e with ELine _ _ => false | _ => true end.
Definition touches (e : edge) (d : direction) (j : nat) : Prop :=
  match d with dstart => e_from e = j | dend => e_to e = j end.

(** At node [j] all pressures agree. *)
Definition equal_pressures (N : network) (j : nat) (x : vec) (pressure : R) : Prop :=
  forall i e d, nth_error (edges N) i = Some e -> carries_gas e = true -> touches e d j ->
    pressure_at N i e d x = pressure.
(** What flows out of node [j] minus what flows in. *)
Definition net_outflow (N : network) (j : nat) (x : vec) : R :=
  rsum (fun ie => if carries_gas (snd ie)
                  then (if Nat.eqb (e_from (snd ie)) j then flow_at N (fst ie) dstart x else 0)
                       - (if Nat.eqb (e_to (snd ie)) j then flow_at N (fst ie) dend x else 0)
                  else 0) (numbered N).
Definition has_gas_edge (N : network) (j : nat) : Prop :=
  exists i e d, nth_error (edges N) i = Some e /\ carries_gas e = true /\ touches e d j.

(** Complex voltage, injected current and complex power at node [j]: S = V conj(I), where the
    current is the sum over the admittances times the voltages. *)
Definition voltage (N : network) (j : nat) (x : vec) : C :=
  let s := fst (node_block N j) in (x s * cos (x (s + 1)%nat), x s * sin (x (s + 1)%nat)).
Definition csum {A} (f : A -> C) (l : list A) : C := fold_right (fun a acc => Cplus (f a) acc) (RtoC 0) l.
Definition current (N : network) (j : nat) (G B : R) (x : vec) : C :=
  Cplus (Cmult (G, B) (voltage N j x))
    (csum (fun e => match e_type e with
                    | ELine g b =>
                        Cplus (if Nat.eqb (e_from e) j then Cmult (g, b) (voltage N (e_to e) x) else RtoC 0)
                              (if Nat.eqb (e_to e) j then Cmult (g, b) (voltage N (e_from e) x) else RtoC 0)
                    | _ => RtoC 0
                    end) (edges N)).
Definition power (N : network) (j : nat) (G B : R) (x : vec) : C :=
  Cmult (voltage N j x) (Cconj (current N j G B x)).

Definition node_equation (N : network) (j : nat) (t : nodetype) (time : R) (x : vec) : Prop :=
  match t with
  | Innode => has_gas_edge N j ->
      (exists pr, equal_pressures N j x pr) /\ net_outflow N j x = 0
  | Flownode sink b => has_gas_edge N j -> exists v, b time = Ok v /\
      (exists pr, equal_pressures N j x pr) /\ net_outflow N j x = (if sink then - v 0%nat else v 0%nat)
  | Pressurenode b => has_gas_edge N j -> exists v, b time = Ok v /\ equal_pressures N j x (v 0%nat)
  | Powernode k _ G B b => exists v, b time = Ok v /\
      let V := x (fst (node_block N j)) in
      let phi := x (fst (node_block N j) + 1)%nat in
      match k with
      | PQ => power N j G B x = (v 0%nat, v 1%nat)
      | PV => fst (power N j G B x) = v 0%nat /\ V = v 1%nat
      | Vphi => V = v 0%nat /\ phi = v 1%nat
      end
  end.

(** The balance law in one cell of a pipe, by the trapezoidal rule in space and implicit Euler in
    time: change of the content = inflow - outflow + source. *)
Definition cell_balanced (d k dx t0 t1 : R) (last_left last_right left right : vec) : Prop :=
  exists sl sr, source d k left = Ok sl /\ source d k right = Ok sr /\
  forall c, (c < 2)%nat ->
    dx * ((left c + right c) / 2) - dx * ((last_left c + last_right c) / 2)
    = (t1 - t0) * (flux d left c - flux d right c) + (t1 - t0) * dx * ((sl c + sr c) / 2).

Definition edge_equation (N : network) (i : nat) (e : edge) (t0 t1 : R) (last x control : vec) : Prop :=
  let s := fst (edge_block N i) in
  match e_type e with
  | EPipe d k dx np => forall m, (m + 1 < np)%nat ->
      cell_balanced d k dx t0 t1 (seg last (s + 2 * m)) (seg last (s + 2 * (m + 1)))
        (seg x (s + 2 * m)) (seg x (s + 2 * (m + 1)))
  | EShortpipe => x (s + 2)%nat = x s /\ x (s + 3)%nat = x (s + 1)%nat
  | ECompressor _ => x (s + 2)%nat = x s + control (fst (control_block N i)) /\
                     x (s + 3)%nat = x (s + 1)%nat
  | EControlvalve => x (s + 2)%nat = x s - control (fst (control_block N i)) /\
                     x (s + 3)%nat = x (s + 1)%nat
  | EGaspower g2p p2g => exists w, generated_power g2p p2g (x (s + 1)%nat) = Ok w /\
      match nth_error (nodes N) (e_to e) with
      | Some (Powernode _ _ G B _) => fst (power N (e_to e) G B x) = w
      | _ => False
      end
  | ELine _ _ => True
  end.

Definition network_equations (N : network) (t0 t1 : R) (last x control : vec) : Prop :=
  (forall j t, nth_error (nodes N) j = Some t -> node_equation N j t t1 x) /\
  (forall i e, nth_error (edges N) i = Some e -> edge_equation N i e t0 t1 last x control).

(** The contributions [dj] of one component are the Jacobian (with [n] columns) of the rows it
    writes, and nothing is contributed to other rows. *)
Definition component_jacobian (n : nat) (rows : list nat) (ev : vec -> outcome (list write)) (u : vec)
    (dj : outcome (list entry)) : Prop :=
  exists ts d (W : vec -> list write), dj = Ok ts /\ 0 < d /\
    (forall x, (forall k, Rabs (x k - u k) < d) -> ev x = Ok (W x) /\ assigned (W x) = rows) /\
    (forall r c, ~ (In r rows /\ (c < n)%nat) -> matrix_of ts r c = 0) /\
    forall r v, In r rows -> gradient n (fun x => run_writes (W x) v r) u (matrix_of ts r).

(** What the constructors of the edges check (Edge.cpp:37-50). *)
Definition constructible (N : network) : Prop :=
  Forall (fun e => e_from e <> e_to e /\
                   (e_from e < length (nodes N))%nat /\ (e_to e < length (nodes N))%nat) (edges N).
