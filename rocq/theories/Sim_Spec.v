(** * The equations of the network up to a tolerance *)
From Coq Require Import Reals List Arith.
From Coquelicot Require Import Complex.
From Verif Require Import Base Calc Euler_Model Euler_Spec Box_Model Net_Model Net_Spec.
Import ListNotations.
Local Open Scope R_scope.

Definition within (eps a b : R) : Prop := Rabs (a - b) <= eps.

(** Number of ends of gas edges at node [j]. *)
Definition gas_ends (N : network) (j : nat) : nat :=
  (length (filter (fun e => carries_gas e && Nat.eqb (e_from e) j)%bool (edges N))
   + length (filter (fun e => carries_gas e && Nat.eqb (e_to e) j)%bool (edges N)))%nat.

(** The pressures at node [j] agree, pairwise, up to [eps] ... *)
Definition close_pressures (N : network) (j : nat) (x : vec) (eps : R) : Prop :=
  forall i e d i' e' d',
    nth_error (edges N) i = Some e -> carries_gas e = true -> touches e d j ->
    nth_error (edges N) i' = Some e' -> carries_gas e' = true -> touches e' d' j ->
    within eps (pressure_at N i e d x) (pressure_at N i' e' d' x).
(** ... or with a given pressure. *)
Definition pressures_near (N : network) (j : nat) (x : vec) (pressure eps : R) : Prop :=
  forall i e d, nth_error (edges N) i = Some e -> carries_gas e = true -> touches e d j ->
    within eps (pressure_at N i e d x) pressure.

(** The solver compares neighbouring edges at a node, so with [k] ends the pressures may differ
    by up to [k - 1] times the tolerance. *)
Definition node_equation_within (N : network) (eps : R) (j : nat) (t : nodetype) (time : R) (x : vec) : Prop :=
  match t with
  | Innode => has_gas_edge N j ->
      close_pressures N j x (INR (gas_ends N j - 1) * eps) /\ within eps (net_outflow N j x) 0
  | Flownode sink b => has_gas_edge N j -> exists v, b time = Ok v /\
      close_pressures N j x (INR (gas_ends N j - 1) * eps) /\
      within eps (net_outflow N j x) (if sink then - v 0%nat else v 0%nat)
  | Pressurenode b => has_gas_edge N j -> exists v, b time = Ok v /\ pressures_near N j x (v 0%nat) eps
  | Powernode k _ G B b => exists v, b time = Ok v /\
      let V := x (fst (node_block N j)) in
      let phi := x (fst (node_block N j) + 1)%nat in
      match k with
      | PQ => within eps (fst (power N j G B x)) (v 0%nat) /\ within eps (snd (power N j G B x)) (v 1%nat)
      | PV => within eps (fst (power N j G B x)) (v 0%nat) /\ within eps V (v 1%nat)
      | Vphi => within eps V (v 0%nat) /\ within eps phi (v 1%nat)
      end
  end.

(** In a cell of width [dx] the balance of mass and momentum holds up to [dx] times the
    tolerance. *)
Definition cell_balanced_within (eps d k dx t0 t1 : R) (last_left last_right left right : vec) : Prop :=
  exists sl sr, source d k left = Ok sl /\ source d k right = Ok sr /\
  forall c, (c < 2)%nat ->
    within (dx * eps)
      (dx * ((left c + right c) / 2) - dx * ((last_left c + last_right c) / 2))
      ((t1 - t0) * (flux d left c - flux d right c) + (t1 - t0) * dx * ((sl c + sr c) / 2)).

Definition edge_equation_within (N : network) (eps : R) (i : nat) (e : edge) (t0 t1 : R)
    (last x control : vec) : Prop :=
  let s := fst (edge_block N i) in
  match e_type e with
  | EPipe d k dx np => forall m, (m + 1 < np)%nat ->
      cell_balanced_within eps d k dx t0 t1 (seg last (s + 2 * m)) (seg last (s + 2 * (m + 1)))
        (seg x (s + 2 * m)) (seg x (s + 2 * (m + 1)))
  | EShortpipe => within eps (x (s + 2)%nat) (x s) /\ within eps (x (s + 3)%nat) (x (s + 1)%nat)
  | ECompressor _ => within eps (x (s + 2)%nat) (x s + control (fst (control_block N i))) /\
                     within eps (x (s + 3)%nat) (x (s + 1)%nat)
  | EControlvalve => within eps (x (s + 2)%nat) (x s - control (fst (control_block N i))) /\
                     within eps (x (s + 3)%nat) (x (s + 1)%nat)
  | EGaspower g2p p2g => exists w, generated_power g2p p2g (x (s + 1)%nat) = Ok w /\
      match nth_error (nodes N) (e_to e) with
      | Some (Powernode _ _ G B _) => within eps (fst (power N (e_to e) G B x)) w
      | _ => False
      end
  | ELine _ _ => True
  end.

Definition network_equations_within (N : network) (eps t0 t1 : R) (last x control : vec) : Prop :=
  (forall j t, nth_error (nodes N) j = Some t -> node_equation_within N eps j t t1 x) /\
  (forall i e, nth_error (edges N) i = Some e -> edge_equation_within N eps i e t0 t1 last x control).
