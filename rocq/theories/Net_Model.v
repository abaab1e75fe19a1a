(** * Model of the network equations

    src/Model/Networkproblem: Gas/Gasedge.cpp, Gas/Pipe.cpp, Gas/Shortcomponent.cpp,
    Gas/Shortpipe.cpp, Gas/Compressorstation.cpp, Gas/Controlvalve.cpp, Gas/Gasnode.cpp,
    Gas/Innode.cpp, Gas/Flowboundarynode.cpp, Gas/Pressureboundarynode.cpp,
    Gas/ConstraintSink.cpp, Power/Powernode.cpp, Power/PQnode.cpp, Power/PVnode.cpp,
    Power/Vphinode.cpp, Power/StochasticPQnode.cpp, Power/Transmissionline.cpp,
    Gaspowerconnection/*.cpp, Networkproblem.cpp.

    State, control and residual vectors are functions from indices to reals.  Evaluating a
    component yields the list of its assignments to the residual vector in program order,
    filling a Jacobian yields the list of calls of [add_to_coefficient] in program order.
    Writes outside a vector or matrix are undefined behaviour (checked where the lists are
    executed); reads outside the state vector are not modelled.  Indices are natural numbers:
    the exceptions thrown before indices have been assigned (negative start index) are not
    modelled. *)
From Coq Require Import Reals List Arith Bool.
From Verif Require Import Base Interp_Model Calc Euler_Model Box_Model.
Import ListNotations.
Local Open Scope R_scope.

(** ** Output of the components *)
Inductive write :=
| Assign (i : nat) (r : R)    (* rootvalues[i] = r  *)
| AddTo (i : nat) (r : R).    (* rootvalues[i] += r *)
Definition run_write (v : vec) (w : write) : vec :=
  match w with
  | Assign i r => vset v i r
  | AddTo i r => vset v i (v i + r)
  end.
Definition run_writes (ws : list write) (v : vec) : vec := fold_left run_write ws v.
Definition write_index (w : write) : nat := match w with Assign i _ => i | AddTo i _ => i end.

(** A call of add_to_coefficient(row, col, value). *)
Definition entry := (nat * nat * R)%type.

(** [segment<2>(i)]. *)
Definition seg (x : vec) (i : nat) : vec := fun k => x (i + k)%nat.

(** Executing two parts one after the other. *)
Definition oapp {A} (a b : outcome (list A)) : outcome (list A) :=
  obind a (fun l => obind b (fun m => Ok (l ++ m))).
Definition oconcat {A} (l : list (outcome (list A))) : outcome (list A) :=
  fold_right oapp (Ok []) l.

(** ** Power nodes *)

(** Powernode.hpp and setup_helper, Powernode.cpp:75-104: own state block, shunt admittance and
    the triple (G, B, other node) for each attached line.  The other node is [None] when the
    line's other end is not a power node (the dynamic_cast yields a null pointer). *)
Record powernode := mkPower {
  pn_start : nat;
  pn_G : R;
  pn_B : R;
  pn_lines : list (R * R * option nat)
}.

(** Dereferencing the other node. *)
Definition other_start (o : option nat) : outcome nat :=
  match o with Some k => Ok k | None => UB end.

(** P, Powernode.cpp:131-153. *)
Fixpoint P_loop (V_i phi_i : R) (lines : list (R * R * option nat)) (state : vec) (acc : R)
  : outcome R :=
  match lines with
  | [] => Ok acc
  | (G_ik, B_ik, o) :: rest =>
      obind (other_start o) (fun k =>
      let V_k := state k in
      let phi_ik := phi_i - state (k + 1)%nat in
      P_loop V_i phi_i rest state (acc + V_i * V_k * (G_ik * cos phi_ik + B_ik * sin phi_ik)))
  end.
Definition P (n : powernode) (state : vec) : outcome R :=
  let V_i := state (pn_start n) in
  let phi_i := state (pn_start n + 1)%nat in
  P_loop V_i phi_i (pn_lines n) state (0 + pn_G n * V_i * V_i).

(** Q, Powernode.cpp:155-177. *)
Fixpoint Q_loop (V_i phi_i : R) (lines : list (R * R * option nat)) (state : vec) (acc : R)
  : outcome R :=
  match lines with
  | [] => Ok acc
  | (G_ik, B_ik, o) :: rest =>
      obind (other_start o) (fun k =>
      let V_k := state k in
      let phi_ik := phi_i - state (k + 1)%nat in
      Q_loop V_i phi_i rest state (acc + V_i * V_k * (G_ik * sin phi_ik - B_ik * cos phi_ik)))
  end.
Definition Q (n : powernode) (state : vec) : outcome R :=
  let V_i := state (pn_start n) in
  let phi_i := state (pn_start n + 1)%nat in
  Q_loop V_i phi_i (pn_lines n) state (0 - pn_B n * V_i * V_i).

(** evaluate_P_derivative, Powernode.cpp:179-215. *)
Definition evaluate_P_derivative (n : powernode) (row : nat) (state : vec) : outcome (list entry) :=
  let V_index := pn_start n in
  let phi_index := (V_index + 1)%nat in
  let V_i := state V_index in
  let phi_i := state phi_index in
  oapp (Ok [(row, V_index, 2 * pn_G n * V_i); (row, phi_index, 0)])
  (oconcat (map (fun t =>
    match t with (G_ik, B_ik, o) =>
      obind (other_start o) (fun k =>
      let V_k := state k in
      let phi_ik := phi_i - state (k + 1)%nat in
      Ok [(row, V_index, V_k * (G_ik * cos phi_ik + B_ik * sin phi_ik));
          (row, phi_index, V_i * V_k * (- G_ik * sin phi_ik + B_ik * cos phi_ik));
          (row, k, V_i * (G_ik * cos phi_ik + B_ik * sin phi_ik));
          (row, (k + 1)%nat, V_i * V_k * (G_ik * sin phi_ik - B_ik * cos phi_ik))])
    end) (pn_lines n))).

(** evaluate_Q_derivative, Powernode.cpp:217-252. *)
Definition evaluate_Q_derivative (n : powernode) (row : nat) (state : vec) : outcome (list entry) :=
  let V_index := pn_start n in
  let phi_index := (V_index + 1)%nat in
  let V_i := state V_index in
  let phi_i := state phi_index in
  oapp (Ok [(row, V_index, - 2 * pn_B n * V_i); (row, phi_index, 0)])
  (oconcat (map (fun t =>
    match t with (G_ik, B_ik, o) =>
      obind (other_start o) (fun k =>
      let V_k := state k in
      let phi_ik := phi_i - state (k + 1)%nat in
      Ok [(row, V_index, V_k * (G_ik * sin phi_ik - B_ik * cos phi_ik));
          (row, phi_index, V_i * V_k * (G_ik * cos phi_ik + B_ik * sin phi_ik));
          (row, k, V_i * (G_ik * sin phi_ik - B_ik * cos phi_ik));
          (row, (k + 1)%nat, V_i * V_k * (- G_ik * cos phi_ik - B_ik * sin phi_ik))])
    end) (pn_lines n))).

(** The kinds of power nodes with the two values their equations compare with.  The values are
    [boundaryvalue(new_time)] (PQnode.cpp:28-37, PVnode.cpp:27-36, Vphinode.cpp:28-37,
    ExternalPowerplant.cpp:54-65), or the sampled current_P and current_Q of a
    StochasticPQnode (StochasticPQnode.cpp:78-87). *)
Inductive powerkind := PQ | PV | Vphi.

Definition power_evaluate (k : powerkind) (n : powernode) (b1 b2 : R) (new_state : vec)
  : outcome (list write) :=
  let V_index := pn_start n in
  let phi_index := (V_index + 1)%nat in
  match k with
  | PQ => obind (P n new_state) (fun p => obind (Q n new_state) (fun q =>
          Ok [Assign V_index (p - b1); Assign phi_index (q - b2)]))
  | PV => obind (P n new_state) (fun p =>
          Ok [Assign V_index (p - b1); Assign phi_index (new_state V_index - b2)])
  | Vphi => Ok [Assign V_index (new_state V_index - b1);
                Assign phi_index (new_state phi_index - b2)]
  end.

(** PQnode.cpp:40-52, PVnode.cpp:40-52, Vphinode.cpp:39-49, ExternalPowerplant.cpp:67-78,
    StochasticPQnode.cpp:133-142. *)
Definition power_d_new_state (k : powerkind) (n : powernode) (new_state : vec)
  : outcome (list entry) :=
  let V_index := pn_start n in
  let phi_index := (V_index + 1)%nat in
  match k with
  | PQ => oapp (evaluate_P_derivative n V_index new_state) (evaluate_Q_derivative n phi_index new_state)
  | PV => oapp (evaluate_P_derivative n V_index new_state) (Ok [(phi_index, V_index, 1)])
  | Vphi => Ok [(V_index, V_index, 1); (phi_index, phi_index, 1)]
  end.

(** ** Gas edges *)

(** enum Direction, Gasedge.hpp:24. *)
Inductive direction := dstart | dend.
Definition dsign (d : direction) : R := match d with dstart => 1 | dend => -1 end.

(** The kinds of gas edges: pipe with diameter, roughness and Delta_x; short pipe; compressor
    and control valve with control index; gas-power connection with its two coefficients and the
    power plant at its end. *)
Inductive gaskind :=
| Pipe (diameter roughness Delta_x : R)
| Shortpipe
| Compressorstation (control_index : nat)
| Controlvalve (control_index : nat)
| Gaspowerconnection (gas2power power2gas : R) (plant : powernode).

(** [ge_addr] is the object's address. *)
Record gasedge := mkGas {
  ge_addr : nat;
  ge_start : nat;     (* get_state_startindex() *)
  ge_after : nat;     (* get_state_afterindex() *)
  ge_kind : gaskind
}.

(** boundary_equation_index, Gasedge.cpp:40-76. *)
Definition boundary_equation_index (d : direction) (e : gasedge) : nat :=
  match d with dstart => ge_start e | dend => (ge_after e - 1)%nat end.
(** get_equation_start_index and get_equation_after_index, Gasedge.cpp:77-82. *)
Definition equation_start_index (e : gasedge) : nat := (ge_start e + 1)%nat.
Definition equation_after_index (e : gasedge) : nat := (ge_after e - 1)%nat.
(** get_boundary_state_index, Gasedge.cpp:84-121: throws at the end of an edge with two
    variables. *)
Definition boundary_state_index (d : direction) (e : gasedge) : outcome nat :=
  match d with
  | dstart => Ok (ge_start e)
  | dend => if Nat.eqb (ge_after e - ge_start e) 2 then Exc else Ok (ge_after e - 2)%nat
  end.
(** get_boundary_state, Gasedge.cpp:123-152. *)
Definition boundary_state (d : direction) (e : gasedge) (state : vec) : outcome vec :=
  omap (seg state) (boundary_state_index d e).

(** get_boundary_p_qvol_bar: Pipe.cpp:258-264, Shortcomponent.cpp:83-87,
    Gaspowerconnection.cpp:146-150. *)
Definition boundary_p_qvol_bar (d : direction) (e : gasedge) (state : vec) : outcome vec :=
  match ge_kind e with
  | Pipe _ _ _ => omap (fun b => p_qvol_bar_from_p_qvol (p_qvol b)) (boundary_state d e state)
  | _ => boundary_state d e state
  end.

(** Products of a row vector with a 2x2 matrix and of two 2x2 matrices. *)
Definition row_mul (f : vec) (M : mat) : vec := fun j => f 0%nat * M 0%nat j + f 1%nat * M 1%nat j.
Definition mat_mul (A B : mat) : mat :=
  fun i j => A i 0%nat * B 0%nat j + A i 1%nat * B 1%nat j.

(** dboundary_p_qvol_dstate: Pipe.cpp:266-288, Shortcomponent.cpp:89-100,
    Gaspowerconnection.cpp:152-162. *)
Definition dboundary_p_qvol_dstate (d : direction) (e : gasedge) (function_derivative : vec)
    (row : nat) (state : vec) : outcome (list entry) :=
  match ge_kind e with
  | Pipe _ _ _ =>
      obind (boundary_state d e state) (fun b =>
      let dp_qvol_bar_dstate :=
        mat_mul (dp_qvol_bar_from_p_qvold_p_qvol (p_qvol b)) (dp_qvol_dstate b) in
      let derivative := row_mul function_derivative dp_qvol_bar_dstate in
      obind (boundary_state_index d e) (fun i =>
      Ok [(row, i, derivative 0%nat); (row, (i + 1)%nat, derivative 1%nat)]))
  | _ =>
      obind (boundary_state_index d e) (fun i =>
      Ok [(row, i, function_derivative 0%nat); (row, (i + 1)%nat, function_derivative 1%nat)])
  end.

(** The loop [for (i = start; i != after; i += 2)] of Pipe.cpp: the visited indices.  If the
    loop steps over [after] it runs out of the vectors: undefined behaviour. *)
Fixpoint loop_by_two (fuel i stop : nat) : outcome (list nat) :=
  if Nat.eqb i stop then Ok []
  else if Nat.ltb stop i then UB
  else match fuel with
       | O => UB
       | S f => omap (cons i) (loop_by_two f (i + 2)%nat stop)
       end.
Definition pipe_indices (e : gasedge) : outcome (list nat) :=
  loop_by_two (ge_after e) (equation_start_index e) (equation_after_index e).

(** One iteration of Pipe::evaluate, Pipe.cpp:94-107, with the law passed to the scheme. *)
Definition cell_evaluate (bl : balancelaw) (Delta_x last_time new_time : R)
    (last_state new_state : vec) (i : nat) : outcome (list write) :=
  omap (fun r : vec => [Assign i (r 0%nat); Assign (i + 1)%nat (r 1%nat)])
    (evaluate_point bl last_time new_time Delta_x
      (seg last_state (i - 1)) (seg last_state (i + 1))
      (seg new_state (i - 1)) (seg new_state (i + 1))).

(** The eight coefficients added for a cell, Pipe.cpp:127-147 and 168-188. *)
Definition cell_entries (i : nat) (left right : mat) : list entry :=
  [(i, (i - 1)%nat, left 0%nat 0%nat); (i, i, left 0%nat 1%nat);
   ((i + 1)%nat, (i - 1)%nat, left 1%nat 0%nat); ((i + 1)%nat, i, left 1%nat 1%nat);
   (i, (i + 1)%nat, right 0%nat 0%nat); (i, (i + 2)%nat, right 0%nat 1%nat);
   ((i + 1)%nat, (i + 1)%nat, right 1%nat 0%nat); ((i + 1)%nat, (i + 2)%nat, right 1%nat 1%nat)].

(** One iteration of Pipe::d_evaluate_d_new_state, Pipe.cpp:114-148. *)
Definition cell_d_new_state (bl : balancelaw) (Delta_x last_time new_time : R)
    (last_state new_state : vec) (i : nat) : outcome (list entry) :=
  let ll := seg last_state (i - 1) in let lr := seg last_state (i + 1) in
  let nl := seg new_state (i - 1) in let nr := seg new_state (i + 1) in
  obind (devaluate_point_d_new_left bl last_time new_time Delta_x ll lr nl nr) (fun l =>
  obind (devaluate_point_d_new_right bl last_time new_time Delta_x ll lr nl nr) (fun r =>
  Ok (cell_entries i l r))).

(** One iteration of Pipe::d_evaluate_d_last_state, Pipe.cpp:155-189. *)
Definition cell_d_last_state (bl : balancelaw) (Delta_x last_time new_time : R)
    (last_state new_state : vec) (i : nat) : outcome (list entry) :=
  let ll := seg last_state (i - 1) in let lr := seg last_state (i + 1) in
  let nl := seg new_state (i - 1) in let nr := seg new_state (i + 1) in
  obind (devaluate_point_d_last_left bl last_time new_time Delta_x ll lr nl nr) (fun l =>
  obind (devaluate_point_d_last_right bl last_time new_time Delta_x ll lr nl nr) (fun r =>
  Ok (cell_entries i l r))).

Definition pipe_loop {A} (e : gasedge) (body : nat -> outcome (list A)) : outcome (list A) :=
  obind (pipe_indices e) (fun is => oconcat (map body is)).

(** Shortpipe.cpp:31-38, Compressorstation.cpp:45-56, Controlvalve.cpp:40-51: the segment of
    two rows is assigned a vector of two values. *)
Definition short_rows (e : gasedge) (r0 r1 : R) : list write :=
  [Assign (equation_start_index e) r0; Assign (equation_start_index e + 1)%nat r1].

(** Gaspowerconnection::smoothing_polynomial and its derivative, Gaspowerconnection.cpp:164-188;
    kappa is 60 (Gaspowerconnection.hpp:92). *)
Definition kappa : R := 60.
Definition smoothing_polynomial (g2p p2g q : R) : outcome R :=
  if (Rltb (kappa + EPSILON) q || Rltb q (- kappa - EPSILON))%bool then Exc
  else
    let rel := q / kappa in
    Ok (q * (1 / 2 * (g2p + p2g) - 3 / 4 * (p2g - g2p) * rel
             + 1 / 4 * (p2g - g2p) * rel * rel * rel)).
Definition dsmoothing_polynomial_dq (g2p p2g q : R) : outcome R :=
  if (Rltb (kappa + EPSILON) q || Rltb q (- kappa - EPSILON))%bool then Exc
  else
    let rel := q / kappa in
    Ok (1 / 2 * (g2p + p2g) - 3 / 2 * (p2g - g2p) * rel + (p2g - g2p) * rel * rel * rel).
(** generated_power and dgenerated_power_dq, Gaspowerconnection.cpp:190-207. *)
Definition generated_power (g2p p2g q : R) : outcome R :=
  if Rltb kappa q then Ok (g2p * q)
  else if Rltb q (- kappa) then Ok (p2g * q)
  else smoothing_polynomial g2p p2g q.
Definition dgenerated_power_dq (g2p p2g q : R) : outcome R :=
  if Rltb kappa q then Ok g2p
  else if Rltb q (- kappa) then Ok p2g
  else dsmoothing_polynomial_dq g2p p2g q.

(** evaluate of the gas edges: Pipe.cpp:90-108, Shortpipe.cpp:31-38, Compressorstation.cpp:45-56,
    Controlvalve.cpp:40-51, Gaspowerconnection.cpp:61-68. *)
Definition edge_evaluate (e : gasedge) (last_time new_time : R)
    (last_state new_state control : vec) : outcome (list write) :=
  match ge_kind e with
  | Pipe d k dx =>
      pipe_loop e (cell_evaluate (isothermal_euler d k) dx last_time new_time last_state new_state)
  | Shortpipe =>
      obind (boundary_state dstart e new_state) (fun s =>
      obind (boundary_state dend e new_state) (fun t =>
      Ok (short_rows e (s 0%nat - t 0%nat) (s 1%nat - t 1%nat))))
  | Compressorstation c =>
      obind (boundary_state dend e new_state) (fun t =>
      obind (boundary_state dstart e new_state) (fun s =>
      Ok (short_rows e (t 0%nat - s 0%nat - control c) (t 1%nat - s 1%nat - 0))))
  | Controlvalve c =>
      obind (boundary_state dend e new_state) (fun t =>
      obind (boundary_state dstart e new_state) (fun s =>
      Ok (short_rows e (t 0%nat - s 0%nat + control c) (t 1%nat - s 1%nat + 0))))
  | Gaspowerconnection g2p p2g plant =>
      let q_index := (ge_start e + 1)%nat in
      obind (P plant new_state) (fun pw =>
      obind (generated_power g2p p2g (new_state q_index)) (fun g =>
      Ok [Assign q_index (pw - g)]))
  end.

(** d_evaluate_d_new_state: Pipe.cpp:110-149, Shortpipe.cpp:40-59, Compressorstation.cpp:58-77,
    Controlvalve.cpp:53-72, Gaspowerconnection.cpp:70-82. *)
Definition edge_d_new_state (e : gasedge) (last_time new_time : R)
    (last_state new_state control : vec) : outcome (list entry) :=
  match ge_kind e with
  | Pipe d k dx =>
      pipe_loop e (cell_d_new_state (isothermal_euler d k) dx last_time new_time last_state new_state)
  | Shortpipe =>
      obind (boundary_state_index dstart e) (fun sp =>
      obind (boundary_state_index dend e) (fun ep =>
      let r := equation_start_index e in
      Ok [(r, sp, 1); (r, ep, -1); ((r + 1)%nat, (sp + 1)%nat, 1); ((r + 1)%nat, (ep + 1)%nat, -1)]))
  | Compressorstation _ | Controlvalve _ =>
      obind (boundary_state_index dstart e) (fun sp =>
      obind (boundary_state_index dend e) (fun ep =>
      let r := equation_start_index e in
      Ok [(r, sp, -1); (r, ep, 1); ((r + 1)%nat, (sp + 1)%nat, -1); ((r + 1)%nat, (ep + 1)%nat, 1)]))
  | Gaspowerconnection g2p p2g plant =>
      let p_index := ge_start e in
      let q_index := (ge_start e + 1)%nat in
      obind (dgenerated_power_dq g2p p2g (new_state q_index)) (fun dg =>
      oapp (Ok [(q_index, q_index, - dg)])
      (oapp (evaluate_P_derivative plant q_index new_state)
            (Ok [(pn_start plant, p_index, 0)])))
  end.

(** d_evaluate_d_last_state: Pipe.cpp:151-190, empty for all others. *)
Definition edge_d_last_state (e : gasedge) (last_time new_time : R)
    (last_state new_state control : vec) : outcome (list entry) :=
  match ge_kind e with
  | Pipe d k dx =>
      pipe_loop e (cell_d_last_state (isothermal_euler d k) dx last_time new_time last_state new_state)
  | _ => Ok []
  end.

(** d_evaluate_d_control: Compressorstation.cpp:86-97, Controlvalve.cpp:81-92. *)
Definition edge_d_control (e : gasedge) : outcome (list entry) :=
  match ge_kind e with
  | Compressorstation c => Ok [(equation_start_index e, c, -1)]
  | Controlvalve c => Ok [(equation_start_index e, c, 1)]
  | _ => Ok []
  end.

(** ** Gas nodes *)

(** directed_attached_gas_edges *)
Definition attached := list (direction * gasedge).

(** The loop of evaluate_flow_node_balance, Gasnode.cpp:57-71. *)
Fixpoint balance_loop (att : attached) (state : vec) (old_equation_index : nat) (old_p : R)
    (last_equation_index : nat) : outcome (list write) :=
  match att with
  | [] => Ok []
  | (d, e) :: rest =>
      obind (boundary_p_qvol_bar d e state) (fun pq =>
      oapp (Ok [Assign old_equation_index (pq 0%nat - old_p);
                AddTo last_equation_index (dsign d * pq 1%nat)])
           (balance_loop rest state (boundary_equation_index d e) (pq 0%nat) last_equation_index))
  end.

(** evaluate_flow_node_balance, Gasnode.cpp:29-72. *)
Definition flow_balance (att : attached) (state : vec) (prescribed_qvol : R)
  : outcome (list write) :=
  match att with
  | [] => Ok []
  | (d0, e0) :: rest =>
      obind (boundary_p_qvol_bar d0 e0 state) (fun pq0 =>
      let (dl, el) := last att (d0, e0) in
      let last_equation_index := boundary_equation_index dl el in
      oapp (Ok [Assign last_equation_index (-1 * prescribed_qvol);
                AddTo last_equation_index (dsign d0 * pq0 1%nat)])
           (balance_loop rest state (boundary_equation_index d0 e0) (pq0 0%nat) last_equation_index))
  end.

(** The loop of evaluate_flow_node_derivative over the edges between the first and the last one
    and the two final calls for the last one, Gasnode.cpp:104-135. *)
Fixpoint derivative_loop (rest : attached) (state : vec) (old_equation_index last_equation_index : nat)
  : outcome (list entry) :=
  match rest with
  | [] => Ok []    (* not reached: the list contains the last edge *)
  | [(dl, el)] =>
      oapp (dboundary_p_qvol_dstate dl el (v2 1 0) old_equation_index state)
           (dboundary_p_qvol_dstate dl el (v2 0 (dsign dl)) last_equation_index state)
  | (d, e) :: more =>
      let current_equation_index := boundary_equation_index d e in
      oapp (dboundary_p_qvol_dstate d e (v2 1 0) old_equation_index state)
      (oapp (dboundary_p_qvol_dstate d e (v2 (-1) 0) current_equation_index state)
      (oapp (dboundary_p_qvol_dstate d e (v2 0 (dsign d)) last_equation_index state)
            (derivative_loop more state current_equation_index last_equation_index)))
  end.

(** evaluate_flow_node_derivative, Gasnode.cpp:74-136.  [edge0 == edgelast] compares
    addresses. *)
Definition flow_derivative (att : attached) (state : vec) : outcome (list entry) :=
  match att with
  | [] => Ok []
  | (d0, e0) :: rest =>
      let (dl, el) := last att (d0, e0) in
      let last_equation_index := boundary_equation_index dl el in
      oapp (dboundary_p_qvol_dstate d0 e0 (v2 0 (dsign d0)) last_equation_index state)
      (if Nat.eqb (ge_addr e0) (ge_addr el) then Ok []
       else
         let old_equation_index := boundary_equation_index d0 e0 in
         oapp (dboundary_p_qvol_dstate d0 e0 (v2 (-1) 0) old_equation_index state)
              (derivative_loop rest state old_equation_index last_equation_index))
  end.

(** Pressureboundarynode.cpp:40-58. *)
Definition pressure_evaluate (att : attached) (state : vec) (prescribed_p : R)
  : outcome (list write) :=
  oconcat (map (fun de : direction * gasedge =>
    let (d, e) := de in
    obind (boundary_p_qvol_bar d e state) (fun pq =>
    Ok [Assign (boundary_equation_index d e) (pq 0%nat - prescribed_p)])) att).
(** Pressureboundarynode.cpp:60-78. *)
Definition pressure_derivative (att : attached) (state : vec) : outcome (list entry) :=
  oconcat (map (fun de : direction * gasedge =>
    let (d, e) := de in
    dboundary_p_qvol_dstate d e (v2 1 0) (boundary_equation_index d e) state) att).

(** The value of a ConstraintSink's constraint, ConstraintSink.cpp:32-43, and its derivative,
    ConstraintSink.cpp:45-54; reading element 0 of an empty vector is undefined behaviour. *)
Definition sink_constraint (att : attached) (state : vec) : outcome R :=
  obind (get att 0) (fun de => let (d, e) := de in
  obind (boundary_state d e state) (fun b => Ok (b 0%nat))).
Definition sink_constraint_d_state (att : attached) (constraint_index : nat) : outcome (list entry) :=
  obind (get att 0) (fun de => let (d, e) := de in
  obind (boundary_state_index d e) (fun i => Ok [(constraint_index, i, 1)])).

(** ** The network *)

(** Boundary values are functions of time (an InterpolatingVector of one or two values, see
    Interp_Model.v). *)
Definition boundary := R -> outcome vec.

(** Node types.  A flow boundary node is a Source, or a Sink or ConstraintSink, whose values are
    negated when it is constructed (revert_boundary_conditions, Flowboundarynode.cpp:25-42;
    here the interpolated values are negated, which is the same because interpolation is
    linear, see [C83_sink] and [C83_value] in Bounds_Props.v).  A power node has G, B and its kind; a stochastic node has its current_P and
    current_Q as constant boundary value; an ExternalPowerplant has the equations of a Vphi
    node. *)
Inductive nodetype :=
| Innode
| Flownode (sink : bool) (b : boundary)
| Pressurenode (b : boundary)
| Powernode (k : powerkind) (external : bool) (G B : R) (b : boundary).

(** Edge types.  A pipe has its number of grid points, a compressor its cost weight. *)
Inductive edgetype :=
| EPipe (diameter roughness Delta_x : R) (number_of_points : nat)
| EShortpipe
| ECompressor (cost_weight : R)
| EControlvalve
| EGaspower (gas2power power2gas : R)
| ELine (G B : R).

(** An edge with the positions of its start and end node in the list of nodes. *)
Record edge := mkEdge { e_from : nat; e_to : nat; e_type : edgetype }.
Record network := mkNet { nodes : list nodetype; edges : list edge }.

(** needed_number_of_states: Powernode.hpp (2), Pipe.cpp:194-196, Shortcomponent.cpp:41-43,
    Gaspowerconnection.cpp:110; components that are not Statecomponents count 0. *)
Definition node_states (t : nodetype) : nat :=
  match t with Powernode _ _ _ _ _ => 2 | _ => 0 end.
Definition edge_states (t : edgetype) : nat :=
  match t with
  | EPipe _ _ _ n => 2 * n
  | EShortpipe | ECompressor _ | EControlvalve => 4
  | EGaspower _ _ => 2
  | ELine _ _ => 0
  end.
(** needed_number_of_controls_per_time_point: Compressorstation.cpp:120-123,
    Controlvalve.cpp:115-117. *)
Definition edge_controls (t : edgetype) : nat :=
  match t with ECompressor _ | EControlvalve => 1 | _ => 0 end.

(** set_state_indices of the components one after the other, SimpleStatecomponent.cpp:61-68 and
    Networkproblem.cpp:221-228 (the same for controls, SimpleControlcomponent.cpp:45-52 and
    Networkproblem.cpp:382-390, and constraints): the blocks (startindex, afterindex) and the
    next free index. *)
Fixpoint assign_indices (next : nat) (sizes : list nat) : list (nat * nat) * nat :=
  match sizes with
  | [] => ([], next)
  | s :: rest =>
      let (blocks, after) := assign_indices (next + s) rest in
      ((next, (next + s)%nat) :: blocks, after)
  end.

(** Statecomponents are collected from the nodes first, then from the edges,
    Networkproblem.cpp:130-168. *)
Definition state_sizes (N : network) : list nat :=
  map node_states (nodes N) ++ map (fun e => edge_states (e_type e)) (edges N).
Definition state_blocks (N : network) : list (nat * nat) := fst (assign_indices 0 (state_sizes N)).
Definition number_of_states (N : network) : nat := snd (assign_indices 0 (state_sizes N)).
Definition control_sizes (N : network) : list nat := map (fun e => edge_controls (e_type e)) (edges N).
Definition control_blocks (N : network) : list (nat * nat) := fst (assign_indices 0 (control_sizes N)).
Definition number_of_controls (N : network) : nat := snd (assign_indices 0 (control_sizes N)).

Definition node_block (N : network) (j : nat) : nat * nat := nth j (state_blocks N) (0, 0)%nat.
Definition edge_block (N : network) (i : nat) : nat * nat :=
  nth (length (nodes N) + i) (state_blocks N) (0, 0)%nat.
Definition control_block (N : network) (i : nat) : nat * nat := nth i (control_blocks N) (0, 0)%nat.

(** The edges with their positions. *)
Definition numbered (N : network) : list (nat * edge) := combine (seq 0 (length (edges N))) (edges N).

(** attached_component_data of node [j], Powernode.cpp:75-104. *)
Definition power_start (N : network) (j : nat) : option nat :=
  match nth_error (nodes N) j with
  | Some (Powernode _ _ _ _ _) => Some (fst (node_block N j))
  | _ => None
  end.
Definition line_of (other : edge -> nat) (N : network) (e : edge) : list (R * R * option nat) :=
  match e_type e with
  | ELine G B => [(G, B, power_start N (other e))]
  | _ => []
  end.
Definition power_lines (N : network) (j : nat) : list (R * R * option nat) :=
  flat_map (line_of e_to N) (filter (fun e => Nat.eqb (e_from e) j) (edges N)) ++
  flat_map (line_of e_from N) (filter (fun e => Nat.eqb (e_to e) j) (edges N)).
Definition power_of (N : network) (j : nat) : powernode :=
  match nth_error (nodes N) j with
  | Some (Powernode _ _ G B _) => mkPower (fst (node_block N j)) G B (power_lines N j)
  | _ => mkPower 0 0 0 []    (* not used: only called for power nodes *)
  end.

(** The gas edge object of edge [i]; the address is its position. *)
Definition gas_of (N : network) (i : nat) (e : edge) : option gasedge :=
  let (s, a) := edge_block N i in
  match e_type e with
  | EPipe d k dx _ => Some (mkGas i s a (Pipe d k dx))
  | EShortpipe => Some (mkGas i s a Shortpipe)
  | ECompressor _ => Some (mkGas i s a (Compressorstation (fst (control_block N i))))
  | EControlvalve => Some (mkGas i s a (Controlvalve (fst (control_block N i))))
  | EGaspower g2p p2g => Some (mkGas i s a (Gaspowerconnection g2p p2g (power_of N (e_to e))))
  | ELine _ _ => None
  end.

(** gasnode_setup_helper, Gasnode.cpp:138-177: first the edges starting here, then the edges
    ending here, in the order in which they were attached (the order of the list of edges,
    Edge.cpp:37-50). *)
Definition gas_list (N : network) (l : list (nat * edge)) (d : direction) : attached :=
  flat_map (fun ie => match gas_of N (fst ie) (snd ie) with Some g => [(d, g)] | None => [] end) l.
Definition attached_gas (N : network) (j : nat) : attached :=
  gas_list N (filter (fun ie => Nat.eqb (e_from (snd ie)) j) (numbered N)) dstart ++
  gas_list N (filter (fun ie => Nat.eqb (e_to (snd ie)) j) (numbered N)) dend.

(** setup of all components, Networkproblem.cpp:392-399: only two of them can throw,
    Gaspowerconnection.cpp:90-108 and ExternalPowerplant.cpp:30-52. *)
Definition is_external (N : network) (j : nat) : bool :=
  match nth_error (nodes N) j with Some (Powernode _ true _ _ _) => true | _ => false end.
Definition is_gaspower (e : edge) : bool :=
  match e_type e with EGaspower _ _ => true | _ => false end.
Definition setup_ok (N : network) : bool :=
  (forallb (fun e => negb (is_gaspower e) || is_external N (e_to e)) (edges N) &&
   forallb (fun j => negb (is_external N j) ||
       existsb (fun e => is_gaspower e && (Nat.eqb (e_from e) j || Nat.eqb (e_to e) j)) (edges N))
     (seq 0 (length (nodes N))))%bool.

(** evaluate of node [j]: Innode.cpp:26-31, Flowboundarynode.cpp:54-65 and the files above. *)
Definition node_evaluate (N : network) (j : nat) (t : nodetype) (new_time : R) (new_state : vec)
  : outcome (list write) :=
  let att := attached_gas N j in
  match t with
  | Innode => flow_balance att new_state 0
  | Flownode sink b =>
      match att with
      | [] => Ok []
      | _ => obind (b new_time) (fun v =>
             flow_balance att new_state (if sink then - v 0%nat else v 0%nat))
      end
  | Pressurenode b =>
      match att with
      | [] => Ok []
      | _ => obind (b new_time) (fun v => pressure_evaluate att new_state (v 0%nat))
      end
  | Powernode k _ _ _ b =>
      obind (b new_time) (fun v =>
      power_evaluate k (power_of N j) (v 0%nat) (v 1%nat) new_state)
  end.

Definition node_d_new_state (N : network) (j : nat) (t : nodetype) (new_state : vec)
  : outcome (list entry) :=
  let att := attached_gas N j in
  match t with
  | Innode | Flownode _ _ => flow_derivative att new_state
  | Pressurenode _ => pressure_derivative att new_state
  | Powernode k _ _ _ _ => power_d_new_state k (power_of N j) new_state
  end.

(** Compressors and control valves are Controlcomponents, all other components with equations
    are Equationcomponents. *)
Definition is_control (e : edge) : bool :=
  match e_type e with ECompressor _ | EControlvalve => true | _ => false end.

Definition on_edges {A} (N : network) (select : edge -> bool) (f : gasedge -> outcome (list A))
  : list (outcome (list A)) :=
  flat_map (fun ie =>
    if select (snd ie)
    then match gas_of N (fst ie) (snd ie) with Some g => [f g] | None => [] end
    else []) (numbered N).
Definition on_nodes {A} (N : network) (f : nat -> nodetype -> outcome (list A))
  : list (outcome (list A)) :=
  map (fun jt => f (fst jt) (snd jt)) (combine (seq 0 (length (nodes N))) (nodes N)).

(** Networkproblem::evaluate, Networkproblem.cpp:234-248: equation components (nodes, then
    edges), then control components. *)
Definition evaluate_writes (N : network) (last_time new_time : R)
    (last_state new_state control : vec) : outcome (list write) :=
  let ev g := edge_evaluate g last_time new_time last_state new_state control in
  oconcat (on_nodes N (fun j t => node_evaluate N j t new_time new_state)
           ++ on_edges N (fun e => negb (is_control e)) ev
           ++ on_edges N is_control ev).
Definition evaluate (N : network) (last_time new_time : R)
    (last_state new_state control rootvalues : vec) : outcome vec :=
  obind (evaluate_writes N last_time new_time last_state new_state control) (fun ws =>
  if forallb (fun w => Nat.ltb (write_index w) (number_of_states N)) ws
  then Ok (run_writes ws rootvalues) else UB).

(** d_evaluate_d_new_state, Networkproblem.cpp:263-277. *)
Definition d_evaluate_d_new_state (N : network) (last_time new_time : R)
    (last_state new_state control : vec) : outcome (list entry) :=
  let ev g := edge_d_new_state g last_time new_time last_state new_state control in
  oconcat (on_nodes N (fun j t => node_d_new_state N j t new_state)
           ++ on_edges N (fun e => negb (is_control e)) ev
           ++ on_edges N is_control ev).
(** d_evaluate_d_last_state, Networkproblem.cpp:279-293; the nodes add nothing. *)
Definition d_evaluate_d_last_state (N : network) (last_time new_time : R)
    (last_state new_state control : vec) : outcome (list entry) :=
  let ev g := edge_d_last_state g last_time new_time last_state new_state control in
  oconcat (on_nodes N (fun _ _ => Ok [])
           ++ on_edges N (fun e => negb (is_control e)) ev
           ++ on_edges N is_control ev).
(** d_evaluate_d_control, Networkproblem.cpp:295-304. *)
Definition d_evaluate_d_control (N : network) (last_time new_time : R)
    (last_state new_state control : vec) : outcome (list entry) :=
  oconcat (on_edges N is_control edge_d_control).
