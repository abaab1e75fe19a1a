(** * The balance of gas in a part of the network *)
From Coq Require Import Reals List Arith Bool.
From Verif Require Import Base Calc Euler_Model Box_Model Net_Model Net_Spec Sim_Spec Mass_Spec.
Import ListNotations.
Local Open Scope R_scope.

(** A part of the network is a set of nodes, with the edges between them. *)
Section Part.
Variable N : network.
Variable part : nat -> bool.

Definition inner (e : edge) : bool := part (e_from e) && part (e_to e).

(** Mass of the gas in the pipes of the part. *)
Definition part_linepack (x : vec) : R :=
  rsum (fun ie => if inner (snd ie) then
                    match e_type (snd ie) with
                    | EPipe d _ dx np =>
                        circle_area (/ 2 * d) *
                        rsum (fun m => dx * ((x (fst (edge_block N (fst ie)) + 2 * m)%nat
                                              + x (fst (edge_block N (fst ie)) + 2 * (m + 1))%nat) / 2))
                             (seq 0 (np - 1))
                    | _ => 0
                    end
                  else 0) (numbered N).

(** What the nodes of the part feed in, and what its gas power plants take. *)
Definition part_supply (time : R) (x : vec) : R :=
  rsum (fun jt => if part (fst jt) then supply N time x (fst jt) (snd jt) else 0) (combine (seq 0 (length (nodes N))) (nodes N)).
Definition part_burnt (x : vec) : R :=
  rsum (fun ie => match e_type (snd ie) with
                  | EGaspower _ _ => if part (e_from (snd ie)) then flow_at N (fst ie) dstart x else 0
                  | _ => 0
                  end) (numbered N).

(** What enters through an edge between the part and the rest: the flow at its end inside. *)
Definition crossing (x : vec) (i : nat) (e : edge) : R :=
  match e_type e with
  | EGaspower _ _ | ELine _ _ => 0
  | _ => match part (e_from e), part (e_to e) with
         | true, false => - flow_at N i dstart x
         | false, true => flow_at N i dend x
         | _, _ => 0
         end
  end.
Definition inflow (x : vec) : R := rsum (fun ie => crossing x (fst ie) (snd ie)) (numbered N).

(** The volume of the pipes of the part, the number of its flow equations, of its short edges. *)
Definition part_volume : R :=
  rsum (fun e => if inner e then match e_type e with
                 | EPipe d _ dx np => circle_area (/ 2 * d) * (INR (np - 1) * dx)
                 | _ => 0
                 end else 0) (edges N).
Definition part_equations : nat :=
  length (filter (fun jt => part (fst jt) && match snd jt with Innode | Flownode _ _ => true | _ => false end)
            (combine (seq 0 (length (nodes N))) (nodes N))).
Definition part_short : nat :=
  length (filter (fun e => inner e && match e_type e with EShortpipe | ECompressor _ | EControlvalve => true | _ => false end)
            (edges N)).
Definition part_error (eps t0 t1 : R) : R :=
  eps * (part_volume + (t1 - t0) * (rho_0 * INR (part_equations + part_short))).

(** Edge [i] is the only one with gas between the part and the rest (power plants aside). *)
Definition only_border (i : nat) (e : edge) : Prop :=
  nth_error (edges N) i = Some e /\
  forall i' e', nth_error (edges N) i' = Some e' -> carries_gas e' = true ->
    match e_type e' with EGaspower _ _ => False | _ => True end -> part (e_from e') <> part (e_to e') -> i' = i.

(** The part has neither nodes with given pressure nor power plants. *)
Definition only_consumers : Prop :=
  (forall j b, nth_error (nodes N) j = Some (Pressurenode b) -> part j = false) /\
  (forall e, In e (edges N) -> part (e_from e) = true -> match e_type e with EGaspower _ _ => False | _ => True end).
End Part.
