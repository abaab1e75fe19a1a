(** * Specification: other short components in the place of short components *)
From Coq Require Import Reals List Arith.
From Verif Require Import Base Calc Net_Model Net_Spec Level_Spec.
Import ListNotations.
Local Open Scope R_scope.

(** How much higher the pressure is at the end than at the start: a compressor raises it by its control, a control valve
    lowers it by its control. *)
Definition lift (N : network) (i : nat) (e : edge) (c : vec) : R :=
  match e_type e with
  | ECompressor _ => c (fst (control_block N i))
  | EControlvalve => - c (fst (control_block N i))
  | _ => 0
  end.
(** The same edge, or both are short pipes, compressors or control valves between the same nodes. *)
Definition exchanged (e e' : edge) : Prop :=
  e_from e' = e_from e /\ e_to e' = e_to e /\ (e_type e' = e_type e \/ short e /\ short e').
Definition same_lifts (N N' : network) (c c' : vec) : Prop :=
  nodes N' = nodes N /\ Forall2 exchanged (edges N) (edges N') /\
  forall i e e', nth_error (edges N) i = Some e -> nth_error (edges N') i = Some e' -> short e -> lift N' i e' c' = lift N i e c.
