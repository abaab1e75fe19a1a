(** * Specification: networks without pipes *)
From Coq Require Import Reals List.
From Verif Require Import Base Calc Net_Model.
Import ListNotations.
Local Open Scope R_scope.

Definition no_pipe (N : network) : Prop :=
  Forall (fun e => match e_type e with EPipe _ _ _ _ => False | _ => True end) (edges N).

(** All nodes have the same boundary values at the times [t] and [t']. *)
Definition same_values (N : network) (t t' : R) : Prop :=
  Forall (fun n => match n with
                   | Innode => True
                   | Flownode _ b | Pressurenode b | Powernode _ _ _ _ b => b t = b t'
                   end) (nodes N).
