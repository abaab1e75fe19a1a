(** * Specification: only the total admittance between two nodes matters *)
From Coq Require Import Reals List Arith Bool.
From Coquelicot Require Import Complex.
From Verif Require Import Base Calc Net_Model Net_Spec Parallel_Spec.
Import ListNotations.
Local Open Scope R_scope.

(** The sum of the admittances of all lines between the nodes [j] and [k], in either direction. *)
Definition joins (e : edge) (j k : nat) : bool :=
  (Nat.eqb (e_from e) j && Nat.eqb (e_to e) k) || (Nat.eqb (e_from e) k && Nat.eqb (e_to e) j).
Definition total_admittance (ls : list edge) (j k : nat) : C :=
  csum (fun e => if joins e j k then match e_type e with ELine g b => (g, b) | _ => RtoC 0 end else RtoC 0) ls.
(** Lists of lines with the same total admittances. *)
Definition same_totals (ls ls' : list edge) : Prop := forall j k, total_admittance ls' j k = total_admittance ls j k.
