(** * Specification: two lines in place of one *)
From Coq Require Import Reals List Arith.
From Verif Require Import Base Calc Net_Model Net_Spec.
Import ListNotations.
Local Open Scope R_scope.

Definition thinner (G B : R) (e : edge) : edge :=
  match e_type e with
  | ELine g b => mkEdge (e_from e) (e_to e) (ELine (g - G) (b - B))
  | _ => e
  end.
(** Line [i] has less admittance by [G], [B], and a new line from [a] to [b] has it instead. *)
Definition split_line (N : network) (i : nat) (G B : R) (a b : nat) : network :=
  mkNet (nodes N)
    (map (fun ie => if Nat.eqb (fst ie) i then thinner G B (snd ie) else snd ie) (numbered N) ++ [mkEdge a b (ELine G B)]).
Definition is_line (e : edge) : Prop := match e_type e with ELine _ _ => True | _ => False end.
(** The two nodes of the edge, in either order. *)
Definition same_ends (e : edge) (a b : nat) : Prop := a = e_from e /\ b = e_to e \/ a = e_to e /\ b = e_from e.
