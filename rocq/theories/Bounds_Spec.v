(** * Specification of bounds of constraints and of the values of sinks *)
From Coq Require Import Reals List Arith String.
From Verif Require Import Base Json_Model Json_Spec Interp_Model Interp_Spec Controls_Spec.
Import ListNotations.
Local Open Scope string_scope.
Local Open Scope list_scope.

(** The file [j] has, for the id [x], a list of [n] values over increasing times. *)
Definition lists (j : json) (x : string) (n : nat) (rows : list (R * list R)) : Prop :=
  In (document "time" x rows) (all_components j) /\
  increasing (map fst rows) /\ rows <> [] /\ forall tr, In tr rows -> List.length (snd tr) = n.

(** [w] has the shape of [v]; its column [start + k] is, at every point of time of [v], the
    piecewise linear function through the values with number [k] of the rows. *)
Definition same_shape (v w : ivec) : Prop :=
  ipoints w = ipoints v /\ iinner w = iinner v /\ List.length (ivalues w) = List.length (ivalues v).
Definition follows (w : ivec) (start n : nat) (rows : list (R * list R)) : Prop :=
  forall i t k, nth_error (ipoints w) i = Some t -> (k < n)%nat ->
    piecewise_linear tolerance (map fst rows) (fun r => nth k (snd (nth r rows (0%R, []))) 0%R) t
      (entry (ivalues w) (iinner w) i (start + k)).
(** Column [m] of [w] is that of [v]. *)
Definition same_column (v w : ivec) (m : nat) : Prop :=
  forall i, (i < List.length (ipoints v))%nat -> entry (ivalues w) (iinner w) i m = entry (ivalues v) (iinner v) i m.

(** The negative of a function of time. *)
Definition negative (v : ivec) : ivec := mk_ivec (ipoints v) (iinner v) (map Ropp (ivalues v)).
