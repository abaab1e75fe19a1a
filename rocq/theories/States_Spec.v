(** * Specification of initial states and of the states file *)
From Coq Require Import Reals List Arith String.
From Verif Require Import Base Interp_Model Interp_Spec Json_Model Json_Spec Controls_Spec Calc Euler_Model Euler_Spec Net_Model States_Model.
Import ListNotations.
Local Open Scope string_scope.
Local Open Scope list_scope.

(** ** Documents of initial values *)

(** A list entry with a number x and [n] numbers. *)
Definition point_ok (n : nat) (e : json) : Prop :=
  exists fs, e = JObj fs /\ field fs "x" <> None /\ field fs "values" <> None /\
    (forall v, In ("x", v) fs -> number v) /\ (forall v, In ("values", v) fs -> numbers n v).
Definition at_x (a : R) (e : json) : Prop :=
  forall fs v y, e = JObj fs -> In ("x", v) fs -> v = JNum y -> y = a.
(** Documents with an id and a list of [count] (or any number of) entries, with entries at [xs]. *)
Definition initial_ok (count : option nat) (n : nat) (xs : list R) (j : json) : Prop :=
  exists fs, j = JObj fs /\ field fs "id" <> None /\ field fs "data" <> None /\
    (forall v, In ("id", v) fs -> exists x, v = JStr x) /\
    (forall v, In ("data", v) fs -> exists es, v = JArr es /\ (forall e, In e es -> point_ok n e) /\
       (forall k, count = Some k -> List.length es = k) /\
       forall a, In a xs -> exists e, In e es /\ at_x a e).

(** What the kinds of components ask for: number of entries and places, always two values. *)
Definition asked (k : state_kind) : option nat * list R :=
  match k with
  | KPipe _ _ => (None, [0%R])
  | KShort => (Some 2%nat, [0%R; 1%R])
  | _ => (Some 1%nat, [0%R])
  end.
(** The rows of a document fit a kind. *)
Definition rows_ok (k : state_kind) (rows : list (R * list R)) : Prop :=
  (forall tr, In tr rows -> List.length (snd tr) = 2%nat) /\
  (forall n, fst (asked k) = Some n -> List.length rows = n) /\
  (forall a, In a (snd (asked k)) -> In a (map fst rows)).

(** ** States *)

(** The places of a component where it has two state variables. *)
Definition places (k : state_kind) : list R :=
  match k with
  | KPipe n dx => map (fun i => INR i * dx)%R (seq 0 n)
  | KShort => [0%R; 1%R]
  | _ => [0%R]
  end.
(** The first state variable for a first value given in a file: pipes have the density for a
    pressure in bar, all others the value itself. *)
Definition first_state (k : state_kind) (y : R) : R :=
  match k with KPipe _ _ => rho (y * 10 ^ 5) | _ => y end.
(** Component [k] of the piecewise linear function through the rows of a document. *)
Definition at_place (rows : list (R * list R)) (k : nat) (t y : R) : Prop :=
  piecewise_linear tolerance (map fst rows) (fun i => nth k (snd (nth i rows (0%R, []))) 0%R) t y.
(** The pairs of state variables for a document. *)
Definition states_for (k : state_kind) (rows : list (R * list R)) (vals : list R) : Prop :=
  List.length vals = (2 * List.length (places k))%nat /\
  forall i t, nth_error (places k) i = Some t -> exists y q, at_place rows 0 t y /\ at_place rows 1 t q /\
    nth_error vals (2 * i) = Some (first_state k y) /\ nth_error vals (2 * i + 1) = Some q.
(** [v] with the entries from [start] on replaced by [vals]. *)
Definition replaced (v : list R) (start : nat) (vals : list R) (w : list R) : Prop :=
  List.length w = List.length v /\
  forall m, (m < List.length v)%nat -> nth_error w m =
    (if (Nat.leb start m && Nat.ltb m (start + List.length vals))%bool then nth_error vals (m - start) else nth_error v m).
(** [vals] stand in [w] from [start] on. *)
Definition stands (w : list R) (start : nat) (vals : list R) : Prop :=
  forall m y, nth_error vals m = Some y -> nth_error w (start + m) = Some y.

(** ** The states file *)

(** Gas edges with at least one point. *)
Definition gas_kind (k : state_kind) : Prop := match k with KPipe n _ => n <> 0%nat | KShort | KGaspower => True | KPower _ _ _ _ => False end.


(** The values over x of a gas edge at a time. *)
Definition listed (rows : list (R * R)) : json :=
  JArr (map (fun r => JObj [("value", JNum (snd r)); ("x", JNum (fst r))]) rows).
Definition gas_result (time : R) (xs pressures flows : list R) : json :=
  JObj [("flow", listed (combine xs flows)); ("pressure", listed (combine xs pressures)); ("time", JNum time)].
(** The results of a component: its entries in the order of time, its id and what it had before. *)
Definition component_result (before : json) (x : string) (entries : list json) (r : json) : Prop :=
  entry_of r "data" = Some (JArr entries) /\ entry_of r "id" = Some (JStr x) /\
  forall k, k <> "data" -> k <> "id" -> entry_of r k = entry_of before k.
Definition of_kind (class type : string) (c : with_output) : bool :=
  (String.eqb (sc_class (fst c)) class && String.eqb (sc_type (fst c)) type)%bool.

(** ** Power nodes *)

(** The two given values of a power node at a time, and the kind of its equations. *)
Definition given_values (values : power_values) (time b1 b2 : R) : Prop :=
  match values with
  | PQ_values b | PV_values b => interp_at b time = Ok [b1; b2]
  | Vphi_values => True
  | Stochastic_values b current_P current_Q => b1 = current_P /\ b2 = current_Q /\ exists m1 m2, interp_at b time = Ok [m1; m2]
  end.
Definition equations (values : power_values) : powerkind :=
  match values with PQ_values _ | Stochastic_values _ _ _ => PQ | PV_values _ => PV | Vphi_values => Vphi end.
(** The equations of the node hold. *)
Definition node_solved (values : power_values) (n : powernode) (b1 b2 : R) (state : vec) : Prop :=
  exists i j, power_evaluate (equations values) n b1 b2 state = Ok [Assign i 0; Assign j 0].
(** A number of a result. *)
Definition reports (e : json) (k : string) (y : R) : Prop := entry_of e k = Some (JNum y).
