(** * Specification: vectors with and without memory of their own *)
From Coq Require Import List Arith Reals ZArith.
From Verif Require Import Base Views_Model.
Import ListNotations.
Open Scope R_scope.

(** What can be seen of an object: its points, its inner length and its values. *)
Definition shows (st : state) (x : nat) (pts : list R) (inner : nat) (vals : list R) : Prop :=
  exists o, objects st x = Some o /\ points o = pts /\ inner_length o = inner /\ allvalues st o = Ok vals.

Definition owns (st : state) (x : nat) : Prop := exists o v, objects st x = Some o /\ store o = Own v.
Definition maps (st : state) (x : nat) (p : ptr) (n : nat) : Prop := exists o, objects st x = Some o /\ store o = View p n.
Definition const_maps (st : state) (x : nat) (p : ptr) (n : nat) : Prop := exists o, objects st x = Some o /\ store o = CView p n.

(** The objects a command is applied to (they may be changed). *)
Definition applied_to (c : command) (x : nat) : Prop :=
  match c with
  | New y _ _ _ _ | NewMapped y _ _ _ _ _ | NewConstMapped y _ _ _ _ _ | CopyNew y _ | Assign y _ | AssignBase y _
  | SetTimestep y _ _ | PushToIndex y _ _ _ | SetBulk y _ | SetZero y | ResetValues y _ _ | InterpolateFrom y _ => x = y
  | MoveNew y z | MoveAssign y z => x = y \/ x = z
  | WriteArray _ _ _ => False
  end.

(** The object whose values a command writes. *)
Definition writes_values_of (c : command) (x : nat) : Prop :=
  match c with
  | Assign y _ | AssignBase y _ | SetTimestep y _ _ | PushToIndex y _ _ _ | SetBulk y _ | SetZero y | InterpolateFrom y _ => x = y
  | _ => False
  end.

(** The cells of the arrays a command may write. *)
Definition may_write (st : state) (c : command) (a k : nat) : Prop :=
  (exists r, c = WriteArray a k r) \/
  (exists x off n, writes_values_of c x /\ maps st x (Some (a, off)) n /\ (off <= k < off + n)%nat).

(** An object's values lie apart from a cell. *)
Definition apart (o : object) (a k : nat) : Prop :=
  match store o with
  | Own _ | View None _ | CView None _ => True
  | View (Some (b, off)) n | CView (Some (b, off)) n => a <> b \/ (k < off)%nat \/ (off + n <= k)%nat
  end.

(** One row of values for every point. *)
Definition rows_fit (st : state) : Prop :=
  forall x o, objects st x = Some o -> size o = (inner_length o * length (points o))%nat.

(** Row [i] of [vals]. *)
Definition row (inner i : nat) (vals : list R) : list R := firstn inner (skipn (inner * i) vals).

Definition moves (c : command) : Prop := exists x y, c = MoveAssign x y.
