(** * Model of ConstraintJacobian and MappedConstraintJacobian as objects that share memory

    src/IpoptWrapper/ConstraintJacobian.cpp.  Memory is that of [Views_Model]; the layouts are those of
    [Jac_Model].  A pointer to the storage of a ConstraintJacobian is not handed out. *)
From Coq Require Import List Arith Reals Bool.
From Verif Require Import Base Interp_Model Defaults_Model Jac_Model Views_Model.
Import ListNotations.
Open Scope R_scope.

(** The member [storage] of ConstraintJacobian (ConstraintJacobian.hpp:143), and the members [values] and
    [number_of_entries] of MappedConstraintJacobian (lines 119-120). *)
Inductive jstorage : Type := JOwn (values : list R) | JView (values : ptr) (number_of_entries : nat).
Record jacobian : Type := mk_jacobian { lay : layout; jstore : jstorage }.
Record jstate : Type := mk_jstate { jarrays : memory; jacobians : nat -> option jacobian }.

Definition set_jacobian (st : jstate) (x : nat) (o : jacobian) : jstate := mk_jstate (jarrays st) (upd (jacobians st) x (Some o)).
Definition jlookup (st : jstate) (x : nat) : outcome jacobian := match jacobians st x with Some o => Ok o | None => UB end.

(** get_value_pointer, ConstraintJacobian.cpp:327-342 and 374-377: a null pointer throws. *)
Definition has_values (o : jacobian) : outcome unit := match jstore o with JView None _ => Exc | _ => Ok tt end.

(** get_allvalues, ConstraintJacobian.cpp:232-235: a map of length nonZeros(). *)
Definition get_allvalues (st : jstate) (o : jacobian) : outcome (list R) :=
  obind (has_values o) (fun _ =>
  match jstore o with JOwn v => read (fun _ => v) (Some (0, 0)%nat) (nonZeros (lay o)) | JView p _ => read (jarrays st) p (nonZeros (lay o)) end).

(** Writing values from position [start] on through a map: allvalues() (ConstraintJacobian.cpp:229-231) and get_column_block(column)
    (ConstraintJacobian.cpp:169-176). *)
Definition write_part (st : jstate) (x : nat) (o : jacobian) (start : nat) (vals : list R) : outcome jstate :=
  obind (has_values o) (fun _ =>
  match jstore o with
  | JOwn v =>
      if (start + length vals <=? length v)%nat
      then Ok (set_jacobian st x (mk_jacobian (lay o) (JOwn (firstn start v ++ vals ++ skipn (start + length vals) v))))
      else UB
  | JView None _ => Exc
  | JView (Some (a, off)) _ => omap (fun m => mk_jstate m (jacobians st)) (write (jarrays st) (Some (a, off + start)%nat) vals)
  end).

(** The comparisons of the layouts, ConstraintJacobian.cpp:239-259 and 266-278. *)
Definition list_nat_eqb (a b : list nat) : bool := if list_eq_dec Nat.eq_dec a b then true else false.
Definition same_layout (a b : layout) : bool :=
  ((block_width a =? block_width b)%nat && (block_height a =? block_height b)%nat &&
   (length (block_column_offsets a) =? length (block_column_offsets b))%nat &&
   list_nat_eqb (block_column_offsets a) (block_column_offsets b))%bool.

(** Assigning between parts of memory that overlap without being the same: the result depends on Eigen. *)
Definition joverlapping (a b : jacobian) : bool :=
  match jstore a, jstore b with
  | JView p _, JView q _ => overlapping (View p (nonZeros (lay a))) (View q (nonZeros (lay b)))
  | _, _ => false
  end.

(** A matrix with [h] rows of length [w] in row-major order. *)
Definition row_major (h w : nat) (B : nat -> nat -> R) : list R := flat_map (fun r => map (B r) (seq 0 w)) (seq 0 h).

Inductive jcommand : Type :=
| JNew (x : nat) (l : layout) (garbage : nat -> R)
| JNewMapped (x : nat) (l : layout) (p : ptr) (n : nat)
| JCopy (x y : nat)
| JCopyMapped (x y : nat)
| JAssign (x y : nat)
| JReplace (x : nat) (p : ptr) (n : nat)
| JSetZero (x : nat)
| JSetOnes (x : nat)
| JWriteColumn (x column : nat) (B : nat -> nat -> R)
| JWriteArray (a k : nat) (r : R).

(** One operation.
    - JNew, ConstraintJacobian.cpp:348-356 (the layout is that of make_data; the values are uninitialized); JNewMapped, lines
      295-307 with its assertion.
    - JCopy is the copy constructor of ConstraintJacobian, ConstraintJacobian.cpp:358-361 and ConstraintJacobian.hpp:136; JCopyMapped the implicit one of
      MappedConstraintJacobian, which copies the pointer.
    - JAssign is each of the assignments, ConstraintJacobian.cpp:237-262, 316-325 and 363-372.
    - JReplace is replace_storage, ConstraintJacobian.cpp:309-314 with its assertion.
    - JSetZero, JSetOnes, ConstraintJacobian.cpp:166-167; JWriteColumn is get_column_block(column) = B, ConstraintJacobian.cpp:169-176.
    - JWriteArray: the owner of an array writes to it. *)
Definition jexec (st : jstate) (c : jcommand) : outcome jstate :=
  match c with
  | JNew x l garbage => Ok (set_jacobian st x (mk_jacobian l (JOwn (map garbage (seq 0 (nonZeros l))))))
  | JNewMapped x l p n => if negb (nonZeros l =? n)%nat then UB else Ok (set_jacobian st x (mk_jacobian l (JView p n)))
  | JCopy x y =>
      obind (jlookup st y) (fun o => obind (get_allvalues st o) (fun v =>
      Ok (set_jacobian st x (mk_jacobian (lay o) (JOwn v)))))
  | JCopyMapped x y =>
      obind (jlookup st y) (fun o =>
      match jstore o with JView _ _ => Ok (set_jacobian st x o) | JOwn _ => UB end)
  | JAssign x y =>
      obind (jlookup st x) (fun a => obind (jlookup st y) (fun b =>
      if negb (same_layout (lay a) (lay b)) then Exc else
      obind (has_values a) (fun _ => obind (has_values b) (fun _ =>
      if joverlapping a b then UB else
      obind (get_allvalues st b) (fun v => write_part st x a 0 v)))))
  | JReplace x p n =>
      obind (jlookup st x) (fun o =>
      match jstore o with
      | JView _ m => if negb (n =? m)%nat then UB else Ok (set_jacobian st x (mk_jacobian (lay o) (JView p m)))
      | JOwn _ => UB
      end)
  | JSetZero x => obind (jlookup st x) (fun o => write_part st x o 0 (repeat 0 (nonZeros (lay o))))
  | JSetOnes x => obind (jlookup st x) (fun o => write_part st x o 0 (repeat 1 (nonZeros (lay o))))
  | JWriteColumn x column B =>
      obind (jlookup st x) (fun o =>
      if negb (column <? outer_width (lay o))%nat then UB else
      write_part st x o (inner_column_offset (lay o) column) (row_major (inner_col_height (lay o) column) (block_width (lay o)) B))
  | JWriteArray a k r => omap (fun m => mk_jstate m (jacobians st)) (write (jarrays st) (Some (a, k)) [r])
  end.

Definition jexec_all (st : jstate) (cs : list jcommand) : outcome jstate := ofold jexec cs st.

(** whole_matrix() of an object, ConstraintJacobian.cpp:216-227; every column block asks for the pointer. *)
Definition matrix_of (st : jstate) (x : nat) : outcome (nat -> nat -> R) :=
  obind (jlookup st x) (fun o =>
  if (outer_width (lay o) =? 0)%nat then Ok (fun _ _ => 0) else
  omap (fun v => whole_matrix (lay o) (fun k => nth k v 0)) (get_allvalues st o)).

(** operator==, ConstraintJacobian.cpp:264-284. *)
Definition jequal (st : jstate) (x y : nat) : outcome bool :=
  obind (jlookup st x) (fun a => obind (jlookup st y) (fun b =>
  if negb (same_layout (lay a) (lay b)) then Ok false else
  obind (get_allvalues st a) (fun v => obind (get_allvalues st b) (fun w =>
  Ok (forallb (fun '(p, q) => Reqb p q) (combine v w)))))).
