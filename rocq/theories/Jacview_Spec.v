(** * Specification: Jacobians with and without memory of their own *)
From Coq Require Import List Arith Reals.
From Verif Require Import Base Jac_Model Jac_Spec Views_Model Jacview_Model.
Import ListNotations.
Open Scope R_scope.

(** The layout belongs to sorted times. *)
Definition made_for (bh bw : nat) (cons ctrl : list R) (l : layout) : Prop :=
  nondecreasing cons /\ nondecreasing ctrl /\ ctrl <> [] /\ make_data bh bw cons ctrl = Some (Ok l).

Definition proper_layout (l : layout) : Prop := exists bh bw cons ctrl, made_for bh bw cons ctrl l.

(** What can be seen of a Jacobian: its layout and its values. *)
Definition jshows (st : jstate) (x : nat) (l : layout) (vals : list R) : Prop :=
  exists o, jacobians st x = Some o /\ lay o = l /\ get_allvalues st o = Ok vals.

Definition jowns (st : jstate) (x : nat) : Prop := exists o v, jacobians st x = Some o /\ jstore o = JOwn v.
Definition jmaps (st : jstate) (x : nat) (p : ptr) : Prop := exists o n, jacobians st x = Some o /\ jstore o = JView p n.

(** The layouts are proper and the sizes of the storages are theirs. *)
Definition jfit (st : jstate) : Prop :=
  forall x o, jacobians st x = Some o -> proper_layout (lay o) /\ match jstore o with JOwn v => length v = nonZeros (lay o) | JView _ n => n = nonZeros (lay o) end.

(** New Jacobians are made for sorted times. *)
Definition proper_command (c : jcommand) : Prop :=
  match c with JNew _ l _ | JNewMapped _ l _ _ => proper_layout l | _ => True end.

Definition japplied_to (c : jcommand) (x : nat) : Prop :=
  match c with
  | JNew y _ _ | JNewMapped y _ _ _ | JCopy y _ | JCopyMapped y _ | JAssign y _ | JReplace y _ _ | JSetZero y | JSetOnes y | JWriteColumn y _ _ => x = y
  | JWriteArray _ _ _ => False
  end.
Definition jwrites_values_of (c : jcommand) (x : nat) : Prop :=
  match c with JAssign y _ | JSetZero y | JSetOnes y | JWriteColumn y _ _ => x = y | _ => False end.

(** The cells of the arrays a command may write. *)
Definition jmay_write (st : jstate) (c : jcommand) (a k : nat) : Prop :=
  (exists r, c = JWriteArray a k r) \/
  (exists x o off n, jwrites_values_of c x /\ jacobians st x = Some o /\ jstore o = JView (Some (a, off)) n /\ (off <= k < off + nonZeros (lay o))%nat).

(** The values lie apart from a cell. *)
Definition japart (o : jacobian) (a k : nat) : Prop :=
  match jstore o with
  | JView (Some (b, off)) _ => a <> b \/ (k < off)%nat \/ (off + nonZeros (lay o) <= k)%nat
  | _ => True
  end.

(** Entry (row, col) lies in column block [j]. *)
Definition in_column_block (l : layout) (j row col : nat) : Prop :=
  (inner_rowstart l j <= row < inner_rowstart l j + inner_col_height l j)%nat /\ (j * block_width l <= col < (j + 1) * block_width l)%nat.
