(** * Properties C07, C08: storage layout of the constraint Jacobian *)
From Coq Require Import List Arith Reals Lra Lia Sorted.
From Verif Require Import Base Interp_Model Interp_Spec Jac_Model Jac_Spec Jac_Proofs Jac_Proofs2.
Import ListNotations.
Open Scope R_scope.

(** C07.  For sorted grids the layout loop ends normally; the supplied index list has one pair
    per stored value, no pair twice, and consists of exactly the structural entries; the dense
    matrix has the stored values at the listed places and zeros elsewhere. *)
Theorem C07_index_lists : forall bh bw cons ctrl,
  nondecreasing cons -> nondecreasing ctrl -> ctrl <> [] ->
  exists l, make_data bh bw cons ctrl = Some (Ok l) /\
    length (supply_indices l) = nonZeros l /\
    NoDup (supply_indices l) /\
    (forall row col, In (row, col) (supply_indices l) <-> structural_entry bh bw cons ctrl row col) /\
    (forall values k row col, nth_error (supply_indices l) k = Some (row, col) ->
       whole_matrix l values row col = values k) /\
    (forall values row col, ~ structural_entry bh bw cons ctrl row col ->
       whole_matrix l values row col = 0) /\
    inner_width l = (length ctrl * bw)%nat /\
    (cons <> [] -> inner_height l = (length cons * bh)%nat).
Proof. exact jacobian_pattern. Qed.
Print Assumptions C07_index_lists.

(** Entry (r, c) of the column block of control point [j] is stored at the position whose
    supplied indices are its row and column in the whole matrix. *)
Theorem C07_column_blocks : forall bh bw cons ctrl l,
  nondecreasing cons -> nondecreasing ctrl -> make_data bh bw cons ctrl = Some (Ok l) ->
  forall j r c, (j < length ctrl)%nat -> (r < inner_col_height l j)%nat -> (c < bw)%nat ->
    nth_error (supply_indices l) (column_block_position l j r c)
      = Some ((inner_rowstart l j + r)%nat, (j * bw + c)%nat) /\
    (column_block_position l j r c < nonZeros l)%nat.
Proof. exact column_block_entry. Qed.
Print Assumptions C07_column_blocks.

Lemma nondecreasing_example : nondecreasing [1; 2; 5/2].
Proof.
  apply increasing_nondecreasing. repeat constructor; lra.
Qed.
Example C07_example : nondecreasing [1; 2; 5/2] /\ nondecreasing [1; 2; 5/2] /\ [1; 2; 5/2] <> [] /\
  may_depend [1; 2; 5/2] [1; 2; 5/2] 1 1 /\ ~ may_depend [1; 2; 5/2] [1; 2; 5/2] 0 1.
Proof.
  repeat split; auto using nondecreasing_example; try discriminate; simpl; try lia.
  - right. exists 2, 1. repeat split; lra.
  - intros (_ & _ & [Z|(s & u & A & B & D)]); [discriminate|].
    simpl in A, B. injection A as <-. injection B as <-. lra.
Qed.

(** C08.  An entry that is left out belongs to a control value that has no influence on any
    interpolated control up to the time of the constraint. *)
Theorem C08_omitted_entries_zero : forall cons ctrl i j s, increasing ctrl -> (j < length ctrl)%nat ->
  nth_error cons i = Some s -> ~ may_depend cons ctrl i j ->
  forall m w1 w2 t, table_of ctrl m w1 -> table_of ctrl m w2 ->
  (forall i' k, (i' < length ctrl)%nat -> i' <> j -> (k < m)%nat -> entry w1 m i' k = entry w2 m i' k) ->
  t <= s ->
  interp_at (mk_ivec ctrl m w1) t = interp_at (mk_ivec ctrl m w2) t.
Proof. exact omitted_entry_zero. Qed.
Print Assumptions C08_omitted_entries_zero.

(** At state time [t] the sweep writes the rows of the constraints from number [i] on (those not
    before [t]) into the column blocks number [u] and [u-1]: they are stored there. *)
Theorem C08_sweep_writes_inside : forall bh bw cons ctrl l, increasing cons -> increasing ctrl ->
  make_data bh bw cons ctrl = Some (Ok l) ->
  forall t u la, compute_index_lambda ctrl t = Ok (u, la) ->
  forall i s, nth_error cons i = Some s -> t <= s ->
  ((length cons - i) * bh <= inner_col_height l u)%nat /\
  ((length cons - i) * bh <= inner_col_height l (u - 1))%nat /\
  (u < length ctrl)%nat.
Proof. exact sweep_rows_fit. Qed.
Print Assumptions C08_sweep_writes_inside.

Example C08_example : exists cons ctrl i j s,
  increasing ctrl /\ (j < length ctrl)%nat /\ nth_error cons i = Some s /\ ~ may_depend cons ctrl i j.
Proof.
  exists [1; 2; 5/2], [1; 2; 5/2], 0%nat, 1%nat, 1.
  split; [repeat constructor; lra|]. split; [simpl; lia|]. split; [reflexivity|]. apply C07_example.
Qed.
