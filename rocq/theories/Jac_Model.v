(** * Model of src/IpoptWrapper/ConstraintJacobian.cpp (storage layout of the constraint
      Jacobian)

    Times are [R]; indices are [nat]. *)
From Coq Require Import List Arith Reals Bool.
From Verif Require Import Base Interp_Model.
Import ListNotations.

(** Members of ConstraintJacobian_Base (ConstraintJacobian.hpp:91-93). *)
Record layout : Type := mk_layout {
  block_height : nat;
  block_width : nat;
  block_column_offsets : list nat
}.

(** The while loop of make_data, ConstraintJacobian.cpp:47-64.  [fuel] bounds the number of
    iterations, [None] means that it was exhausted.  [offsets] is the already written prefix
    [_block_column_offsets[0 .. control_index-1]]. *)
Fixpoint make_data_loop (fuel : nat) (constrainttimes controltimes : list R)
    (constraint_index control_index last_height : nat) (last_controltime : R)
    (offsets : list nat) : option (outcome (nat * list nat)) :=
  match fuel with
  | O => None
  | S fuel' =>
      if (control_index =? length controltimes)%nat then Some (Ok (last_height, offsets))
      else if (constraint_index =? length constrainttimes)%nat then
        make_data_loop fuel' constrainttimes controltimes constraint_index
          (S control_index) 0 last_controltime
          (offsets ++ [last offsets 0%nat + last_height])%nat
      else
        match get constrainttimes constraint_index with
        | Ok ct =>
            if Rltb last_controltime ct then
              match get controltimes control_index with
              | Ok ut =>
                  make_data_loop fuel' constrainttimes controltimes constraint_index
                    (S control_index) (length constrainttimes - constraint_index)%nat ut
                    (offsets ++ [last offsets 0%nat + last_height])%nat
              | Exc => Some Exc
              | UB => Some UB
              end
            else
              make_data_loop fuel' constrainttimes controltimes (S constraint_index)
                control_index last_height last_controltime offsets
        | Exc => Some Exc
        | UB => Some UB
        end
  end.

(** make_data, ConstraintJacobian.cpp:25-68.  Reading [controltimes[0]] of an empty vector is
    undefined behaviour. *)
Definition make_data (bh bw : nat) (constrainttimes controltimes : list R)
  : option (outcome layout) :=
  match controltimes with
  | [] => Some UB
  | u0 :: _ =>
      match make_data_loop (S (length controltimes + length constrainttimes))
              constrainttimes controltimes 0 1 (length constrainttimes) u0 [0%nat] with
      | Some (Ok (last_height, offsets)) =>
          Some (Ok (mk_layout bh bw (offsets ++ [last offsets 0 + last_height])%nat))
      | Some Exc => Some Exc
      | Some UB => Some UB
      | None => None
      end
  end.

(** Accessors, ConstraintJacobian.cpp:84-164 (the asserted ranges of [column] are hypotheses
    of the theorems). *)
Definition offset (l : layout) (column : nat) : nat := nth column (block_column_offsets l) 0%nat.
Definition block_size (l : layout) : nat := (block_height l * block_width l)%nat.
Definition outer_width (l : layout) : nat := (length (block_column_offsets l) - 1)%nat.
Definition inner_width (l : layout) : nat := (outer_width l * block_width l)%nat.
Definition outer_height (l : layout) : nat := offset l 1.
Definition inner_height (l : layout) : nat := (outer_height l * block_height l)%nat.
Definition outer_col_height (l : layout) (column : nat) : nat :=
  (offset l (column + 1) - offset l column)%nat.
Definition inner_col_height (l : layout) (column : nat) : nat :=
  (outer_col_height l column * block_height l)%nat.
Definition outer_rowstart (l : layout) (column : nat) : nat :=
  (outer_height l - outer_col_height l column)%nat.
Definition inner_rowstart (l : layout) (column : nat) : nat :=
  (outer_rowstart l column * block_height l)%nat.
Definition inner_colstart (l : layout) (column : nat) : nat := (column * block_width l)%nat.
Definition inner_column_offset (l : layout) (column : nat) : nat :=
  (offset l column * block_size l)%nat.

(** nonZeros, ConstraintJacobian.cpp:186-189. *)
Definition nonZeros (l : layout) : nat :=
  (nth (length (block_column_offsets l) - 1) (block_column_offsets l) 0%nat * block_size l)%nat.

(** supply_indices, ConstraintJacobian.cpp:191-214: the sequence of (row, column) pairs
    written to Rowindices/Colindices. *)
Definition supply_indices (l : layout) : list (nat * nat) :=
  flat_map (fun j =>
    flat_map (fun innerrow =>
      map (fun innercol => (innerrow, innercol))
          (seq (inner_colstart l j) (block_width l)))
      (seq (inner_rowstart l j) (inner_height l - inner_rowstart l j)))
    (seq 0 (outer_width l)).

(** get_column_block(column)(r, c), ConstraintJacobian.cpp:169-185: position in the value array
    of entry (r, c) of the row-major column block. *)
Definition column_block_position (l : layout) (column r c : nat) : nat :=
  (inner_column_offset l column + (r * block_width l + c))%nat.

(** Assigning a block of a dense matrix (Eigen [result.block(i,j,h,w) = B]). *)
Definition assign_block (M : nat -> nat -> R) (i j h w : nat) (B : nat -> nat -> R)
  : nat -> nat -> R :=
  fun r c =>
    if (i <=? r)%nat && (r <? i + h)%nat && (j <=? c)%nat && (c <? j + w)%nat
    then B (r - i)%nat (c - j)%nat else M r c.

(** whole_matrix, ConstraintJacobian.cpp:216-227. *)
Definition whole_matrix (l : layout) (values : nat -> R) : nat -> nat -> R :=
  fold_left (fun M column =>
      assign_block M (inner_rowstart l column) (inner_colstart l column)
        (inner_col_height l column) (block_width l)
        (fun r c => values (column_block_position l column r c)))
    (seq 0 (outer_width l)) (fun _ _ => 0%R).
