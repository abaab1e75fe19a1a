(** * Model of src/Auxillary/Matrixhandler/Matrixhandler.cpp and of the part of
      Eigen::SparseMatrix it uses

    A column-major sparse matrix stores, one column after the other, the entries of the column
    in the order of their rows and then free slots; a matrix without free slots is compressed.
    The array of values (valuePtr) contains the free slots, nonZeros() counts only the
    entries. *)
From Coq Require Import Reals List Arith Bool.
From Verif Require Import Base.
Import ListNotations.
Local Open Scope R_scope.

Record column := mkColumn { col_entries : list (nat * R); col_free : list R }.
Record smatrix := mkMatrix { m_rows : nat; m_cols : list column }.

(** coeff(row, col): zero if there is no entry. *)
Fixpoint lookup (l : list (nat * R)) (r : nat) : option R :=
  match l with
  | [] => None
  | (r', v) :: rest => if Nat.eqb r' r then Some v else lookup rest r
  end.
Definition coeff (m : smatrix) (r c : nat) : R :=
  match nth_error (m_cols m) c with
  | Some col => match lookup (col_entries col) r with Some v => v | None => 0 end
  | None => 0
  end.

(** nonZeros(). *)
Definition nonZeros (m : smatrix) : nat := list_sum (map (fun c => length (col_entries c)) (m_cols m)).

(** [Map(valuePtr, k).setZero()]: the first [k] slots of the array of values become zero. *)
Fixpoint zero_values (k : nat) (l : list (nat * R)) : list (nat * R) :=
  match k, l with
  | S k', (r, _) :: rest => (r, 0) :: zero_values k' rest
  | _, _ => l
  end.
Fixpoint zero_free (k : nat) (l : list R) : list R :=
  match k, l with
  | S k', _ :: rest => 0 :: zero_free k' rest
  | _, _ => l
  end.
Fixpoint zero_slots (k : nat) (cols : list column) : list column :=
  match cols with
  | [] => []
  | c :: rest =>
      let k1 := (k - length (col_entries c))%nat in
      let k2 := (k1 - length (col_free c))%nat in
      mkColumn (zero_values k (col_entries c)) (zero_free k1 (col_free c)) :: zero_slots k2 rest
  end.

(** coeffRef(row, col) += value inside one column if the entry exists. *)
Fixpoint add_existing (l : list (nat * R)) (r : nat) (v : R) : list (nat * R) :=
  match l with
  | [] => []
  | (r', w) :: rest => if Nat.eqb r' r then (r', w + v) :: rest else (r', w) :: add_existing rest r v
  end.
(** A new entry goes before the first entry with a larger row. *)
Fixpoint insert_new (l : list (nat * R)) (r : nat) (v : R) : list (nat * R) :=
  match l with
  | [] => [(r, v)]
  | (r', w) :: rest => if Nat.ltb r r' then (r, v) :: l else (r', w) :: insert_new rest r v
  end.

Fixpoint update {A} (l : list A) (i : nat) (f : A -> A) : list A :=
  match l, i with
  | [], _ => []
  | x :: rest, O => f x :: rest
  | x :: rest, S j => x :: update rest j f
  end.
(** Additional free slots for all columns: [grow c] slots with arbitrary content for column
    [c].  Eigen gives two slots to every column when a compressed matrix becomes uncompressed,
    or max(2, entries) slots to a full column (SparseMatrix::insert, insertUncompressed); the
    theorems hold for any choice. *)
Fixpoint reserve (grow : nat -> list R) (c : nat) (cols : list column) : list column :=
  match cols with
  | [] => []
  | x :: rest => mkColumn (col_entries x) (col_free x ++ grow c) :: reserve grow (S c) rest
  end.
(** coeffRef(row, col) += value.  Simplification: Eigen's shortcut for an insertion behind all
    stored entries, which needs no free slots, is treated like any other insertion. *)
Definition coeffRef_add (grow : nat -> list R) (cols : list column) (r c : nat) (v : R) : list column :=
  match nth_error cols c with
  | None => cols
  | Some col =>
      match lookup (col_entries col) r with
      | Some _ => update cols c (fun x => mkColumn (add_existing (col_entries x) r v) (col_free x))
      | None =>
          let cols' := match col_free col with [] => reserve grow 0 cols | _ => cols end in
          update cols' c (fun x => mkColumn (insert_new (col_entries x) r (0 + v)) (tl (col_free x)))
      end
  end.

(** A call of add_to_coefficient(row, col, value). *)
Definition contribution := (nat * nat * R)%type.
(** Matrixhandler.cpp:34-42 and 70-78: the template parameter Transpose swaps row and column. *)
Definition actual (transposed : bool) (t : contribution) : contribution :=
  match t with (r, c, v) => if transposed then (c, r, v) else (r, c, v) end.
(** The asserts, lines 43-46 and 79-82. *)
Definition inside (m : smatrix) (t : contribution) : bool :=
  match t with (r, c, _) => (Nat.ltb r (m_rows m) && Nat.ltb c (length (m_cols m)))%bool end.

(** Coeffrefhandler: constructor, lines 56-64, and add_to_coefficient, lines 66-84;
    set_matrix does nothing, line 86. *)
Definition coeffref_create (m : smatrix) : smatrix :=
  mkMatrix (m_rows m) (zero_slots (nonZeros m) (m_cols m)).
Definition coeffref_add (grow : nat -> list R) (transposed : bool) (m : smatrix) (t : contribution)
  : outcome smatrix :=
  if inside m (actual transposed t)
  then match actual transposed t with
       | (r, c, v) => Ok (mkMatrix (m_rows m) (coeffRef_add grow (m_cols m) r c v))
       end
  else UB.
Fixpoint coeffref_adds (grow : nat -> list R) (transposed : bool) (m : smatrix) (ts : list contribution)
  : outcome smatrix :=
  match ts with
  | [] => Ok m
  | t :: rest => obind (coeffref_add grow transposed m t) (fun m' => coeffref_adds grow transposed m' rest)
  end.
(** Construct the handler and add the contributions, as in
    Newtonsolver::evaluate_state_derivative_coeffref, Newtonsolver.cpp:46-54. *)
Definition coeffref_fill (grow : nat -> list R) (transposed : bool) (m : smatrix) (ts : list contribution)
  : outcome smatrix :=
  coeffref_adds grow transposed (coeffref_create m) ts.

(** setFromTriplets: a compressed matrix with one entry per position that occurs, entries
    sorted by row, repeated positions added up.  Simplification: Eigen sorts by two
    transpositions. *)
Fixpoint triplet_column (c : nat) (ts : list contribution) (acc : list (nat * R)) : list (nat * R) :=
  match ts with
  | [] => acc
  | (r, c', v) :: rest =>
      triplet_column c rest
        (if Nat.eqb c' c
         then match lookup acc r with Some _ => add_existing acc r v | None => insert_new acc r v end
         else acc)
  end.
Definition setFromTriplets (rows cols : nat) (ts : list contribution) : smatrix :=
  mkMatrix rows (map (fun c => mkColumn (triplet_column c ts []) []) (seq 0 cols)).

(** resize(rows, cols), Triplethandler, set_matrix: lines 24-54 and
    Newtonsolver::evaluate_state_derivative_triplets, Newtonsolver.cpp:29-44.  The matrix is
    empty after resize, as the constructor asserts. *)
Definition triplet_fill (transposed : bool) (rows cols : nat) (ts : list contribution) : outcome smatrix :=
  let empty := mkMatrix rows (repeat (mkColumn [] []) cols) in
  if forallb (fun t => inside empty (actual transposed t)) ts
  then Ok (setFromTriplets rows cols (map (actual transposed) ts))
  else UB.

(** A matrix that is built once and then refilled again and again, as the Jacobian in
    Newtonsolver and the derivative matrices in ImplicitOptimizer.cpp:661-812. *)
Fixpoint refills (grow : nat -> list R) (transposed : bool) (m : smatrix) (fills : list (list contribution))
  : outcome smatrix :=
  match fills with
  | [] => Ok m
  | ts :: rest => obind (coeffref_fill grow transposed m ts) (fun m' => refills grow transposed m' rest)
  end.
