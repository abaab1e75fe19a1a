(** * Model of InterpolatingVector, MappedInterpolatingVector and ConstMappedInterpolatingVector as objects that
      share memory

    src/Auxillary/InterpolatingVector/InterpolatingVector.cpp.  Doubles are [R], sizes are [nat] (no
    overflow).  The arrays are those handed in from outside (by Ipopt and by the caller); that a pointer to
    the values of an InterpolatingVector itself is handed to one of the mapped classes is not
    modelled.  An exception carries no state: what is left behind by an operation that throws is
    not modelled. *)
From Coq Require Import List Arith Reals ZArith Bool.
From Verif Require Import Base Interp_Model Defaults_Model Iface_Model.
Import ListNotations.
Open Scope R_scope.

(** ** Memory *)

(** A pointer into an array (array and offset), or nullptr. *)
Definition ptr : Type := option (nat * nat).

(** Storage of the values: the member [values] of InterpolatingVector (InterpolatingVector.hpp:145), the
    member [mapped_values] of MappedInterpolatingVector (line 185) and of
    ConstMappedInterpolatingVector (line 207). *)
Inductive storage : Type :=
| Own (values : list R)
| View (p : ptr) (n : nat)
| CView (p : ptr) (n : nat).

(** An object: its members interpolation_points and inner_length (InterpolatingVector.hpp:98-99) and its values. *)
Record object : Type := mk_object { points : list R; inner_length : nat; store : storage }.

Definition memory : Type := nat -> list R.
Record state : Type := mk_state { arrays : memory; objects : nat -> option object }.

Definition upd {A} (f : nat -> A) (x : nat) (a : A) : nat -> A := fun y => if (y =? x)%nat then a else f y.
Definition set_object (st : state) (x : nat) (o : object) : state := mk_state (arrays st) (upd (objects st) x (Some o)).

(** An object that does not exist cannot be used. *)
Definition lookup (st : state) (x : nat) : outcome object := match objects st x with Some o => Ok o | None => UB end.

(** Reading and writing through Eigen::Map.  Beyond the array there is undefined behaviour; a map without
    elements never touches its pointer. *)
Definition read (m : memory) (p : ptr) (n : nat) : outcome (list R) :=
  if (n =? 0)%nat then Ok [] else
  match p with
  | None => UB
  | Some (a, off) => if (off + n <=? length (m a))%nat then Ok (firstn n (skipn off (m a))) else UB
  end.
Definition write (m : memory) (p : ptr) (vals : list R) : outcome memory :=
  if (length vals =? 0)%nat then Ok m else
  match p with
  | None => UB
  | Some (a, off) =>
      if (off + length vals <=? length (m a))%nat
      then Ok (upd m a (firstn off (m a) ++ vals ++ skipn (off + length vals) (m a)))
      else UB
  end.

(** get_allvalues() and its size, InterpolatingVector.cpp:239-241, 297-300, 430-433, 545-548, 613-616. *)
Definition size (o : object) : nat := match store o with Own v => length v | View _ n | CView _ n => n end.
Definition allvalues (st : state) (o : object) : outcome (list R) :=
  match store o with Own v => Ok v | View p n | CView p n => read (arrays st) p n end.

(** Assignment to the non-const allvalues(), InterpolatingVector.cpp:423-425, 542-544 and 601-612: a vector of another size
    violates an assertion of Eigen. *)
Definition set_allvalues (st : state) (x : nat) (o : object) (vals : list R) : outcome state :=
  match store o with
  | CView _ _ => Exc
  | Own v => if (length vals =? length v)%nat then Ok (set_object st x (mk_object (points o) (inner_length o) (Own vals))) else UB
  | View p n => if (length vals =? n)%nat then omap (fun m => mk_state m (objects st)) (write (arrays st) p vals) else UB
  end.

(** The object as the value it stands for (for the functions of [Interp_Model]). *)
Definition as_ivec (o : object) (vals : list R) : ivec := mk_ivec (points o) (inner_length o) vals.

(** have_same_structure, InterpolatingVector.cpp:363-378. *)
Definition same_structure (a b : object) : bool := have_same_structure (as_ivec a []) (as_ivec b []).

(** ** Constructors *)

(** The constructors from an Eigen vector (InterpolatingVector.cpp:152-166) assert that the points are sorted, those from a
    std::vector (InterpolatingVector.cpp:168-176) look at the vector that was moved from.  (The constructors from
    Interpolation_data, InterpolatingVector.cpp:138-150, are those of an Eigen vector with equidistant points.) *)
Inductive source : Type := Eigen_vector | Std_vector.
Definition base_ctor (s : source) (pts : list R) : outcome unit :=
  match s with
  | Eigen_vector => if is_sorted pts then Ok tt else UB
  | Std_vector => if is_sorted (snd (vector_move_construct pts)) then Ok tt else Exc
  end.

(** Assigning an Eigen vector to a part of memory it overlaps without being the same part: the result
    depends on the order in which Eigen copies. *)
Definition overlapping (a b : storage) : bool :=
  match a, b with
  | View (Some (x, i)) n, (View (Some (y, j)) m | CView (Some (y, j)) m) =>
      (x =? y)%nat && negb (i =? j)%nat && (i <? j + m)%nat && (j <? i + n)%nat
  | _, _ => false
  end.

(** ** Operations *)
Inductive command : Type :=
| New (x : nat) (s : source) (pts : list R) (inner : nat) (garbage : nat -> R)
| NewMapped (x : nat) (s : source) (pts : list R) (inner : nat) (p : ptr) (n : nat)
| NewConstMapped (x : nat) (s : source) (pts : list R) (inner : nat) (p : ptr) (n : nat)
| CopyNew (x y : nat)
| MoveNew (x y : nat)
| Assign (x y : nat)
| AssignBase (x y : nat)
| MoveAssign (x y : nat)
| SetTimestep (x : nat) (i : Z) (row : list R)
| PushToIndex (x : nat) (i : Z) (t : R) (row : list R)
| SetBulk (x : nat) (vals : list R)
| SetZero (x : nat)
| ResetValues (x : nat) (p : ptr) (n : nat)
| InterpolateFrom (x y : nat)
| WriteArray (a k : nat) (r : R).

(** mut_timestep(i) = row, InterpolatingVector.cpp:302-315. *)
Definition set_timestep (st : state) (x : nat) (i : Z) (row : list R) : outcome state :=
  obind (lookup st x) (fun o =>
  if (i <? 0)%Z then Exc else
  let start := (inner_length o * Z.to_nat i)%nat in
  if (size o <? start + inner_length o)%nat then Exc else
  match store o with
  | CView _ _ => Exc
  | _ =>
      if negb (length row =? inner_length o)%nat then UB else
      obind (allvalues st o) (fun vals =>
      set_allvalues st x o (firstn start vals ++ row ++ skipn (start + inner_length o) vals))
  end).

(** std::vector::operator[](i) = t. *)
Definition set_point (pts : list R) (i : nat) (t : R) : outcome (list R) :=
  if (i <? length pts)%nat then Ok (firstn i pts ++ t :: skipn (S i) pts) else UB.

(** vector_at_index, InterpolatingVector.cpp:323-337. *)
Definition vector_at (st : state) (x : nat) (i : Z) : outcome (list R) :=
  obind (lookup st x) (fun o =>
  if (i <? 0)%Z then Exc else
  let start := (inner_length o * Z.to_nat i)%nat in
  if (size o <? start + inner_length o)%nat then Exc else
  obind (allvalues st o) (fun vals => segment vals start (inner_length o))).

(** The loop of interpolate_from, InterpolatingVector.cpp:234-236; the row is evaluated before it is assigned. *)
Fixpoint interpolate_steps (st : state) (x y : nat) (todo : list R) (i : Z) : outcome state :=
  match todo with
  | [] => Ok st
  | t :: todo' =>
      obind (lookup st y) (fun o =>
      obind (allvalues st o) (fun vals =>
      obind (interp_at (as_ivec o vals) t) (fun row =>
      obind (set_timestep st x i row) (fun st' => interpolate_steps st' x y todo' (i + 1)))))
  end.

(** One operation on objects and memory.
    - New, InterpolatingVector.cpp:383-403 (the values are uninitialized).
    - NewMapped, InterpolatingVector.cpp:476-514; NewConstMapped, InterpolatingVector.cpp:550-588.
    - CopyNew is the copy constructor, InterpolatingVector.cpp:419-421 and InterpolatingVector.hpp:136-137.
    - MoveNew is the move constructor, InterpolatingVector.cpp:184-189 and 427-428; std::vector and Eigen leave empty vectors.
    - Assign is operator= of the class of x: InterpolatingVector.cpp:405-417 and 516-540 (for a
      ConstMappedInterpolatingVector it does not compile).
    - AssignBase is the assignment to an InterpolatingVector_Base &, InterpolatingVector.cpp:200-211.
    - MoveAssign, InterpolatingVector.cpp:191-198 and InterpolatingVector.hpp:134: std::vector leaves an empty vector, Eigen exchanges the
      two storages.
    - SetBulk, InterpolatingVector.cpp:213-219; SetZero, InterpolatingVector.cpp:221; PushToIndex, InterpolatingVector.cpp:317-321; ResetValues, InterpolatingVector.cpp:590-599;
      InterpolateFrom, InterpolatingVector.cpp:223-237.
    - WriteArray: the owner of an array writes to it. *)
Definition exec (st : state) (c : command) : outcome state :=
  match c with
  | New x s pts inner garbage =>
      omap (fun _ => set_object st x (mk_object pts inner (Own (map garbage (seq 0 (inner * length pts)))))) (base_ctor s pts)
  | NewMapped x s pts inner p n =>
      obind (base_ctor s pts) (fun _ =>
      if negb (inner * length pts =? n)%nat then Exc else Ok (set_object st x (mk_object pts inner (View p n))))
  | NewConstMapped x s pts inner p n =>
      obind (base_ctor s pts) (fun _ =>
      if negb (inner * length pts =? n)%nat then Exc else Ok (set_object st x (mk_object pts inner (CView p n))))
  | CopyNew x y =>
      obind (lookup st y) (fun o => obind (allvalues st o) (fun vals =>
      Ok (set_object st x (mk_object (points o) (inner_length o) (Own vals)))))
  | MoveNew x y =>
      obind (lookup st y) (fun o =>
      match store o with
      | Own v => Ok (set_object (set_object st y (mk_object [] 0 (Own []))) x o)
      | _ => UB
      end)
  | Assign x y =>
      obind (lookup st x) (fun a => obind (lookup st y) (fun b =>
      match store a with
      | Own _ => omap (fun vals => set_object st x (mk_object (points b) (inner_length b) (Own vals))) (allvalues st b)
      | View _ _ =>
          if negb (same_structure b a) then Exc else
          if overlapping (store a) (store b) then UB else
          obind (allvalues st b) (fun vals =>
          omap (fun st' => set_object st' x (mk_object (points b) (inner_length b) (store a))) (set_allvalues st x a vals))
      | CView _ _ => UB
      end))
  | AssignBase x y =>
      obind (lookup st x) (fun a => obind (lookup st y) (fun b =>
      if negb (same_structure b a) then Exc else
      match store a with
      | CView _ _ => Exc
      | _ =>
          if overlapping (store a) (store b) then UB else
          obind (allvalues st b) (fun vals =>
          omap (fun st' => set_object st' x (mk_object (points b) (inner_length b) (match store a with Own _ => Own vals | s => s end)))
            (set_allvalues st x a vals))
      end))
  | MoveAssign x y =>
      if (x =? y)%nat then UB else
      obind (lookup st x) (fun a => obind (lookup st y) (fun b =>
      match store a, store b with
      | Own v, Own w => Ok (set_object (set_object st y (mk_object [] 0 (Own v))) x b)
      | _, _ => UB
      end))
  | SetTimestep x i row => set_timestep st x i row
  | PushToIndex x i t row =>
      obind (set_timestep st x i row) (fun st' => obind (lookup st' x) (fun o =>
      omap (fun pts => set_object st' x (mk_object pts (inner_length o) (store o))) (set_point (points o) (Z.to_nat i) t)))
  | SetBulk x vals =>
      obind (lookup st x) (fun o =>
      match store o with
      | CView _ _ => Exc
      | _ => if negb (length vals =? size o)%nat then Exc else set_allvalues st x o vals
      end)
  | SetZero x => obind (lookup st x) (fun o => set_allvalues st x o (repeat 0 (size o)))
  | ResetValues x p n =>
      obind (lookup st x) (fun o =>
      match store o with
      | CView _ m => if negb (n =? m)%nat then Exc else Ok (set_object st x (mk_object (points o) (inner_length o) (CView p n)))
      | _ => UB
      end)
  | InterpolateFrom x y =>
      obind (lookup st x) (fun a => obind (lookup st y) (fun b =>
      if negb (inner_length a =? inner_length b)%nat then UB else
      obind (get (points b) 0) (fun s0 => obind (get (points a) 0) (fun d0 =>
      if Rltb d0 s0 then UB else
      if Rltb (last (points b) 0) (last (points a) 0) then UB else
      interpolate_steps st x y (points a) 0))))
  | WriteArray a k r =>
      omap (fun m => mk_state m (objects st)) (write (arrays st) (Some (a, k)) [r])
  end.

Definition exec_all (st : state) (cs : list command) : outcome state := ofold exec cs st.

(** operator==, InterpolatingVector.cpp:348-355: with the same structure but other sizes of the values an assertion of Eigen is
    violated. *)
Definition equal (st : state) (x y : nat) : outcome bool :=
  obind (lookup st x) (fun a => obind (lookup st y) (fun b =>
  if negb (same_structure a b) then Ok false else
  obind (allvalues st a) (fun v => obind (allvalues st b) (fun w =>
  if negb (length v =? length w)%nat then UB else Ok (forallb (fun '(p, q) => Reqb p q) (combine v w)))))).
