(** * Specification of the file handling *)
From Coq Require Import List Bool Arith String Ascii.
From Verif Require Import Base Json_Model Files_Model.
Import ListNotations.
Local Open Scope string_scope.
Local Open Scope list_scope.

(** A file with this content is there. *)
Definition holds (d : directory) (n : string) (content : string) : Prop := d n = Some (EFile content).
Definition is_dir (d : directory) (n : string) : Prop := exists b, d n = Some (EDir b).

(** The whole text reaches the disk. *)
Definition write_succeeds (env : environment) (text : string) : Prop :=
  open_fails env = false /\ exists before, visible env = before ++ [String.length text].

(** Names that are neither empty nor "." nor "..". *)
Definition plain (x : string) : Prop := x <> "" /\ x <> "." /\ x <> "..".
(** Where a path leads from a place in the tree of directories, given as list of names from the
    root; the root is its own parent. *)
Fixpoint walk (place : list string) (p : path) : list string :=
  match p with
  | [] => place
  | x :: rest =>
      walk (if String.eqb x "" then place
            else if String.eqb x "." then place
            else if String.eqb x ".." then removelast place
            else place ++ [x]) rest
  end.
Definition leads_to (root : list string) (p : path) : list string :=
  match p with
  | x :: rest => if String.eqb x "/" then walk [] rest else walk root p
  | [] => root
  end.
Definition inside (root place : list string) : Prop := exists rest, place = root ++ rest.
(** The directory at the [i]-th try, if this process changes nothing. *)
Fixpoint moment (o : others) (d : directory) (i : nat) : directory :=
  match i with O => act o 0 d | S k => act o (S k) (moment o d k) end.
