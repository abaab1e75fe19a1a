(** * Specification: numbers with a sign in front of units *)
From Coq Require Import Reals Ascii.
Local Open Scope R_scope.

Definition sign_char (negative : bool) : ascii := if negative then "-"%char else "+"%char.
Definition signed (negative : bool) (x : R) : R := if negative then - x else x.
