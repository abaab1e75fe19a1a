(** * Specification for the names of the output directories *)
From Coq Require Import List Arith ZArith String Ascii.
From Verif Require Import Base Stamp_Model.
Import ListNotations.
Local Open Scope string_scope.

(** The order of texts, character by character, in which directories are listed. *)
Inductive listed_before : string -> string -> Prop :=
| shorter c s : listed_before "" (String c s)
| smaller_character c d s t : nat_of_ascii c < nat_of_ascii d -> listed_before (String c s) (String d t)
| same_character c s t : listed_before s t -> listed_before (String c s) (String c t).

(** The printed parts of a date, the most important first, and their order. *)
Definition parts (t : tm) : list nat := [year t; month t; day t; hour t; minute t; second t].
Inductive lex_less : list nat -> list nat -> Prop :=
| less_here a b l m : a < b -> List.length l = List.length m -> lex_less (a :: l) (b :: m)
| less_later a l m : lex_less l m -> lex_less (a :: l) (a :: m).
Definition calendar_earlier (t u : tm) : Prop := lex_less (parts t) (parts u).
(** Dates as the calendar has them, in years of four digits. *)
Definition two_digit_parts (t : tm) : Prop := Forall (fun k => k < 100) [month t; day t; hour t; minute t; second t].
Definition ordinary (t : tm) : Prop := 1000 <= year t < 100 * 100 /\ two_digit_parts t.
(** Full seconds and full milliseconds since then of a point of time in nanoseconds. *)
Definition at_time (now sec ms : Z) : Prop :=
  (sec * 1000000000 + ms * 1000000 <= now < sec * 1000000000 + (ms + 1) * 1000000 /\ 0 <= sec /\ 0 <= ms < 1000)%Z.
(** Numbers below 1000 with the same number of digits. *)
Definition same_digits (a b : Z) : Prop :=
  ((a < 10 /\ b < 10) \/ (10 <= a < 100 /\ 10 <= b < 100) \/ (100 <= a < 1000 /\ 100 <= b < 1000))%Z.
