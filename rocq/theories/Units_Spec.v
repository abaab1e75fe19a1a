(** * Specification of unit strings *)
From Coq Require Import Reals List Bool Arith String Ascii.
From Verif Require Import Base Json_Model Units_Model.
Import ListNotations.
Local Open Scope R_scope.
Local Open Scope string_scope.
Local Open Scope list_scope.

(** Decimal numerals: digits before the point, optional digits after the point, optional exponent. *)
Record numeral := mkNumeral {
  whole : list nat; frac : option (nat * list nat); expo : option (bool * (nat * list nat)) }.
Definition digit_char (d : nat) : ascii := ascii_of_nat (48 + d).
Definition text_of (ds : list nat) : list ascii := map digit_char ds.
Definition text (n : numeral) : list ascii :=
  text_of (whole n)
  ++ (match frac n with Some (d, ds) => "."%char :: text_of (d :: ds) | None => [] end)
  ++ (match expo n with
      | Some (neg, (d, ds)) => "e"%char :: (if neg then ["-"%char] else []) ++ text_of (d :: ds)
      | None => []
      end).
(** The number denoted by a list of digits, most significant first. *)
Fixpoint number (ds : list nat) : nat :=
  match ds with [] => O | d :: rest => (d * 10 ^ List.length rest + number rest)%nat end.
Definition value (n : numeral) : R :=
  (INR (number (whole n)) + match frac n with Some (d, ds) => INR (number (d :: ds)) / 10 ^ List.length (d :: ds) | None => 0 end)
  * match expo n with
    | Some (neg, (d, ds)) => if neg then / 10 ^ number (d :: ds) else 10 ^ number (d :: ds)
    | None => 1
    end.
Definition small (d : nat) : Prop := (d < 10)%nat.
Definition numeral_ok (n : numeral) : Prop :=
  List.Forall small (whole n) /\
  match frac n with Some (d, ds) => List.Forall small (d :: ds) | None => True end /\
  match expo n with Some (_, (d, ds)) => List.Forall small (d :: ds) | None => True end.
Definition has_digit (n : numeral) : Prop := whole n <> [] \/ frac n <> None.

(** A unit string: a prefix and a unit, perhaps after a numeral and a blank.  [conv] is the
    meaning: the value in SI units. *)
Inductive reading (m : conversion_map) (u : list ascii) : string -> (R -> R) -> Prop :=
| reading_plain p pf name c :
    In (p, pf) si_prefixes -> In (name, c) m -> u = chars p ++ chars name ->
    reading m u name (fun v => multiplicator c * (v * multiplicator pf) + offset c)
| reading_number n p pf name c :
    numeral_ok n -> has_digit n ->
    In (p, pf) si_prefixes -> In (name, c) m -> u = text n ++ " "%char :: chars p ++ chars name ->
    reading m u name (fun v => multiplicator c * (v * (multiplicator pf * value n)) + offset c).
Definition caret_free (name : string) : Prop := ~ In "^"%char (chars name).
Definition measurement (u : string) (v : R) : json := JObj [("unit", JStr u); ("value", JNum v)].
