(** * Model of src/Auxillary/unit_conversion/unit_conversion.cpp

    Strings are lists of characters here ([chars]); doubles are exact reals.  Of std::regex the
    operators that occur in the patterns are modelled; the backtracking matcher tries all
    possibilities, as ECMAScript regular expressions do.  std::stod is modelled for decimal
    numbers; hexadecimal numbers, "inf" and "nan" and the exception for numbers outside of the
    range of double are not.  *)
From Coq Require Import Reals List Bool Arith String Ascii.
From Verif Require Import Base Json_Model.
Import ListNotations.
Local Open Scope R_scope.
Local Open Scope string_scope.
Local Open Scope list_scope.

Definition chars : string -> list ascii := list_ascii_of_string.

(** class Conversion, include/unit_conversion.hpp:42-49, unit_conversion.cpp:113-118: multiplicator and
    offset. *)
Record conversion := mkConversion { multiplicator : R; offset : R }.
Definition convert (c : conversion) (value : R) : R := multiplicator c * value + offset c.
Definition factor (x : R) : conversion := mkConversion x 0.

(** The maps of lines 24-74, in the order of std::map. *)
Definition conversion_map := list (string * conversion).
Definition length_units : conversion_map :=
  [("ft", factor (3048 / 10000)); ("in", factor (254 / 10000)); ("m", factor 1);
   ("mi", factor (1609344 / 1000)); ("yd", factor (9144 / 10000))].
Definition area_units : conversion_map :=
  [("ac", factor (40469 / 10)); ("acre", factor (40469 / 10)); ("m^2", factor 1)].
Definition volume_units : conversion_map :=
  [("L", factor (1 / 1000)); ("l", factor (1 / 1000)); ("m^3", factor 1)].
Definition pressure_units : conversion_map :=
  [("Pa", factor 1); ("atm", factor 101325); ("bar", factor 100000); ("psi", factor (6894757 / 1000))].
Definition frequency_units : conversion_map :=
  [("Hz", factor 1); ("per_min", factor (1 / 60)); ("per_minute", factor (1 / 60))].
Definition force_units : conversion_map := [("N", factor 1)].
Definition power_units : conversion_map := [("PS", factor (73549875 / 100000)); ("W", factor 1)].
Definition mass_units : conversion_map :=
  [("g", factor (1 / 1000)); ("lb", factor (45359237 / 100000000));
   ("oz", factor (28349523125 / 1000000000000)); ("t", factor 1000)].
Definition volume_flux_units : conversion_map :=
  [("1000m_cube_per_hour", factor (1000 / 3600)); ("m_cube_per_s", factor 1)].
Definition temperature_units : conversion_map :=
  [("C", mkConversion 1 (27315 / 100)); ("Celsius", mkConversion 1 (27315 / 100));
   ("F", mkConversion (5 / 9) (45967 / 100 * 5 / 9)); ("K", factor 1)].
Definition measures : list conversion_map :=
  [length_units; area_units; volume_units; pressure_units; frequency_units; force_units; power_units;
   mass_units; volume_flux_units; temperature_units].
Definition si_prefixes : conversion_map :=
  [("", factor 1); ("E", factor (10 ^ 18)); ("G", factor (10 ^ 9)); ("M", factor (10 ^ 6));
   ("P", factor (10 ^ 15)); ("T", factor (10 ^ 12)); ("Y", factor (10 ^ 24)); ("Z", factor (10 ^ 21));
   ("a", factor (/ 10 ^ 18)); ("c", factor (/ 10 ^ 2)); ("d", factor (/ 10)); ("da", factor 10);
   ("f", factor (/ 10 ^ 15)); ("h", factor 100); ("k", factor (10 ^ 3)); ("m", factor (/ 10 ^ 3));
   ("mu", factor (/ 10 ^ 6)); ("n", factor (/ 10 ^ 9)); ("p", factor (/ 10 ^ 12)); ("y", factor (/ 10 ^ 24));
   ("z", factor (/ 10 ^ 21))].

(** Comparison of strings. *)
Definition same_chars (a b : list ascii) : bool := if list_eq_dec ascii_dec a b then true else false.

(** ** std::stod *)
Definition digit (c : ascii) : bool := (Nat.leb 48 (nat_of_ascii c) && Nat.leb (nat_of_ascii c) 57)%bool.
Definition digit_value (c : ascii) : nat := (nat_of_ascii c - 48)%nat.
Fixpoint span_digits (s : list ascii) : list ascii * list ascii :=
  match s with
  | c :: rest => if digit c then let (a, b) := span_digits rest in (c :: a, b) else ([], s)
  | [] => ([], [])
  end.
Fixpoint digits_number (acc : nat) (s : list ascii) : nat :=
  match s with [] => acc | c :: rest => digits_number (10 * acc + digit_value c) rest end.
Fixpoint skip_white (s : list ascii) : list ascii :=
  match s with
  | c :: rest => if (Nat.eqb (nat_of_ascii c) 32 || (Nat.leb 9 (nat_of_ascii c) && Nat.leb (nat_of_ascii c) 13))%bool
                 then skip_white rest else s
  | [] => []
  end.
Definition sign (s : list ascii) : bool * list ascii :=
  match s with
  | c :: rest => if ascii_dec c "-"%char then (true, rest)
                 else if ascii_dec c "+"%char then (false, rest) else (false, s)
  | [] => (false, [])
  end.
(** The fraction: digits after a point. *)
Definition fraction (s : list ascii) : list ascii * list ascii :=
  match s with
  | c :: rest => if ascii_dec c "."%char then span_digits rest else ([], s)
  | [] => ([], [])
  end.
(** The exponent, only if there is at least one digit. *)
Definition exponent (s : list ascii) : R * list ascii :=
  match s with
  | c :: rest =>
      if (same_chars [c] ["e"%char] || same_chars [c] ["E"%char])%bool
      then let (neg, s1) := sign rest in
           let (ds, s2) := span_digits s1 in
           match ds with
           | [] => (1, s)
           | _ => ((if neg then / 10 ^ digits_number 0 ds else 10 ^ digits_number 0 ds), s2)
           end
      else (1, s)
  | [] => (1, s)
  end.
(** The value and the number of characters read; invalid_argument without any digit. *)
Definition stod (s : list ascii) : outcome (R * nat) :=
  let (neg, s1) := sign (skip_white s) in
  let (ip, s2) := span_digits s1 in
  let (fp, s3) := fraction s2 in
  match ip, fp with
  | [], [] => Exc
  | _, _ =>
      let (ex, s4) := exponent s3 in
      Ok ((if neg then -1 else 1) * (INR (digits_number 0 (ip ++ fp)) / 10 ^ List.length fp) * ex,
          (List.length s - List.length s4)%nat)
  end.

(** rfind(" "). *)
Fixpoint rfind_space (s : list ascii) : option nat :=
  match s with
  | [] => None
  | c :: rest =>
      match rfind_space rest with
      | Some n => Some (S n)
      | None => if ascii_dec c " "%char then Some O else None
      end
  end.
Fixpoint find_conversion (m : conversion_map) (s : list ascii) : option conversion :=
  match m with
  | [] => None
  | (name, c) :: rest => if same_chars (chars name) s then Some c else find_conversion rest s
  end.
(** parse_prefix, lines 77-107; parse_prefix_si, lines 109-111. *)
Definition parse_prefix (prefix : list ascii) (prefix_map : conversion_map) : outcome R :=
  obind (match rfind_space prefix with
         | Some last_space =>
             obind (stod prefix) (fun vr =>
             if Nat.eqb (snd vr) last_space then Ok (fst vr, skipn (snd vr + 1) prefix) else Exc)
         | None => Ok (1, prefix)
         end) (fun ns =>
  match find_conversion prefix_map (snd ns) with
  | None => Exc
  | Some conv => Ok (convert conv (fst ns))
  end).

(** parse_unit, lines 133-150: the first unit of the map that the string ends with. *)
Fixpoint parse_unit (unit : list ascii) (unit_map : conversion_map) : outcome (list ascii * conversion) :=
  match unit_map with
  | [] => Exc
  | (name, val) :: rest =>
      let unit_size := List.length unit in
      let symb_size := List.length (chars name) in
      if (Nat.leb symb_size unit_size && same_chars (skipn (unit_size - symb_size) unit) (chars name))%bool
      then Ok (firstn (unit_size - symb_size) unit, val)
      else parse_unit unit rest
  end.

(** ** The schema *)
Inductive regex :=
| REmpty
| RChar (c : ascii)
| RDigit
| RDigits
| RBegin
| REnd
| RSeq (a b : regex)
| RAlt (a b : regex).
(** [RDigits] is [0-9]*. *)
Fixpoint run_digits (s : list ascii) (at_begin : bool) (k : bool -> list ascii -> bool) : bool :=
  (k at_begin s || match s with c :: rest => digit c && run_digits rest false k | [] => false end)%bool.
(** Match the beginning of [s], then continue with [k]; the flag tells whether the position is
    the beginning of the whole string. *)
Fixpoint run (r : regex) (at_begin : bool) (s : list ascii) (k : bool -> list ascii -> bool) : bool :=
  match r with
  | REmpty => k at_begin s
  | RChar c => match s with c' :: rest => if ascii_dec c c' then k false rest else false | [] => false end
  | RDigit => match s with c' :: rest => if digit c' then k false rest else false | [] => false end
  | RDigits => run_digits s at_begin k
  | RBegin => if at_begin then k at_begin s else false
  | REnd => match s with [] => k at_begin s | _ => false end
  | RSeq a b => run a at_begin s (fun ab s' => run b ab s' k)
  | RAlt a b => (run a at_begin s k || run b at_begin s k)%bool
  end.
(** std::regex_search. *)
Fixpoint search_from (r : regex) (at_begin : bool) (s : list ascii) : bool :=
  (run r at_begin s (fun _ _ => true) || match s with _ :: rest => search_from r false rest | [] => false end)%bool.
Definition search (r : regex) (s : list ascii) : bool := search_from r true s.

(** A name inside of a pattern: "^" is the assertion of the beginning of the string, the other
    characters that occur in names stand for themselves. *)
Fixpoint name_regex (s : list ascii) : regex :=
  match s with
  | [] => REmpty
  | c :: rest => RSeq (if ascii_dec c "^"%char then RBegin else RChar c) (name_regex rest)
  end.
(** re_capture_from_map, lines 172-179: all maps have at least one entry; the last "|" is
    removed. *)
Fixpoint re_capture_from_map (m : conversion_map) : regex :=
  match m with
  | [] => REmpty
  | [(name, _)] => name_regex (chars name)
  | (name, _) :: rest => RAlt (name_regex (chars name)) (re_capture_from_map rest)
  end.
Definition optional (r : regex) : regex := RAlt r REmpty.
(** The two patterns, lines 161-169. *)
Definition simple_pattern (m : conversion_map) : regex :=
  RSeq (optional (re_capture_from_map si_prefixes)) (RSeq (re_capture_from_map m) REnd).
Definition pattern1 (m : conversion_map) : regex := RSeq RBegin (simple_pattern m).
Definition number_pattern : regex :=
  RSeq RDigits
  (RSeq (optional (RSeq (RChar "."%char) (RSeq RDigit RDigits)))
  (RSeq (optional (RSeq (RChar "e"%char) (RSeq (optional (RChar "-"%char)) (RSeq RDigit RDigits))))
  (RChar " "%char))).
Definition pattern2 (m : conversion_map) : regex := RSeq RBegin (RSeq number_pattern (simple_pattern m)).
(** The texts of the patterns in the schema, lines 161-169 and 172-179. *)
Definition capture_text (m : conversion_map) : string := ("(" ++ String.concat "|" (map fst m) ++ ")")%string.
Definition simple_text (m : conversion_map) : string := (capture_text si_prefixes ++ "?" ++ capture_text m ++ "$")%string.
Definition pattern1_text (m : conversion_map) : string := ("^" ++ simple_text m)%string.
Definition pattern2_text (m : conversion_map) : string := ("^([0-9]*(\.[0-9]+)?(e-?[0-9]+)? )" ++ simple_text m)%string.
(** Validation against get_schema, lines 152-171: an object with exactly the keys "unit", a
    string matching exactly one of the patterns, and "value", a number. *)
Definition unit_valid (m : conversion_map) (u : list ascii) : bool :=
  xorb (search (pattern1 m) u) (search (pattern2 m) u).
Definition valid_measurement (m : conversion_map) (measurement : json) : bool :=
  match measurement with
  | JObj [(k1, JStr u); (k2, JNum _)] =>
      (String.eqb k1 "unit" && String.eqb k2 "value" && unit_valid m (chars u))%bool
  | _ => false
  end.
(** Measure::parse_to_si, lines 125-131. *)
Definition convert_unit (m : conversion_map) (value : R) (unit : list ascii) : outcome R :=
  obind (parse_unit unit m) (fun pc =>
  obind (parse_prefix (fst pc) si_prefixes) (fun p =>
  Ok (convert (snd pc) (value * p)))).
Definition get_number (j : json) : outcome R := match j with JNum x => Ok x | _ => Exc end.
Definition parse_to_si (m : conversion_map) (measurement : json) : outcome R :=
  if valid_measurement m measurement
  then obind (obind (at_const measurement "unit") get_string) (fun unit =>
       obind (obind (at_const measurement "value") get_number) (fun value =>
       convert_unit m value (chars unit)))
  else Exc.
