(** * Model of the names of the output directories

    src/Auxillary/Input_Output/Input_output.cpp: millisecond_datetime_timestamp, prepare_output_file and the
    default generator of unique_output_directory (Input_output.hpp:98-101).  The clock and std::localtime are
    outside: points of time are nanoseconds since 1970 (times before are not modelled), the calendar is any
    function of the seconds. *)
From Coq Require Import List Bool Arith ZArith String Ascii.
From Verif Require Import Base Json_Model Files_Model.
Import ListNotations.
Local Open Scope string_scope.

(** std::tm, as far as it is printed; tm_year + 1900 and tm_mon + 1. *)
Record tm := mk_tm { year : nat; month : nat; day : nat; hour : nat; minute : nat; second : nat }.

Definition digit (k : nat) : ascii := ascii_of_nat (48 + k).
(** %m, %d, %H, %M and %S of std::strftime: two digits. *)
Definition two_digits (k : nat) : string := String (digit (k / 10)) (String (digit (k mod 10)) "").
(** std::strftime(mbstr, 32, "%Y.%m.%d_%H:%M:%S", ...), line 119: 0 if the text with its final zero does
    not fit into the buffer. *)
Definition strftime (size : nat) (t : tm) : option string :=
  let text := (to_string (year t) ++ "." ++ two_digits (month t) ++ "." ++ two_digits (day t) ++ "_" ++
               two_digits (hour t) ++ ":" ++ two_digits (minute t) ++ ":" ++ two_digits (second t))%string in
  if (String.length text <? size)%nat then Some text else None.

(** system_clock::to_time_t and the duration_cast to milliseconds, lines 107-114: both cut off. *)
Definition to_time_t (now : Z) : Z := (now / 1000000000)%Z.
Definition ms_since_second (now : Z) : nat := Z.to_nat ((now - to_time_t now * 1000000000) / 1000000).
(** millisecond_datetime_timestamp, lines 106-129. *)
Definition millisecond_datetime_timestamp (localtime : Z -> tm) (now : Z) : outcome string :=
  let ms_string := to_string (ms_since_second now) in
  match strftime 32 (localtime (to_time_t now)) with
  | Some timestring => Ok (timestring ++ "." ++ ms_string)%string
  | None => Exc
  end.

(** prepare_output_file, lines 86-104: [outer] is the given directory, [inner] the content of its
    subdirectory output (empty if there is none), [ms] the count of milliseconds at each try.  The result are the
    name in the subdirectory, and the contents of both. *)
Definition prepare_output_file (o : others) (outer inner : directory) (ms : nat -> nat)
  : outcome (string * directory * directory) :=
  match outer "output" with
  | Some (EFile _) => Exc
  | Some (EDir _) | None =>
      obind (create_new_output_file o inner (fun i => attach_epoch_count "output.json" (ms i))) (fun '(name, _, inner') =>
      Ok (name, put outer "output" (Some (EDir false)), inner'))
  end.
