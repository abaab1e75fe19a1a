(** * Model of the file handling

    src/Auxillary/aux_json/Aux_json.cpp (overwrite_json), src/Auxillary/Input_Output/Input_output.cpp,
    src/Auxillary/json_schema/schema_key_insertion.cpp.

    A directory maps names to entries; an entry is a regular file with its content or a
    subdirectory, of which only the emptiness is modelled.  Symbolic links, hard links and
    permissions are not modelled; failures of the operating system are chosen by an environment.
    Renaming, exclusive creation and creation of a directory are atomic. *)
From Coq Require Import List Bool Arith String Ascii.
From Verif Require Import Base Json_Model.
Import ListNotations.
Local Open Scope string_scope.
Local Open Scope list_scope.

Inductive entry := EFile (content : string) | EDir (empty : bool).
Definition directory := string -> option entry.
Definition put (d : directory) (n : string) (e : option entry) : directory :=
  fun n' => if String.eqb n n' then e else d n'.
Definition exists_ (d : directory) (n : string) : bool := match d n with Some _ => true | None => false end.

(** std::filesystem::rename: [None] if it throws.  Renaming a file to itself does nothing, an
    existing file is replaced by a file, an existing empty directory by a directory. *)
Definition rename (d : directory) (a b : string) : option directory :=
  match d a with
  | None => None
  | Some ea =>
      if String.eqb a b then Some d
      else match ea, d b with
           | _, None | EFile _, Some (EFile _) | EDir _, Some (EDir true) => Some (put (put d a None) b (Some ea))
           | _, _ => None
           end
  end.
(** std::filesystem::remove: throws for directories that are not empty. *)
Definition remove (d : directory) (n : string) : option directory :=
  match d n with
  | None => Some d
  | Some (EDir false) => None
  | Some _ => Some (put d n None)
  end.

(** ** overwrite_json, Aux_json.cpp:105-142

    The environment: does the first rename fail, does opening fail, and how much of the text is
    visible in the file after each write to the disk.  An ofstream does not throw when opening or
    writing fails. *)
Record environment := mkEnv {
  rename_fails : bool;
  open_fails : bool;
  visible : list nat }.
(** The text is the result of dump, which throws for strings that are not UTF-8 ([None]). *)
Definition tmp_backup : string := "tmp_backup".
(** Opening with truncation: directories cannot be opened. *)
Definition open_trunc (env : environment) (d : directory) (n : string) : option directory :=
  if open_fails env then None
  else match d n with Some (EDir _) => None | _ => Some (put d n (Some (EFile ""))) end.
Fixpoint write_steps (d : directory) (n : string) (text : string) (lens : list nat) : list directory :=
  match lens with
  | [] => []
  | k :: rest => let d' := put d n (Some (EFile (substring 0 k text))) in d' :: write_steps d' n text rest
  end.
(** The list of all states of the directory after the initial one, and whether the function
    returns normally.  [attempt] is the try block with the catch clause. *)
Definition attempt (env : environment) (d : directory) (n : string) (text : option string) (had_existed : bool)
  : list directory * bool :=
  match open_trunc env d n with
  | None =>
      match text with
      | Some _ => ([], true)
      | None => if had_existed
                then match rename d tmp_backup n with Some d' => ([d'], true) | None => ([], negb (exists_ d tmp_backup)) end
                else ([], true)
      end
  | Some d1 =>
      match text with
      | Some t => (d1 :: write_steps d1 n t (visible env), true)
      | None => if had_existed
                then match rename d1 tmp_backup n with
                     | Some d' => ([d1; d'], true)
                     | None => ([d1], negb (exists_ d1 tmp_backup))
                     end
                else ([d1], true)
      end
  end.
Definition overwrite_json (env : environment) (d : directory) (n : string) (text : option string)
  : list directory * bool :=
  if exists_ d n then
    match (if rename_fails env then None else rename d n tmp_backup) with
    | None => ([], false)
    | Some d0 =>
        let (tr, ok) := attempt env d0 n text true in
        if ok then
          match remove (last tr d0) tmp_backup with
          | Some d' => (d0 :: tr ++ [d'], true)
          | None => (d0 :: tr, false)
          end
        else (d0 :: tr, false)
    end
  else attempt env d n text false.

(** ** Input_output.cpp *)

(** Other processes act on the directory between two steps, and an attempt to create a file may
    fail for other reasons. *)
Record others := mkOthers { act : nat -> directory -> directory; denied : nat -> bool }.

(** fopen(name, "wx"): exclusive creation. *)
Definition create_exclusive (o : others) (i : nat) (d : directory) (n : string) : option directory :=
  if (denied o i || exists_ d n)%bool then None else Some (put d n (Some (EFile ""))).
(** create_new_output_file, lines 61-84: the generator yields a name for each call.  The result
    contains the directory directly before and after the creation. *)
Fixpoint create_tries (fuel : nat) (o : others) (i : nat) (d : directory) (generator : nat -> string)
  : outcome (string * directory * directory) :=
  match fuel with
  | O => Exc
  | S f =>
      let d1 := act o i d in
      let unique_name := generator i in
      match create_exclusive o i d1 unique_name with
      | Some d2 => Ok (unique_name, d1, d2)
      | None => create_tries f o (S i) d1 generator
      end
  end.
Definition create_new_output_file (o : others) (d : directory) (generator : nat -> string) :=
  create_tries 10 o 0 d generator.

(** std::filesystem::create_directory: true if created, false if it was there, throws if the name
    is that of a file or for other errors. *)
Definition create_directory (o : others) (i : nat) (d : directory) (n : string) : outcome (bool * directory) :=
  if denied o i then Exc
  else match d n with
       | None => Ok (true, put d n (Some (EDir true)))
       | Some (EDir _) => Ok (false, d)
       | Some (EFile _) => Exc
       end.
(** unique_output_directory, lines 131-148. *)
Fixpoint directory_tries (fuel : nat) (o : others) (i : nat) (d : directory) (generator : nat -> string)
  : outcome (string * directory * directory) :=
  match fuel with
  | O => Exc
  | S f =>
      let d1 := act o i d in
      obind (create_directory o i d1 (generator i)) (fun bd =>
      if fst bd then Ok (generator i, d1, snd bd) else directory_tries f o (S i) (snd bd) generator)
  end.
Definition unique_output_directory (o : others) (d : directory) (generator : nat -> string) :=
  directory_tries 20 o 0 d generator.

(** The files of prepare_output_directory, lines 159-167.  (The copy of the problem directory in
    line 157 is not modelled, apart from the entry "problem".) *)
Fixpoint create_files (o : others) (i : nat) (d : directory) (names : list string) : outcome directory :=
  match names with
  | [] => Ok d
  | n :: rest =>
      match create_exclusive o i (act o i d) n with
      | Some d' => create_files o (S i) d' rest
      | None => Exc
      end
  end.

(** path::stem and path::extension of a file name: the extension starts at the last dot, unless
    there is none or it is the first character.  ("." and ".." are not modelled.) *)
Fixpoint last_dot (s : string) : option nat :=
  match s with
  | EmptyString => None
  | String c rest =>
      match last_dot rest with
      | Some k => Some (S k)
      | None => if ascii_dec c "."%char then Some O else None
      end
  end.
Definition stem (n : string) : string :=
  match last_dot n with None | Some O => n | Some k => substring 0 k n end.
Definition extension (n : string) : string :=
  match last_dot n with None | Some O => "" | Some k => substring k (String.length n - k) n end.
(** std::to_string of a natural number. *)
Definition to_string (k : nat) : string := DecimalString.NilZero.string_of_uint (Nat.to_uint k).
(** attach_epoch_count, lines 44-59, on the file name; the directory stays the same. *)
Definition attach_epoch_count (filename : string) (ms_since_epoch : nat) : string :=
  (stem filename ++ "_" ++ to_string ms_since_epoch ++ extension filename)%string.

(** ** Paths: lists of elements as given by path::iterator.  An absolute path starts with the
    root directory "/"; a path ending with a slash has the last element "". *)
Definition path := list string.
Definition is_absolute (p : path) : bool := match p with x :: _ => String.eqb x "/" | [] => false end.
(** operator/: an absolute right side replaces the left one; otherwise the trailing slash, if
    any, separates. *)
Definition strip_slash (p : path) : path :=
  match p with
  | [] => []
  | _ => if String.eqb (last p "x") "" then removelast p else p
  end.
Definition slash (a b : path) : path :=
  if is_absolute b then b
  else match b with
       | [] => match a with [] => [] | _ => if is_absolute a && Nat.eqb (List.length a) 1 then a else strip_slash a ++ [""] end
       | _ => strip_slash a ++ b
       end.
(** lexically_normal: [acc] are the elements so far, reversed.  "." and empty elements vanish, ".."
    removes the previous element unless that is ".."; directly after the root it vanishes. *)
Fixpoint normal_loop (abs : bool) (acc : path) (p : path) : path :=
  match p with
  | [] => rev acc
  | x :: rest =>
      if (String.eqb x "." || String.eqb x "")%bool then normal_loop abs acc rest
      else if String.eqb x ".." then
        match acc with
        | [] => if abs then normal_loop abs [] rest else normal_loop abs [".."] rest
        | y :: acc' => if String.eqb y ".." then normal_loop abs (".." :: acc) rest else normal_loop abs acc' rest
        end
      else normal_loop abs (x :: acc) rest
  end.
(** A trailing slash stays after a directory name: the last element was "", "." or "..", and the
    result does not end with "..". *)
Definition ends_as_directory (p : path) : bool :=
  let l := last p "x" in (String.eqb l "" || String.eqb l "." || String.eqb l "..")%bool.
Definition lexically_normal (p : path) : path :=
  match p with
  | [] => []
  | x :: rest =>
      let abs := is_absolute p in
      let body := if abs then rest else p in
      let n := normal_loop abs [] body in
      let n' := if (ends_as_directory body && negb (String.eqb (last n "..") ".."))%bool then n ++ [""] else n in
      if abs then "/" :: n' else match n' with [] => ["."] | _ => n' end
  end.
(** std::mismatch with three iterators: the second range must not be shorter than the matching
    part, otherwise its end is dereferenced.  True if the whole first range matches. *)
Fixpoint mismatch_at_end (a b : path) : outcome bool :=
  match a, b with
  | [], _ => Ok true
  | _ :: _, [] => UB
  | x :: a', y :: b' => if String.eqb x y then mismatch_at_end a' b' else Ok false
  end.
(** absolute_file_path_in_root, lines 29-42. *)
Definition absolute_file_path_in_root (problem_root_path filepath : path) : outcome bool :=
  mismatch_at_end problem_root_path (lexically_normal (slash problem_root_path filepath)).

(** ** insert_schema_key_into_data_jsons, schema_key_insertion.cpp:44-53: the new content of one
    file.  An ordered_json keeps the order of insertion; [fields_of] are the items; a file that is
    missing has none. *)
Fixpoint ordered_set (fs : list (string * json)) (k : string) (v : json) : list (string * json) :=
  match fs with
  | [] => [(k, v)]
  | (k', v') :: rest => if String.eqb k' k then (k, v) :: rest else (k', v') :: ordered_set rest k v
  end.
Definition insert_schema (type : string) (old : list (string * json)) : list (string * json) :=
  fold_left (fun result kv => ordered_set result (fst kv) (snd kv)) old
    [("$schema", JStr ("../schemas/" ++ type ++ "_schema.json")%string)].
