(** * Specification: the optimization problem that the input files describe *)
From Coq Require Import Reals ZArith List Arith String Sorted.
From Verif Require Import Base Interp_Spec Json_Model Json_Spec Controls_Model Controls_Spec Net_Model Net_Spec States_Spec Ctimes_Spec Input_Spec.
Import ListNotations.
Local Open Scope string_scope.
Local Open Scope list_scope.

(** The number of steps between constraint times: an integer in the settings, otherwise 1. *)
Definition spacing (all : json) (n : Z) : Prop :=
  match entry_of all "constraint_settings" with
  | Some c =>
      match entry_of c "evaluate_constraints_every_n" with
      | Some (JNum x) => x = IZR n \/ ((forall k, x <> IZR k) /\ n = 1%Z)
      | _ => n = 1%Z
      end
  | None => n = 1%Z
  end.
(** The constraint times are state times after the start, at most [2 n - 1] steps apart, the
    first one after at most [n] steps (see C15 and C16).  Numbers that are not positive count
    as 1. *)
Definition spaced (n : Z) (st cons : list R) : Prop :=
  exists idx, positions_after_start (List.length st) idx /\ times_at st idx cons /\ idx <> [] /\
    gaps_at_most (2 * Z.to_nat (Z.max 1 n) - 1) idx /\ forall i, nth_error idx 0 = Some i -> (i <= Z.to_nat (Z.max 1 n))%nat.

(** The entries of the nodes with a constraint, and their positions. *)
Definition constraint_entries (nodes : list (string * json)) : list (string * json) :=
  filter (fun entry => String.eqb (fst entry) "ConstraintSink") nodes.
Definition constraint_positions (nodes : list (string * json)) (sinks : list nat) : Prop :=
  StronglySorted lt sinks /\ forall j, In j sinks <-> exists data, nth_error nodes j = Some ("ConstraintSink", data).

(** A document for a component with one value per time that covers the points. *)
Definition tabled (j : json) (x : string) (points : list R) : Prop :=
  exists rows, In (document "time" x rows) (all_components j) /\ increasing (map fst rows) /\ rows <> [] /\
    (forall tr, In tr rows -> List.length (snd tr) = 1%nat) /\ forall t, In t points -> covered Interp_Spec.tolerance (map fst rows) t.
Definition constraints_complete (nodes : list (string * json)) (j : json) (points : list R) : Prop :=
  good_file j /\ NoDup (all_ids j) /\ NoDup (map (fun entry => id (snd entry)) nodes) /\
  forall entry, In entry (constraint_entries nodes) -> tabled j (id (snd entry)) points.

(** [table] has a row for every point of time, with the values of the file for the edges with a
    control, or for the nodes with a constraint. *)
Definition controls_tabulated (edges : list (string * json)) (N : network) (j : json) (points : list R) (table : list R) : Prop :=
  table_of points (number_of_controls N) table /\
  forall i entry e rows m t, nth_error edges i = Some entry -> nth_error (Net_Model.edges N) i = Some e -> controlled (e_type e) ->
    In (document "time" (id (snd entry)) rows) (all_components j) -> nth_error points m = Some t ->
    at_place rows 0 t (Interp_Spec.entry table (number_of_controls N) m (fst (control_block N i))).
Definition constraints_tabulated (nodes : list (string * json)) (j : json) (points : list R) (table : list R) : Prop :=
  let n := List.length (constraint_entries nodes) in
  table_of points n table /\
  forall r entry rows m t, nth_error (constraint_entries nodes) r = Some entry ->
    In (document "time" (id (snd entry)) rows) (all_components j) -> nth_error points m = Some t ->
    at_place rows 0 t (Interp_Spec.entry table n m r).
