(** * Properties of unit strings: C42, C43, C60 *)
From Coq Require Import Reals List Bool Arith String Ascii Lra.
From Verif Require Import Base Json_Model Units_Model Units_Spec Units_Proofs Units_Proofs2.
Import ListNotations.
Local Open Scope R_scope.
Local Open Scope string_scope.
Local Open Scope list_scope.

(** ** C42: meaning of unit strings *)

(** The conversion is the product of number, prefix and unit, plus the offset of the unit. *)
Theorem C42_meaning :
  forall m u name f v, In m measures -> reading m (chars u) name f -> caret_free name ->
    parse_to_si m (measurement u v) = Ok (f v).
Proof.
  intros m u name f v I R C. rewrite parse_measurement, (reading_valid m _ name f I R C).
  apply (reading_converts m _ name f v I R).
Qed.
Print Assumptions C42_meaning.

(** Everything else is rejected. *)
Theorem C42_rejects :
  forall m j x, In m measures -> parse_to_si m j = Ok x ->
    exists u v name f, j = measurement u v /\ reading m (chars u) name f /\ caret_free name /\ x = f v.
Proof.
  intros m j x I H. destruct (valid_measurement m j) eqn:V; [|unfold parse_to_si in H; rewrite V in H; discriminate].
  destruct (valid_measurement_inv m j V) as (u & v & -> & UV). rewrite parse_measurement, UV in H.
  exists u, v. destruct (valid_cases m _ I UV) as [(name & f & R & C)|(n & p & pf & name & c & OK & HD & IP & IN & C & E)].
  - exists name, f. split; [reflexivity|]. split; [exact R|]. split; [exact C|].
    rewrite (reading_converts m _ name f v I R) in H. congruence.
  - rewrite E, (no_number_exc m n p pf name c v I HD IP IN) in H. discriminate.
Qed.
Print Assumptions C42_rejects.
Theorem C42_no_ub : forall m j, parse_to_si m j <> UB.
Proof.
  intros m j. destruct (valid_measurement m j) eqn:V; [|unfold parse_to_si; rewrite V; discriminate].
  destruct (valid_measurement_inv m j V) as (u & v & -> & UV). rewrite parse_measurement, UV. apply convert_no_ub.
Qed.
Print Assumptions C42_no_ub.

(** No string has two meanings. *)
Theorem C42_unique :
  forall m u name f name' f', In m measures -> reading m u name f -> reading m u name' f' -> forall v, f v = f' v.
Proof.
  intros m u name f name' f' I R R' v. pose proof (reading_converts m u name f v I R).
  pose proof (reading_converts m u name' f' v I R'). congruence.
Qed.
Print Assumptions C42_unique.

(** The factors against the definitions of the units: the inch, the international pound, standard gravity, and the
    powers of ten of the prefixes. *)
Definition si (m : conversion_map) (u : string) (v x : R) : Prop := parse_to_si m (measurement u v) = Ok x.
Definition inch : R := 254 / 10000.
Definition pound : R := 45359237 / 100000000.
Definition gravity : R := 980665 / 100000.
Lemma plain_si : forall m u k k' v x, In m measures ->
  match nth_error si_prefixes k, nth_error m k' with
  | Some (p, pf), Some (name, c) => chars u = chars p ++ chars name /\ forallb (fun c => negb (is_caret c)) (chars name) = true /\
                                    x = multiplicator c * (v * multiplicator pf) + offset c
  | _, _ => False
  end -> si m u v x.
Proof.
  intros m u k k' v x I H. destruct (nth_error si_prefixes k) as [[p pf]|] eqn:E1; [|destruct H].
  destruct (nth_error m k') as [[name c]|] eqn:E2; [|destruct H]. destruct H as (E & C & ->).
  apply nth_error_In in E1, E2. unfold si.
  apply (C42_meaning m u name _ v I (reading_plain m _ p pf name c E1 E2 E)).
  intros K. pose proof (proj1 (forallb_forall _ _) C _ K) as X. discriminate.
Qed.
Theorem C42_factors :
  forall v,
    (si length_units "m" v v /\ si length_units "in" v (v * inch) /\ si length_units "ft" v (v * (12 * inch)) /\
     si length_units "yd" v (v * (3 * (12 * inch))) /\ si length_units "mi" v (v * (1760 * (3 * (12 * inch))))) /\
    (si volume_units "l" v (v * (1 / 10) ^ 3) /\ si volume_units "L" v (v * (1 / 10) ^ 3)) /\
    (si pressure_units "Pa" v v /\ si pressure_units "bar" v (v * 10 ^ 5) /\ si pressure_units "atm" v (v * 101325)) /\
    (si frequency_units "Hz" v v /\ si frequency_units "per_min" v (v / 60) /\ si frequency_units "per_minute" v (v / 60)) /\
    (si force_units "N" v v /\ si power_units "W" v v /\ si power_units "PS" v (v * (75 * gravity))) /\
    (si mass_units "kg" v v /\ si mass_units "t" v (v * 1000) /\ si mass_units "lb" v (v * pound) /\
     si mass_units "oz" v (v * (pound / 16))) /\
    (si volume_flux_units "m_cube_per_s" v v /\ si volume_flux_units "1000m_cube_per_hour" (36 / 10 * v) v) /\
    (si temperature_units "K" v v /\ si temperature_units "C" v (v + 27315 / 100) /\
     si temperature_units "Celsius" v (v + 27315 / 100) /\
     si temperature_units "F" (32 + v * (212 - 32)) (27315 / 100 + v * 100)) /\
    (exists psi, si pressure_units "psi" v (v * psi) /\ Rabs (psi - pound * gravity / inch ^ 2) <= 1 / 1000) /\
    (exists acre, si area_units "ac" v (v * acre) /\ si area_units "acre" v (v * acre) /\
       Rabs (acre - 4840 * (3 * (12 * inch)) ^ 2) <= 1 / 10).
Proof.
  intros v. unfold inch, pound, gravity.
  split.
  { split; [apply (plain_si _ _ 0 2); [cbn; tauto|split; [reflexivity|split; [reflexivity|cbn; lra]]]|].
    split; [apply (plain_si _ _ 0 1); [cbn; tauto|split; [reflexivity|split; [reflexivity|cbn; lra]]]|].
    split; [apply (plain_si _ _ 0 0); [cbn; tauto|split; [reflexivity|split; [reflexivity|cbn; lra]]]|].
    split; [apply (plain_si _ _ 0 4); [cbn; tauto|split; [reflexivity|split; [reflexivity|cbn; lra]]]|].
    apply (plain_si _ _ 0 3); [cbn; tauto|split; [reflexivity|split; [reflexivity|cbn; lra]]]. }
  split.
  { split; [apply (plain_si _ _ 0 1); [cbn; tauto|split; [reflexivity|split; [reflexivity|cbn; lra]]]|].
    apply (plain_si _ _ 0 0); [cbn; tauto|split; [reflexivity|split; [reflexivity|cbn; lra]]]. }
  split.
  { split; [apply (plain_si _ _ 0 0); [cbn; tauto|split; [reflexivity|split; [reflexivity|cbn; lra]]]|].
    split; [apply (plain_si _ _ 0 2); [cbn; tauto|split; [reflexivity|split; [reflexivity|cbn; lra]]]|].
    apply (plain_si _ _ 0 1); [cbn; tauto|split; [reflexivity|split; [reflexivity|cbn; lra]]]. }
  split.
  { split; [apply (plain_si _ _ 0 0); [cbn; tauto|split; [reflexivity|split; [reflexivity|cbn; lra]]]|].
    split; [apply (plain_si _ _ 0 1); [cbn; tauto|split; [reflexivity|split; [reflexivity|cbn; lra]]]|].
    apply (plain_si _ _ 0 2); [cbn; tauto|split; [reflexivity|split; [reflexivity|cbn; lra]]]. }
  split.
  { split; [apply (plain_si _ _ 0 0); [cbn; tauto|split; [reflexivity|split; [reflexivity|cbn; lra]]]|].
    split; [apply (plain_si _ _ 0 1); [cbn; tauto|split; [reflexivity|split; [reflexivity|cbn; lra]]]|].
    apply (plain_si _ _ 0 0); [cbn; tauto|split; [reflexivity|split; [reflexivity|cbn; lra]]]. }
  split.
  { split; [apply (plain_si _ _ 14 0); [cbn; tauto|split; [reflexivity|split; [reflexivity|cbn; lra]]]|].
    split; [apply (plain_si _ _ 0 3); [cbn; tauto|split; [reflexivity|split; [reflexivity|cbn; lra]]]|].
    split; [apply (plain_si _ _ 0 1); [cbn; tauto|split; [reflexivity|split; [reflexivity|cbn; lra]]]|].
    apply (plain_si _ _ 0 2); [cbn; tauto|split; [reflexivity|split; [reflexivity|cbn; lra]]]. }
  split.
  { split; [apply (plain_si _ _ 0 1); [cbn; tauto|split; [reflexivity|split; [reflexivity|cbn; lra]]]|].
    apply (plain_si _ _ 0 0); [cbn; tauto|split; [reflexivity|split; [reflexivity|cbn; lra]]]. }
  split.
  { split; [apply (plain_si _ _ 0 3); [cbn; tauto|split; [reflexivity|split; [reflexivity|cbn; lra]]]|].
    split; [apply (plain_si _ _ 0 0); [cbn; tauto|split; [reflexivity|split; [reflexivity|cbn; lra]]]|].
    split; [apply (plain_si _ _ 0 1); [cbn; tauto|split; [reflexivity|split; [reflexivity|cbn; lra]]]|].
    apply (plain_si _ _ 0 2); [cbn; tauto|split; [reflexivity|split; [reflexivity|cbn; lra]]]. }
  split.
  - exists (6894757 / 1000). split; [apply (plain_si _ _ 0 3); [cbn; tauto|split; [reflexivity|split; [reflexivity|cbn; lra]]]|]. apply Rabs_le. lra.
  - exists (40469 / 10). split; [apply (plain_si _ _ 0 0); [cbn; tauto|split; [reflexivity|split; [reflexivity|cbn; lra]]]|]. split; [apply (plain_si _ _ 0 1); [cbn; tauto|split; [reflexivity|split; [reflexivity|cbn; lra]]]|]. apply Rabs_le. lra.
Qed.
Print Assumptions C42_factors.
Ltac power := cbn [snd fst]; unfold factor, powerRZ; cbn [multiplicator offset];
  repeat match goal with |- context [Pos.to_nat ?p] => let n := eval compute in (Pos.to_nat p) in change (Pos.to_nat p) with n end;
  first [ring | cbn [pow]; field].
(** All prefixes, here of meters. *)
Theorem C42_prefixes :
  forall v,
    List.Forall (fun pe => si length_units (fst pe ++ "m") v (v * powerRZ 10 (snd pe)))
      [("Y", 24); ("Z", 21); ("E", 18); ("P", 15); ("T", 12); ("G", 9); ("M", 6); ("k", 3); ("h", 2); ("da", 1); ("", 0);
       ("d", -1); ("c", -2); ("m", -3); ("mu", -6); ("n", -9); ("p", -12); ("f", -15); ("a", -18); ("z", -21);
       ("y", -24)]%Z /\
    List.length si_prefixes = 21%nat.
Proof.
  intros v. split; [|reflexivity].
  constructor; [apply (plain_si _ _ 6 2); [cbn; tauto|split; [reflexivity|split; [reflexivity|power]]]|].
  constructor; [apply (plain_si _ _ 7 2); [cbn; tauto|split; [reflexivity|split; [reflexivity|power]]]|].
  constructor; [apply (plain_si _ _ 1 2); [cbn; tauto|split; [reflexivity|split; [reflexivity|power]]]|].
  constructor; [apply (plain_si _ _ 4 2); [cbn; tauto|split; [reflexivity|split; [reflexivity|power]]]|].
  constructor; [apply (plain_si _ _ 5 2); [cbn; tauto|split; [reflexivity|split; [reflexivity|power]]]|].
  constructor; [apply (plain_si _ _ 2 2); [cbn; tauto|split; [reflexivity|split; [reflexivity|power]]]|].
  constructor; [apply (plain_si _ _ 3 2); [cbn; tauto|split; [reflexivity|split; [reflexivity|power]]]|].
  constructor; [apply (plain_si _ _ 14 2); [cbn; tauto|split; [reflexivity|split; [reflexivity|power]]]|].
  constructor; [apply (plain_si _ _ 13 2); [cbn; tauto|split; [reflexivity|split; [reflexivity|power]]]|].
  constructor; [apply (plain_si _ _ 11 2); [cbn; tauto|split; [reflexivity|split; [reflexivity|power]]]|].
  constructor; [apply (plain_si _ _ 0 2); [cbn; tauto|split; [reflexivity|split; [reflexivity|power]]]|].
  constructor; [apply (plain_si _ _ 10 2); [cbn; tauto|split; [reflexivity|split; [reflexivity|power]]]|].
  constructor; [apply (plain_si _ _ 9 2); [cbn; tauto|split; [reflexivity|split; [reflexivity|power]]]|].
  constructor; [apply (plain_si _ _ 15 2); [cbn; tauto|split; [reflexivity|split; [reflexivity|power]]]|].
  constructor; [apply (plain_si _ _ 16 2); [cbn; tauto|split; [reflexivity|split; [reflexivity|power]]]|].
  constructor; [apply (plain_si _ _ 17 2); [cbn; tauto|split; [reflexivity|split; [reflexivity|power]]]|].
  constructor; [apply (plain_si _ _ 18 2); [cbn; tauto|split; [reflexivity|split; [reflexivity|power]]]|].
  constructor; [apply (plain_si _ _ 12 2); [cbn; tauto|split; [reflexivity|split; [reflexivity|power]]]|].
  constructor; [apply (plain_si _ _ 8 2); [cbn; tauto|split; [reflexivity|split; [reflexivity|power]]]|].
  constructor; [apply (plain_si _ _ 20 2); [cbn; tauto|split; [reflexivity|split; [reflexivity|power]]]|].
  constructor; [apply (plain_si _ _ 19 2); [cbn; tauto|split; [reflexivity|split; [reflexivity|power]]]|].
  constructor.
Qed.
Print Assumptions C42_prefixes.

(** 2.5e1 km are 25000 m. *)
Example C42_case : parse_to_si length_units (measurement "2.5e1 km" 2) = Ok 50000.
Proof.
  assert (R : reading length_units (chars "2.5e1 km") "m"
    (fun v => 1 * (v * (10 ^ 3 * value (mkNumeral [2%nat] (Some (5%nat, [])) (Some (false, (1%nat, [])))))) + 0)).
  { apply (reading_number length_units _ (mkNumeral [2%nat] (Some (5%nat, [])) (Some (false, (1%nat, []))))
           "k" (factor (10 ^ 3)) "m" (factor 1)).
    - repeat split; repeat constructor.
    - left; discriminate.
    - do 14 right. left. reflexivity.
    - do 2 right. left. reflexivity.
    - reflexivity. }
  rewrite (C42_meaning length_units "2.5e1 km" "m" _ 2 (or_introl eq_refl) R).
  - f_equal. unfold value. cbn. lra.
  - cbn. intros [H|[]]. discriminate.
Qed.
(** "min" is a milliinch, not a minute. *)
Example C42_min : parse_to_si length_units (measurement "min" 1) = Ok (254 / 10000 * (1 * / 10 ^ 3) + 0).
Proof.
  refine (C42_meaning length_units "min" "in" _ 1 (or_introl eq_refl)
    (reading_plain length_units _ "m" (factor (/ 10 ^ 3)) "in" (factor (254 / 10000)) _ _ _) _).
  - do 15 right. left. reflexivity.
  - right. left. reflexivity.
  - reflexivity.
  - cbn. intros [H|[H|[]]]; discriminate.
Qed.
Example C42_unknown : parse_to_si length_units (measurement "xm" 1) = Exc
  /\ parse_to_si length_units (measurement "kPa" 1) = Exc
  /\ parse_to_si length_units (JObj [("unit", JStr "m")]) = Exc.
Proof. split; [reflexivity|split; reflexivity]. Qed.

(** ** C43: the schema admits what the parser can convert *)

(** Square and cubic meters cannot be used: the "^" in their names is not escaped in the pattern. *)
Theorem C43_refuted :
  exists m u name f, In m measures /\ reading m (chars u) name f /\
    (forall v, convert_unit m v (chars u) = Ok (f v)) /\
    (forall v, valid_measurement m (measurement u v) = false) /\
    forall v, parse_to_si m (measurement u v) = Exc.
Proof.
  exists area_units, "m^2", "m^2", (fun v => 1 * (v * 1) + 0).
  assert (R : reading area_units (chars "m^2") "m^2" (fun v => 1 * (v * 1) + 0)).
  { apply (reading_plain area_units _ "" (factor 1) "m^2" (factor 1)).
    - left. reflexivity.
    - do 2 right. left. reflexivity.
    - reflexivity. }
  split; [right; left; reflexivity|]. split; [exact R|]. split; [|split; reflexivity].
  intros v. apply (reading_converts _ _ _ _ v (or_intror (or_introl eq_refl)) R).
Qed.
Print Assumptions C43_refuted.
(** In fact no string with one of the two units is admitted. *)
Theorem C43_caret :
  forall m u name f, In m measures -> reading m (chars u) name f -> ~ caret_free name ->
    unit_valid m (chars u) = false.
Proof.
  intros m u name f I R C. destruct (unit_valid m (chars u)) eqn:V; [|reflexivity]. exfalso.
  assert (U : forall a b, In a (map fst m) -> In b (map fst m) -> (exists p q, p ++ chars a = q ++ chars b) -> a = b).
  { intros a b Ia Ib (p & q & E). apply in_map_iff in Ia, Ib.
    destruct Ia as ([a' ca] & <- & Ia), Ib as ([b' cb] & <- & Ib). cbn [fst] in *.
    destruct (measures_distinct m I) as [D NE].
    assert (L : last_char a' = last_char b').
    { unfold last_char. rewrite <- (last_app_ne p (chars a')), E, last_app_ne; [reflexivity| |].
      - apply (proj1 (Forall_forall _ _) NE _ Ib).
      - apply (proj1 (Forall_forall _ _) NE _ Ia). }
    clear - D Ia Ib L. induction m as [|[n c] m IH]; [destruct Ia|]. cbn in D. inversion D; subst.
    destruct Ia as [Ia|Ia], Ib as [Ib|Ib].
    - congruence.
    - exfalso. apply H1. replace n with a' by congruence. change (last (chars a') _) with (last_char a'). rewrite L. apply (in_map (fun e => last_char (fst e))) in Ib. exact Ib.
    - exfalso. apply H1. replace n with b' by congruence. change (last (chars b') _) with (last_char b'). rewrite <- L. apply (in_map (fun e => last_char (fst e))) in Ia. exact Ia.
    - apply IH; assumption. }
  assert (A : exists p, chars u = p ++ chars name /\ In name (map fst m)).
  { destruct R as [p pf name c IP IN E|n p pf name c OK HD IP IN E].
    - exists (chars p). split; [exact E|]. apply (in_map fst) in IN. exact IN.
    - exists (text n ++ " "%char :: chars p). rewrite <- app_assoc. split; [exact E|]. apply (in_map fst) in IN. exact IN. }
  destruct A as (p & E & IN).
  apply (unit_valid_iff m _ I) in V.
  assert (B : exists q name', chars u = q ++ chars name' /\ In name' (map fst m) /\ caret_free name').
  { destruct V as [(q & qf & name' & c & IP & IN' & C' & ->)|(n & w & OK & -> & (q & qf & name' & c & IP & IN' & C' & ->))].
    - exists (chars q), name'. split; [reflexivity|]. split; [apply (in_map fst) in IN'; exact IN'|exact C'].
    - exists (text n ++ " "%char :: chars q), name'. rewrite <- app_assoc. split; [reflexivity|].
      split; [apply (in_map fst) in IN'; exact IN'|exact C']. }
  destruct B as (q & name' & E' & IN' & C'). apply C.
  rewrite (U name name' IN IN'); [exact C'|]. exists p, q. congruence.
Qed.
Print Assumptions C43_caret.
(** All other units are admitted; missing: the units m^2 and m^3. *)
Theorem C43_admitted_partial :
  forall m u name f v, In m measures -> reading m (chars u) name f -> caret_free name ->
    valid_measurement m (measurement u v) = true.
Proof. intros m u name f v I R C. cbn. apply (reading_valid m _ name f I R C). Qed.
Print Assumptions C43_admitted_partial.
Example C43_case : In length_units measures /\ caret_free "in" /\ unit_valid length_units (chars "3e-2 cin") = true.
Proof.
  split; [left; reflexivity|]. split; [|reflexivity]. cbn. intros [H|[H|[]]]; discriminate.
Qed.

(** ** C60: what the schema admits can be converted *)

(** The numeral of the pattern may be empty. *)
Theorem C60_refuted :
  exists m u, In m measures /\ forall v, valid_measurement m (measurement u v) = true /\
    parse_to_si m (measurement u v) = Exc.
Proof. exists length_units, " km". split; [left; reflexivity|]. intros v. split; reflexivity. Qed.
Print Assumptions C60_refuted.
(** With a digit before the exponent everything that is admitted is converted; missing: numerals without such a
    digit. *)
Theorem C60_converted_partial :
  forall m u v, In m measures -> valid_measurement m (measurement u v) = true ->
    (exists name f, reading m (chars u) name f /\ parse_to_si m (measurement u v) = Ok (f v)) \/
    (exists n w, ~ has_digit n /\ chars u = text n ++ " "%char :: w /\ parse_to_si m (measurement u v) = Exc).
Proof.
  intros m u v I V. change (unit_valid m (chars u) = true) in V.
  destruct (valid_cases m _ I V) as [(name & f & R & C)|(n & p & pf & name & c & OK & HD & IP & IN & C & E)].
  - left. exists name, f. split; [exact R|]. apply (C42_meaning m u name f v I R C).
  - right. exists n, (chars p ++ chars name). split; [exact HD|]. split; [exact E|].
    rewrite parse_measurement, V, E. apply (no_number_exc m n p pf name c v I HD IP IN).
Qed.
Print Assumptions C60_converted_partial.
Example C60_case : parse_to_si length_units (measurement "e5 km" 1) = Exc.
Proof. reflexivity. Qed.
