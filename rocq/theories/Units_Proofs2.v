(** * The parser of unit strings *)
From Coq Require Import Reals List Bool Arith String Ascii Lia Lra.
From Verif Require Import Base Json_Model Units_Model Units_Spec Units_Proofs.
Import ListNotations.
Local Open Scope R_scope.
Local Open Scope string_scope.
Local Open Scope list_scope.

Lemma same_chars_true : forall a b, same_chars a b = true <-> a = b.
Proof. intros a b. unfold same_chars. destruct (list_eq_dec ascii_dec a b); split; congruence. Qed.

(** ** Units *)
Definition ends_with (u : list ascii) (name : string) : bool :=
  (Nat.leb (List.length (chars name)) (List.length u)
   && same_chars (skipn (List.length u - List.length (chars name)) u) (chars name))%bool.
Lemma ends_with_true : forall u name, ends_with u name = true <->
  exists p, u = p ++ chars name.
Proof.
  intros u name. unfold ends_with. rewrite andb_true_iff, Nat.leb_le, same_chars_true. split.
  - intros [L E]. exists (firstn (List.length u - List.length (chars name)) u). rewrite <- E at 2.
    symmetry. apply firstn_skipn.
  - intros (p & ->). rewrite app_length. split; [lia|].
    replace (List.length p + List.length (chars name) - List.length (chars name))%nat with (List.length p) by lia.
    rewrite skipn_app, skipn_all, Nat.sub_diag. reflexivity.
Qed.
Lemma firstn_prefix : forall p (n : string), firstn (List.length (p ++ chars n) - List.length (chars n)) (p ++ chars n) = p.
Proof.
  intros p n. rewrite app_length.
  replace (List.length p + List.length (chars n) - List.length (chars n))%nat with (List.length p) by lia.
  rewrite firstn_app, Nat.sub_diag, firstn_all. cbn. apply app_nil_r.
Qed.

Lemma parse_unit_eq : forall u name c m, parse_unit u ((name, c) :: m) =
  if ends_with u name then Ok (firstn (List.length u - List.length (chars name)) u, c) else parse_unit u m.
Proof. reflexivity. Qed.

(** Two units of the same measure end with different characters. *)
Definition last_char (n : string) : ascii := last (chars n) " "%char.
Definition distinct_last (m : conversion_map) : Prop :=
  NoDup (map (fun e => last_char (fst e)) m) /\ List.Forall (fun e => chars (fst e) <> []) m.
Fixpoint nodupb (l : list ascii) : bool :=
  match l with [] => true | c :: r => (negb (existsb (fun d => if ascii_dec c d then true else false) r) && nodupb r)%bool end.
Lemma nodupb_ok : forall l, nodupb l = true -> NoDup l.
Proof.
  induction l as [|c l IH]; cbn; intros H; [constructor|]. apply andb_true_iff in H. destruct H as [H1 H2].
  constructor; [|auto]. intros I. apply negb_true_iff in H1. apply not_true_iff_false in H1. apply H1.
  apply existsb_exists. exists c. split; [exact I|]. destruct (ascii_dec c c); congruence.
Qed.
Lemma measures_distinct : forall m, In m measures -> distinct_last m.
Proof.
  intros m I.
  assert (H : forallb (fun m => nodupb (map (fun e => last_char (fst e)) m)
             && forallb (fun e => match chars (fst e) with [] => false | _ => true end) m)%bool measures = true) by reflexivity.
  pose proof (proj1 (forallb_forall _ _) H m I) as K. apply andb_true_iff in K. destruct K as [K1 K2].
  split; [apply nodupb_ok; exact K1|]. apply Forall_forall. intros e J.
  pose proof (proj1 (forallb_forall _ _) K2 e J) as L. cbn in L. destruct (chars (fst e)); congruence.
Qed.

Lemma last_app_ne : forall (p q : list ascii) d, q <> [] -> last (p ++ q) d = last q d.
Proof.
  induction p as [|a p IH]; intros q d N; [reflexivity|]. cbn. rewrite IH; [|exact N].
  destruct (p ++ q) eqn:E; [|reflexivity]. apply app_eq_nil in E. destruct E; congruence.
Qed.

Lemma parse_unit_found : forall m p name c, distinct_last m -> In (name, c) m ->
  parse_unit (p ++ chars name) m = Ok (p, c).
Proof.
  induction m as [|[n c'] m IH]; intros p name c D I; [destruct I|].
  rewrite parse_unit_eq. destruct D as [D NE]. inversion D as [|x l Dn Dr]; subst. inversion NE as [|x l N1 N2]; subst.
  destruct I as [I|I].
  - injection I as -> ->. rewrite (proj2 (ends_with_true _ _)); [|exists p; reflexivity]. rewrite firstn_prefix. reflexivity.
  - destruct (ends_with (p ++ chars name) n) eqn:E.
    + exfalso. apply ends_with_true in E. destruct E as (q & E). apply Dn. cbn [fst] in *.
      apply in_map_iff. exists (name, c). split; [|exact I]. cbn [fst]. unfold last_char.
      rewrite <- (last_app_ne p (chars name) " "%char), E, last_app_ne; [reflexivity|exact N1|].
      apply (proj1 (Forall_forall _ _) N2 (name, c) I).
    + apply IH; [split; assumption|exact I].
Qed.
Lemma parse_unit_inv : forall m u p c, parse_unit u m = Ok (p, c) ->
  exists name, In (name, c) m /\ u = p ++ chars name.
Proof.
  induction m as [|[n c'] m IH]; intros u p c H; [discriminate|]. rewrite parse_unit_eq in H.
  destruct (ends_with u n) eqn:E.
  - injection H as <- <-. apply ends_with_true in E. destruct E as (q & ->). exists n.
    rewrite firstn_prefix. split; [left; reflexivity|reflexivity].
  - destruct (IH _ _ _ H) as (name & I & ->). exists name. split; [right; exact I|reflexivity].
Qed.
Lemma parse_unit_no_ub : forall m u, parse_unit u m <> UB.
Proof.
  induction m as [|[n c'] m IH]; intros u; [discriminate|]. rewrite parse_unit_eq.
  destruct (ends_with u n); [discriminate|apply IH].
Qed.

(** ** Prefixes *)
Lemma prefix_names : NoDup (map fst si_prefixes).
Proof.
  assert (H : forall (l : list string), (fix f (l : list string) := match l with [] => true | s :: r => (negb (existsb (String.eqb s) r) && f r)%bool end) l = true -> NoDup l).
  { induction l as [|s l IH]; intros K; [constructor|]. apply andb_true_iff in K. destruct K as [K1 K2].
    constructor; [|auto]. intros I. apply negb_true_iff in K1. apply not_true_iff_false in K1. apply K1.
    apply existsb_exists. exists s. split; [exact I|apply String.eqb_refl]. }
  apply H. reflexivity.
Qed.
Lemma chars_inj : forall a b, chars a = chars b -> a = b.
Proof.
  intros a b H. rewrite <- (string_of_list_ascii_of_string a), <- (string_of_list_ascii_of_string b).
  unfold chars in H. congruence.
Qed.
Lemma find_conversion_in : forall m name c, NoDup (map fst m) -> In (name, c) m -> find_conversion m (chars name) = Some c.
Proof.
  induction m as [|[n c'] m IH]; intros name c D I; [destruct I|]. cbn [find_conversion]. inversion D; subst.
  destruct I as [I|I].
  - injection I as -> ->. rewrite (proj2 (same_chars_true _ _) eq_refl). reflexivity.
  - destruct (same_chars (chars n) (chars name)) eqn:E; [|apply IH; assumption].
    exfalso. apply same_chars_true, chars_inj in E. subst n. apply H1. apply (in_map fst) in I. exact I.
Qed.
Lemma find_conversion_inv : forall m s c, find_conversion m s = Some c -> exists name, In (name, c) m /\ s = chars name.
Proof.
  induction m as [|[n c'] m IH]; intros s c H; [discriminate|]. cbn [find_conversion] in H.
  destruct (same_chars (chars n) s) eqn:E.
  - injection H as ->. apply same_chars_true in E. exists n. split; [left; reflexivity|congruence].
  - destruct (IH _ _ H) as (name & I & ->). exists name. split; [right; exact I|reflexivity].
Qed.

Lemma rfind_none : forall s, ~ In " "%char s -> rfind_space s = None.
Proof.
  induction s as [|c s IH]; intros H; [reflexivity|]. cbn [rfind_space]. rewrite IH; [|intros K; apply H; right; exact K].
  destruct (ascii_dec c " "%char); [|reflexivity]. exfalso. apply H. left; exact e.
Qed.
Lemma rfind_some : forall a b, ~ In " "%char b -> rfind_space (a ++ " "%char :: b) = Some (List.length a).
Proof.
  induction a as [|c a IH]; intros b H.
  - cbn [app rfind_space]. rewrite (rfind_none b H). destruct (ascii_dec " " " "); [reflexivity|congruence].
  - cbn [app rfind_space List.length]. rewrite (IH b H). reflexivity.
Qed.

(** ** Numbers *)
Lemma digits_number_app : forall a b acc, digits_number acc (a ++ b) = digits_number (digits_number acc a) b.
Proof. induction a as [|c a IH]; intros b acc; [reflexivity|]. cbn. apply IH. Qed.
Lemma digit_value_char : forall d, small d -> digit_value (digit_char d) = d.
Proof. intros d H. unfold small in H. do 10 (destruct d as [|d]; [reflexivity|]). lia. Qed.
Lemma digits_number_text : forall ds acc, List.Forall small ds ->
  digits_number acc (text_of ds) = (acc * 10 ^ List.length ds + number ds)%nat.
Proof.
  induction ds as [|d ds IH]; intros acc F; [cbn; lia|]. inversion F; subst.
  change (text_of (d :: ds)) with (digit_char d :: text_of ds). cbn [digits_number].
  rewrite digit_value_char, IH by assumption. cbn [number List.length Nat.pow]. nia.
Qed.
Lemma text_length : forall ds, List.length (text_of ds) = List.length ds.
Proof. intros ds. apply map_length. Qed.

Definition no_digit (s : list ascii) : Prop := match s with c :: _ => digit c = false | [] => True end.
Lemma span_text : forall ds s, List.Forall small ds -> no_digit s -> span_digits (text_of ds ++ s) = (text_of ds, s).
Proof.
  induction ds as [|d ds IH]; intros s F N.
  - cbn [text_of map app]. destruct s as [|c s]; [reflexivity|]. cbn [span_digits]. cbn in N. rewrite N. reflexivity.
  - inversion F; subst. change (text_of (d :: ds) ++ s) with (digit_char d :: (text_of ds ++ s)).
    cbn [span_digits]. rewrite digit_char_digit, IH by assumption. reflexivity.
Qed.
Lemma digit_not_white : forall d s, small d -> skip_white (digit_char d :: s) = digit_char d :: s.
Proof. intros d s H. unfold small in H. do 10 (destruct d as [|d]; [reflexivity|]). lia. Qed.
Lemma digit_no_sign : forall d s, small d -> sign (digit_char d :: s) = (false, digit_char d :: s).
Proof. intros d s H. unfold small in H. do 10 (destruct d as [|d]; [reflexivity|]). lia. Qed.
Lemma digit_no_point : forall d s, small d -> fraction (digit_char d :: s) = ([], digit_char d :: s).
Proof. intros d s H. unfold small in H. do 10 (destruct d as [|d]; [reflexivity|]). lia. Qed.
#[global] Opaque digit_char.

Definition expo_text (ex : option (bool * (nat * list nat))) : list ascii :=
  match ex with
  | Some (neg, (d, ds)) => "e"%char :: (if (neg : bool) then ["-"%char] else []) ++ text_of (d :: ds)
  | None => []
  end.
Definition expo_value (ex : option (bool * (nat * list nat))) : R :=
  match ex with
  | Some (neg, (d, ds)) => if neg then / 10 ^ number (d :: ds) else 10 ^ number (d :: ds)
  | None => 1
  end.
Definition frac_text (fr : option (nat * list nat)) : list ascii :=
  match fr with Some (d, ds) => "."%char :: text_of (d :: ds) | None => [] end.
Definition frac_digits (fr : option (nat * list nat)) : list nat :=
  match fr with Some (d, ds) => d :: ds | None => [] end.

Lemma exponent_text : forall ex s,
  match ex with Some (_, (d, ds)) => List.Forall small (d :: ds) | None => True end ->
  exponent (expo_text ex ++ " "%char :: s) = (expo_value ex, " "%char :: s).
Proof.
  intros [[neg [d ds]]|] s F; [|reflexivity]. cbn [expo_text app]. unfold exponent.
  change (same_chars ["e"%char] ["e"%char] || same_chars ["e"%char] ["E"%char])%bool with true. cbv iota.
  assert (E : sign (((if neg then ["-"%char] else []) ++ text_of (d :: ds)) ++ " "%char :: s)
              = (neg, text_of (d :: ds) ++ " "%char :: s)).
  { destruct neg; [reflexivity|]. change (sign (digit_char d :: (text_of ds ++ " "%char :: s)) = (false, digit_char d :: (text_of ds ++ " "%char :: s))).
    apply digit_no_sign. inversion F; assumption. }
  rewrite E. rewrite span_text; [|exact F|reflexivity].
  change (text_of (d :: ds)) with (digit_char d :: text_of ds) at 1. cbv iota.
  rewrite (digits_number_text (d :: ds) 0 F). cbn [expo_value]. reflexivity.
Qed.
Lemma expo_no_digit : forall ex s, no_digit (expo_text ex ++ " "%char :: s).
Proof. intros [[neg [d ds]]|] s; reflexivity. Qed.
Lemma expo_no_point : forall ex s, fraction (expo_text ex ++ " "%char :: s) = ([], expo_text ex ++ " "%char :: s).
Proof. intros [[neg [d ds]]|] s; reflexivity. Qed.
Lemma fraction_text : forall fr ex s,
  match fr with Some (d, ds) => List.Forall small (d :: ds) | None => True end ->
  fraction (frac_text fr ++ expo_text ex ++ " "%char :: s) = (text_of (frac_digits fr), expo_text ex ++ " "%char :: s).
Proof.
  intros [[d ds]|] ex s F; [|apply expo_no_point]. cbn [frac_text app].
  change (span_digits (text_of (d :: ds) ++ expo_text ex ++ " "%char :: s) = (text_of (d :: ds), expo_text ex ++ " "%char :: s)).
  apply span_text; [exact F|apply expo_no_digit].
Qed.
Lemma frac_no_digit : forall fr ex s, no_digit (frac_text fr ++ expo_text ex ++ " "%char :: s).
Proof. intros [[d ds]|] ex s; [reflexivity|apply expo_no_digit]. Qed.

Lemma text_eq : forall n, text n = text_of (whole n) ++ frac_text (frac n) ++ expo_text (expo n).
Proof. reflexivity. Qed.
Lemma number_app : forall a b, number (a ++ b) = (number a * 10 ^ List.length b + number b)%nat.
Proof.
  induction a as [|d a IH]; intros b; [reflexivity|]. cbn [app number]. rewrite IH, app_length, Nat.pow_add_r. nia.
Qed.
Lemma value_eq : forall n,
  value n = INR (number (whole n ++ frac_digits (frac n))) / 10 ^ List.length (frac_digits (frac n)) * expo_value (expo n).
Proof.
  intros n. unfold value. fold (expo_value (expo n)). f_equal. rewrite number_app, plus_INR, mult_INR, pow_INR.
  replace (INR 10) with 10 by (cbn; lra). assert (P : 10 ^ List.length (frac_digits (frac n)) <> 0) by (apply pow_nonzero; lra).
  destruct (frac n) as [[d ds]|]; cbn [frac_digits] in *; [field; exact P|cbn; field].
Qed.

Lemma stod_text : forall n s, numeral_ok n -> has_digit n ->
  stod (text n ++ " "%char :: s) = Ok (value n, List.length (text n)).
Proof.
  intros [wh fr ex] s (F1 & F2 & F3) HD. cbn [whole frac expo] in *. unfold stod.
  rewrite text_eq. cbn [whole frac expo].
  assert (E : sign (skip_white ((text_of wh ++ frac_text fr ++ expo_text ex) ++ " "%char :: s))
              = (false, text_of wh ++ frac_text fr ++ expo_text ex ++ " "%char :: s)).
  { rewrite <- !app_assoc. destruct wh as [|d wh].
    - destruct HD as [HD|HD]; [cbn in HD; congruence|]. cbn [frac] in HD.
      destruct fr as [[d ds]|]; [reflexivity|congruence].
    - inversion F1; subst. change (text_of (d :: wh) ++ frac_text fr ++ expo_text ex ++ " "%char :: s) with
        (digit_char d :: (text_of wh ++ frac_text fr ++ expo_text ex ++ " "%char :: s)).
      rewrite digit_not_white by assumption. apply digit_no_sign. assumption. }
  rewrite E. rewrite (span_text wh _ F1 (frac_no_digit fr ex s)). rewrite (fraction_text fr ex s F2).
  assert (A : forall (X : outcome (R * nat)), match text_of wh, text_of (frac_digits fr) with [], [] => Exc | _, _ => X end = X).
  { intros X. destruct wh as [|d wh]; [|reflexivity]. destruct fr as [[d ds]|]; [reflexivity|].
    destruct HD as [HD|HD]; cbn in HD; congruence. }
  rewrite A. rewrite (exponent_text ex s F3). rewrite value_eq. cbn [whole frac expo].
  f_equal. f_equal.
  - rewrite <- (map_app digit_char). fold (text_of (wh ++ frac_digits fr)).
    rewrite digits_number_text.
    + rewrite text_length. cbn [Nat.mul Nat.add]. ring_simplify. reflexivity.
    + apply Forall_app. split; [exact F1|]. destruct fr as [[d ds]|]; [exact F2|constructor].
  - rewrite app_length. cbn [List.length]. lia.
Qed.

(** Without any digit there is no number. *)
Lemma stod_no_digit : forall n p pf, ~ has_digit n -> In (p, pf) si_prefixes ->
  stod (text n ++ " "%char :: chars p) = Exc.
Proof.
  intros [wh fr ex] p pf H I. unfold has_digit in H. cbn [whole frac] in H.
  destruct wh as [|d wh]; [|exfalso; apply H; left; discriminate].
  destruct fr as [[d ds]|]; [exfalso; apply H; right; discriminate|].
  destruct ex as [[neg [d ds]]|]; [reflexivity|].
  change (text _ ++ " "%char :: chars p) with (" "%char :: chars p).
  assert (E : forallb (fun e => match stod (" "%char :: chars (fst e)) with Exc => true | _ => false end) si_prefixes = true) by reflexivity.
  pose proof (proj1 (forallb_forall _ _) E (p, pf) I) as K. cbn [fst] in K.
  destruct (stod (" "%char :: chars p)); congruence.
Qed.

(** ** The prefix and the whole string *)
Lemma prefix_offset : forall p pf x, In (p, pf) si_prefixes -> convert pf x = multiplicator pf * x.
Proof.
  intros p pf x I. unfold convert.
  assert (E : List.Forall (fun e => offset (snd e) = 0) si_prefixes) by (unfold si_prefixes, factor; repeat constructor).
  pose proof (proj1 (Forall_forall _ _) E (p, pf) I) as K. cbn [snd] in K. rewrite K. ring.
Qed.
Lemma prefix_space : forall p pf, In (p, pf) si_prefixes -> ~ In " "%char (chars p).
Proof. intros p pf I. apply (table_space si_prefixes p pf); [left; reflexivity|exact I]. Qed.

Lemma parse_prefix_plain : forall p pf, In (p, pf) si_prefixes ->
  parse_prefix (chars p) si_prefixes = Ok (multiplicator pf).
Proof.
  intros p pf I. unfold parse_prefix. rewrite (rfind_none _ (prefix_space _ _ I)). cbn [obind fst snd].
  rewrite (find_conversion_in _ _ _ prefix_names I). rewrite (prefix_offset _ _ _ I). f_equal. ring.
Qed.
Lemma skip_text : forall t (s : list ascii), skipn (List.length t + 1) (t ++ " "%char :: s) = s.
Proof.
  intros t s. rewrite skipn_app. rewrite skipn_all2 by lia.
  replace (List.length t + 1 - List.length t)%nat with 1%nat by lia. reflexivity.
Qed.
Lemma parse_prefix_number : forall n p pf, numeral_ok n -> has_digit n -> In (p, pf) si_prefixes ->
  parse_prefix (text n ++ " "%char :: chars p) si_prefixes = Ok (multiplicator pf * value n).
Proof.
  intros n p pf OK HD I. unfold parse_prefix. rewrite (rfind_some _ _ (prefix_space _ _ I)).
  rewrite (stod_text n (chars p) OK HD). cbn [obind fst snd]. rewrite Nat.eqb_refl. cbn [obind fst snd].
  rewrite skip_text, (find_conversion_in _ _ _ prefix_names I), (prefix_offset _ _ _ I). reflexivity.
Qed.
Lemma parse_prefix_no_number : forall n p pf, ~ has_digit n -> In (p, pf) si_prefixes ->
  parse_prefix (text n ++ " "%char :: chars p) si_prefixes = Exc.
Proof.
  intros n p pf HD I. unfold parse_prefix. rewrite (rfind_some _ _ (prefix_space _ _ I)).
  rewrite (stod_no_digit n p pf HD I). reflexivity.
Qed.

Lemma has_digit_dec : forall n, has_digit n \/ ~ has_digit n.
Proof.
  intros [[|d wh] [f|] ex]; unfold has_digit; cbn [whole frac].
  - left; right; discriminate.
  - right. intros [H|H]; congruence.
  - left; left; discriminate.
  - left; left; discriminate.
Qed.

Lemma reading_converts : forall m u name f v, In m measures -> reading m u name f ->
  convert_unit m v u = Ok (f v).
Proof.
  intros m u name f v I R. unfold convert_unit. pose proof (measures_distinct m I) as D. destruct R as [p pf name c IP IN E|n p pf name c OK HD IP IN E].
  - rewrite E, (parse_unit_found m _ name c D IN). cbn [obind fst snd].
    rewrite (parse_prefix_plain _ _ IP). reflexivity.
  - rewrite E. replace (text n ++ " "%char :: chars p ++ chars name) with ((text n ++ " "%char :: chars p) ++ chars name)
      by (rewrite <- app_assoc; reflexivity).
    rewrite (parse_unit_found m _ name c D IN). cbn [obind fst snd].
    rewrite (parse_prefix_number _ _ _ OK HD IP). reflexivity.
Qed.

Lemma reading_valid : forall m u name f, In m measures -> reading m u name f -> caret_free name -> unit_valid m u = true.
Proof.
  intros m u name f I R C. apply (unit_valid_iff m u I).
  destruct R as [p pf name c IP IN E|n p pf name c OK HD IP IN E].
  - left. exists p, pf, name, c. auto.
  - right. exists n, (chars p ++ chars name). split; [exact OK|]. split; [exact E|]. exists p, pf, name, c. auto.
Qed.

Lemma valid_cases : forall m u, In m measures -> unit_valid m u = true ->
  (exists name f, reading m u name f /\ caret_free name) \/
  (exists n p pf name c, numeral_ok n /\ ~ has_digit n /\ In (p, pf) si_prefixes /\ In (name, c) m /\ caret_free name /\
     u = text n ++ " "%char :: chars p ++ chars name).
Proof.
  intros m u I V. apply (unit_valid_iff m u I) in V.
  destruct V as [(p & pf & name & c & IP & IN & C & ->)|(n & w & OK & -> & (p & pf & name & c & IP & IN & C & ->))].
  - left. exists name. eexists. split; [eapply reading_plain; [exact IP|exact IN|reflexivity]|exact C].
  - destruct (has_digit_dec n) as [HD|HD].
    + left. exists name. eexists. split; [eapply reading_number; [exact OK|exact HD|exact IP|exact IN|reflexivity]|exact C].
    + right. exists n, p, pf, name, c. repeat (split; [assumption|]). reflexivity.
Qed.
Lemma no_number_exc : forall m n p pf name c v, In m measures -> ~ has_digit n -> In (p, pf) si_prefixes -> In (name, c) m ->
  convert_unit m v (text n ++ " "%char :: chars p ++ chars name) = Exc.
Proof.
  intros m n p pf name c v I HD IP IN. unfold convert_unit.
  replace (text n ++ " "%char :: chars p ++ chars name) with ((text n ++ " "%char :: chars p) ++ chars name)
    by (rewrite <- app_assoc; reflexivity).
  rewrite (parse_unit_found m _ name c (measures_distinct m I) IN). cbn [obind fst snd].
  rewrite (parse_prefix_no_number _ _ _ HD IP). reflexivity.
Qed.

Lemma stod_no_ub : forall s, stod s <> UB.
Proof.
  intros s. unfold stod. destruct (sign _), (span_digits _), (fraction _), (exponent _).
  destruct l0; [destruct l2|]; discriminate.
Qed.
Lemma convert_no_ub : forall m v u, convert_unit m v u <> UB.
Proof.
  intros m v u. unfold convert_unit. pose proof (parse_unit_no_ub m u) as H.
  destruct (parse_unit u m) as [[p c]| |]; [|discriminate|congruence]. cbn [obind fst snd].
  assert (K : parse_prefix p si_prefixes <> UB).
  { unfold parse_prefix. assert (forall n, match find_conversion si_prefixes n with None => Exc | Some _ => Ok 0 end <> UB) by
      (intros n; destruct (find_conversion si_prefixes n); discriminate).
    destruct (rfind_space p) as [k|].
    - pose proof (stod_no_ub p). destruct (stod p) as [[x r]| |]; [|discriminate|congruence]. cbn [obind fst snd].
      destruct (Nat.eqb r k); [|discriminate]. cbn [obind fst snd]. destruct (find_conversion _ _); discriminate.
    - cbn [obind fst snd]. destruct (find_conversion _ _); discriminate. }
  destruct (parse_prefix p si_prefixes); [discriminate|discriminate|congruence].
Qed.

Lemma valid_measurement_inv : forall m j, valid_measurement m j = true ->
  exists u v, j = measurement u v /\ unit_valid m (chars u) = true.
Proof.
  intros m j H. destruct j; try discriminate. destruct fields as [|[k1 j1] fields]; [discriminate|].
  destruct j1; try discriminate. destruct fields as [|[k2 j2] [|x fields]]; try discriminate; destruct j2; try discriminate.
  cbn [valid_measurement] in H. apply andb_true_iff in H. destruct H as [H H3]. apply andb_true_iff in H. destruct H as [H1 H2].
  apply String.eqb_eq in H1, H2. subst. exists s, x. auto.
Qed.
Lemma parse_measurement : forall m u v,
  parse_to_si m (measurement u v) = if unit_valid m (chars u) then convert_unit m v (chars u) else Exc.
Proof. reflexivity. Qed.
