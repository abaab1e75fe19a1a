(** * Signed numbers *)
From Coq Require Import Reals List Bool Arith String Ascii Lia Lra.
From Verif Require Import Base Json_Model Units_Model Units_Spec Units_Proofs Units_Proofs2 Signed_Spec.
Import ListNotations.
Local Open Scope R_scope.
Local Open Scope string_scope.
Local Open Scope list_scope.

Lemma stod_signed : forall neg n s, numeral_ok n -> has_digit n ->
  stod (sign_char neg :: text n ++ " "%char :: s) = Ok (signed neg (value n), S (List.length (text n))).
Proof.
  intros neg [wh fr ex] s (F1 & F2 & F3) HD. cbn [whole frac expo] in *. unfold stod.
  rewrite text_eq. cbn [whole frac expo].
  assert (E : sign (skip_white (sign_char neg :: (text_of wh ++ frac_text fr ++ expo_text ex) ++ " "%char :: s))
              = (neg, text_of wh ++ frac_text fr ++ expo_text ex ++ " "%char :: s)) by (rewrite <- !app_assoc; destruct neg; reflexivity).
  rewrite E. rewrite (span_text wh _ F1 (frac_no_digit fr ex s)). rewrite (fraction_text fr ex s F2).
  assert (A : forall (X : outcome (R * nat)), match text_of wh, text_of (frac_digits fr) with [], [] => Exc | _, _ => X end = X).
  { intros X. destruct wh as [|d wh]; [|reflexivity]. destruct fr as [[d ds]|]; [reflexivity|].
    destruct HD as [HD|HD]; cbn in HD; congruence. }
  rewrite A. rewrite (exponent_text ex s F3). rewrite value_eq. cbn [whole frac expo].
  f_equal. f_equal.
  - rewrite <- (map_app digit_char). fold (text_of (wh ++ frac_digits fr)).
    rewrite digits_number_text.
    + rewrite text_length. cbn [Nat.mul Nat.add]. unfold signed. destruct neg; ring.
    + apply Forall_app. split; [exact F1|]. destruct fr as [[d ds]|]; [exact F2|constructor].
  - cbn [List.length]. rewrite !app_length. cbn [List.length]. lia.
Qed.
Lemma parse_prefix_signed : forall neg n p pf, numeral_ok n -> has_digit n -> In (p, pf) si_prefixes ->
  parse_prefix (sign_char neg :: text n ++ " "%char :: chars p) si_prefixes = Ok (multiplicator pf * signed neg (value n)).
Proof.
  intros neg n p pf OK HD I. unfold parse_prefix.
  change (sign_char neg :: text n ++ " "%char :: chars p) with ((sign_char neg :: text n) ++ " "%char :: chars p).
  rewrite (rfind_some _ _ (prefix_space _ _ I)).
  change ((sign_char neg :: text n) ++ " "%char :: chars p) with (sign_char neg :: text n ++ " "%char :: chars p).
  rewrite (stod_signed neg n (chars p) OK HD). cbn [obind fst snd List.length]. rewrite Nat.eqb_refl. cbn [obind fst snd].
  change (sign_char neg :: text n ++ " "%char :: chars p) with ((sign_char neg :: text n) ++ " "%char :: chars p).
  change (S (List.length (text n)) + 1)%nat with (List.length (sign_char neg :: text n) + 1)%nat.
  rewrite skip_text, (find_conversion_in _ _ _ prefix_names I), (prefix_offset _ _ _ I). reflexivity.
Qed.

(** No admitted string begins with a sign. *)
Definition sign_head (s : list ascii) : bool :=
  match s with c :: _ => ((if ascii_dec c "-"%char then true else false) || (if ascii_dec c "+"%char then true else false))%bool | [] => false end.
Lemma reading_no_sign : forall m u name f, In m measures -> reading m u name f -> sign_head u = false.
Proof.
  intros m u name f I [p pf nm c IP IN E|n p pf nm c (F1 & F2 & F3) HD IP IN E]; subst u.
  - assert (T : forallb (fun m => forallb (fun e => forallb (fun p => negb (sign_head (chars (fst p) ++ chars (fst e)))) si_prefixes) m) measures = true) by (vm_compute; reflexivity).
    pose proof (proj1 (forallb_forall _ _) T m I) as T1. cbv beta in T1. pose proof (proj1 (forallb_forall _ _) T1 (nm, c) IN) as T2. cbv beta in T2.
    pose proof (proj1 (forallb_forall _ _) T2 (p, pf) IP) as T3. cbv beta in T3. cbn [fst] in T3. apply negb_true_iff in T3. exact T3.
  - destruct n as [wh fr ex]. cbn [whole frac] in *. rewrite text_eq. cbn [whole frac expo]. destruct wh as [|d wh].
    + destruct HD as [HD|HD]; [cbn in HD; congruence|]. cbn [frac] in HD. destruct fr as [[d ds]|]; [reflexivity|congruence].
    + inversion F1 as [|? ? Hd _]; subst. unfold small in Hd. change (sign_head (digit_char d :: ((text_of wh ++ frac_text fr ++ expo_text ex) ++ " "%char :: chars p ++ chars nm)) = false).
      Transparent digit_char. do 10 (destruct d as [|d]; [reflexivity|]). lia.
Qed.
