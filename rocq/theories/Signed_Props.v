(** * Property C42, numbers with a sign *)
From Coq Require Import Reals List Bool Arith String Ascii Lra.
From Verif Require Import Base Json_Model Units_Model Units_Spec Units_Proofs Units_Proofs2 Units_Props Signed_Spec Signed_Proofs.
Import ListNotations.
Local Open Scope R_scope.
Local Open Scope string_scope.
Local Open Scope list_scope.

(** The function for the part in front of the unit reads the sign, too. *)
Theorem C42_sign_read : forall negative n p pf, numeral_ok n -> has_digit n -> In (p, pf) si_prefixes ->
  parse_prefix (text n ++ " "%char :: chars p) si_prefixes = Ok (multiplicator pf * value n) /\
  parse_prefix (sign_char negative :: text n ++ " "%char :: chars p) si_prefixes = Ok (multiplicator pf * signed negative (value n)).
Proof. intros negative n p pf OK HD I. split; [apply parse_prefix_number; assumption|apply parse_prefix_signed; assumption]. Qed.
Print Assumptions C42_sign_read.

(** But no measurement with a sign in its unit is accepted. *)
Theorem C42_sign_rejected : forall m negative u s v, In m measures -> chars u = sign_char negative :: s ->
  parse_to_si m (measurement u v) = Exc.
Proof.
  intros m negative u s v I E. destruct (parse_to_si m (measurement u v)) as [x| |] eqn:Q; [|reflexivity|exfalso; exact (C42_no_ub m _ Q)].
  exfalso. destruct (C42_rejects m _ x I Q) as (u' & v' & name & f & J & R & _ & _). injection J as <- <-.
  pose proof (reading_no_sign m _ name f I R) as N. rewrite E in N. destruct negative; discriminate.
Qed.
Print Assumptions C42_sign_rejected.

Example C42_sign_case :
  parse_prefix (chars "-2.5e1 k") si_prefixes = Ok (-25000) /\ parse_to_si length_units (measurement "-2.5e1 km" 2) = Exc.
Proof.
  split; [|reflexivity].
  destruct (C42_sign_read true (mkNumeral [2%nat] (Some (5%nat, [])) (Some (false, (1%nat, [])))) "k" (factor (10 ^ 3))) as (_ & H).
  - repeat split; repeat constructor.
  - left; discriminate.
  - do 14 right. left. reflexivity.
  - refine (eq_trans H _). f_equal. unfold value, signed. cbn. lra.
Qed.
