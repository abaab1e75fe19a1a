(** * Property C96, truth values as numbers of control steps *)
From Coq Require Import Reals ZArith List Bool Arith String Ascii Lra Lia.
From Verif Require Import Base Interp_Model Json_Model Controls_Model Factory_Model Input_Model.
Import ListNotations.
Local Open Scope string_scope.

(** There is no schema for the settings of the controls: a truth value in place of the number is taken for 1 or 0. *)
Theorem C96_truth_value : forall t b c all, contains all "control_settings" = true -> at_const all "control_settings" = Ok c ->
  contains c "desired_delta_t" = false -> contains c "number_of_steps" = true -> at_const c "number_of_steps" = Ok (JBool b) ->
  (starttime t < endtime t)%R ->
  control_points t all = if b then UB else Exc.
Proof.
  intros t b c all H1 H2 H3 H4 H5 T. unfold control_points. rewrite H1, H2. cbn [obind]. rewrite H3, H4. cbn [andb]. unfold int_at. rewrite H5.
  cbn [obind get_int]. unfold make_from_start_number_end. destruct b; cbn; unfold Rleb, Rltb; repeat (destruct (Rle_dec _ _); try (exfalso; lra)); repeat (destruct (Rlt_dec _ _); try (exfalso; lra)); try reflexivity.
Qed.
Print Assumptions C96_truth_value.
Example C96_truth_value_case :
  let problem b := JObj [("control_settings", JObj [("number_of_steps", JBool b)])] in
  control_points (mkTimedata 0 2 3) (problem true) = UB /\ control_points (mkTimedata 0 2 3) (problem false) = Exc.
Proof.
  intro problem. split.
  - refine (C96_truth_value (mkTimedata 0 2 3) true (JObj [("number_of_steps", JBool true)]) (problem true) eq_refl eq_refl eq_refl eq_refl eq_refl _). cbn. lra.
  - refine (C96_truth_value (mkTimedata 0 2 3) false (JObj [("number_of_steps", JBool false)]) (problem false) eq_refl eq_refl eq_refl eq_refl eq_refl _). cbn. lra.
Qed.
