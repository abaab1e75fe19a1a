(** * Property C61, directories above the root *)
From Coq Require Import List Bool Arith String Ascii Lia.
From Verif Require Import Base Files_Model Files_Spec Files_Proofs Files_Proofs2.
Import ListNotations.
Local Open Scope string_scope.
Local Open Scope list_scope.

Lemma ends_as_directory_iff : forall p, p <> [] -> p <> ["/"] -> (ends_as_directory (body p) = false <-> plain (last p "")).
Proof.
  intros p N N'. unfold ends_as_directory, plain.
  assert (D : forall (q : list string) a d d', last (a :: q) d = last (a :: q) d') by (induction q as [|z q IH]; intros a d d'; [reflexivity|]; apply (IH z)).
  assert (E : last (body p) "x" = last p "").
  { destruct p as [|x p]; [congruence|]. unfold body, is_absolute. destruct (String.eqb_spec x "/") as [->|]; [|apply D].
    destruct p as [|y p]; [congruence|]. cbn [tl]. transitivity (last (y :: p) ""); [apply D|reflexivity]. }
  rewrite E. cbv zeta.
  destruct (String.eqb_spec (last p "") ""), (String.eqb_spec (last p "") "."), (String.eqb_spec (last p "") ".."); cbn; split; try discriminate; tauto.
Qed.

(** Exactly these questions are not answered: the path leads to a directory above the root, and it ends with a name or
    leads to the root of the file system. *)
Theorem C61_above : forall root p, List.Forall plain root ->
  (absolute_file_path_in_root ("/" :: root) p = UB <->
   (exists c, c <> [] /\ root = leads_to root p ++ c) /\ (leads_to root p = [] \/ plain (last p ""))).
Proof.
  intros root p F. rewrite (in_root_eq root p F), mismatch_ub. unfold place_and_mark. destruct (leads_to root p) as [|a l] eqn:L.
  - rewrite andb_false_r. cbn [app]. split; [intros H; split; [exact H|left; reflexivity]|intros [H _]; exact H].
  - rewrite andb_true_r. destruct p as [|x p].
    + cbn in L. subst root. split.
      * intros (c & N & H). exfalso. apply (f_equal (@List.length string)) in H. rewrite !app_length in H. cbn in H. lia.
      * intros [(c & N & H) _]. exfalso. apply (f_equal (@List.length string)) in H. rewrite !app_length in H. destruct c; [congruence|]. cbn in H. lia.
    + assert (Q : x :: p <> ["/"]) by (intros E; rewrite E in L; cbn in L; discriminate).
      pose proof (ends_as_directory_iff (x :: p) ltac:(discriminate) Q) as K. destruct (ends_as_directory (body (x :: p))).
      * split.
        -- intros (c & N & H). exfalso. rewrite H in F. apply Forall_app in F. destruct F as [F _]. apply Forall_app in F. destruct F as [_ F].
           inversion F as [|? ? P _]. destruct P. congruence.
        -- intros [_ [H|H]]; [discriminate|]. apply K in H. discriminate.
      * rewrite app_nil_r. split; [intros H; split; [exact H|right; apply K; reflexivity]|intros [H _]; exact H].
Qed.
Print Assumptions C61_above.

(** From /home/user, the path ".." is answered, "../../home" is not, though both lead to /home. *)
Example C61_above_case :
  leads_to ["home"; "user"] [".."] = ["home"] /\ leads_to ["home"; "user"] [".."; ".."; "home"] = ["home"] /\
  absolute_file_path_in_root ["/"; "home"; "user"] [".."] = Ok false /\
  absolute_file_path_in_root ["/"; "home"; "user"] [".."; ".."; "home"] = UB /\
  absolute_file_path_in_root ["/"; "home"; "user"] [".."; ".."] = UB.
Proof. repeat split. Qed.
