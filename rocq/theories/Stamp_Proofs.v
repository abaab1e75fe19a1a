(** * Proofs about the names of the output directories *)
From Coq Require Import List Bool Arith ZArith String Ascii Lia.
From Verif Require Import Base Json_Model Files_Model Files_Proofs2 Stamp_Model Stamp_Spec.
Import ListNotations.
Local Open Scope string_scope.

Lemma before_app a b x y : listed_before a b -> String.length a = String.length b -> listed_before (a ++ x) (b ++ y).
Proof.
  induction 1; cbn; intro L; try discriminate L.
  - now constructor.
  - apply same_character. apply IHlisted_before. lia.
Qed.
Lemma before_same a x y : listed_before x y -> listed_before (a ++ x) (a ++ y).
Proof. induction a; cbn; auto. intro H. apply same_character. auto. Qed.

Lemma digit_code k : k < 10 -> nat_of_ascii (digit k) = 48 + k.
Proof. intro H. unfold digit. apply nat_ascii_embedding. lia. Qed.
Lemma digit_inj a b : a < 10 -> b < 10 -> digit a = digit b -> a = b.
Proof. intros A B H. apply (f_equal nat_of_ascii) in H. rewrite !digit_code in H by assumption. lia. Qed.
Lemma div10 k : k < 100 -> k / 10 < 10.
Proof. intro. apply Nat.div_lt_upper_bound; lia. Qed.

Lemma two_before a b : b < 100 -> a < b -> listed_before (two_digits a) (two_digits b).
Proof.
  intros B H. unfold two_digits. pose proof (Nat.div_mod a 10). pose proof (Nat.div_mod b 10).
  pose proof (Nat.mod_upper_bound a 10). pose proof (Nat.mod_upper_bound b 10).
  pose proof (div10 a). pose proof (div10 b).
  destruct (Nat.eq_dec (a / 10) (b / 10)) as [E|E].
  - rewrite E. apply same_character, smaller_character. rewrite !digit_code by lia. lia.
  - apply smaller_character. rewrite !digit_code by lia. nia.
Qed.
Lemma two_inj a b : a < 100 -> b < 100 -> two_digits a = two_digits b -> a = b.
Proof.
  intros A B H. destruct (Nat.lt_trichotomy a b) as [L|[L|L]]; [|exact L|]; exfalso;
    [pose proof (two_before a b B L) as X|pose proof (two_before b a A L) as X]; rewrite H in X; revert X; clear;
    generalize (two_digits b); induction s; intro X; inversion X; subst; try lia; auto.
Qed.

(** Numbers up to 9999 as text. *)
Definition digits4 (y : nat) : string :=
  String (digit (y / 1000)) (String (digit (y / 100 mod 10)) (two_digits (y mod 100))).
Lemma all_below n (f : nat -> bool) : forallb f (seq 0 n) = true -> forall k, k < n -> f k = true.
Proof. intros H k L. apply (proj1 (forallb_forall f (seq 0 n)) H). apply in_seq. lia. Qed.
Lemma year_text y : 1000 <= y < 100 * 100 -> to_string y = digits4 y.
Proof.
  intro H. assert (A : ((y <? 1000)%nat || String.eqb (to_string y) (digits4 y))%bool = true).
  { apply (all_below (100 * 100) (fun y => ((y <? 1000)%nat || String.eqb (to_string y) (digits4 y))%bool)); [|lia].
    vm_compute. reflexivity. }
  apply orb_true_iff in A. destruct A as [A|A]; [apply Nat.ltb_lt in A; lia|]. apply String.eqb_eq, A.
Qed.
Lemma year_before a b : 1000 <= a -> b < 100 * 100 -> a < b -> listed_before (to_string a) (to_string b).
Proof.
  intros A B H. rewrite !year_text by lia. unfold digits4.
  assert (D : forall y, y < 100 * 100 -> y / 1000 < 10 /\ y / 100 mod 10 < 10 /\ y mod 100 < 100 /\
    y = 1000 * (y / 1000) + 100 * (y / 100 mod 10) + y mod 100).
  { clear. intros y H. split; [apply Nat.div_lt_upper_bound; lia|]. split; [apply Nat.mod_upper_bound; lia|].
    split; [apply Nat.mod_upper_bound; lia|].
    pose proof (Nat.div_mod y 100). pose proof (Nat.div_mod (y / 100) 10). rewrite Nat.div_div in * by lia.
    change (100 * 10) with 1000 in *. lia. }
  destruct (D a ltac:(lia)) as (A1 & A2 & A3 & A4). destruct (D b B) as (B1 & B2 & B3 & B4).
  set (a1 := a / 1000) in *. set (a2 := a / 100 mod 10) in *. set (a3 := a mod 100) in *.
  set (b1 := b / 1000) in *. set (b2 := b / 100 mod 10) in *. set (b3 := b mod 100) in *.
  destruct (Nat.eq_dec a1 b1) as [E|E].
  - rewrite E. apply same_character. destruct (Nat.eq_dec a2 b2) as [E2|E2].
    + rewrite E2. apply same_character. apply two_before; lia.
    + apply smaller_character. rewrite !digit_code by lia. lia.
  - apply smaller_character. rewrite !digit_code by lia. lia.
Qed.

(** Milliseconds as text. *)
Definition digits3 (k : nat) : string :=
  if (k <? 10)%nat then String (digit k) "" else if (k <? 100)%nat then two_digits k
  else String (digit (k / 100)) (two_digits (k mod 100)).
Lemma ms_text k : k < 1000 -> to_string k = digits3 k.
Proof.
  intro H. assert (A : String.eqb (to_string k) (digits3 k) = true).
  { apply (all_below 1000 (fun k => String.eqb (to_string k) (digits3 k))); [|exact H]. vm_compute. reflexivity. }
  apply String.eqb_eq, A.
Qed.
Lemma ms_before a b : a < b -> b < 1000 -> same_digits (Z.of_nat a) (Z.of_nat b) -> listed_before (to_string a) (to_string b).
Proof.
  intros H B S. rewrite !ms_text by lia. unfold digits3, same_digits in *.
  destruct (Nat.ltb_spec a 10), (Nat.ltb_spec b 10); try lia.
  - apply smaller_character. rewrite !digit_code by lia. lia.
  - destruct (Nat.ltb_spec a 100), (Nat.ltb_spec b 100); try lia.
    + apply two_before; lia.
    + pose proof (Nat.div_mod a 100). pose proof (Nat.div_mod b 100).
      pose proof (Nat.mod_upper_bound a 100). pose proof (Nat.mod_upper_bound b 100).
      assert (a / 100 < 10) by (apply Nat.div_lt_upper_bound; lia). assert (b / 100 < 10) by (apply Nat.div_lt_upper_bound; lia).
      destruct (Nat.eq_dec (a / 100) (b / 100)) as [E|E].
      * rewrite E. apply same_character, two_before; lia.
      * apply smaller_character. rewrite !digit_code by lia. nia.
Qed.

(** The text of a date. *)
Definition date_text (t : tm) : string :=
  to_string (year t) ++ "." ++ two_digits (month t) ++ "." ++ two_digits (day t) ++ "_" ++
  two_digits (hour t) ++ ":" ++ two_digits (minute t) ++ ":" ++ two_digits (second t).

Lemma app_length_s a b : String.length (a ++ b) = String.length a + String.length b.
Proof. induction a; cbn; auto. Qed.
Lemma date_length t : String.length (date_text t) = String.length (to_string (year t)) + 15.
Proof. unfold date_text. rewrite !app_length_s. cbn. lia. Qed.

Lemma year_length y : 1000 <= y < 100 * 100 -> String.length (to_string y) = 4.
Proof. intro H. rewrite year_text by assumption. reflexivity. Qed.

Lemma date_before t u : ordinary t -> ordinary u -> calendar_earlier t u -> listed_before (date_text t) (date_text u).
Proof.
  intros (Y1 & P1) (Y2 & P2) H. unfold two_digit_parts in *.
  inversion P1 as [|? ? M1 Q1]; subst. inversion Q1 as [|? ? D1 R1]; subst. inversion R1 as [|? ? H1 S1]; subst.
  inversion S1 as [|? ? I1 T1]; subst. inversion T1 as [|? ? K1 _]; subst. clear P1 Q1 R1 S1 T1.
  inversion P2 as [|? ? M2 Q2]; subst. inversion Q2 as [|? ? D2 R2]; subst. inversion R2 as [|? ? H2 S2]; subst.
  inversion S2 as [|? ? I2 T2]; subst. inversion T2 as [|? ? K2 _]; subst. clear P2 Q2 R2 S2 T2.
  destruct t as [y1 m1 d1 h1 i1 s1], u as [y2 m2 d2 h2 i2 s2]. unfold calendar_earlier, parts, date_text in *.
  cbn [year month day hour minute second] in *.
  inversion H as [? ? ? ? L _|? ? ? H3]; subst; clear H.
  { apply before_app; [apply year_before; lia|]. rewrite !year_length by lia. reflexivity. }
  apply before_same, before_same. inversion H3 as [? ? ? ? L _|? ? ? H4]; subst; clear H3.
  { apply before_app; [apply two_before; lia|reflexivity]. }
  apply before_same, before_same. inversion H4 as [? ? ? ? L _|? ? ? H5]; subst; clear H4.
  { apply before_app; [apply two_before; lia|reflexivity]. }
  apply before_same, before_same. inversion H5 as [? ? ? ? L _|? ? ? H6]; subst; clear H5.
  { apply before_app; [apply two_before; lia|reflexivity]. }
  apply before_same, before_same. inversion H6 as [? ? ? ? L _|? ? ? H7]; subst; clear H6.
  { apply before_app; [apply two_before; lia|reflexivity]. }
  apply before_same, before_same. inversion H7 as [? ? ? ? L _|? ? ? H8]; subst; clear H7; [|inversion H8].
  apply two_before; lia.
Qed.

Lemma time_parts now sec ms : at_time now sec ms -> to_time_t now = sec /\ Z.of_nat (ms_since_second now) = ms.
Proof.
  intros ((A & B) & S & M). assert (E : to_time_t now = sec).
  { unfold to_time_t. symmetry. apply Z.div_unique_pos with (r := (now - 1000000000 * sec)%Z); lia. }
  split; [exact E|]. unfold ms_since_second. rewrite E.
  assert (F : ((now - sec * 1000000000) / 1000000 = ms)%Z).
  { symmetry. apply Z.div_unique_pos with (r := (now - sec * 1000000000 - 1000000 * ms)%Z); lia. }
  rewrite F. apply Z2Nat.id. lia.
Qed.

(** Texts that begin with parts of equal length. *)
Lemma app_split a b x y : String.length a = String.length b -> a ++ x = b ++ y -> a = b /\ x = y.
Proof.
  revert b. induction a as [|c a IH]; intros [|d b] L E; try discriminate L; cbn in *; [auto|].
  injection E as -> E. destruct (IH b ltac:(lia) E) as (-> & ->). auto.
Qed.
Lemma app_split_r a b x y : String.length x = String.length y -> a ++ x = b ++ y -> a = b /\ x = y.
Proof.
  intros L E. apply app_split; [|exact E]. apply (f_equal String.length) in E. rewrite !app_length_s in E. lia.
Qed.
Lemma app_assoc_s a b c : (a ++ b) ++ c = a ++ b ++ c.
Proof. induction a; cbn; congruence. Qed.
(** The first dot splits a text in one way only. *)
Lemma dot_split a b x y : last_dot a = None -> last_dot b = None -> a ++ "." ++ x = b ++ "." ++ y -> a = b /\ x = y.
Proof.
  revert b. induction a as [|c a IH]; intros [|d b] A B E; cbn [append] in E.
  - injection E as <-. auto.
  - injection E as <- E. exfalso. cbn in B. destruct (last_dot b); discriminate B.
  - injection E as -> E. exfalso. cbn in A. destruct (last_dot a); discriminate A.
  - injection E as -> E. cbn [last_dot] in A, B.
    destruct (last_dot a) as [k|] eqn:LA; [discriminate A|]. destruct (last_dot b) as [k|] eqn:LB; [discriminate B|].
    destruct (IH b eq_refl LB E) as (-> & ->). auto.
Qed.
Lemma two_sep s a b x y : a < 100 -> b < 100 -> two_digits a ++ String s x = two_digits b ++ String s y -> a = b /\ x = y.
Proof.
  intros A B E. apply app_split in E; [|reflexivity]. destruct E as (E & F). injection F as F.
  split; [apply two_inj; assumption|exact F].
Qed.
Lemma name_injective t u a b : two_digit_parts t -> two_digit_parts u ->
  date_text t ++ "." ++ to_string a = date_text u ++ "." ++ to_string b -> t = u /\ a = b.
Proof.
  intros P1 P2 H. unfold two_digit_parts in *.
  inversion P1 as [|? ? M1 Q1]; subst. inversion Q1 as [|? ? D1 R1]; subst. inversion R1 as [|? ? H1 S1]; subst.
  inversion S1 as [|? ? I1 T1]; subst. inversion T1 as [|? ? K1 _]; subst. clear P1 Q1 R1 S1 T1.
  inversion P2 as [|? ? M2 Q2]; subst. inversion Q2 as [|? ? D2 R2]; subst. inversion R2 as [|? ? H2 S2]; subst.
  inversion S2 as [|? ? I2 T2]; subst. inversion T2 as [|? ? K2 _]; subst. clear P2 Q2 R2 S2 T2.
  destruct t as [y1 m1 d1 h1 i1 s1], u as [y2 m2 d2 h2 i2 s2]. unfold date_text in *.
  cbn [year month day hour minute second] in *. rewrite !app_assoc_s in H.
  apply dot_split in H; [|apply number_no_dot|apply number_no_dot]. destruct H as (Y & H). apply to_string_inj in Y. subst y2.
  apply two_sep in H; try assumption. destruct H as (-> & H).
  apply two_sep in H; try assumption. destruct H as (-> & H).
  apply two_sep in H; try assumption. destruct H as (-> & H).
  apply two_sep in H; try assumption. destruct H as (-> & H).
  apply two_sep in H; try assumption. destruct H as (-> & H).
  apply to_string_inj in H. auto.
Qed.

Lemma stamp_ok localtime now : String.length (to_string (year (localtime (to_time_t now)))) <= 16 ->
  millisecond_datetime_timestamp localtime now =
  Ok (date_text (localtime (to_time_t now)) ++ "." ++ to_string (ms_since_second now)).
Proof.
  intro H. unfold millisecond_datetime_timestamp, strftime. fold (date_text (localtime (to_time_t now))).
  rewrite date_length. replace (_ <? 32)%nat with true; [reflexivity|]. symmetry. apply Nat.ltb_lt. lia.
Qed.
Lemma stamp_inv localtime now s : millisecond_datetime_timestamp localtime now = Ok s ->
  s = date_text (localtime (to_time_t now)) ++ "." ++ to_string (ms_since_second now).
Proof.
  unfold millisecond_datetime_timestamp, strftime. fold (date_text (localtime (to_time_t now))).
  destruct (_ <? 32)%nat; [|discriminate]. intro H. injection H as <-. reflexivity.
Qed.
