(** * Regular expressions and the schema of unit strings *)
From Coq Require Import Reals List Bool Arith String Ascii Lia.
From Verif Require Import Base Json_Model Units_Model Units_Spec.
Import ListNotations.
Local Open Scope string_scope.
Local Open Scope list_scope.

Definition isnil {A} (l : list A) : bool := match l with [] => true | _ => false end.
Fixpoint lang (r : regex) (b : bool) (w : list ascii) : Prop :=
  match r with
  | REmpty => w = []
  | RChar c => w = [c]
  | RDigit => exists c, digit c = true /\ w = [c]
  | RDigits => List.Forall (fun c => digit c = true) w
  | RBegin => b = true /\ w = []
  | REnd => False
  | RSeq r1 r2 => exists u v, w = u ++ v /\ lang r1 b u /\ lang r2 (b && isnil u)%bool v
  | RAlt r1 r2 => lang r1 b w \/ lang r2 b w
  end.
Fixpoint no_end (r : regex) : Prop :=
  match r with REnd => False | RSeq a b | RAlt a b => no_end a /\ no_end b | _ => True end.

Lemma isnil_app : forall {A} (u v : list A), isnil (u ++ v) = (isnil u && isnil v)%bool.
Proof. intros A [|x u] v; reflexivity. Qed.

Lemma run_digits_lang : forall s b k,
  run_digits s b k = true <->
  exists w s', s = w ++ s' /\ List.Forall (fun c => digit c = true) w /\ k (b && isnil w)%bool s' = true.
Proof.
  induction s as [|c s IH]; intros b k; cbn [run_digits]; rewrite orb_true_iff; split.
  - intros [H|H]; [|discriminate]. exists [], []. cbn. rewrite andb_true_r. auto.
  - intros (w & s' & E & _ & K). symmetry in E. apply app_eq_nil in E. destruct E as [-> ->]. cbn in K.
    rewrite andb_true_r in K. left; exact K.
  - intros [H|H].
    + exists [], (c :: s). cbn. rewrite andb_true_r. auto.
    + apply andb_true_iff in H. destruct H as [D H]. apply IH in H. destruct H as (w & s' & E & F & K).
      exists (c :: w), s'. subst s. cbn. rewrite andb_false_r. split; [reflexivity|]. split; [constructor; assumption|exact K].
  - intros (w & s' & E & F & K). destruct w as [|c' w].
    + cbn in E, K. rewrite andb_true_r in K. subst s'. left; exact K.
    + right. cbn in E. injection E as <- ->. inversion F; subst. rewrite H1. cbn. apply IH.
      exists w, s'. cbn in K. rewrite andb_false_r in K. auto.
Qed.

Lemma run_lang : forall r, no_end r -> forall b s k,
  run r b s k = true <-> exists w s', s = w ++ s' /\ lang r b w /\ k (b && isnil w)%bool s' = true.
Proof.
  induction r; intros N b' s k; cbn [run lang].
  - split.
    + intros H. exists [], s. cbn. rewrite andb_true_r. auto.
    + intros (w & s' & E & -> & K). cbn in E, K. rewrite andb_true_r in K. congruence.
  - split.
    + destruct s as [|c' s]; [discriminate|]. destruct (ascii_dec c c'); [|discriminate]. intros K. subst c'.
      exists [c], s. cbn. rewrite andb_false_r. auto.
    + intros (w & s' & E & -> & K). cbn in E, K. rewrite andb_false_r in K. subst s.
      destruct (ascii_dec c c); congruence.
  - split.
    + destruct s as [|c' s]; [discriminate|]. destruct (digit c') eqn:D; [|discriminate]. intros K.
      exists [c'], s. cbn. rewrite andb_false_r. split; [reflexivity|]. split; [exists c'; auto|exact K].
    + intros (w & s' & E & (c & D & ->) & K). cbn in E, K. rewrite andb_false_r in K. subst s. rewrite D. exact K.
  - apply run_digits_lang.
  - split.
    + destruct b'; [|discriminate]. intros K. exists [], s. cbn. auto.
    + intros (w & s' & E & [-> ->] & K). cbn in E, K. congruence.
  - destruct N.
  - destruct N as [N1 N2]. rewrite (IHr1 N1). split.
    + intros (u & s' & E & L & K). apply (IHr2 N2) in K. destruct K as (v & s'' & E2 & L2 & K).
      exists (u ++ v), s''. subst. rewrite app_assoc. split; [reflexivity|]. split.
      * exists u, v. auto.
      * rewrite isnil_app, andb_assoc. exact K.
    + intros (w & s' & E & (u & v & -> & L1 & L2) & K). exists u, (v ++ s'). rewrite app_assoc.
      split; [exact E|]. split; [exact L1|]. apply (IHr2 N2). exists v, s'. split; [reflexivity|]. split; [exact L2|].
      rewrite isnil_app, andb_assoc in K. exact K.
  - destruct N as [N1 N2]. rewrite orb_true_iff, (IHr1 N1), (IHr2 N2). split.
    + intros [(w & s' & E & L & K)|(w & s' & E & L & K)]; exists w, s'; auto.
    + intros (w & s' & E & [L|L] & K); [left|right]; exists w, s'; auto.
Qed.

Lemma search_begin : forall r s, search (RSeq RBegin r) s = run r true s (fun _ _ => true).
Proof.
  intros r s. unfold search.
  assert (H : forall s, search_from (RSeq RBegin r) false s = false).
  { induction s0 as [|c s0 IH]; cbn [search_from run]; [reflexivity|]. exact IH. }
  destruct s as [|c s]; cbn [search_from]; [|rewrite H]; rewrite orb_false_r; reflexivity.
Qed.

(** ** Names *)
Definition good_name (name : string) : Prop := match chars name with c :: _ => c <> "^"%char | [] => True end.

Lemma name_lang_false : forall l w, lang (name_regex l) false w <-> ~ In "^"%char l /\ w = l.
Proof.
  induction l as [|c l IH]; intros w; cbn [name_regex lang].
  - split; [intros ->; cbn; tauto|intros [_ ->]; reflexivity].
  - destruct (ascii_dec c "^"%char) as [->|Nc].
    + split.
      * cbn [lang]. intros (u & v & _ & [H _] & _). discriminate.
      * intros [H _]. exfalso. apply H. left; reflexivity.
    + cbn [lang]. split.
      * intros (u & v & -> & -> & L). cbn in L. apply IH in L. destruct L as [L ->].
        split; [|reflexivity]. cbn. intros [H|H]; congruence.
      * intros [H ->]. exists [c], l. split; [reflexivity|]. split; [reflexivity|]. cbn. apply IH.
        split; [|reflexivity]. intros K. apply H. right; exact K.
Qed.

Lemma name_lang : forall l b w, match l with c :: _ => c <> "^"%char | [] => True end ->
  lang (name_regex l) b w <-> ~ In "^"%char l /\ w = l.
Proof.
  intros l [] w G; [|apply name_lang_false]. destruct l as [|c l]; [apply (name_lang_false [])|].
  cbn [name_regex lang]. destruct (ascii_dec c "^"%char) as [|Nc]; [congruence|]. cbn [lang]. split.
  - intros (u & v & -> & -> & L). cbn in L. apply name_lang_false in L. destruct L as [L ->].
    split; [|reflexivity]. cbn. intros [H|H]; congruence.
  - intros [H ->]. exists [c], l. split; [reflexivity|]. split; [reflexivity|]. cbn. apply name_lang_false.
    split; [|reflexivity]. intros K. apply H. right; exact K.
Qed.

Lemma name_no_end : forall l, no_end (name_regex l).
Proof. induction l as [|c l IH]; cbn; [exact I|]. destruct (ascii_dec c "^"); cbn; auto. Qed.
Lemma capture_no_end : forall m, no_end (re_capture_from_map m).
Proof.
  induction m as [|[n c] [|x m] IH]; [exact I|apply name_no_end|]. cbn. split; [apply name_no_end|exact IH].
Qed.

Definition named (m : conversion_map) (w : list ascii) : Prop :=
  exists name c, In (name, c) m /\ caret_free name /\ w = chars name.
Lemma capture_lang : forall m b w, m <> [] -> (forall name c, In (name, c) m -> good_name name) ->
  lang (re_capture_from_map m) b w <-> named m w.
Proof.
  induction m as [|[n c] m IH]; intros b w NE G; [congruence|]. destruct m as [|x m].
  - cbn [re_capture_from_map]. rewrite name_lang; [|apply (G n c); left; reflexivity]. split.
    + intros [H ->]. exists n, c. split; [left; reflexivity|]. split; [exact H|reflexivity].
    + intros (n' & c' & [E|[]] & C & ->). injection E as <- <-. auto.
  - change (re_capture_from_map ((n, c) :: x :: m)) with (RAlt (name_regex (chars n)) (re_capture_from_map (x :: m))).
    cbn [lang]. rewrite IH; [|discriminate|intros n' c' I; apply (G n' c'); right; exact I].
    rewrite name_lang; [|apply (G n c); left; reflexivity]. split.
    + intros [[H ->]|(n' & c' & I & C & ->)].
      * exists n, c. split; [left; reflexivity|]. split; [exact H|reflexivity].
      * exists n', c'. split; [right; exact I|]. split; [exact C|reflexivity].
    + intros (n' & c' & [E|I] & C & ->).
      * injection E as <- <-. left; auto.
      * right. exists n', c'. auto.
Qed.

(** ** The tables *)
Definition is_caret (c : ascii) : bool := if ascii_dec c "^"%char then true else false.
Definition name_ok (n : string) : bool :=
  (match chars n with c :: _ => negb (is_caret c) | [] => true end
   && forallb (fun c => if ascii_dec c " "%char then false else true) (chars n))%bool.
Lemma tables_ok : forallb (fun m => forallb (fun e => name_ok (fst e)) m) (si_prefixes :: measures) = true.
Proof. reflexivity. Qed.
Lemma table_ok : forall m name c, In m (si_prefixes :: measures) -> In (name, c) m -> name_ok name = true.
Proof.
  intros m name c I J. pose proof (proj1 (forallb_forall _ _) tables_ok m I) as H.
  apply (proj1 (forallb_forall _ _) H (name, c) J).
Qed.
Lemma table_good : forall m name c, In m (si_prefixes :: measures) -> In (name, c) m -> good_name name.
Proof.
  intros m name c I J. pose proof (table_ok _ _ _ I J) as H. unfold name_ok in H. unfold good_name.
  apply andb_true_iff in H. destruct H as [H _]. destruct (chars name); [exact Logic.I|].
  intros ->. discriminate.
Qed.
Lemma table_space : forall m name c, In m (si_prefixes :: measures) -> In (name, c) m -> ~ In " "%char (chars name).
Proof.
  intros m name c I J K. pose proof (table_ok _ _ _ I J) as H. unfold name_ok in H.
  apply andb_true_iff in H. destruct H as [_ H]. pose proof (proj1 (forallb_forall _ _) H _ K) as E. discriminate.
Qed.
Lemma prefix_caret : forall name c, In (name, c) si_prefixes -> caret_free name.
Proof.
  intros name c J K.
  assert (H : forallb (fun e => forallb (fun c => negb (is_caret c)) (chars (fst e))) si_prefixes = true) by reflexivity.
  pose proof (proj1 (forallb_forall _ _) H (name, c) J) as E.
  pose proof (proj1 (forallb_forall _ _) E _ K) as E2. discriminate.
Qed.
Lemma measures_nonempty : forall m, In m measures -> m <> [].
Proof. intros m I ->. cbn in I. repeat (destruct I as [I|I]; [discriminate|]). exact I. Qed.

(** ** The simple pattern *)
Definition prefixed (m : conversion_map) (w : list ascii) : Prop :=
  exists p pf name c, In (p, pf) si_prefixes /\ In (name, c) m /\ caret_free name /\ w = chars p ++ chars name.

Lemma optional_prefix : forall b w, lang (optional (re_capture_from_map si_prefixes)) b w <->
  exists p pf, In (p, pf) si_prefixes /\ w = chars p.
Proof.
  intros b w. unfold optional. cbn [lang].
  rewrite capture_lang; [|discriminate|intros name c I; apply (table_good si_prefixes name c); [left; reflexivity|exact I]].
  split.
  - intros [(n & c & I & C & ->)| ->]; [exists n, c; auto|]. exists "", (factor 1). split; [left; reflexivity|reflexivity].
  - intros (p & pf & I & ->). left. exists p, pf. split; [exact I|]. split; [exact (prefix_caret _ _ I)|reflexivity].
Qed.

Lemma run_simple : forall m b s, In m measures ->
  run (simple_pattern m) b s (fun _ _ => true) = true <-> prefixed m s.
Proof.
  intros m b s I.
  assert (N : no_end (optional (re_capture_from_map si_prefixes))) by (split; [apply capture_no_end|exact Logic.I]).
  change (run (simple_pattern m) b s (fun _ _ => true)) with
    (run (optional (re_capture_from_map si_prefixes)) b s (fun ab s' =>
       run (re_capture_from_map m) ab s' (fun ab2 s2 => run REnd ab2 s2 (fun _ _ => true)))).
  rewrite (run_lang _ N).
  assert (G : forall name c, In (name, c) m -> good_name name).
  { intros name c J. apply (table_good m name c); [right; exact I|exact J]. }
  split.
  - intros (w & s' & E & L & K). apply optional_prefix in L. destruct L as (p & pf & IP & ->).
    apply (run_lang _ (capture_no_end m)) in K. destruct K as (n & s'' & E2 & L & K).
    apply capture_lang in L; [|apply measures_nonempty; exact I|exact G]. destruct L as (name & c & IN & CF & ->).
    destruct s''; [|discriminate]. exists p, pf, name, c. rewrite app_nil_r in E2. subst. auto.
  - intros (p & pf & name & c & IP & IN & CF & ->). exists (chars p), (chars name). split; [reflexivity|].
    split; [apply optional_prefix; exists p, pf; auto|]. apply (run_lang _ (capture_no_end m)).
    exists (chars name), []. rewrite app_nil_r. split; [reflexivity|]. split; [|reflexivity].
    apply capture_lang; [apply measures_nonempty; exact I|exact G|]. exists name, c. auto.
Qed.

(** ** The numeral *)
Lemma digit_char_digit : forall d, small d -> digit (digit_char d) = true.
Proof. intros d H. unfold small in H. do 10 (destruct d as [|d]; [reflexivity|]). lia. Qed.
Lemma digit_digit_char : forall c, digit c = true -> exists d, small d /\ c = digit_char d.
Proof.
  intros c H. unfold digit in H. apply andb_true_iff in H. destruct H as [H1 H2].
  apply Nat.leb_le in H1, H2. exists (nat_of_ascii c - 48)%nat. unfold small, digit_char. split; [lia|].
  replace (48 + (nat_of_ascii c - 48))%nat with (nat_of_ascii c) by lia. symmetry. apply ascii_nat_embedding.
Qed.
#[local] Opaque digit_char.
Lemma digits_text : forall w, List.Forall (fun c => digit c = true) w <-> exists ds, List.Forall small ds /\ w = text_of ds.
Proof.
  induction w as [|c w IH]; split.
  - intros _. exists []. auto.
  - intros _. constructor.
  - intros H. inversion H; subst. destruct (proj1 IH H3) as (ds & F & ->).
    destruct (digit_digit_char _ H2) as (d & S & ->). exists (d :: ds). split; [constructor; assumption|reflexivity].
  - intros (ds & F & E). destruct ds as [|d ds]; [discriminate|].
    change (text_of (d :: ds)) with (digit_char d :: text_of ds) in E. injection E as -> ->.
    inversion F; subst. constructor; [apply digit_char_digit; assumption|]. apply IH. exists ds. auto.
Qed.
Lemma digit1_text : forall b w, lang (RSeq RDigit RDigits) b w <->
  exists d ds, List.Forall small (d :: ds) /\ w = text_of (d :: ds).
Proof.
  intros b w. cbn [lang]. split.
  - intros (u & v & -> & (c & D & ->) & F). apply digits_text in F. destruct F as (ds & F & ->).
    destruct (digit_digit_char _ D) as (d & S & ->). exists d, ds. split; [constructor; assumption|reflexivity].
  - intros (d & ds & F & ->). inversion F; subst. exists [digit_char d], (text_of ds). split; [reflexivity|].
    split; [exists (digit_char d); split; [apply digit_char_digit; assumption|reflexivity]|].
    apply digits_text. exists ds. auto.
Qed.

Lemma number_lang : forall b w, lang number_pattern b w <->
  exists n, numeral_ok n /\ w = text n ++ [" "%char].
Proof.
  intros b w. unfold number_pattern. split.
  - intros (u & v & -> & L1 & (u2 & v2 & -> & L2 & (u3 & v3 & -> & L3 & L4))).
    cbn [lang] in L4. subst v3. apply digits_text in L1. destruct L1 as (ds & F & ->).
    assert (A : exists fr, match fr with Some (d, ds) => List.Forall small (d :: ds) | None => True end /\
              u2 = match fr with Some (d, ds) => "."%char :: text_of (d :: ds) | None => [] end).
    { destruct L2 as [(x & y & -> & L & L2)|L2].
      - cbn [lang] in L. subst x. apply digit1_text in L2. destruct L2 as (d & ds' & F' & ->). exists (Some (d, ds')). auto.
      - cbn [lang] in L2. exists None. auto. }
    assert (B : exists ex, match ex with Some (_, (d, ds)) => List.Forall small (d :: ds) | None => True end /\
              u3 = match ex with Some (neg, (d, ds)) => "e"%char :: (if (neg : bool) then ["-"%char] else []) ++ text_of (d :: ds) | None => [] end).
    { destruct L3 as [(x & y & -> & L & (x2 & y2 & -> & L5 & L6))|L3].
      - cbn [lang] in L. subst x. apply digit1_text in L6. destruct L6 as (d & ds' & F' & ->).
        destruct L5 as [L5|L5]; cbn [lang] in L5; subst x2; [exists (Some (true, (d, ds')))|exists (Some (false, (d, ds')))]; auto.
      - cbn [lang] in L3. exists None. auto. }
    destruct A as (fr & A1 & ->), B as (ex & B1 & ->). exists (mkNumeral ds fr ex).
    split; [split; [exact F|split; [exact A1|exact B1]]|]. unfold text. cbn [whole frac expo].
    rewrite <- !app_assoc. reflexivity.
  - intros ([ds fr ex] & (F & F2 & F3) & ->). cbn [whole frac expo] in *. unfold text. cbn [whole frac expo].
    rewrite <- !app_assoc. cbn [lang]. exists (text_of ds). eexists. split; [reflexivity|].
    split; [apply digits_text; exists ds; auto|].
    eexists. eexists. split; [reflexivity|]. split.
    + destruct fr as [[d ds']|]; [|right; reflexivity]. left. exists ["."%char], (text_of (d :: ds')).
      split; [reflexivity|]. split; [reflexivity|]. apply digit1_text. exists d, ds'. auto.
    + eexists. exists [" "%char]. split; [reflexivity|]. split; [|reflexivity].
      destruct ex as [[neg [d ds']]|]; [|right; reflexivity]. left. exists ["e"%char]. eexists. split; [reflexivity|].
      split; [reflexivity|]. eexists. exists (text_of (d :: ds')). split; [reflexivity|].
      split; [destruct neg; [left|right]; reflexivity|]. apply digit1_text. exists d, ds'. auto.
Qed.
Lemma number_no_end : no_end number_pattern.
Proof. cbn. tauto. Qed.

Lemma search1 : forall m u, In m measures -> search (pattern1 m) u = true <-> prefixed m u.
Proof. intros m u I. unfold pattern1. rewrite search_begin. apply run_simple. exact I. Qed.
Lemma search2 : forall m u, In m measures -> search (pattern2 m) u = true <->
  exists n w, numeral_ok n /\ u = text n ++ " "%char :: w /\ prefixed m w.
Proof.
  intros m u I. unfold pattern2. rewrite search_begin.
  change (run (RSeq number_pattern (simple_pattern m)) true u (fun _ _ => true))
    with (run number_pattern true u (fun ab s' => run (simple_pattern m) ab s' (fun _ _ => true))).
  rewrite (run_lang _ number_no_end). split.
  - intros (w & s' & -> & L & K). apply number_lang in L. destruct L as (n & OK & ->).
    apply run_simple in K; [|exact I]. exists n, s'. rewrite <- app_assoc. auto.
  - intros (n & w & OK & -> & P). exists (text n ++ [" "%char]), w. rewrite <- app_assoc. split; [reflexivity|].
    split; [apply number_lang; exists n; auto|]. apply run_simple; [exact I|exact P].
Qed.
Lemma prefixed_space : forall m w, In m measures -> prefixed m w -> ~ In " "%char w.
Proof.
  intros m w I (p & pf & name & c & IP & IN & _ & ->) K. apply in_app_or in K. destruct K as [K|K].
  - revert K. apply (table_space si_prefixes p pf); [left; reflexivity|exact IP].
  - revert K. apply (table_space m name c); [right; exact I|exact IN].
Qed.

Lemma unit_valid_iff : forall m u, In m measures -> unit_valid m u = true <->
  prefixed m u \/ exists n w, numeral_ok n /\ u = text n ++ " "%char :: w /\ prefixed m w.
Proof.
  intros m u I. unfold unit_valid. rewrite <- (search1 m u I), <- (search2 m u I).
  destruct (search (pattern1 m) u) eqn:E1, (search (pattern2 m) u) eqn:E2; cbn; try (split; [auto|intros [H|H]; auto]; fail).
  exfalso. apply (search1 m u I) in E1. apply (search2 m u I) in E2. destruct E2 as (n & w & _ & -> & _).
  apply (prefixed_space m _ I E1). apply in_or_app. right; left; reflexivity.
Qed.
