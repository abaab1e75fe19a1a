(** * Proofs about topology entries with defaults *)
From Coq Require Import Reals List Bool Arith Lia String Ascii Sorted.
From Verif Require Import Base Json_Model Json_Spec Json_Proofs Json_Proofs2 Json_Proofs3 Defaults_Model Defaults_Spec Defaults_Proofs Defaults_Proofs2
  Defaults_Proofs3 Defaults_Props Controls_Model Controls_Spec Controls_Proofs States_Model States_Spec States_Proofs Factory_Model Factory_Spec Factory_Proofs
  Factory_Proofs2.
From Verif Require Units_Model Units_Spec Units_Proofs Units_Proofs2.
Import ListNotations.
Local Open Scope string_scope.
Local Open Scope list_scope.

Definition mp : list (string * json) := [("unit", unit_definition); ("value", type_number)].
Lemma measure_sub : sub (def_of Length) = Some (JObj mp). Proof. reflexivity. Qed.
Lemma plain_fields fs : (forall k, In k (map fst fs) -> node_key k) -> plain_node (JObj fs).
Proof.
  intros H k K. apply H. cbn [entry_of] in K. destruct (field fs k) as [v|] eqn:E; [|congruence]. apply field_in in E.
  change k with (fst (k, v)). apply in_map. exact E.
Qed.
Lemma measure_plain : plain_node (def_of Length).
Proof. apply plain_fields. cbn. unfold node_key. cbn. intuition. Qed.
Lemma mp_nodup : NoDup (map fst mp).
Proof. cbn. repeat constructor; cbn; intuition discriminate. Qed.
Lemma tidy_def g : tidy (def_of g).
Proof.
  destruct g; [apply tidy_leaf; reflexivity|apply tidy_leaf; reflexivity|].
  apply (tidy_node _ mp measure_sub measure_plain mp_nodup).
  - right. exists ["value"; "unit"]. reflexivity.
  - intros k v [H|[H|[]]]; injection H as <- <-; (split; [eexists; reflexivity|discriminate]).
  - intros k v [H|[H|[]]]; injection H as <- <-; apply tidy_leaf; reflexivity.
Qed.
Lemma field_mp k : field mp k = if string_dec "unit" k then Some unit_definition else if string_dec "value" k then Some type_number else None.
Proof.
  unfold mp. cbn [field]. destruct (string_dec "unit" k) as [<-|N]; [reflexivity|]. destruct (String.eqb_spec "unit" k); [contradiction|].
  destruct (string_dec "value" k) as [<-|N']; [reflexivity|]. destruct (String.eqb_spec "value" k); [contradiction|]. reflexivity.
Qed.
Lemma sorted_two fs : StronglySorted before (map fst fs) -> (forall k, field fs k <> None -> k = "unit" \/ k = "value") ->
  field fs "unit" <> None -> field fs "value" <> None -> exists u y, fs = [("unit", u); ("value", y)].
Proof.
  intros S K U W. destruct fs as [|[a x] fs]; [contradiction|].
  assert (Ka : a = "unit" \/ a = "value") by (apply K; cbn; rewrite String.eqb_refl; discriminate).
  inversion S as [|? ? S1 S2]; subst. assert (Na : field fs a = None).
  { destruct (field fs a) as [y|] eqn:E; [|reflexivity]. apply field_in in E. exfalso.
    apply (before_irrefl a). apply (proj1 (Forall_forall _ _) S2). apply in_map_iff. exists (a, y). auto. }
  destruct fs as [|[b y] fs].
  { destruct Ka; subst; cbn in U, W; [exfalso; apply W; reflexivity|exfalso; apply U; reflexivity]. }
  assert (Kb : b = "unit" \/ b = "value").
  { apply K. cbn. destruct (String.eqb a b); [discriminate|]. rewrite String.eqb_refl. discriminate. }
  assert (Ab : before a b) by (apply (proj1 (Forall_forall _ _) S2); left; reflexivity).
  assert (a = "unit" /\ b = "value") as [-> ->].
  { destruct Ka, Kb; subst; auto; try (exfalso; apply (before_irrefl _ Ab)). discriminate Ab. }
  destruct fs as [|[c z] fs]; [eauto|]. exfalso.
  inversion S1 as [|? ? S3 S4]; subst. assert (Bc : before "value" c) by (apply (proj1 (Forall_forall _ _) S4); left; reflexivity).
  assert (Kc : c = "unit" \/ c = "value").
  { apply K. cbn [field]. destruct (String.eqb "unit" c); [discriminate|]. destruct (String.eqb "value" c); [discriminate|]. rewrite String.eqb_refl. discriminate. }
  destruct Kc; subst; [discriminate Bc|apply (before_irrefl _ Bc)].
Qed.
Lemma V_length v : canonical v -> (V (def_of Length) v = true <-> good_value Length v).
Proof.
  intro C. split.
  - intro H. destruct (V_node_object _ _ _ measure_sub H) as [vs ->].
    apply (V_node _ mp vs measure_plain measure_sub (canonical_nodup vs C)) in H. destruct H as (H1 & H2 & H3).
    assert (K : forall k, field vs k <> None -> k = "unit" \/ k = "value").
    { intros k K. apply (H3 eq_refl) in K. rewrite field_mp in K. destruct (string_dec "unit" k); [auto|]. destruct (string_dec "value" k); [auto|congruence]. }
    inversion C as [| | | | |fs S G]; subst.
    destruct (sorted_two vs S K) as (u & y & ->); [apply H1; cbn; auto|apply H1; cbn; auto|].
    pose proof (H2 "unit" u unit_definition eq_refl eq_refl) as Q1. pose proof (H2 "value" y type_number eq_refl eq_refl) as Q2.
    apply V_unit in Q1. destruct Q1 as (s & -> & T). apply V_number in Q2. destruct Q2 as (x & ->). exists s, x. auto.
  - intros (u & x & -> & T). unfold Units_Spec.measurement in *.
    apply (V_node _ mp _ measure_plain measure_sub (canonical_nodup _ C)). split; [|split].
    + intros k [<-|[<-|[]]]; discriminate.
    + intros k v def E D. rewrite field_mp in D. cbn [field] in E.
      destruct (string_dec "unit" k) as [<-|N1]; [cbn in E; injection E as <-; injection D as <-; apply V_unit; eauto|].
      destruct (string_dec "value" k) as [<-|N2]; [cbn in E; injection E as <-; injection D as <-; apply V_number; eexists; reflexivity|discriminate].
    + intros _ k K. rewrite field_mp. cbn [field] in K. destruct (string_dec "unit" k); [discriminate|]. destruct (string_dec "value" k); [discriminate|].
      destruct (String.eqb_spec "unit" k); [contradiction|]. destruct (String.eqb_spec "value" k); [contradiction|]. congruence.
Qed.
Lemma V_def g v : canonical v -> (V (def_of g) v = true <-> good_value g v).
Proof. destruct g; [intros _; apply V_text|intros _; apply V_number|apply V_length]. Qed.

Lemma added_nothing fs : added (JObj fs) (JObj []) (JObj fs).
Proof. constructor; [reflexivity| | |]; cbn; [congruence|auto|discriminate]. Qed.

(** A value against a definition with default [ox] that is no longer required. *)
Definition with_default (def : json) (ox : option json) (def1 : json) : Prop :=
  like def def1 /\ forall q, sub def = Some q -> exists xs q1, sub def1 = Some q1 /\ added q (JObj xs) q1 /\
    forall k, field xs k <> None <-> exists x, ox = Some x /\ entry_of x k <> None.
Lemma cleaned_leaf_eq n n' : cleaned n n' -> sub n = None -> n' = n.
Proof. intros C S. inversion C; subst; [reflexivity|congruence]. Qed.
Lemma V_part g ox def1 def2 v : with_default (def_of g) ox def1 -> cleaned def1 def2 -> canonical v -> (V def2 v = true <-> good_with g ox v).
Proof.
  intros [L A] C Cv. assert (E : g = Length \/ (g <> Length /\ sub (def_of g) = None)) by (destruct g; [right|right|left]; try split; congruence || reflexivity).
  destruct E as [->|[Ng Sg]].
  2: { pose proof L as (L1 & L2 & _). assert (S1 : sub def1 = None) by (rewrite <- Sg; apply sub_type; [apply L1; discriminate|apply L2; exact Sg]).
       rewrite (cleaned_leaf_eq _ _ C S1), (V_like (def_of g) (tidy_def g) def1 v L Cv). destruct g; [apply V_text|apply V_number|congruence]. }
  destruct (A _ measure_sub) as (xs & q1 & S1 & Ad & Dx). cbn [good_with].
  inversion Ad as [a b mp1 H1 H2 H3 H4]; subst.
  inversion C as [m S|m m' fs mp2 S S2 C1 C2 C3 C4 C5]; subst; [congruence|]. rewrite S1 in S. injection S as <-.
  assert (P2 : plain_node def2) by (eapply cleaned_plain; [|exact C]; eapply like_plain; [apply measure_plain|exact L]).
  assert (R2 : forall k, In k (required_of def2) <-> (k = "unit" \/ k = "value") /\ field xs k = None).
  { intro k. assert (R1 : entry_of def1 "required" = Some (JArr (map JStr ["value"; "unit"]))) by (rewrite (proj1 L) by discriminate; reflexivity).
    rewrite (required_of_list def2 _ (C3 _ R1)). unfold without_default. rewrite filter_In.
    assert (D : (k = "unit" \/ k = "value") -> default_at (JObj mp1) [k] = field xs k).
    { intro K. unfold default_at. cbn [def_at entry_of]. pose proof (field_added mp xs mp1 k Ad) as F. rewrite field_mp in F.
      destruct K as [-> | ->]; cbn in F; destruct F as (d' & -> & -> & _); destruct (field xs _); reflexivity. }
    cbn [In]. split.
    - intros [I F]. assert (K : k = "unit" \/ k = "value") by intuition. rewrite (D K) in F. split; [exact K|]. destruct (field xs k); congruence.
    - intros [K F]. rewrite (D K), F. intuition. }
  assert (W : forall k w d2, canonical w -> field mp2 k = Some d2 -> exists d0, field mp k = Some d0 /\ V d2 w = V d0 w).
  { intros k w d2 Cw E2. destruct (field mp1 k) as [d1|] eqn:E1; [|rewrite (C4 k E1) in E2; discriminate].
    destruct (C5 k d1 E1) as (d2' & X & Cd). assert (d2' = d2) by congruence. subst d2'.
    pose proof (field_added mp xs mp1 k Ad) as F. destruct (field mp k) as [d0|] eqn:E0; [|congruence]. exists d0. split; [reflexivity|].
    assert (S0 : sub d0 = None) by (rewrite field_mp in E0; destruct (string_dec "unit" k); [injection E0 as <-; reflexivity|]; destruct (string_dec "value" k); [injection E0 as <-; reflexivity|discriminate]).
    destruct F as (d1' & X1 & _ & F). assert (d1' = d1) by congruence. subst d1'.
    destruct F as [[-> _]|[Ld _]].
    - rewrite (cleaned_leaf_eq _ _ Cd S0). reflexivity.
    - pose proof Ld as (Q1 & Q2 & _). assert (S1' : sub d1 = None) by (rewrite <- S0; apply sub_type; [apply Q1; discriminate|apply Q2; exact S0]).
      rewrite (cleaned_leaf_eq _ _ Cd S1'). apply (V_like d0 (tidy_leaf d0 S0) d1 w Ld Cw). }
  assert (M2 : forall k, field mp2 k <> None <-> k = "unit" \/ k = "value").
  { intro k. split.
    - intro K. destruct (field mp1 k) as [d1|] eqn:E1; [|rewrite (C4 k E1) in K; congruence]. pose proof (field_added mp xs mp1 k Ad) as F.
      rewrite field_mp in F. destruct (string_dec "unit" k); [auto|]. destruct (string_dec "value" k); [auto|congruence].
    - intro K. pose proof (field_added mp xs mp1 k Ad) as F. rewrite field_mp in F.
      assert (exists d1, field mp1 k = Some d1) as [d1 E1].
      { destruct K as [-> | ->]; cbn in F; destruct F as (d' & X & _); eauto. }
      destruct (C5 k d1 E1) as (d2 & X & _). congruence. }
  assert (Cl : closed_keys def2) by (unfold closed_keys; rewrite C1 by discriminate; rewrite (proj1 L) by discriminate; reflexivity).
  split.
  - intro H. destruct (V_node_object _ _ _ S2 H) as [vs ->]. apply (V_node def2 mp2 vs P2 S2 (canonical_nodup vs Cv)) in H. destruct H as (K1 & K2 & K3).
    exists vs. split; [reflexivity|]. split; [|split; [|split]].
    + intros k K. apply M2. apply (K3 Cl). exact K.
    + intros u Eu. destruct (field mp2 "unit") as [d2|] eqn:E2; [|exfalso; apply (proj2 (M2 "unit")); auto].
      pose proof (K2 _ _ _ Eu E2) as Q. destruct (W "unit" u d2 (canonical_field _ _ _ Cv Eu) E2) as (d0 & X & Y). injection X as <-. rewrite Y in Q. apply V_unit. exact Q.
    + intros u Eu. destruct (field mp2 "value") as [d2|] eqn:E2; [|exfalso; apply (proj2 (M2 "value")); auto].
      pose proof (K2 _ _ _ Eu E2) as Q. destruct (W "value" u d2 (canonical_field _ _ _ Cv Eu) E2) as (d0 & X & Y). injection X as <-. rewrite Y in Q. apply V_number. exact Q.
    + intros k K E. apply Dx. intro N. apply (K1 k); [apply R2; auto|exact E].
  - intros (vs & -> & Q1 & Q2 & Q3 & Q4). apply (V_node def2 mp2 vs P2 S2 (canonical_nodup vs Cv)). split; [|split].
    + intros k K. apply R2 in K. destruct K as [K N]. intro E. apply (proj2 (Dx k)); [apply Q4; assumption|exact N].
    + intros k w d2 Ew E2. destruct (W k w d2 (canonical_field _ _ _ Cv Ew) E2) as (d0 & X & Y). rewrite Y. rewrite field_mp in X.
      destruct (string_dec "unit" k) as [<-|N1]; [injection X as <-; apply V_unit; auto|].
      destruct (string_dec "value" k) as [<-|N2]; [injection X as <-; apply V_number; apply Q3; exact Ew|discriminate].
    + intros _ k K. apply M2. auto.
Qed.

(** ** Schemas of components *)
Definition props (fields : list (string * value_kind)) : list (string * json) :=
  fold_left (fun acc kg => set_field acc (fst kg) (def_of (snd kg))) fields [].
Definition base (fields : list (string * value_kind)) : json :=
  JObj [("properties", JObj (props fields)); ("required", JArr (map JStr (map fst fields))); ("type", JStr "object")].
Lemma fold_field fields : NoDup (map fst fields) -> forall acc k,
  field (fold_left (fun acc (kg : string * value_kind) => set_field acc (fst kg) (def_of (snd kg))) fields acc) k
  = match look_up fields k with Some g => Some (def_of g) | None => field acc k end.
Proof.
  induction fields as [|[a g] fields IH]; intros N acc k; [reflexivity|]. inversion N as [|? ? N1 N2]; subst. cbn [fold_left look_up fst snd]. rewrite (IH N2), field_set.
  destruct (string_dec a k) as [<-|Ne].
  - assert (E : look_up fields a = None).
    { clear -N1. induction fields as [|[b h] fields IH]; [reflexivity|]. cbn in *. destruct (string_dec b a) as [->|]; [tauto|]. apply IH. tauto. }
    rewrite E, String.eqb_refl. reflexivity.
  - destruct (String.eqb_spec a k); [contradiction|]. reflexivity.
Qed.
Lemma field_props fields k : NoDup (map fst fields) -> field (props fields) k = option_map def_of (look_up fields k).
Proof. intro N. unfold props. rewrite (fold_field fields N). destruct (look_up fields k); reflexivity. Qed.
Lemma look_up_in {A} (l : list (string * A)) k x : look_up l k = Some x -> In (k, x) l.
Proof. induction l as [|[a y] l IH]; [discriminate|]. cbn. destruct (string_dec a k) as [->|]; [intro H; injection H as <-; auto|auto]. Qed.
Lemma in_look_up {A} (l : list (string * A)) k x : NoDup (map fst l) -> In (k, x) l -> look_up l k = Some x.
Proof.
  induction l as [|[a y] l IH]; intros N I; [destruct I|]. inversion N as [|? ? N1 N2]; subst. cbn. destruct I as [I|I].
  - injection I as -> ->. destruct (string_dec k k); [reflexivity|congruence].
  - destruct (string_dec a k) as [->|]; [|auto]. exfalso. apply N1. change k with (fst (k, x)). apply in_map. exact I.
Qed.
Lemma props_sorted fields : forall acc, StronglySorted before (map fst acc) ->
  StronglySorted before (map fst (fold_left (fun acc (kg : string * value_kind) => set_field acc (fst kg) (def_of (snd kg))) fields acc)).
Proof. induction fields as [|x fields IH]; intros acc S; [exact S|]. cbn. apply IH. apply set_field_sorted. exact S. Qed.
Lemma sorted_keys_nodup l : StronglySorted before l -> NoDup l.
Proof. induction 1 as [|a l S IH F]; constructor; [|exact IH]. intro I. apply (before_irrefl a). apply (proj1 (Forall_forall _ _) F). exact I. Qed.
Lemma props_nodup fields : NoDup (map fst (props fields)).
Proof. apply sorted_keys_nodup. apply props_sorted. constructor. Qed.
Lemma base_plain fields : plain_node (base fields).
Proof. apply plain_fields. cbn [map fst]. unfold node_key. cbn. intuition. Qed.
Lemma tidy_base fields : NoDup (map fst fields) -> tidy (base fields).
Proof.
  intro N. apply (tidy_node (base fields) (props fields) eq_refl (base_plain fields) (props_nodup fields)).
  - right. eexists. reflexivity.
  - intros k v I. apply field_nodup in I; [|apply props_nodup]. rewrite (field_props fields k N) in I. destruct (look_up fields k) as [g|]; [|discriminate].
    cbn in I. injection I as <-. destruct g; (split; [eexists; reflexivity|discriminate]).
  - intros k v I. apply field_nodup in I; [|apply props_nodup]. rewrite (field_props fields k N) in I. destruct (look_up fields k) as [g|]; [|discriminate].
    cbn in I. injection I as <-. apply tidy_def.
Qed.

(** ** Adding defaults to a schema *)
Lemma with_true s ps d S : tidy s -> sub s = Some ps -> with_defaults s d true = Ok S ->
  object d /\ like s S /\ exists ps', sub S = Some ps' /\ added ps d ps'.
Proof.
  intros T E H. unfold with_defaults in H. rewrite add_sub, E in H. destruct (is_object d) eqn:Od; [|discriminate].
  apply is_object_spec in Od. split; [exact Od|]. destruct (add_main (depth ps) ps (tidy_good s T ps E) (le_n _) d Od) as [[ps' [A1 A2]]|[A1 _]]; rewrite A1 in H; [|discriminate].
  cbn [obind] in H. destruct (sub_props _ _ E) as [ss [t [-> [Et [Lt Ep]]]]]. cbn [assign obind] in H. injection H as <-.
  assert (Sp : sub (JObj (set_field ss "properties" ps')) = Some ps') by (eapply sub_set_props; exact E).
  split; [|exists ps'; auto]. split; [|split].
  - intros key N1 N2. cbn. rewrite field_set. destruct (String.eqb_spec "properties" key); [congruence|reflexivity].
  - intro X. congruence.
  - intros q Q. rewrite E in Q. injection Q as <-. eauto.
Qed.
Lemma with_false s ps d : tidy s -> sub s = Some ps ->
  match with_defaults s d true with
  | Ok s1 => exists S', with_defaults s d false = Ok S' /\ cleaned s1 S'
  | Exc => with_defaults s d false = Exc
  | UB => False
  end.
Proof.
  intros T E. destruct (with_defaults s d true) as [s2| |] eqn:H.
  - destruct (with_true s ps d s2 T E H) as (Od & L & ps' & Sp & A). unfold with_defaults in *.
    destruct (add_defaults s d) as [s1| |]; try discriminate. cbn [obind] in *. injection H as ->.
    destruct (remove_main (depth s2) s2) as [S' [R C]]; [apply tidy_well; eapply tidy_like; eassumption|lia|]. exists S'. auto.
  - unfold with_defaults in *. destruct (add_defaults s d); try discriminate; reflexivity.
  - unfold with_defaults in H. rewrite add_sub, E in H. destruct (is_object d) eqn:Od; [|discriminate]. apply is_object_spec in Od.
    destruct (add_main (depth ps) ps (tidy_good s T ps E) (le_n _) d Od) as [[ps' [A1 A2]]|[A1 _]]; rewrite A1 in H; [|discriminate].
    destruct (sub_props _ _ E) as [ss [t [-> _]]]. discriminate.
Qed.
Lemma added_default_of g d ds ps def1 k fs : object d -> d = JObj ds -> field fs k = Some (def_of g) -> added (JObj fs) d (JObj ps) -> field ps k = Some def1 ->
  with_default (def_of g) (field ds k) def1 /\ entry_of def1 "default" = field ds k.
Proof.
  intros _ -> Ef A E1. pose proof (field_added fs ds ps k A) as F. rewrite Ef in F. destruct F as (d' & X & Y & Z).
  assert (d' = def1) by congruence. subst d'. split.
  2: { rewrite Y. destruct (field ds k); [reflexivity|]. destruct g; reflexivity. }
  destruct Z as [[-> Nk]|[L (x & Ek & Q)]].
  - split.
    + apply like_same. intros q Sq. destruct g; try discriminate. rewrite measure_sub in Sq. injection Sq as <-. exists (JObj []). apply added_nothing.
    + intros q Sq. exists [], q. split; [exact Sq|]. destruct g; try discriminate. rewrite measure_sub in Sq. injection Sq as <-. split; [apply added_nothing|].
      intro i. rewrite Nk. split; [intro K; exfalso; apply K; reflexivity|intros (x & K & _); discriminate].
  - split; [exact L|]. intros q Sq. rewrite Ek. destruct (Q q Sq) as (q1 & S1 & A1). pose proof (added_object _ _ _ A1) as [xs ->].
    exists xs, q1. split; [exact S1|]. split; [exact A1|].
    intro i. split; [intro K; exists (JObj xs); auto|]. intros (x & K & Kx). injection K as <-. exact Kx.
Qed.
