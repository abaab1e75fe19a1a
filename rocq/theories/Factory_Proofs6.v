(** * Proofs about make_instance, continued *)
From Coq Require Import Reals List Bool Arith Lia String Ascii Sorted.
From Verif Require Import Base Json_Model Json_Spec Json_Proofs Json_Proofs2 Json_Proofs3 Defaults_Model Defaults_Spec Defaults_Proofs Defaults_Proofs2
  Defaults_Proofs3 Defaults_Props Controls_Model Controls_Spec Controls_Proofs States_Model States_Spec States_Proofs Factory_Model Factory_Spec Factory_Proofs
  Factory_Proofs2 Factory_Proofs3 Factory_Proofs4 Factory_Proofs5.
From Verif Require Units_Model Units_Spec.
Import ListNotations.
Local Open Scope string_scope.
Local Open Scope list_scope.

(** ** Specification only: described entries, completed entries, complete entries *)
Lemma good_length_with x v : good_value Length v -> length_with x v.
Proof.
  intros (u & y & -> & T). eexists. split; [reflexivity|]. split; [|split; [|split]].
  - intros k K. cbn [field] in K. destruct (String.eqb_spec "unit" k); [auto|]. destruct (String.eqb_spec "value" k); [auto|congruence].
  - intros w E. cbn in E. injection E as <-. eauto.
  - intros w E. cbn in E. injection E as <-. eauto.
  - intros k [-> | ->] E; discriminate.
Qed.
Lemma good_not_object g v : g <> Length -> good_value g v -> ~ object v.
Proof. destruct g; [| |congruence]; intros _ [s ->] [fs E]; discriminate. Qed.
Lemma completed_described fields d e e' : object e -> completed d e e' -> complete fields e' -> described fields d e.
Proof.
  intros [es ->] C (es' & -> & G). exists es. split; [reflexivity|]. intros k g I. specialize (C k). cbn [entry_of] in C.
  destruct (G k g I) as (v' & Ev' & Gv). rewrite Ev' in C. destruct (field es k) as [v|]; [|congruence].
  destruct C as (w & Ew & C). injection Ew as <-.
  assert (Eg : g = Length \/ g <> Length) by (destruct g; [right|right|left]; congruence).
  destruct Eg as [->|Ng].
  2: { pose proof (good_not_object g v' Ng Gv) as No.
       assert (v' = v) by (destruct v; try exact C; destruct (entry_of d k) as [[]|]; try exact C; destruct C as [C _]; contradiction).
       subst v'. destruct g; [exact Gv|exact Gv|congruence]. }
  cbn [good_with]. assert (Q : v' = v \/ exists vs xs, v = JObj vs /\ entry_of d k = Some (JObj xs) /\
      forall i, entry_of v' i = match field vs i with Some y => Some y | None => field xs i end).
  { destruct v; try (left; exact C). destruct (entry_of d k) as [[]|]; try (left; exact C). right. destruct C as [_ C]. eexists _, _. split; [reflexivity|]. split; [reflexivity|exact C]. }
  destruct Q as [->|(vs & xs & -> & -> & M)]; [apply good_length_with; exact Gv|].
  destruct Gv as (u & y & -> & T). unfold Units_Spec.measurement in M. cbn [entry_of] in M.
  exists vs. split; [reflexivity|]. split; [|split; [|split]].
  - intros i K. specialize (M i). destruct (field vs i); [|congruence]. cbn [field] in M. destruct (String.eqb_spec "unit" i); [auto|]. destruct (String.eqb_spec "value" i); [auto|discriminate].
  - intros w Ew. specialize (M "unit"). rewrite Ew in M. cbn in M. injection M as <-. eauto.
  - intros w Ew. specialize (M "value"). rewrite Ew in M. cbn in M. injection M as <-. eauto.
  - intros i [-> | ->] Ei; specialize (M "unit") as M1; specialize (M "value") as M2; rewrite Ei in *; eexists; (split; [reflexivity|]); cbn [entry_of]; cbn in M1, M2; congruence.
Qed.
Lemma described_complete fields d e e' : NoDup (map fst fields) -> object e' -> canonical e' -> complete_defaults fields d -> described fields d e -> completed d e e' -> complete fields e'.
Proof.
  intros N [es' ->] Ce' D (es & -> & Q) C. exists es'. split; [reflexivity|]. intros k g I. specialize (C k). specialize (Q k g I). cbn [entry_of] in C.
  destruct (field es k) as [v|] eqn:Ev.
  - destruct C as (v' & Ev' & C). exists v'. split; [exact Ev'|].
    assert (Eg : g = Length \/ (g <> Length /\ good_value g v)) by (destruct g; [right|right|left]; try split; auto; congruence).
    destruct Eg as [->|[Ng Gv]].
    + cbn [good_with] in Q. destruct Q as (vs & -> & K1 & K2 & K3 & K4). destruct (entry_of d k) as [x|] eqn:Ed.
      * pose proof (D k Length x I Ed) as Gx. destruct Gx as (u & y & -> & T). unfold Units_Spec.measurement in *. cbn [entry_of] in C. destruct C as [_ C].
        assert (Cv : canonical v') by (eapply canonical_field; eassumption).
        pose proof (C "unit") as Cu. pose proof (C "value") as Cw. cbn in Cu, Cw.
        assert (U : exists s, entry_of v' "unit" = Some (JStr s) /\ unit_text (Units_Model.chars s)).
        { destruct (field vs "unit") as [w|] eqn:E1; [destruct (K2 w eq_refl) as (s & -> & Ts); eauto|eauto]. }
        assert (W : exists r, entry_of v' "value" = Some (JNum r)).
        { destruct (field vs "value") as [w|] eqn:E1; [destruct (K3 w eq_refl) as (r & ->); eauto|eauto]. }
        destruct v' as [| | | | |vs']; try (destruct U as (? & ? & _); discriminate). cbn [entry_of] in *.
        inversion Cv as [| | | | |fs S G]; subst. destruct (sorted_two vs' S) as (a & b & ->).
        -- intros i Ki. rewrite (C i) in Ki. destruct (field vs i) eqn:Ei; [apply K1; congruence|]. cbn [field] in Ki.
           destruct (String.eqb_spec "unit" i); [auto|]. destruct (String.eqb_spec "value" i); [auto|congruence].
        -- destruct U as (s & U & _). congruence.
        -- destruct W as (r & W). congruence.
        -- destruct U as (s & U & Ts). destruct W as (r & W). cbn in U, W. injection U as ->. injection W as ->. exists s, r. auto.
      * subst v'. assert (Cv : canonical (JObj vs)) by (eapply canonical_field; [exact Ce'|exact Ev']). inversion Cv as [| | | | |fs S G]; subst.
        assert (U : field vs "unit" <> None) by (intro E; destruct (K4 "unit" (or_introl eq_refl) E) as (x & X & _); discriminate).
        assert (W : field vs "value" <> None) by (intro E; destruct (K4 "value" (or_intror eq_refl) E) as (x & X & _); discriminate).
        destruct (sorted_two vs S K1 U W) as (a & b & ->). destruct (K2 a eq_refl) as (s & -> & Ts). destruct (K3 b eq_refl) as (r & ->). exists s, r. auto.
    + assert (v' = v); [|subst; exact Gv]. pose proof (good_not_object g v Ng Gv) as No. destruct v; try exact C. exfalso. apply No. eexists. reflexivity.
  - rewrite C. destruct (entry_of d k) as [x|] eqn:Ed; [|congruence]. exists x. split; [reflexivity|]. eapply D; eassumption.
Qed.

(** ** make_instance *)
Lemma sub_at_one ps p q : (forall k def q, entry_of ps k = Some def -> sub def = Some q -> forall i d, entry_of q i = Some d -> sub d = None) ->
  sub_at ps p = Some q -> exists k, p = [k].
Proof.
  intros H S. destruct p as [|k [|i p]]; [discriminate|eauto|]. exfalso. unfold sub_at in S. rewrite def_at_cons in S by discriminate.
  destruct (entry_of ps k) as [def|] eqn:E; [|discriminate]. destruct (sub def) as [q'|] eqn:Sd; [|discriminate].
  destruct p as [|j p].
  - cbn in S. destruct (entry_of q' i) as [d|] eqn:Ei; [|discriminate]. rewrite (H k def q' E Sd i d Ei) in S. discriminate.
  - rewrite def_at_cons in S by discriminate. destruct (entry_of q' i) as [d|] eqn:Ei; [|discriminate]. rewrite (H k def q' E Sd i d Ei) in S. discriminate.
Qed.
Definition boundary_of (t : component_type) : option json := match ct_boundary t with Some (Ok B) => Some B | _ => None end.
Lemma get_schema_full class t fields d : is_class class -> In t (types_of class) -> fields_of class (ct_name t) = Some fields ->
  object d -> entry_of d "boundary_values" = None ->
  get_schema t d true true = with_defaults (full_schema fields (boundary_of t)) d true /\
  (forall B, boundary_of t = Some B -> flat_schema B).
Proof.
  intros Ic It Ef [ds ->] Db. destruct (known_type class t Ic It) as (fields' & Ef' & N & Es & Nb & K). assert (fields' = fields) by congruence. subst fields'.
  unfold get_schema, boundary_of. rewrite Es. cbn [obind]. destruct (ct_boundary t) as [b|].
  - destruct (wants (JObj []) Boundary_file class (ct_name t)) as [P|]; [|destruct K]. destruct K as (B & -> & [F1 F2 F3 F4]). split.
    + unfold external_schema. cbn [obind value_or]. change (entry_of (JObj ds) "boundary_values") with (field ds "boundary_values") in Db. rewrite Db.
      cbn [obind]. rewrite F3. cbn [obind]. change (base fields) with (schema_of (props fields) (map fst fields)). rewrite add_required_ok. reflexivity.
    + intros B' E. injection E as <-. exact F1.
  - split; [reflexivity|]. discriminate.
Qed.
Lemma topology_schema class t fields d s2 : is_class class -> In t (types_of class) -> fields_of class (ct_name t) = Some fields ->
  get_schema t d false false = Ok s2 ->
  exists s1, with_defaults (base fields) d true = Ok s1 /\ cleaned s1 s2.
Proof.
  intros Ic It Ef H. destruct (known_type class t Ic It) as (fields' & Ef' & N & Es & Nb & K). assert (fields' = fields) by congruence. subst fields'.
  unfold get_schema in H. rewrite Es in H. cbn [obind] in H.
  pose proof (with_false (base fields) (JObj (props fields)) d (tidy_base fields N) eq_refl) as W.
  destruct (with_defaults (base fields) d true) as [s1| |]; [|congruence|contradiction]. destruct W as (s2' & W & C). exists s1. split; [reflexivity|]. congruence.
Qed.
Lemma defaults_known fields d s1 : NoDup (map fst fields) -> with_defaults (base fields) d true = Ok s1 ->
  exists ds ps1, d = JObj ds /\ added (JObj (props fields)) d (JObj ps1) /\ forall k, field ds k <> None -> exists g, In (k, g) fields.
Proof.
  intros N H. destruct (with_true _ _ _ _ (tidy_base fields N) eq_refl H) as ([ds ->] & L & ps' & S & A). inversion A as [a b ps1 H1 H2 H3 H4]; subst.
  exists ds, ps1. split; [reflexivity|]. split; [exact A|]. intros k K. apply H2 in K. rewrite (field_props fields k N) in K.
  destruct (look_up fields k) as [g|] eqn:E; [exists g; apply look_up_in; exact E|cbn in K; congruence].
Qed.
Lemma full_added fields ob ds ps1 : NoDup (map fst fields) -> ~ In "boundary_values" (map fst fields) -> (forall B, ob = Some B -> flat_schema B) ->
  added (JObj (props fields)) (JObj ds) ps1 -> field ds "boundary_values" = None ->
  exists s1 ps2, with_defaults (full_schema fields ob) (JObj ds) true = Ok s1 /\ like (full_schema fields ob) s1 /\ sub s1 = Some (JObj ps2) /\
    added (JObj (full_props fields ob)) (JObj ds) (JObj ps2).
Proof.
  intros N Nb Fb A Db. set (fs := full_props fields ob).
  assert (Same : forall p k, at_path (JObj ds) (k :: p) <> None -> def_at (JObj fs) (k :: p) = def_at (JObj (props fields)) (k :: p)).
  { intros p k K. assert (E : entry_of (JObj fs) k = entry_of (JObj (props fields)) k).
    { cbn [entry_of]. unfold fs. rewrite (field_full fields ob N Nb). destruct (string_dec k "boundary_values") as [->|]; [|symmetry; apply field_props; exact N].
      cbn in K. rewrite Db in K. congruence. }
    destruct p as [|i p]; [cbn [def_at]; exact E|]. rewrite !def_at_cons by discriminate. rewrite E. reflexivity. }
  pose proof (tidy_full fields ob N Nb Fb) as T.
  destruct (add_main (depth (JObj fs)) (JObj fs) (tidy_good _ T _ eq_refl) (le_n _) (JObj ds) (ex_intro _ _ eq_refl)) as [[ps' [A1 A2]]|[A1 [C|U]]].
  - inversion A2 as [a b ps2 H1 H2 H3 H4]; subst. assert (W : with_defaults (full_schema fields ob) (JObj ds) true = Ok (JObj (set_field
      [("properties", JObj fs); ("required", JArr (map JStr (full_required fields ob))); ("type", JStr "object")] "properties" (JObj ps2)))).
    { unfold with_defaults. rewrite add_sub. change (sub (full_schema fields ob)) with (Some (JObj fs)). cbn [is_object]. rewrite A1. reflexivity. }
    destruct (with_true _ _ _ _ T eq_refl W) as (_ & L & ps3 & S & _). rewrite W. eexists _, ps2. split; [reflexivity|]. split; [exact L|]. split; [reflexivity|exact A2].
  - exfalso. apply (added_no_conflict _ _ _ A). destruct C as (p & v & q & Sp & Ap & Nv). exists p, v, q. split; [|auto].
    destruct p as [|k p]; [discriminate|]. unfold sub_at in *. rewrite <- Same; [exact Sp|congruence].
  - exfalso. apply (added_no_unknown _ _ _ A). destruct U as (q & k & v & Ap & Q & D). exists q, k, v. split; [exact Ap|].
    destruct q as [|i q].
    + split; [left; reflexivity|]. cbn [app] in *. rewrite <- Same; [exact D|congruence].
    + assert (Ai : at_path (JObj ds) (i :: q) <> None) by (intro Z; rewrite at_path_app, Z in Ap; discriminate).
      split; [right; destruct Q as [Q|Q]; [discriminate|]; unfold sub_at in *; rewrite <- Same; [exact Q|exact Ai]|].
      change ((i :: q) ++ [k]) with (i :: (q ++ [k])) in *. rewrite <- Same; [exact D|congruence].
Qed.

Lemma instance_main class t fields d s2 e : is_class class -> In t (types_of class) -> fields_of class (ct_name t) = Some fields ->
  get_schema t d false false = Ok s2 -> canonical d -> canonical e -> object e ->
  (forall e', make_instance t d e = Ok e' -> completed d e e' /\ complete fields e' /\ with_boundary class (ct_name t) e' /\ canonical e') /\
  (described fields d e -> complete_defaults fields d -> with_boundary class (ct_name t) e -> exists e', make_instance t d e = Ok e') /\
  make_instance t d e <> UB.
Proof.
  intros Ic It Ef Hs Cd Ce [es ->]. destruct (known_type class t Ic It) as (fields' & Ef' & N & Es & Nb & K). assert (fields' = fields) by congruence. subst fields'. clear Ef'.
  destruct (topology_schema class t fields d s2 Ic It Ef Hs) as (s1 & H1 & C1). destruct (defaults_known fields d s1 N H1) as (ds & ps1 & -> & A1 & Kn).
  assert (Db : field ds "boundary_values" = None).
  { destruct (field ds "boundary_values") eqn:E; [|reflexivity]. destruct (Kn "boundary_values") as [g I]; [congruence|]. exfalso. apply Nb.
    change "boundary_values" with (fst ("boundary_values", g)). apply in_map. exact I. }
  destruct (get_schema_full class t fields (JObj ds) Ic It Ef (ex_intro _ _ eq_refl) Db) as [G Fb].
  destruct (full_added fields (boundary_of t) ds _ N Nb Fb A1 Db) as (S1 & ps2 & W & L & Sp & A2).
  set (ob := boundary_of t) in *. pose proof (tidy_full fields ob N Nb Fb) as T. pose proof (tidy_like _ T _ L) as T1.
  assert (Bw : forall b, canonical b -> forall P, wants (JObj []) Boundary_file class (ct_name t) = Some P -> exists B, ob = Some B /\ (V B b = true <-> P b)).
  { intros b Cb P EP. rewrite EP in K. unfold ob, boundary_of. destruct (ct_boundary t) as [o|]; [|destruct K]. destruct K as (B & -> & [F1 F2 F3 F4]). exists B. auto. }
  assert (Wb : forall b, canonical b -> forall B, ob = Some B -> exists P, wants (JObj []) Boundary_file class (ct_name t) = Some P /\ (V B b = true <-> P b)).
  { intros b Cb B EB. unfold ob, boundary_of in EB. destruct (ct_boundary t) as [o|]; [|discriminate]. destruct (wants (JObj []) Boundary_file class (ct_name t)) as [P|]; [|destruct K].
    destruct K as (B' & -> & [F1 F2 F3 F4]). injection EB as ->. exists P. auto. }
  unfold make_instance. rewrite G, W. cbn [obind]. rewrite apply_sub, Sp.
  assert (Dc : forall p x, default_at (JObj ps2) p = Some x -> canonical x).
  { intros p x D. unfold default_at in D. pose proof (added_path p _ _ _ A2) as P. destruct (def_at (JObj (full_props fields ob)) p) as [def|] eqn:Ed.
    - destruct P as (def' & E' & Q & _). rewrite E' in D. rewrite Q in D. destruct (at_path (JObj ds) p) as [y|] eqn:Ey.
      + injection D as <-. exact (canonical_at p _ _ Cd Ey).
      + exfalso. destruct p as [|k p]; [discriminate|]. assert (Kd : forall k g, entry_of (JObj (full_props fields ob)) k = Some g -> entry_of g "default" = None /\
            forall q, sub g = Some q -> forall i h, entry_of q i = Some h -> entry_of h "default" = None /\ sub h = None).
        { intros k0 g E0. cbn [entry_of] in E0. rewrite (field_full fields ob N Nb) in E0. destruct (string_dec k0 "boundary_values").
          - destruct (Fb g E0) as (bps & req & -> & Nd & Q0). split; [reflexivity|]. intros q Sq i h Eh. injection Sq as <-. cbn [entry_of] in Eh. apply field_in in Eh.
            destruct (Q0 i h Eh) as (_ & _ & X & Y). auto.
          - destruct (look_up fields k0) as [g0|]; [|discriminate]. cbn in E0. injection E0 as <-. split; [destruct g0; reflexivity|].
            intros q Sq i h Eh. destruct g0; try discriminate. rewrite measure_sub in Sq. injection Sq as <-. cbn [entry_of] in Eh. rewrite field_mp in Eh.
            destruct (string_dec "unit" i); [injection Eh as <-; split; reflexivity|]. destruct (string_dec "value" i); [injection Eh as <-; split; reflexivity|discriminate]. }
        destruct p as [|i p].
        * cbn [def_at] in Ed. rewrite (proj1 (Kd k def Ed)) in D. discriminate.
        * rewrite def_at_cons in Ed by discriminate. destruct (entry_of (JObj (full_props fields ob)) k) as [g|] eqn:Eg; [|discriminate].
          destruct (sub g) as [q|] eqn:Sg; [|discriminate]. destruct (Kd k g Eg) as [_ Kg]. destruct p as [|j p].
          -- cbn [def_at] in Ed. rewrite (proj1 (Kg q Sg i def Ed)) in D. discriminate.
          -- rewrite def_at_cons in Ed by discriminate. destruct (entry_of q i) as [h|] eqn:Eh; [|discriminate]. rewrite (proj2 (Kg q Sg i h Eh)) in Ed. discriminate.
    - rewrite P in D. discriminate. }
  pose proof (tidy_good _ T1 _ Sp) as Gp.
  assert (Obj : forall e', V S1 e' = true -> object e') by (intros e' Hv; eapply V_node_object; [exact Sp|exact Hv]).
  destruct (apply_main (depth (JObj ps2)) (JObj ps2) Gp (le_n _) es) as [[es' [E F]]|[E Cf]]; rewrite E; cbn [obind].
    - assert (Ce' : canonical (JObj es')) by (eapply apply_canonical; [exact Gp|exact Ce|exact Dc|exact E]).
      rewrite validate_V, (V_like _ T S1 _ L Ce').
      assert (Vf := V_full fields ob N Nb Fb es' Ce').
      split; [|split].
      + intros e' H. destruct (V (full_schema fields ob) (JObj es')) eqn:Ev; [|discriminate]. cbn in H. injection H as <-. destruct (proj1 Vf eq_refl) as [Cm Bd]. clear Ev.
        split; [|split; [exact Cm|split; [|exact Ce']]].
        * apply (filled_completed fields ob N Nb Fb ds ps2 A2 Db es es' Ce Ce' F). intros k g v I Ng Ev. destruct Cm as (es2 & X & Cm). injection X as <-.
          destruct (Cm k g I) as (v' & Ev' & Gv). inversion F as [p a b F1 F2 F3 F4]; subst. cbn [entry_of] in *.
          destruct (full_def fields ob N Nb ds ps2 A2 k g I) as (def1 & E1 & [Lk _] & _).
          assert (Sg : sub (def_of g) = None) by (destruct g; [reflexivity|reflexivity|congruence]).
          assert (S1' : sub def1 = None) by (destruct Lk as (L1 & L2 & _); rewrite <- Sg; apply sub_type; [apply L1; discriminate|apply L2; exact Sg]).
          rewrite (F3 k def1 v E1 Ev S1') in Ev'. injection Ev' as <-. eapply good_not_object; eassumption.
        * intros P EP. destruct (field es' "boundary_values") as [b|] eqn:Eb.
          -- destruct (Bw b (canonical_field _ _ _ Ce' Eb) P EP) as (B & EB & Vb). destruct (Bd B EB) as (b' & Eb' & Q). assert (b' = b) by congruence. subst b'.
             exists b. split; [exact Eb|]. apply Vb. exact Q.
          -- exfalso. destruct (Bw JNull canonical_null P EP) as (B & EB & _). destruct (Bd B EB) as (b' & Eb' & _). congruence.
      + intros De Cdf Wbd.
        assert (Cm : completed (JObj ds) (JObj es) (JObj es')).
        { apply (filled_completed fields ob N Nb Fb ds ps2 A2 Db es es' Ce Ce' F). intros k g v I Ng Ev. destruct De as (es2 & X & De). injection X as <-.
          specialize (De k g I). rewrite Ev in De. apply (good_not_object g v Ng). destruct g; [exact De|exact De|congruence]. }
        assert (Cp : complete fields (JObj es')) by (eapply described_complete; [exact N|eexists; reflexivity|exact Ce'|exact Cdf|exact De|exact Cm]).
        assert (Q : V (full_schema fields ob) (JObj es') = true); [|rewrite Q; cbn; eexists; reflexivity].
        apply Vf. split; [exact Cp|]. intros B EB. destruct (Wb JNull canonical_null B EB) as (P & EP & _). destruct (Wbd P EP) as (b & Eb & Pb).
        cbn [entry_of] in Eb. specialize (Cm "boundary_values"). cbn [entry_of] in Cm. rewrite Eb, Db in Cm. destruct Cm as (b' & Eb' & Q). assert (b' = b) by (destruct b; exact Q). subst b'.
        exists b. split; [exact Eb'|]. destruct (Wb b (canonical_field _ _ _ Ce' Eb') B EB) as (P' & EP' & Vb). apply Vb. congruence.
      + destruct (V (full_schema fields ob) (JObj es')); discriminate.
    - split; [discriminate|]. split; [|discriminate]. intros De _ Wbd. exfalso. destruct Cf as (p & v & q & S0 & Ap & Nv).
      assert (P1 : exists k, p = [k]).
      { apply (sub_at_one (JObj ps2) p q); [|exact S0]. intros k def q0 Ek Sk i h Eh. cbn [entry_of] in Ek.
        destruct (string_dec k "boundary_values") as [->|Nk].
        - pose proof (boundary_def fields ob N Nb ds ps2 A2 Db def Ek) as EB. destruct (Fb def EB) as (bps & req & -> & Nd & Q0). injection Sk as <-. cbn [entry_of] in Eh.
          apply field_in in Eh. destruct (Q0 i h Eh) as (_ & _ & X & _). exact X.
        - destruct (other_def fields ob N Nb ds ps2 A2 k def Ek Nk) as [g I]. destruct (full_def fields ob N Nb ds ps2 A2 k g I) as (d1 & X & [Lk Wk] & _).
          assert (d1 = def) by congruence. subst d1. destruct g.
          + destruct Lk as (L1 & L2 & _). assert (sub def = None) by (change (@None json) with (sub (def_of Text)); apply sub_type; [apply L1; discriminate|apply L2; reflexivity]). congruence.
          + destruct Lk as (L1 & L2 & _). assert (sub def = None) by (change (@None json) with (sub (def_of Number)); apply sub_type; [apply L1; discriminate|apply L2; reflexivity]). congruence.
          + destruct (Wk _ measure_sub) as (xs & q1 & Sq & Aq & _). assert (q1 = q0) by congruence. subst q1. inversion Aq as [a b mp1 J1 J2 J3 J4]; subst. cbn [entry_of] in Eh.
            pose proof (field_added _ _ _ i Aq) as Fi. destruct (field mp i) as [d0|] eqn:E0; [|congruence].
            assert (S00 : sub d0 = None).
            { rewrite field_mp in E0. destruct (string_dec "unit" i); [injection E0 as <-; reflexivity|]. destruct (string_dec "value" i); [injection E0 as <-; reflexivity|discriminate]. }
            destruct Fi as (d1 & Y & _ & [[Z _]|[(L1 & L2 & _) _]]); [congruence|]. assert (d1 = h) by congruence. subst d1. rewrite <- S00.
            apply sub_type; [apply L1; discriminate|apply L2; exact S00]. }
      destruct P1 as [k ->]. cbn [at_path entry_of] in Ap. destruct (field es k) as [w|] eqn:Ek; [|discriminate]. injection Ap as ->.
      unfold sub_at in S0. cbn [def_at entry_of] in S0. destruct (field ps2 k) as [def|] eqn:Edf; [|discriminate].
      destruct (string_dec k "boundary_values") as [->|Nk].
      + pose proof (boundary_def fields ob N Nb ds ps2 A2 Db def Edf) as EB. destruct (Wb v (canonical_field _ _ _ Ce Ek) def EB) as (P & EP & Vb). destruct (Wbd P EP) as (b & Eb & Pb).
        cbn [entry_of] in Eb. assert (b = v) by congruence. subst b. apply Nv. apply Vb in Pb. eapply V_node_object; [exact S0|exact Pb].
      + destruct (other_def fields ob N Nb ds ps2 A2 k def Edf Nk) as [g I]. destruct (full_def fields ob N Nb ds ps2 A2 k g I) as (d1 & X & [Lk Wk] & _).
        assert (d1 = def) by congruence. subst d1. destruct De as (es2 & Y & De). injection Y as <-. specialize (De k g I). rewrite Ek in De. destruct g.
        * destruct Lk as (L1 & L2 & _). assert (sub def = None) by (change (@None json) with (sub (def_of Text)); apply sub_type; [apply L1; discriminate|apply L2; reflexivity]). congruence.
        * destruct Lk as (L1 & L2 & _). assert (sub def = None) by (change (@None json) with (sub (def_of Number)); apply sub_type; [apply L1; discriminate|apply L2; reflexivity]). congruence.
        * destruct De as (vs & -> & _). apply Nv. eexists. reflexivity.
Qed.
