(** * Proofs about make_instance *)
From Coq Require Import Reals List Bool Arith Lia String Ascii Sorted.
From Verif Require Import Base Json_Model Json_Spec Json_Proofs Json_Proofs2 Json_Proofs3 Defaults_Model Defaults_Spec Defaults_Proofs Defaults_Proofs2
  Defaults_Proofs3 Defaults_Props Controls_Model Controls_Spec Controls_Proofs States_Model States_Spec States_Proofs Factory_Model Factory_Spec Factory_Proofs
  Factory_Proofs2 Factory_Proofs3 Factory_Proofs4.
From Verif Require Units_Model Units_Spec.
Import ListNotations.
Local Open Scope string_scope.
Local Open Scope list_scope.

Lemma sorted_ext fs : StronglySorted before (map fst fs) -> forall gs, StronglySorted before (map fst gs) ->
  (forall k, field fs k = field gs k) -> fs = gs.
Proof.
  induction fs as [|[a x] fs IH]; intros Sf gs Sg E.
  - destruct gs as [|[b y] gs]; [reflexivity|]. specialize (E b). cbn in E. rewrite String.eqb_refl in E. discriminate.
  - destruct gs as [|[b y] gs]; [specialize (E a); cbn in E; rewrite String.eqb_refl in E; discriminate|].
    cbn [map fst] in Sf, Sg. inversion Sf as [|? ? Sf1 Sf2]; inversion Sg as [|? ? Sg1 Sg2]; subst.
    assert (Low : forall l c v, Forall (before c) (map fst l) -> field l v <> None -> before c v).
    { intros l c v F K. destruct (field l v) as [w|] eqn:Ew; [|congruence]. apply field_in in Ew. apply (proj1 (Forall_forall _ _) F).
      change v with (fst (v, w)). apply in_map. exact Ew. }
    assert (a = b) as <-.
    { pose proof (E a) as E1. pose proof (E b) as E2. cbn [field] in E1, E2. rewrite String.eqb_refl in E1, E2.
      destruct (String.eqb_spec b a) as [|N1]; [congruence|]. destruct (String.eqb_spec a b) as [|N2]; [congruence|].
      assert (before b a) by (apply (Low gs); [exact Sg2|congruence]). assert (before a b) by (apply (Low fs); [exact Sf2|congruence]).
      exfalso. apply (before_irrefl a). eapply before_trans; eassumption. }
    assert (x = y) as <- by (specialize (E a); cbn in E; rewrite String.eqb_refl in E; congruence).
    f_equal. apply IH; [exact Sf1|exact Sg1|]. intro k. specialize (E k). cbn [field] in E. destruct (String.eqb_spec a k) as [Ek|N]; [rewrite <- Ek; clear E Ek k|exact E].
    destruct (field fs a) as [u|] eqn:Eu; [exfalso; apply (before_irrefl a), (Low fs); [exact Sf2|congruence]|].
    destruct (field gs a) as [u|] eqn:Eg; [exfalso; apply (before_irrefl a), (Low gs); [exact Sg2|congruence]|]. reflexivity.
Qed.
Lemma canonical_ext fs gs : canonical (JObj fs) -> canonical (JObj gs) -> (forall k, field fs k = field gs k) -> JObj fs = JObj gs.
Proof. intros A B E. inversion A; inversion B; subst. f_equal. apply sorted_ext; assumption. Qed.

Definition full_props (fields : list (string * value_kind)) (ob : option json) : list (string * json) :=
  match ob with None => props fields | Some B => set_field (props fields) "boundary_values" B end.
Definition full_required (fields : list (string * value_kind)) (ob : option json) : list string :=
  match ob with None => map fst fields | Some B => map fst fields ++ ["boundary_values"] end.
Definition full_schema fields ob := schema_of (full_props fields ob) (full_required fields ob).
Definition flat_schema (B : json) : Prop := exists bps req, B = schema_of bps req /\ NoDup (map fst bps) /\
    forall k v, In (k, v) bps -> object v /\ entry_of v "type" <> None /\ sub v = None /\ entry_of v "default" = None.

Section Instance.
  Variables (fields : list (string * value_kind)) (ob : option json).
  Hypothesis N : NoDup (map fst fields).
  Hypothesis Nb : ~ In "boundary_values" (map fst fields).
  Hypothesis Fb : forall B, ob = Some B -> flat_schema B.

  Lemma no_boundary_field : look_up fields "boundary_values" = None.
  Proof.
    destruct (look_up fields "boundary_values") as [g|] eqn:E; [|reflexivity]. apply look_up_in in E. exfalso. apply Nb.
    change "boundary_values" with (fst ("boundary_values", g)). apply in_map. exact E.
  Qed.
  Lemma field_full k : field (full_props fields ob) k = if string_dec k "boundary_values" then ob else option_map def_of (look_up fields k).
  Proof.
    clear Fb. unfold full_props. destruct ob as [B|].
    - rewrite field_set. destruct (string_dec k "boundary_values") as [->|Nk]; [reflexivity|]. destruct (String.eqb_spec "boundary_values" k); [congruence|].
      apply field_props. exact N.
    - rewrite (field_props fields k N). destruct (string_dec k "boundary_values") as [->|]; [|reflexivity]. rewrite no_boundary_field. reflexivity.
  Qed.
  Lemma full_nodup : NoDup (map fst (full_props fields ob)).
  Proof.
    apply sorted_keys_nodup. unfold full_props. destruct ob; [apply set_field_sorted|]; apply props_sorted; constructor.
  Qed.
  Lemma flat_tidy B : flat_schema B -> tidy B.
  Proof.
    intros (bps & req & -> & Nd & K). apply (tidy_node (schema_of bps req) bps eq_refl (schema_plain bps req) Nd).
    - right. eexists. reflexivity.
    - intros k v I. destruct (K k v I) as (A & B & _). auto.
    - intros k v I. destruct (K k v I) as (_ & _ & C & _). apply tidy_leaf. exact C.
  Qed.
  Lemma tidy_full : tidy (full_schema fields ob).
  Proof.
    apply (tidy_node (full_schema fields ob) (full_props fields ob) eq_refl (schema_plain _ _) full_nodup).
    - right. eexists. reflexivity.
    - intros k v I. apply field_nodup in I; [|apply full_nodup]. rewrite field_full in I. destruct (string_dec k "boundary_values").
      + destruct (Fb v I) as (bps & req & -> & _). split; [eexists; reflexivity|discriminate].
      + destruct (look_up fields k) as [g|]; [|discriminate]. cbn in I. injection I as <-. destruct g; (split; [eexists; reflexivity|discriminate]).
    - intros k v I. apply field_nodup in I; [|apply full_nodup]. rewrite field_full in I. destruct (string_dec k "boundary_values").
      + apply flat_tidy, Fb, I.
      + destruct (look_up fields k) as [g|]; [|discriminate]. cbn in I. injection I as <-. apply tidy_def.
  Qed.
  Lemma V_full es : canonical (JObj es) -> (V (full_schema fields ob) (JObj es) = true <->
    complete fields (JObj es) /\ forall B, ob = Some B -> exists b, field es "boundary_values" = Some b /\ V B b = true).
  Proof.
    intro C. rewrite (V_node (full_schema fields ob) (full_props fields ob) es (schema_plain _ _) eq_refl (canonical_nodup es C)).
    assert (R : required_of (full_schema fields ob) = full_required fields ob) by (apply required_of_list; reflexivity).
    unfold node_ok. rewrite R. split.
    - intros (H1 & H2 & _). split.
      + exists es. split; [reflexivity|]. intros k g I. destruct (field es k) as [v|] eqn:Ev.
        * exists v. split; [reflexivity|]. apply V_def; [eapply canonical_field; eassumption|]. apply (H2 k v _ Ev). rewrite field_full.
          destruct (string_dec k "boundary_values") as [->|]; [exfalso; apply Nb; change "boundary_values" with (fst ("boundary_values", g)); apply in_map; exact I|].
          rewrite (in_look_up fields k g N I). reflexivity.
        * exfalso. apply (H1 k); [|exact Ev]. assert (In k (map fst fields)) by (change k with (fst (k, g)); apply in_map; exact I).
          unfold full_required. destruct ob; [apply in_or_app; left|]; assumption.
      + intros B EB. destruct (field es "boundary_values") as [b|] eqn:Eb.
        * exists b. split; [reflexivity|]. apply (H2 _ b B Eb). rewrite field_full. destruct (string_dec "boundary_values" "boundary_values"); [exact EB|congruence].
        * exfalso. apply (H1 "boundary_values"); [|exact Eb]. unfold full_required. rewrite EB. apply in_or_app. right. left. reflexivity.
    - intros [(es' & E & H1) H2]. injection E as <-. split; [|split].
      + intros k I. assert (K : In k (map fst fields) \/ (k = "boundary_values" /\ exists B, ob = Some B)).
        { unfold full_required in I. destruct ob as [B|]; [|auto]. apply in_app_or in I. destruct I as [I|[<-|[]]]; [auto|]. right. eauto. }
        destruct K as [K|[-> [B EB]]].
        * apply in_map_iff in K. destruct K as [[k' g] [<- K]]. destruct (H1 _ _ K) as (v & Ev & _). cbn. congruence.
        * destruct (H2 B EB) as (b & Eb & _). congruence.
      + intros k v def Ev Ed. rewrite field_full in Ed. destruct (string_dec k "boundary_values") as [->|Nk].
        * destruct (H2 def Ed) as (b & Eb & Vb). congruence.
        * destruct (look_up fields k) as [g|] eqn:El; [|discriminate]. cbn in Ed. injection Ed as <-. apply look_up_in in El. destruct (H1 k g El) as (v' & Ev' & G).
          assert (v' = v) by congruence. subst. apply V_def; [eapply canonical_field; eassumption|exact G].
      + intros K. discriminate K.
  Qed.

  Variables (ds : list (string * json)) (ps1 : list (string * json)).
  Hypothesis A : added (JObj (full_props fields ob)) (JObj ds) (JObj ps1).
  Hypothesis Db : field ds "boundary_values" = None.
  Hypothesis Cd : canonical (JObj ds).

  Lemma default_known k : field ds k <> None -> exists g, In (k, g) fields.
  Proof.
    intro K. assert (Nk : k <> "boundary_values") by congruence. inversion A as [a b c H1 H2 H3 H4]; subst. apply H2 in K. rewrite field_full in K.
    destruct (string_dec k "boundary_values"); [contradiction|]. destruct (look_up fields k) as [g|] eqn:E; [|cbn in K; congruence].
    exists g. apply look_up_in. exact E.
  Qed.
  Lemma full_def k g : In (k, g) fields -> exists def1, field ps1 k = Some def1 /\ with_default (def_of g) (field ds k) def1 /\ entry_of def1 "default" = field ds k
    /\ (g = Length -> forall x, field ds k = Some x -> object x).
  Proof.
    clear Fb Db Cd. intro I. assert (Ef : field (full_props fields ob) k = Some (def_of g)).
    { rewrite field_full. destruct (string_dec k "boundary_values") as [->|]; [exfalso; apply Nb; change "boundary_values" with (fst ("boundary_values", g)); apply in_map; exact I|].
      rewrite (in_look_up fields k g N I). reflexivity. }
    pose proof (field_added _ _ _ k A) as F. rewrite Ef in F. destruct F as (def1 & E1 & _ & Z). exists def1. split; [exact E1|].
    destruct (added_default_of g (JObj ds) ds ps1 def1 k _ (ex_intro _ _ eq_refl) eq_refl Ef A E1) as [W D]. split; [exact W|]. split; [exact D|].
    intros -> x Ex. destruct Z as [[_ Z]|[_ (y & Ey & Z)]]; [congruence|]. destruct (Z _ measure_sub) as (q' & _ & Aq).
    assert (x = y) by congruence. subst. eapply added_object. exact Aq.
  Qed.
  Lemma boundary_def def1 : field ps1 "boundary_values" = Some def1 -> ob = Some def1.
  Proof.
    clear Fb Cd. intro E1. pose proof (field_added _ _ _ "boundary_values" A) as F. rewrite field_full in F.
    destruct (string_dec "boundary_values" "boundary_values"); [|congruence]. destruct ob as [B|]; [|congruence].
    destruct F as (d' & X & _ & [[-> _]|[_ (x & Ex & _)]]); congruence.
  Qed.
  Lemma other_def k def1 : field ps1 k = Some def1 -> k <> "boundary_values" -> exists g, In (k, g) fields.
  Proof.
    clear Fb Db Cd. intros E1 Nk. pose proof (field_added _ _ _ k A) as F. rewrite field_full in F. destruct (string_dec k "boundary_values"); [contradiction|].
    destruct (look_up fields k) as [g|] eqn:E; [exists g; apply look_up_in; exact E|cbn in F; congruence].
  Qed.
  Lemma measure_filled xs q1 vs vs' : added (JObj mp) (JObj xs) q1 -> filled q1 (JObj vs) (JObj vs') ->
    forall i, field vs' i = match field vs i with Some y => Some y | None => field xs i end.
  Proof.
    intros Aq F i. inversion Aq as [a b mp1 H1 H2 H3 H4]; subst. inversion F as [p a b F1 F2 F3 F4]; subst. cbn [entry_of] in *.
    pose proof (field_added _ _ _ i Aq) as Fi.
    assert (Sm : forall d0, field mp i = Some d0 -> sub d0 = None /\ entry_of d0 "default" = None).
    { intros d0 E0. rewrite field_mp in E0. destruct (string_dec "unit" i); [injection E0 as <-; split; reflexivity|].
      destruct (string_dec "value" i); [injection E0 as <-; split; reflexivity|discriminate]. }
    destruct (field mp i) as [d0|] eqn:E0.
    - destruct (Sm d0 eq_refl) as [S0 D0]. destruct Fi as (d1 & E1 & Df & Z).
      assert (S1 : sub d1 = None).
      { destruct Z as [[-> _]|[(L1 & L2 & _) _]]; [exact S0|]. rewrite <- S0. apply sub_type; [apply L1; discriminate|apply L2; exact S0]. }
      destruct (field vs i) as [y|] eqn:Ei; [apply (F3 i d1 y E1 Ei S1)|]. rewrite (F2 i d1 E1 Ei), Df, D0. destruct (field xs i); reflexivity.
    - rewrite (F1 i Fi). destruct (field vs i); [reflexivity|]. destruct (field xs i) eqn:Ex; [|reflexivity]. exfalso. apply (H2 i); [congruence|exact E0].
  Qed.
  Lemma filled_completed es es' : canonical (JObj es) -> canonical (JObj es') -> filled (JObj ps1) (JObj es) (JObj es') ->
    (forall k g v, In (k, g) fields -> g <> Length -> field es k = Some v -> ~ object v) -> completed (JObj ds) (JObj es) (JObj es').
  Proof.
    intros Ce Ce' F Hg k. inversion F as [p a b F1 F2 F3 F4]; subst. cbn [entry_of] in *.
    destruct (field ps1 k) as [def1|] eqn:E1.
    2: { assert (Dk : field ds k = None).
         { destruct (field ds k) eqn:Ek; [|reflexivity]. destruct (default_known k) as [g I]; [congruence|]. destruct (full_def k g I) as (d1 & X & _). congruence. }
         rewrite (F1 k E1), Dk. destruct (field es k) as [v|]; [|reflexivity]. exists v. split; [reflexivity|]. destruct v; reflexivity. }
    destruct (string_dec k "boundary_values") as [->|Nk].
    - pose proof (boundary_def def1 E1) as EB. destruct (Fb _ EB) as (bps & req & -> & Nd & K). rewrite Db.
      destruct (field es "boundary_values") as [v|] eqn:Ev.
      + destruct (F4 _ _ v (JObj bps) E1 Ev eq_refl) as (v' & Ev' & Fq). exists v'. split; [exact Ev'|].
        assert (Q : v' = v).
        { inversion Fq as [p a b G1 G2 G3 G4]; subst. cbn [entry_of] in *. symmetry.
          apply canonical_ext; [eapply canonical_field; [exact Ce|exact Ev]|eapply canonical_field; [exact Ce'|exact Ev']|]. intro i.
          destruct (field bps i) as [d0|] eqn:E0; [|rewrite (G1 i E0); reflexivity].
          destruct (K i d0 (field_in _ _ _ E0)) as (_ & _ & S0 & D0). destruct (field a i) as [y|] eqn:Ei; [rewrite (G3 i d0 y E0 Ei S0); reflexivity|].
          rewrite (G2 i d0 E0 Ei), D0. reflexivity. }
        destruct v; exact Q.
      + rewrite (F2 _ _ E1 Ev). reflexivity.
    - destruct (other_def k def1 E1 Nk) as [g I]. destruct (full_def k g I) as (d1 & X & [L W] & Df & Ob). assert (d1 = def1) by congruence. subst d1.
      destruct (field es k) as [v|] eqn:Ev; [|rewrite (F2 k def1 E1 Ev), Df; reflexivity].
      assert (Eg : g = Length \/ (g <> Length /\ sub (def_of g) = None)) by (destruct g; [right|right|left]; try split; congruence || reflexivity).
      destruct Eg as [->|[Ng Sg]].
      + destruct (W _ measure_sub) as (xs & q1 & S1 & Aq & Dx). destruct (F4 k def1 v q1 E1 Ev S1) as (v' & Ev' & Fq). exists v'. split; [exact Ev'|].
        pose proof (filled_fields _ _ _ Fq) as (vs & vs' & -> & ->). pose proof (measure_filled xs q1 vs vs' Aq Fq) as M.
        destruct (field ds k) as [x|] eqn:Ek.
        * destruct (Ob eq_refl x eq_refl) as [ys ->]. cbn [entry_of]. split; [eexists; reflexivity|]. intro i. rewrite (M i).
          (* the defaults of the parts are those of the default *)
          assert (Exy : field xs i = field ys i).
          { pose proof (field_added _ _ _ k A) as Fk. assert (Ef : field (full_props fields ob) k = Some (def_of Length)).
            { rewrite field_full. destruct (string_dec k "boundary_values"); [contradiction|]. rewrite (in_look_up fields k Length N I). reflexivity. }
            rewrite Ef in Fk. destruct Fk as (d' & X1 & _ & [[_ Z]|[_ (y & Ey & Z)]]); [congruence|]. assert (d' = def1) by congruence. subst d'.
            assert (y = JObj ys) by congruence. subst y. destruct (Z _ measure_sub) as (q2 & S2 & A2). assert (q2 = q1) by congruence. subst q2.
            inversion Aq as [a0 b0 mp1 H1 H2 H3 H4]; subst. pose proof (field_added _ _ _ i Aq) as P1. pose proof (field_added _ _ _ i A2) as P2.
            inversion A2 as [a1 b1 mp2 J1 J2 J3 J4]; subst.
            destruct (field mp i) as [d0|] eqn:E0.
            - destruct P1 as (u1 & U1 & D1 & _). destruct P2 as (u2 & U2 & D2 & _). assert (u1 = u2) by congruence. subst u2.
              assert (D0 : entry_of d0 "default" = None).
              { rewrite field_mp in E0. destruct (string_dec "unit" i); [injection E0 as <-; reflexivity|]. destruct (string_dec "value" i); [injection E0 as <-; reflexivity|discriminate]. }
              rewrite D0 in *. destruct (field xs i), (field ys i); congruence.
            - destruct (field xs i) eqn:Q1; [exfalso; apply (H2 i); congruence|]. destruct (field ys i) eqn:Q2; [exfalso; apply (J2 i); congruence|]. reflexivity. }
          rewrite Exy. reflexivity.
        * apply canonical_ext; [eapply canonical_field; [exact Ce'|exact Ev']|eapply canonical_field; [exact Ce|exact Ev]|]. intro i. rewrite (M i).
          destruct (field vs i); [reflexivity|]. destruct (field xs i) eqn:Ex; [|reflexivity].
          destruct (proj1 (Dx i)) as (x & Q & _); [congruence|]. discriminate.
      + assert (S1 : sub def1 = None) by (destruct L as (L1 & L2 & _); rewrite <- Sg; apply sub_type; [apply L1; discriminate|apply L2; exact Sg]).
        exists v. split; [apply (F3 k def1 v E1 Ev S1)|]. pose proof (Hg k g v I Ng Ev) as No. destruct v; try reflexivity. exfalso. apply No. eexists. reflexivity.
  Qed.
End Instance.
