From Coq Require Import List Bool Arith Lia String Sorted.
From Verif Require Import Base Json_Model Json_Spec Json_Proofs Json_Proofs2 Json_Proofs3 Defaults_Model Defaults_Spec Defaults_Proofs.
Import ListNotations.
Local Open Scope string_scope.
Local Open Scope list_scope.

(** ** Ascending fields *)
Lemma set_field_keys fs k v : forall x, In x (map fst (set_field fs k v)) <-> x = k \/ In x (map fst fs).
Proof.
  intro x. induction fs as [|[a b] fs IH]; cbn; [intuition|]. destruct (String.compare k a) eqn:E; cbn.
  - apply compare_eq in E. subst a. intuition.
  - intuition.
  - rewrite IH. intuition.
Qed.
Lemma set_field_sorted fs k v : StronglySorted before (map fst fs) -> StronglySorted before (map fst (set_field fs k v)).
Proof.
  induction fs as [|[a b] fs IH]; intro S; cbn; [repeat constructor|]. cbn in S. inversion S as [|? ? S1 F]; subst.
  destruct (String.compare k a) eqn:E; cbn.
  - apply compare_eq in E. subst a. constructor; auto.
  - constructor; [exact S|]. constructor; [exact E|]. eapply Forall_impl; [|exact F]. intros y Hy. eapply before_trans; eauto.
  - constructor; [apply IH; exact S1|]. apply Forall_forall. intros y Hy. apply set_field_keys in Hy. destruct Hy as [->|Hy].
    + apply compare_gt. exact E.
    + rewrite Forall_forall in F. apply F. exact Hy.
Qed.
Lemma set_field_same fs k v : StronglySorted before (map fst fs) -> field fs k = Some v -> set_field fs k v = fs.
Proof.
  induction fs as [|[a b] fs IH]; intros S F; [discriminate|]. cbn in S. inversion S as [|? ? S1 Fo]; subst. cbn in *.
  destruct (String.eqb_spec a k) as [->|N].
  - injection F as <-. rewrite compare_refl. reflexivity.
  - assert (B : before a k).
    { rewrite Forall_forall in Fo. apply Fo. apply field_in in F. apply (in_map fst) in F. exact F. }
    rewrite (proj2 (compare_gt k a) B). rewrite IH by auto. reflexivity.
Qed.
Lemma set_field_in fs k v k' v' : In (k', v') (set_field fs k v) -> (k' = k /\ v' = v) \/ In (k', v') fs.
Proof.
  induction fs as [|[a b] fs IH]; cbn.
  - intros [H|[]]. injection H as <- <-. auto.
  - destruct (String.compare k a) eqn:E; cbn; intros [H|H]; try (injection H as <- <-; auto); auto.
    destruct (IH H) as [K|K]; auto.
Qed.
Lemma canonical_assign d k v d' : canonical d -> canonical v -> assign d k v = Ok d' -> canonical d'.
Proof.
  intros Cd Cv H. destruct d; cbn in H; try discriminate; injection H as <-.
  - constructor; [repeat constructor|]. intros a b [E|[]]. injection E as <- <-. exact Cv.
  - inversion Cd as [| | | | |fs S G]; subst. constructor; [apply set_field_sorted; exact S|]. intros a b I.
    apply set_field_in in I. destruct I as [[-> ->]|I]; [exact Cv|eapply G; exact I].
Qed.
Lemma canonical_at p : forall d v, canonical d -> at_path d p = Some v -> canonical v.
Proof.
  induction p as [|k p IH]; intros d v C A; [cbn in A; congruence|]. cbn in A. destruct d; cbn in A; try discriminate.
  destruct (field fields k) as [w|] eqn:E; [|discriminate]. apply (IH w v); [|exact A]. inversion C as [| | | | |fs S G]; subst.
  eapply G. apply field_in. exact E.
Qed.
Lemma apply_canonical fuel : forall ps d d', good_props ps -> canonical d ->
  (forall p x, default_at ps p = Some x -> canonical x) -> apply_defaults_unsafe fuel ps d = Ok d' -> canonical d'.
Proof.
  induction fuel as [|f IH]; intros ps d d' G C D H; [discriminate|]. destruct G as [fs N O G]. rewrite apply_unfold in H. cbn [items] in H.
  assert (X : forall l d, (forall k v, In (k, v) l -> In (k, v) fs) -> canonical d -> ofold (step f) l d = Ok d' -> canonical d').
  { induction l as [|[k v] l IHl]; intros e Hl Ce E; [cbn in E; congruence|]. cbn [ofold] in E. apply obind_Ok in E.
    destruct E as [e' [S E]]. apply (IHl e'); [intros; apply Hl; right; auto| |exact E].
    assert (I : In (k, v) fs) by (apply Hl; left; reflexivity).
    pose proof (field_nodup fs k v N I) as Fk. unfold step in S. cbn [fst snd] in S.
    destruct (contains v "default" && negb (contains e k))%bool.
    - apply obind_Ok in S. destruct S as [x [Sx Sa]]. apply (canonical_assign e k x e' Ce); [|exact Sa].
      apply (D [k]). unfold default_at. cbn. rewrite Fk. unfold at_const in Sx. destruct v; try discriminate. cbn.
      destruct (field fields "default"); congruence.
    - apply obind_Ok in S. destruct S as [t [St S]].
      destruct (is_object_literal t && contains v "properties" && contains e k)%bool eqn:B; [|congruence].
      apply obind_Ok in S. destruct S as [w [Sw S]]. destruct (is_object w) eqn:Ow; [|discriminate].
      apply obind_Ok in S. destruct S as [q [Sq S]]. apply obind_Ok in S. destruct S as [w' [Sw' Sa]].
      assert (Sv : sub v = Some q).
      { unfold at_const in St, Sq. destruct v as [| | | | |vs]; try discriminate.
        destruct (field vs "type") as [t0|] eqn:Et; [|discriminate]. injection St as ->. rewrite (sub_unfold vs t Et).
        apply andb_true_iff in B. destruct B as [B _]. apply andb_true_iff in B. destruct B as [B _]. rewrite B.
        destruct (field vs "properties"); congruence. }
      apply (canonical_assign e k w' e' Ce); [|exact Sa]. apply (IH q w w'); [eapply G; eauto| | |exact Sw'].
      + apply (canonical_at [k] e w Ce). cbn. unfold at_const in Sw. destruct e; try discriminate. cbn.
        destruct (field fields k); congruence.
      + intros p x Hp. apply (D (k :: p)). rewrite (default_at_cons (JObj fs) k p v q Fk Sv); [exact Hp|]. intros ->. discriminate. }
  apply (X fs d); auto.
Qed.

(** ** Nothing left to fill *)
Definition complete (ps d : json) : Prop :=
  forall p k o x, at_path d p = Some o -> object o -> default_at ps (p ++ [k]) = Some x -> at_path d (p ++ [k]) <> None.
Lemma apply_fix fuel : forall ps, good_props ps -> (depth ps <= fuel)%nat -> forall ds, canonical (JObj ds) ->
  complete ps (JObj ds) -> ~ conflict ps (JObj ds) -> apply_defaults_unsafe fuel ps (JObj ds) = Ok (JObj ds).
Proof.
  induction fuel as [|f IH]; intros ps G L ds C Co N; [pose proof (depth_pos ps); lia|]. destruct G as [fs Nd O G].
  rewrite apply_unfold. cbn [items]. inversion C as [| | | | |ds0 Cs Cv]; subst.
  assert (X : forall l, (forall k v, In (k, v) l -> In (k, v) fs) -> ofold (step f) l (JObj ds) = Ok (JObj ds)).
  { induction l as [|[k v] l IHl]; intro Hl; [reflexivity|]. cbn [ofold].
    assert (I : In (k, v) fs) by (apply Hl; left; reflexivity). pose proof (field_nodup fs k v Nd I) as Fk.
    destruct (O k v I) as [[vs ->] T]. cbn in T. destruct (field vs "type") as [t|] eqn:Et; [|congruence].
    assert (S : step f (JObj ds) (k, JObj vs) = Ok (JObj ds)).
    { unfold step. cbn [fst snd]. rewrite !contains_field. cbn [at_const]. rewrite Et.
      destruct (field ds k) as [w|] eqn:Ew; cbn [negb]; rewrite ?andb_false_r, ?andb_true_r; cbn [obind].
      - destruct (is_object_literal t) eqn:Lt; [|reflexivity]. destruct (field vs "properties") as [q|] eqn:Eq; [|reflexivity]. cbn [andb].
        assert (Sv : sub (JObj vs) = Some q) by (rewrite (sub_unfold vs t Et), Lt; exact Eq).
        assert (Ow : is_object w = true).
        { destruct (is_object w) eqn:Z; [reflexivity|]. exfalso. apply N. exists [k], w, q.
          split; [unfold sub_at; cbn; rewrite Fk; exact Sv|]. split; [cbn; rewrite Ew; reflexivity|].
          intro Y. apply is_object_spec in Y. congruence. }
        rewrite Ow. cbn [obind]. apply is_object_spec in Ow. destruct Ow as [ws ->].
        rewrite (IH q); [|eapply G; eauto| | | |].
        + cbn [obind assign]. rewrite set_field_same; auto.
        + pose proof (sub_depth fs k (JObj vs) q I Sv). lia.
        + eapply Cv. apply field_in. exact Ew.
        + intros p k' o x P1 P2 P3. specialize (Co (k :: p) k' o x). cbn in Co. rewrite Ew in Co. apply Co; auto.
          change (k :: p ++ [k']) with (k :: (p ++ [k'])). rewrite (default_at_cons (JObj fs) k _ (JObj vs) q Fk Sv); [exact P3|]. apply app_not_nil.
        + intros [p [v' [q' [P1 [P2 P3]]]]]. apply N. exists (k :: p), v', q'.
          split; [rewrite (sub_at_cons (JObj fs) k p (JObj vs) q Fk Sv); [exact P1|]; intros ->; discriminate|].
          split; [cbn; rewrite Ew; exact P2|exact P3].
      - destruct (field vs "default") as [x|] eqn:Ex.
        + exfalso. apply (Co [] k (JObj ds) x); [reflexivity|eexists; reflexivity| |].
          * unfold default_at. cbn. rewrite Fk. cbn. exact Ex.
          * cbn. rewrite Ew. reflexivity.
        + cbn [obind]. rewrite andb_false_r. reflexivity. }
    rewrite S. cbn [obind]. apply IHl. intros; apply Hl; right; auto. }
  apply X. auto.
Qed.

(** Schemas whose defaults are themselves filled. *)
Definition closed (ps : json) : Prop :=
  (forall p r k x o y, default_at ps p = Some x -> default_at ps (p ++ r ++ [k]) = Some y -> at_path x r = Some o -> object o ->
     at_path x (r ++ [k]) <> None) /\
  (forall p r x q v, default_at ps p = Some x -> sub_at ps (p ++ r) = Some q -> at_path x r = Some v -> object v).
Lemma at_path_app p : forall j r, at_path j (p ++ r) = match at_path j p with Some v => at_path v r | None => None end.
Proof.
  induction p as [|k p IH]; intros j r; [reflexivity|]. cbn. destruct (entry_of j k); [apply IH|reflexivity].
Qed.
Lemma object_dec j : object j \/ ~ object j.
Proof. destruct j; try (left; eexists; reflexivity); right; intros [fs H]; discriminate. Qed.
Lemma filled_closed ps d d' : closed ps -> filled ps d d' -> complete ps d' /\ ~ conflict ps d'.
Proof.
  intros [C1 C2] F. split.
  - intros p k o y A O D M. destruct (at_path d p) as [o0|] eqn:E.
    + destruct (filled_kept p ps d d' F o0 E) as [o' [A' [K1 K2]]]. rewrite A in A'. injection A' as <-.
      destruct (object_dec o0) as [O0|O0]; [|rewrite (K1 O0) in O; contradiction].
      destruct (at_path d (p ++ [k])) as [w|] eqn:Ew.
      * destruct (filled_kept (p ++ [k]) ps d d' F w Ew) as [w' [Aw _]]. congruence.
      * rewrite (filled_fill p ps d d' k y o0 F E O0 Ew D) in M. discriminate.
    + destruct (filled_only p ps d d' o F A E) as [q [a [r [x [o1 [P1 [P2 [P3 [P4 [P5 P6]]]]]]]]]].
      pose proof (filled_fill q ps d d' a x o1 F P2 P3 P4 P5) as Fx. subst p.
      replace ((q ++ a :: r) ++ [k]) with ((q ++ [a]) ++ r ++ [k]) in * by (rewrite <- !app_assoc; reflexivity).
      rewrite at_path_app, Fx in M. exact (C1 (q ++ [a]) r k x o y P5 D P6 O M).
  - intros [p [v [q [S [A N]]]]]. destruct (at_path d p) as [v0|] eqn:E.
    + destruct (filled_kept p ps d d' F v0 E) as [v' [A' [K1 K2]]]. rewrite A in A'. injection A' as <-.
      destruct (object_dec v0) as [O0|O0]; [exact (N (K2 O0))|].
      apply (filled_no_conflict ps d d' F). exists p, v0, q. auto.
    + destruct (filled_only p ps d d' v F A E) as [b [a [r [x [o1 [P1 [P2 [P3 [P4 [P5 P6]]]]]]]]]]. subst p.
      replace (b ++ a :: r) with ((b ++ [a]) ++ r) in S by (rewrite <- app_assoc; reflexivity).
      exact (N (C2 (b ++ [a]) r x q v P5 S P6)).
Qed.
Lemma apply_twice ps d d' : good_props ps -> object d -> canonical d -> (forall p x, default_at ps p = Some x -> canonical x) -> closed ps ->
  apply_defaults_unsafe (depth ps) ps d = Ok d' -> apply_defaults_unsafe (depth ps) ps d' = Ok d'.
Proof.
  intros G [ds ->] C D Cl H. destruct (apply_main (depth ps) ps G (le_n _) ds) as [[ds' [E F]]|[E _]]; rewrite E in H; [|discriminate].
  injection H as <-. destruct (filled_closed ps _ _ Cl F) as [K1 K2].
  apply apply_fix; auto. eapply apply_canonical; [exact G|exact C|exact D|exact E].
Qed.

(** ** add_defaults *)
Inductive added : json -> json -> json -> Prop :=
| added_intro fs ds fs' :
    map fst fs' = map fst fs ->
    (forall k, field ds k <> None -> field fs k <> None) ->
    (forall k def, field fs k = Some def -> field ds k = None -> field fs' k = Some def) ->
    (forall k def x, field fs k = Some def -> field ds k = Some x -> exists def', field fs' k = Some def' /\
       entry_of def' "default" = Some x /\
       (forall key, key <> "default" -> key <> "properties" -> entry_of def' key = entry_of def key) /\
       (sub def = None -> entry_of def' "properties" = entry_of def "properties") /\
       (forall q, sub def = Some q -> exists q', sub def' = Some q' /\ added q x q')) ->
    added (JObj fs) (JObj ds) (JObj fs').
Definition unknown (ps defs : json) : Prop :=
  exists q k v, at_path defs (q ++ [k]) = Some v /\ (q = [] \/ sub_at ps q <> None) /\ def_at ps (q ++ [k]) = None.

Lemma sub_type def def' : entry_of def' "type" = entry_of def "type" -> entry_of def' "properties" = entry_of def "properties" -> sub def' = sub def.
Proof. intros A B. unfold sub. rewrite A, B. reflexivity. Qed.
Lemma sub_none_type def def' : entry_of def' "type" = entry_of def "type" -> sub def' <> None -> entry_of def "properties" <> None -> sub def <> None.
Proof.
  intros A B C. unfold sub in *. rewrite A in B. destruct (entry_of def "type") as [[]|]; auto. destruct (string_dec s "object"); auto.
Qed.
Lemma set_entry fs k v key : field (set_field fs k v) key = if String.eqb k key then Some v else field fs key.
Proof. apply field_set. Qed.

Definition addrec_ok (f : nat) (q x : json) : Prop :=
  (exists q', add_defaults_unsafe f q x = Ok q' /\ added q x q') \/
  (add_defaults_unsafe f q x = Exc /\ (conflict q x \/ unknown q x)).
Definition def_added (def x def' : json) : Prop :=
  entry_of def' "default" = Some x /\
  (forall key, key <> "default" -> key <> "properties" -> entry_of def' key = entry_of def key) /\
  (sub def = None -> entry_of def' "properties" = entry_of def "properties") /\
  (forall q, sub def = Some q -> exists q', sub def' = Some q' /\ added q x q').
Lemma step_add f ds k vs t : field vs "type" = Some t ->
  (forall q x, sub (JObj vs) = Some q -> object x -> addrec_ok f q x) ->
  match field ds k with
  | None => add_default_step (add_defaults_unsafe f) (JObj ds) k (JObj vs) = Ok (JObj vs)
  | Some x =>
      (exists def', add_default_step (add_defaults_unsafe f) (JObj ds) k (JObj vs) = Ok def' /\ def_added (JObj vs) x def')
      \/ (add_default_step (add_defaults_unsafe f) (JObj ds) k (JObj vs) = Exc /\
          exists q, sub (JObj vs) = Some q /\ (~ object x \/ conflict q x \/ unknown q x))
  end.
Proof.
  intros Et R. unfold add_default_step. rewrite !contains_field. rewrite Et. cbn [negb].
  destruct (field ds k) as [x|] eqn:E; [|reflexivity]. cbn [at_const]. rewrite E. cbn [obind assign at_const].
  rewrite contains_field, !field_set. cbn [String.eqb Ascii.eqb Bool.eqb]. rewrite Et. cbn [obind].
  pose proof (sub_unfold vs t Et) as Sv. destruct (is_object_literal t) eqn:Lt.
  - destruct (field vs "properties") as [q|] eqn:Eq; cbn [andb].
    + destruct (is_object x) eqn:Ox.
      * cbn [obind]. apply is_object_spec in Ox. destruct (R q x Sv Ox) as [[q' [A B]]|[A B]]; rewrite A; cbn [obind assign].
        -- left. eexists. split; [reflexivity|]. unfold def_added. cbn [entry_of]. rewrite !field_set.
           cbn [String.eqb Ascii.eqb Bool.eqb]. split; [reflexivity|]. split.
           ++ intros key N1 N2. rewrite !field_set. destruct (String.eqb_spec "properties" key); [congruence|].
              destruct (String.eqb_spec "default" key); [congruence|]. reflexivity.
           ++ split; [congruence|]. intros q0 Q. assert (q0 = q) by congruence. subst q0. exists q'. split; [|exact B].
              rewrite (sub_unfold _ t); [rewrite Lt, field_set; reflexivity|]. rewrite !field_set. exact Et.
        -- right. split; [reflexivity|]. exists q. auto.
      * right. split; [reflexivity|]. exists q. split; [exact Sv|]. left. intro K. apply is_object_spec in K. congruence.
    + left. eexists. split; [reflexivity|]. unfold def_added. cbn [entry_of]. rewrite field_set. split; [reflexivity|].
      split; [intros key N1 N2; rewrite field_set; destruct (String.eqb_spec "default" key); [congruence|reflexivity]|].
      split; [intros _; rewrite field_set; reflexivity|]. intros q Q. congruence.
  - left. cbn [andb]. eexists. split; [reflexivity|]. unfold def_added. cbn [entry_of]. rewrite field_set. split; [reflexivity|].
    split; [intros key N1 N2; rewrite field_set; destruct (String.eqb_spec "default" key); [congruence|reflexivity]|].
    split; [intros _; rewrite field_set; reflexivity|]. intros q Q. congruence.
Qed.

Lemma omapM_cases {A B} (g : A -> outcome B) l : (forall a, In a l -> g a <> UB) ->
  (exists vs, omapM g l = Ok vs /\ Forall2 (fun a v => g a = Ok v) l vs) \/ (omapM g l = Exc /\ exists a, In a l /\ g a = Exc).
Proof.
  induction l as [|a l IH]; intro H; [left; exists []; split; [reflexivity|constructor]|]. cbn [omapM].
  pose proof (H a (or_introl eq_refl)) as Ha. destruct (g a) as [b| |] eqn:E; [|right; split; [reflexivity|]; exists a; split; [left; reflexivity|exact E]|contradiction].
  cbn [obind]. destruct IH as [[vs [A1 A2]]|[A1 [c [A2 A3]]]]; [intros; apply H; right; auto| |]; rewrite A1.
  - left. exists (b :: vs). split; [reflexivity|]. constructor; auto.
  - right. split; [reflexivity|]. exists c. split; [right; exact A2|exact A3].
Qed.
Lemma with_values_field {g : string * json -> outcome json} fs vs : Forall2 (fun a v => g a = Ok v) fs vs ->
  map fst (with_values fs vs) = map fst fs /\
  forall k, match field fs k with
            | Some v => exists v', field (with_values fs vs) k = Some v' /\ g (k, v) = Ok v'
            | None => field (with_values fs vs) k = None
            end.
Proof.
  induction 1 as [|[a b] v fs vs H F [IH1 IH2]]; [split; [reflexivity|intro k; reflexivity]|]. cbn [with_values map fst]. split; [rewrite IH1; reflexivity|].
  intro k. cbn [field]. destruct (String.eqb_spec a k) as [<-|N]; [exists v; auto|apply IH2].
Qed.

Lemma add_main fuel : forall ps, good_props ps -> (depth ps <= fuel)%nat -> forall d, object d -> addrec_ok fuel ps d.
Proof.
  induction fuel as [|f IH]; intros ps G L d [ds ->]; [pose proof (depth_pos ps); lia|]. destruct G as [fs N O G].
  unfold addrec_ok. cbn [add_defaults_unsafe items].
  assert (Step : forall k v, In (k, v) fs -> exists vs t, v = JObj vs /\ field vs "type" = Some t /\
             (forall q x, sub (JObj vs) = Some q -> object x -> addrec_ok f q x)).
  { intros k v I. destruct (O k v I) as [[vs ->] T]. cbn in T. destruct (field vs "type") as [t|] eqn:Et; [|congruence].
    exists vs, t. split; [reflexivity|]. split; [exact Et|]. intros q x S Ox. apply IH; [eapply G; eauto| |exact Ox].
    pose proof (sub_depth fs k _ q I S). lia. }
  destruct (forallb (fun kv => contains (JObj fs) (fst kv)) ds) eqn:K.
  - rewrite forallb_forall in K.
    assert (Known : forall k, field ds k <> None -> field fs k <> None).
    { intros k H. destruct (field ds k) as [x|] eqn:E; [|congruence]. apply field_in in E. specialize (K _ E). cbn [fst] in K.
      rewrite contains_field in K. destruct (field fs k); congruence. }
    destruct (omapM_cases (fun kv => add_default_step (add_defaults_unsafe f) (JObj ds) (fst kv) (snd kv)) fs) as [[vs [A B]]|[A [[k v] [I B]]]].
    + intros [k v] I. cbn [fst snd]. destruct (Step k v I) as [vs [t [-> [Et R]]]]. pose proof (step_add f ds k vs t Et R) as S.
      destruct (field ds k) as [x|].
      * destruct S as [[def' [S _]]|[S _]]; rewrite S; discriminate.
      * rewrite S. discriminate.
    + left. rewrite A. cbn [omap with_elems]. eexists. split; [reflexivity|].
      destruct (with_values_field fs vs B) as [W1 W2]. constructor; [exact W1|exact Known| |].
      * intros k def F D. specialize (W2 k). rewrite F in W2. destruct W2 as [v' [W W3]]. rewrite W. cbn [fst snd] in W3.
        destruct (Step k def (field_in _ _ _ F)) as [us [t [-> [Et R]]]]. pose proof (step_add f ds k us t Et R) as S.
        rewrite D in S. congruence.
      * intros k def x F D. specialize (W2 k). rewrite F in W2. destruct W2 as [v' [W W3]]. cbn [fst snd] in W3.
        destruct (Step k def (field_in _ _ _ F)) as [us [t [-> [Et R]]]]. pose proof (step_add f ds k us t Et R) as S.
        rewrite D in S. destruct S as [[def' [S1 S2]]|[S1 _]]; [|congruence]. exists v'. split; [exact W|].
        assert (v' = def') by congruence. subst. exact S2.
    + right. rewrite A. split; [reflexivity|]. cbn [fst snd] in B.
      destruct (Step k v I) as [vs [t [-> [Et R]]]]. pose proof (step_add f ds k vs t Et R) as S.
      pose proof (field_nodup fs k _ N I) as Fk.
      destruct (field ds k) as [x|] eqn:E; [|rewrite B in S; discriminate].
      destruct S as [[def' [S _]]|[_ [q [S1 S2]]]]; [congruence|]. destruct S2 as [S2|[[p [w [q' [P1 [P2 P3]]]]]|[p [k' [w [P1 [P2 P3]]]]]]].
      * left. exists [k], x, q. split; [unfold sub_at; cbn; rewrite Fk; exact S1|]. split; [cbn; rewrite E; reflexivity|exact S2].
      * left. exists (k :: p), w, q'. split; [rewrite (sub_at_cons (JObj fs) k p _ q Fk S1); [exact P1|]; intros ->; discriminate|].
        split; [cbn; rewrite E; exact P2|exact P3].
      * right. exists (k :: p), k', w. split; [cbn; rewrite E; exact P1|]. split.
        -- right. destruct P2 as [->|P2]; [unfold sub_at; cbn; rewrite Fk, S1; discriminate|].
           rewrite (sub_at_cons (JObj fs) k p _ q Fk S1); [exact P2|]. intros ->. apply P2. reflexivity.
        -- change ((k :: p) ++ [k']) with (k :: (p ++ [k'])). rewrite def_at_cons by apply app_not_nil. cbn [entry_of]. rewrite Fk, S1. exact P3.
  - right. split; [reflexivity|]. right.
    assert (Z : exists kv, In kv ds /\ contains (JObj fs) (fst kv) = false).
    { clear -K. induction ds as [|a ds IH]; [discriminate|]. cbn [forallb] in K. apply andb_false_iff in K. destruct K as [K|K].
      - exists a. split; [left; reflexivity|exact K].
      - destruct (IH K) as [b [B1 B2]]. exists b. split; [right; exact B1|exact B2]. }
    destruct Z as [[k x] [I Z]]. cbn [fst] in Z. rewrite contains_field in Z. exists [], k.
    assert (E : exists x, field ds k = Some x).
    { clear -I. induction ds as [|[a b] ds IH]; [destruct I|]. cbn. destruct (String.eqb_spec a k); [eauto|].
      destruct I as [I|I]; [congruence|auto]. }
    destruct E as [x0 E]. exists x0. cbn [app at_path entry_of]. rewrite E. split; [reflexivity|]. split; [left; reflexivity|].
    cbn. destruct (field fs k); [discriminate|reflexivity].
Qed.
Lemma added_object ps d ps' : added ps d ps' -> object d. Proof. intro A. inversion A. eexists. reflexivity. Qed.
Lemma added_no_conflict ps d ps' : added ps d ps' -> ~ conflict ps d.
Proof.
  intros F [p [v [q [S [A N]]]]]. revert ps d ps' F S A. induction p as [|k p IH]; intros ps d ps' F S A; [discriminate|].
  inversion F as [fs ds fs' F0 F1 F2 F3]; subst. cbn [at_path entry_of] in A. destruct (field ds k) as [w|] eqn:E; [|discriminate].
  destruct (list_eq_dec string_dec p []) as [->|Np].
  - cbn [at_path] in A. injection A as ->. unfold sub_at in S. cbn in S. destruct (field fs k) as [def|] eqn:D; [|discriminate].
    destruct (F3 k def v D E) as [def' [_ [_ [_ [_ K]]]]]. destruct (K q S) as [q' [_ K']]. apply N. eapply added_object. exact K'.
  - unfold sub_at in S. rewrite def_at_cons in S by exact Np. cbn [entry_of] in S. destruct (field fs k) as [def|] eqn:D; [|discriminate].
    destruct (sub def) as [q'|] eqn:Sd; [|discriminate]. destruct (F3 k def w D E) as [def' [_ [_ [_ [_ K]]]]].
    destruct (K q' Sd) as [q2 [_ K']]. exact (IH q' w q2 K' S A).
Qed.
Lemma added_no_unknown ps d ps' : added ps d ps' -> ~ unknown ps d.
Proof.
  intros F [p [a [v [A [Q N]]]]]. revert ps d ps' F A Q N. induction p as [|k p IH]; intros ps d ps' F A Q N;
  inversion F as [fs ds fs' F0 F1 F2 F3]; subst.
  - cbn in *. destruct (field ds a) as [w|] eqn:E; [|discriminate]. apply (F1 a); congruence.
  - cbn [app at_path entry_of] in A. destruct (field ds k) as [w|] eqn:E; [|discriminate]. cbn [app] in N.
    rewrite def_at_cons in N by apply app_not_nil. cbn [entry_of] in N. destruct Q as [Q|Q]; [discriminate|].
    destruct (field fs k) as [def|] eqn:D.
    2:{ apply Q. unfold sub_at. destruct p; cbn; rewrite D; reflexivity. }
    destruct (sub def) as [q'|] eqn:Sd.
    2:{ apply Q. unfold sub_at. destruct p; cbn; rewrite D; [exact Sd|]. rewrite Sd. reflexivity. }
    destruct (F3 k def w D E) as [def' [_ [_ [_ [_ K]]]]].
    destruct (K q' Sd) as [q2 [_ K']]. apply (IH q' w q2 K' A); [|exact N].
    destruct p as [|b p]; [left; reflexivity|]. right. rewrite (sub_at_cons (JObj fs) k _ def q' D Sd) in Q by discriminate. exact Q.
Qed.
Definition def_changed (def : json) (o : option json) (def' : json) : Prop :=
  entry_of def' "default" = match o with Some x => Some x | None => entry_of def "default" end /\
  (forall key, key <> "default" -> key <> "properties" -> entry_of def' key = entry_of def key) /\
  (sub def = None -> entry_of def' "properties" = entry_of def "properties") /\
  (sub def = None <-> sub def' = None).
Lemma def_changed_same def : def_changed def None def.
Proof. repeat split; auto. Qed.
Lemma sub_changed def def' x : def_added def x def' -> (sub def = None <-> sub def' = None).
Proof.
  intros [A [B [C D]]]. split; intro H.
  - rewrite <- H. apply sub_type; [apply B; discriminate|]. apply C. exact H.
  - destruct (sub def) as [q|]; [|reflexivity]. destruct (D q eq_refl) as [q' [E _]]. congruence.
Qed.
Lemma added_path p : forall ps d ps', added ps d ps' ->
  match def_at ps p with
  | None => def_at ps' p = None
  | Some def => exists def', def_at ps' p = Some def' /\ def_changed def (at_path d p) def'
  end.
Proof.
  induction p as [|k p IH]; intros ps d ps' F; [reflexivity|]. inversion F as [fs ds fs' F0 F1 F2 F3]; subst.
  assert (Nf : field fs k = None -> field fs' k = None).
  { intro E. destruct (field fs' k) as [v|] eqn:E'; [|reflexivity]. exfalso. apply field_in in E'. apply (in_map fst) in E'. cbn in E'.
    rewrite F0 in E'. clear -E E'. induction fs as [|[a b] fs IH]; [exact E'|]. cbn in *. destruct (String.eqb_spec a k); [discriminate|].
    destruct E'; [contradiction|auto]. }
  destruct (list_eq_dec string_dec p []) as [->|Np].
  - cbn. destruct (field fs k) as [def|] eqn:E; [|apply Nf; reflexivity]. destruct (field ds k) as [x|] eqn:Ed.
    + destruct (F3 k def x E Ed) as [def' [A B]]. exists def'. split; [exact A|]. cbn. pose proof (sub_changed def def' x B).
      destruct B as [B1 [B2 [B3 B4]]]. repeat split; auto; apply H.
    + exists def. split; [apply F2; auto|apply def_changed_same].
  - rewrite !def_at_cons by exact Np. cbn [entry_of at_path]. destruct (field fs k) as [def|] eqn:E; [|rewrite Nf; reflexivity].
    destruct (field ds k) as [x|] eqn:Ed.
    + destruct (F3 k def x E Ed) as [def' [A B]]. rewrite A. pose proof (sub_changed def def' x B) as Sc. destruct B as [_ [_ [_ B]]].
      destruct (sub def) as [q|]; [|rewrite (proj1 Sc eq_refl); reflexivity]. destruct (B q eq_refl) as [q' [Sq Aq]]. rewrite Sq.
      exact (IH q x q' Aq).
    + rewrite (F2 k def E Ed). destruct (sub def) as [q|]; [|reflexivity]. destruct (def_at q p) as [d0|]; [|reflexivity].
      exists d0. split; [reflexivity|apply def_changed_same].
Qed.
Lemma added_good ps : good_props ps -> forall d ps', added ps d ps' -> good_props ps'.
Proof.
  induction 1 as [fs N O G IH]; intros d ps' A. inversion A as [fs0 ds fs' F0 F1 F2 F3]; subst.
  assert (N' : NoDup (map fst fs')) by (rewrite F0; exact N).
  assert (X : forall k v, In (k, v) fs' -> exists def, field fs k = Some def /\
            ((field ds k = None /\ v = def) \/ (exists x, field ds k = Some x /\ def_added def x v))).
  { intros k v I. pose proof (field_nodup fs' k v N' I) as E. destruct (field fs k) as [def|] eqn:Ef.
    - exists def. split; [reflexivity|]. destruct (field ds k) as [x|] eqn:Ed.
      + right. destruct (F3 k def x Ef Ed) as [def' [B C]]. assert (v = def') by congruence. subst. exists x. auto.
      + left. pose proof (F2 k def Ef Ed). split; [reflexivity|congruence].
    - exfalso. apply (in_map fst) in I. cbn in I. rewrite F0 in I. clear -Ef I. induction fs as [|[a b] fs IH]; [exact I|]. cbn in *.
      destruct (String.eqb_spec a k); [discriminate|]. destruct I; [contradiction|auto]. }
  constructor; [exact N'| |].
  - intros k v I. destruct (X k v I) as [def [Ef [[_ ->]|[x [_ [B1 [B2 _]]]]]]]; [apply (O k); apply field_in; exact Ef|].
    destruct (O k def (field_in _ _ _ Ef)) as [_ T]. split.
    + destruct v; try discriminate. eexists. reflexivity.
    + rewrite B2 by discriminate. exact T.
  - intros k v q I S. destruct (X k v I) as [def [Ef [[_ ->]|[x [_ B]]]]]; [eapply G; [apply field_in; exact Ef|exact S]|].
    pose proof (sub_changed def v x B) as Sc. destruct B as [_ [_ [_ B]]]. destruct (sub def) as [q0|] eqn:S0.
    + destruct (B q0 eq_refl) as [q' [Sq Aq]]. assert (q = q') by congruence. subst q'.
      eapply (IH k def q0); [apply field_in; exact Ef|exact S0|exact Aq].
    + rewrite (proj1 Sc eq_refl) in S. discriminate.
Qed.
Lemma added_default ps d ps' p : added ps d ps' -> (forall p x, default_at ps p = Some x -> at_path d p = Some x) ->
  forall x, default_at ps' p = Some x -> at_path d p = Some x.
Proof.
  intros A H x E. unfold default_at in E. pose proof (added_path p ps d ps' A) as P. destruct (def_at ps p) as [def|] eqn:D.
  - destruct P as [def' [P1 [P2 _]]]. rewrite P1, P2 in E. destruct (at_path d p) as [y|] eqn:Y; [exact E|].
    rewrite <- Y. apply H. unfold default_at. rewrite D. exact E.
  - rewrite P in E. discriminate.
Qed.
Lemma added_closed ps d ps' : added ps d ps' -> (forall p x, default_at ps p = Some x -> at_path d p = Some x) -> closed ps'.
Proof.
  intros A H. split.
  - intros p r k x o y D1 D2 X O. pose proof (added_default ps d ps' _ A H _ D1) as E1. pose proof (added_default ps d ps' _ A H _ D2) as E2.
    rewrite at_path_app, E1 in E2. congruence.
  - intros p r x q v D S X. pose proof (added_default ps d ps' _ A H _ D) as E1.
    assert (E : at_path d (p ++ r) = Some v) by (rewrite at_path_app, E1; exact X).
    destruct (object_dec v) as [O|O]; [exact O|]. exfalso. apply (added_no_conflict ps d ps' A).
    unfold sub_at in S. pose proof (added_path (p ++ r) ps d ps' A) as P. destruct (def_at ps (p ++ r)) as [def|] eqn:Df.
    + destruct P as [def' [P1 [_ [_ [_ P2]]]]]. rewrite P1 in S. destruct (sub def) as [q0|] eqn:S0.
      * exists (p ++ r), v, q0. unfold sub_at. rewrite Df. auto.
      * rewrite (proj1 P2 eq_refl) in S. discriminate.
    + rewrite P in S. discriminate.
Qed.
