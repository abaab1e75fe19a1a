From Coq Require Import List Bool Arith Lia String Sorted.
From Verif Require Import Base Json_Model Json_Spec Json_Proofs Json_Proofs2 Json_Proofs3 Defaults_Model Defaults_Spec.
Import ListNotations.
Local Open Scope string_scope.
Local Open Scope list_scope.

(** ** Basic facts *)
Lemma depth_field fs k v : In (k, v) fs -> (depth v < depth (JObj fs))%nat.
Proof.
  intro H. cbn [depth]. induction fs as [|[a b] fs IH]; [destruct H|]. cbn [map fold_right snd]. destruct H as [H|H].
  - injection H as <- <-. lia.
  - specialize (IH H). lia.
Qed.
Lemma sub_props def q : sub def = Some q -> exists fs t, def = JObj fs /\ field fs "type" = Some t /\
  is_object_literal t = true /\ field fs "properties" = Some q.
Proof.
  unfold sub. destruct def; cbn; try discriminate. destruct (field fields "type") as [[]|] eqn:E; try discriminate.
  destruct (string_dec s "object") as [->|]; [|discriminate]. intro H. exists fields, (JStr "object"). auto.
Qed.
Lemma sub_depth fs k v q : In (k, v) fs -> sub v = Some q -> (S (depth q) < depth (JObj fs))%nat.
Proof.
  intros I S. apply sub_props in S. destruct S as [gs [t [-> [_ [_ F]]]]]. apply field_in in F.
  pose proof (depth_field fs k (JObj gs) I). pose proof (depth_field gs _ _ F). lia.
Qed.
Lemma depth_pos j : (1 <= depth j)%nat. Proof. destruct j; cbn; lia. Qed.
Lemma sub_unfold fs t : field fs "type" = Some t ->
  sub (JObj fs) = if is_object_literal t then field fs "properties" else None.
Proof.
  intro E. unfold sub. cbn [entry_of]. rewrite E. destruct t; try reflexivity. cbn [is_object_literal].
  destruct (string_dec s "object") as [->|N]; [reflexivity|]. apply String.eqb_neq in N. rewrite N. reflexivity.
Qed.
Lemma contains_field fs k : contains (JObj fs) k = match field fs k with Some _ => true | None => false end.
Proof. reflexivity. Qed.

(** ** apply_defaults *)
Definition entry_new (f : nat) (v : json) (o : option json) : outcome (option json) :=
  match o with
  | None => Ok (entry_of v "default")
  | Some dk =>
      match sub v with
      | Some q => if is_object dk then omap Some (apply_defaults_unsafe f q dk) else Exc
      | None => Ok (Some dk)
      end
  end.
Definition step (f : nat) (data : json) (kv : string * json) : outcome json :=
  let key := fst kv in let value := snd kv in
  if (contains value "default" && negb (contains data key))%bool
  then obind (at_const value "default") (assign data key)
  else obind (at_const value "type") (fun t =>
       if (is_object_literal t && contains value "properties" && contains data key)%bool
       then obind (at_const data key) (fun d =>
            if is_object d
            then obind (at_const value "properties") (fun ps =>
                 obind (apply_defaults_unsafe f ps d) (assign data key))
            else Exc)
       else Ok data).
Lemma apply_unfold f schema data : apply_defaults_unsafe (S f) schema data = ofold (step f) (items schema) data.
Proof. reflexivity. Qed.

Lemma step_spec f ds k v : object v -> entry_of v "type" <> None ->
  match entry_new f v (field ds k) with
  | Ok o => exists ds', step f (JObj ds) (k, v) = Ok (JObj ds') /\
              forall k', field ds' k' = if String.eqb k k' then o else field ds k'
  | Exc => step f (JObj ds) (k, v) = Exc
  | UB => step f (JObj ds) (k, v) = UB
  end.
Proof.
  intros [vs ->] T. cbn in T. destruct (field vs "type") as [t|] eqn:Et; [|congruence].
  unfold step, entry_new. rewrite (sub_unfold vs t Et). cbn [fst snd]. rewrite !contains_field. cbn [entry_of at_const]. rewrite Et.
  assert (Same : forall k', field ds k' = if String.eqb k k' then field ds k else field ds k').
  { intro k'. destruct (String.eqb_spec k k'); subst; reflexivity. }
  destruct (field ds k) as [dk|] eqn:Ed; cbn [negb]; rewrite ?andb_false_r, ?andb_true_r; cbn [obind].
  - destruct (is_object_literal t); cbn [andb]; [|exists ds; split; [reflexivity|exact Same]].
    destruct (field vs "properties") as [q|]; [|exists ds; split; [reflexivity|exact Same]].
    destruct (is_object dk); [|reflexivity]. cbn [obind].
    destruct (apply_defaults_unsafe f q dk); cbn [omap obind assign]; [|reflexivity|reflexivity].
    eexists. split; [reflexivity|]. intro k'. apply field_set.
  - destruct (field vs "default") as [x|].
    + cbn [obind assign]. eexists. split; [reflexivity|]. intro k'. apply field_set.
    + exists ds. cbn [obind]. rewrite andb_false_r. split; [reflexivity|exact Same].
Qed.
Lemma fold_spec f l : NoDup (map fst l) -> (forall k v, In (k, v) l -> object v /\ entry_of v "type" <> None) -> forall ds,
  (exists ds', ofold (step f) l (JObj ds) = Ok (JObj ds') /\
     forall k, match field l k with
               | Some v => entry_new f v (field ds k) = Ok (field ds' k)
               | None => field ds' k = field ds k
               end)
  \/ (ofold (step f) l (JObj ds) = Exc /\ exists k v, field l k = Some v /\ entry_new f v (field ds k) = Exc)
  \/ (ofold (step f) l (JObj ds) = UB /\ exists k v, field l k = Some v /\ entry_new f v (field ds k) = UB).
Proof.
  induction l as [|[k v] l IH]; intros N G ds.
  - left. exists ds. split; [reflexivity|]. intro k. reflexivity.
  - cbn [map fst] in N. inversion N as [|? ? N1 N2]; subst. cbn [ofold].
    destruct (G k v (or_introl eq_refl)) as [O T]. pose proof (step_spec f ds k v O T) as S.
    destruct (entry_new f v (field ds k)) as [o| |] eqn:E.
    + destruct S as [ds1 [S1 S2]]. rewrite S1. cbn [obind].
      assert (D : forall k', k' <> k -> field ds1 k' = field ds k').
      { intros k' M. rewrite S2. destruct (String.eqb_spec k k'); [congruence|reflexivity]. }
      assert (K : forall k' w, field l k' = Some w -> k' <> k).
      { intros k' w F ->. apply N1. apply field_in in F. apply (in_map fst) in F. exact F. }
      destruct (IH N2 (fun k' v' H => G k' v' (or_intror H)) ds1) as [[ds' [A B]]|[[A [k' [w [B C]]]]|[A [k' [w [B C]]]]]].
      * left. exists ds'. split; [exact A|]. intro k'. cbn [field]. specialize (B k').
        destruct (String.eqb_spec k k') as [<-|M].
        -- destruct (field l k) as [w|] eqn:F; [exfalso; exact (K k w F eq_refl)|]. rewrite B, S2, String.eqb_refl. exact E.
        -- rewrite D in B by congruence. exact B.
      * right. left. split; [exact A|]. exists k', w. cbn [field]. pose proof (K k' w B) as M.
        destruct (String.eqb_spec k k'); [congruence|]. rewrite D in C by exact M. auto.
      * right. right. split; [exact A|]. exists k', w. cbn [field]. pose proof (K k' w B) as M.
        destruct (String.eqb_spec k k'); [congruence|]. rewrite D in C by exact M. auto.
    + right. left. rewrite S. split; [reflexivity|]. exists k, v. cbn [field]. rewrite String.eqb_refl. auto.
    + right. right. rewrite S. split; [reflexivity|]. exists k, v. cbn [field]. rewrite String.eqb_refl. auto.
Qed.

Inductive filled : json -> json -> json -> Prop :=
| filled_intro ps ds ds' :
    (forall k, entry_of ps k = None -> field ds' k = field ds k) ->
    (forall k def, entry_of ps k = Some def -> field ds k = None -> field ds' k = entry_of def "default") ->
    (forall k def v, entry_of ps k = Some def -> field ds k = Some v -> sub def = None -> field ds' k = Some v) ->
    (forall k def v q, entry_of ps k = Some def -> field ds k = Some v -> sub def = Some q ->
       exists v', field ds' k = Some v' /\ filled q v v') ->
    filled ps (JObj ds) (JObj ds').
Definition conflict (ps d : json) : Prop :=
  exists p v q, sub_at ps p = Some q /\ at_path d p = Some v /\ ~ object v.
Lemma is_object_spec j : is_object j = true <-> object j.
Proof. destruct j; cbn; split; try discriminate; try (intros [fs H]; discriminate); intros; [eexists; reflexivity|reflexivity]. Qed.

Lemma def_at_cons ps k p : p <> [] ->
  def_at ps (k :: p) = match entry_of ps k with
                       | Some def => match sub def with Some qs => def_at qs p | None => None end
                       | None => None
                       end.
Proof. destruct p; [congruence|reflexivity]. Qed.
Lemma sub_at_cons ps k p def q : entry_of ps k = Some def -> sub def = Some q -> p <> [] -> sub_at ps (k :: p) = sub_at q p.
Proof. intros E S N. unfold sub_at. rewrite def_at_cons by exact N. rewrite E, S. reflexivity. Qed.
Lemma sub_at_nil ps q : sub_at ps [] = Some q -> False. Proof. discriminate. Qed.

Lemma filled_no_conflict ps d d' : filled ps d d' -> ~ conflict ps d.
Proof.
  intros F [p [v [q [S [A N]]]]]. revert ps d d' F S A. induction p as [|k p IH]; intros ps d d' F S A; [discriminate|].
  inversion F as [ps0 ds ds' F1 F2 F3 F4]; subst. cbn [at_path entry_of] in A. destruct (field ds k) as [w|] eqn:E; [|discriminate].
  destruct (list_eq_dec string_dec p []) as [->|Np].
  - cbn [at_path] in A. injection A as ->. unfold sub_at in S. cbn [def_at] in S. destruct (entry_of ps k) as [def|] eqn:D; [|discriminate].
    destruct (F4 k def v q D E S) as [v' [_ K]]. apply N. inversion K; subst. eexists. reflexivity.
  - unfold sub_at in S. rewrite def_at_cons in S by exact Np. destruct (entry_of ps k) as [def|] eqn:D; [|discriminate].
    destruct (sub def) as [q'|] eqn:Sd; [|discriminate]. destruct (F4 k def w q' D E Sd) as [w' [_ K]].
    exact (IH q' w w' K S A).
Qed.

Lemma apply_main fuel : forall ps, good_props ps -> (depth ps <= fuel)%nat -> forall ds,
  (exists ds', apply_defaults_unsafe fuel ps (JObj ds) = Ok (JObj ds') /\ filled ps (JObj ds) (JObj ds'))
  \/ (apply_defaults_unsafe fuel ps (JObj ds) = Exc /\ conflict ps (JObj ds)).
Proof.
  induction fuel as [|f IH]; intros ps G L ds; [pose proof (depth_pos ps); lia|].
  destruct G as [fs N O G]. rewrite apply_unfold. cbn [items].
  assert (Sub : forall k v q dd, field fs k = Some v -> sub v = Some q ->
     (exists ds', apply_defaults_unsafe f q (JObj dd) = Ok (JObj ds') /\ filled q (JObj dd) (JObj ds'))
     \/ (apply_defaults_unsafe f q (JObj dd) = Exc /\ conflict q (JObj dd))).
  { intros k v q dd F S. apply field_in in F. apply IH; [eapply G; eauto|]. pose proof (sub_depth fs k v q F S). lia. }
  destruct (fold_spec f fs N O ds) as [[ds' [A B]]|[[A [k [v [B C]]]]|[A [k [v [B C]]]]]].
  - left. exists ds'. split; [exact A|]. constructor; cbn [entry_of].
    + intros k E. specialize (B k). rewrite E in B. exact B.
    + intros k def E D. specialize (B k). rewrite E, D in B. cbn in B. congruence.
    + intros k def v E D S. specialize (B k). rewrite E, D in B. cbn in B. rewrite S in B. congruence.
    + intros k def v q E D S. specialize (B k). rewrite E, D in B. cbn in B. rewrite S in B.
      destruct (is_object v) eqn:I; [|discriminate]. apply is_object_spec in I. destruct I as [vs ->].
      destruct (Sub k def q vs E S) as [[vs' [X Y]]|[X Y]]; rewrite X in B; [|discriminate].
      cbn in B. exists (JObj vs'). split; [congruence|exact Y].
  - right. split; [exact A|]. unfold entry_new in C. destruct (field ds k) as [dk|] eqn:D; [|discriminate].
    destruct (sub v) as [q|] eqn:S; [|discriminate]. destruct (is_object dk) eqn:I.
    + apply is_object_spec in I. destruct I as [vs ->].
      destruct (Sub k v q vs B S) as [[vs' [X Y]]|[X [p [w [q' [P1 [P2 P3]]]]]]]; [rewrite X in C; discriminate|].
      exists (k :: p), w, q'. split; [|split; [|exact P3]].
      * rewrite (sub_at_cons (JObj fs) k p v q B S); [exact P1|]. intros ->. discriminate.
      * cbn. rewrite D. exact P2.
    + exists [k], dk, q. split; [unfold sub_at; cbn; rewrite B; exact S|]. split; [cbn; rewrite D; reflexivity|].
      intro K. apply is_object_spec in K. congruence.
  - exfalso. unfold entry_new in C. destruct (field ds k) as [dk|] eqn:D; [|discriminate].
    destruct (sub v) as [q|] eqn:S; [|discriminate]. destruct (is_object dk) eqn:I; [|discriminate].
    apply is_object_spec in I. destruct I as [vs ->].
    destruct (Sub k v q vs B S) as [[vs' [X Y]]|[X Y]]; rewrite X in C; discriminate.
Qed.

(** ** Paths *)
Lemma filled_kept p : forall ps d d', filled ps d d' -> forall v, at_path d p = Some v ->
  exists v', at_path d' p = Some v' /\ (~ object v -> v' = v) /\ (object v -> object v').
Proof.
  induction p as [|k p IH]; intros ps d d' F v A.
  - cbn in A. injection A as <-. exists d'. split; [reflexivity|]. inversion F; subst. split; [|intros _; eexists; reflexivity].
    intro K. exfalso. apply K. eexists. reflexivity.
  - inversion F as [ps0 ds ds' F1 F2 F3 F4]; subst. cbn [at_path entry_of] in *. destruct (field ds k) as [w|] eqn:E; [|discriminate].
    destruct (entry_of ps k) as [def|] eqn:D.
    + destruct (sub def) as [q|] eqn:S.
      * destruct (F4 k def w q D E S) as [w' [E' K]]. rewrite E'. exact (IH q w w' K v A).
      * rewrite (F3 k def w D E S). exists v. auto.
    + rewrite (F1 k D), E. exists v. auto.
Qed.
Lemma default_at_cons ps k p def q : entry_of ps k = Some def -> sub def = Some q -> p <> [] -> default_at ps (k :: p) = default_at q p.
Proof. intros E S N. unfold default_at. rewrite def_at_cons by exact N. rewrite E, S. reflexivity. Qed.
Lemma app_not_nil {A} (p : list A) k : p ++ [k] <> []. Proof. destruct p; discriminate. Qed.
Lemma filled_fill p : forall ps d d' k x o, filled ps d d' -> at_path d p = Some o -> object o -> at_path d (p ++ [k]) = None ->
  default_at ps (p ++ [k]) = Some x -> at_path d' (p ++ [k]) = Some x.
Proof.
  induction p as [|a p IH]; intros ps d d' k x o F A O M D; inversion F as [ps0 ds ds' F1 F2 F3 F4]; subst.
  - cbn [app] in *. unfold default_at in D. cbn [def_at] in D. destruct (entry_of ps k) as [def|] eqn:E; [|discriminate].
    cbn [at_path entry_of] in *. destruct (field ds k) eqn:E'; [discriminate|]. rewrite (F2 k def E E'), D. reflexivity.
  - cbn [app] in *. unfold default_at in D. rewrite def_at_cons in D by apply app_not_nil.
    destruct (entry_of ps a) as [def|] eqn:E; [|discriminate]. destruct (sub def) as [q|] eqn:S; [|discriminate].
    cbn [at_path entry_of] in *. destruct (field ds a) as [w|] eqn:E'; [|discriminate].
    destruct (F4 a def w q E E' S) as [w' [Ew K]]. rewrite Ew. exact (IH q w w' k x o K A O M D).
Qed.
Lemma filled_only p : forall ps d d' v, filled ps d d' -> at_path d' p = Some v -> at_path d p = None ->
  exists q k r x o, p = q ++ k :: r /\ at_path d q = Some o /\ object o /\ at_path d (q ++ [k]) = None /\
    default_at ps (q ++ [k]) = Some x /\ at_path x r = Some v.
Proof.
  induction p as [|a p IH]; intros ps d d' v F A M; [discriminate|]. inversion F as [ps0 ds ds' F1 F2 F3 F4]; subst.
  cbn [at_path entry_of] in A, M. destruct (field ds a) as [w|] eqn:E.
  - destruct (entry_of ps a) as [def|] eqn:D; [|rewrite (F1 a D), E in A; congruence].
    destruct (sub def) as [q|] eqn:S; [|rewrite (F3 a def w D E S) in A; congruence].
    destruct (F4 a def w q D E S) as [w' [Ew K]]. rewrite Ew in A.
    destruct (IH q w w' v K A M) as [b [k [r [x [o [P1 [P2 [P3 [P4 [P5 P6]]]]]]]]]].
    exists (a :: b), k, r, x, o. split; [cbn; congruence|]. cbn [app at_path entry_of]. rewrite E. split; [exact P2|]. split; [exact P3|].
    split; [exact P4|]. split; [|exact P6]. rewrite (default_at_cons ps a (b ++ [k]) def q D S (app_not_nil b k)). exact P5.
  - destruct (entry_of ps a) as [def|] eqn:D; [|rewrite (F1 a D), E in A; discriminate].
    rewrite (F2 a def D E) in A. destruct (entry_of def "default") as [x|] eqn:X; [|discriminate].
    exists [], a, p, x, (JObj ds). split; [reflexivity|]. split; [reflexivity|]. split; [eexists; reflexivity|].
    cbn [app at_path entry_of]. rewrite E. split; [reflexivity|]. split; [|exact A]. unfold default_at. cbn. rewrite D. exact X.
Qed.
