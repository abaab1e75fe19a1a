(** * Proofs about control files: filling the vector of controls and saving it *)
From Coq Require Import Reals List Bool Arith Lia Lra String Sorted.
From Verif Require Import Base Interp_Model Interp_Spec Interp_Proofs Interp_Proofs2 Json_Model Json_Spec Json_Proofs Json_Proofs2 Json_Proofs3
  Defaults_Model Controls_Model Controls_Spec Controls_Proofs.
Import ListNotations.
Local Open Scope string_scope.
Local Open Scope list_scope.

(** ** Filling columns *)
Lemma set_segment_ok v i start row : table_of (ipoints v) (iinner v) (ivalues v) ->
  (i < List.length (ipoints v))%nat -> (start + List.length row <= iinner v)%nat ->
  exists w, set_segment v i start (List.length row) row = Ok w /\ ipoints w = ipoints v /\ iinner w = iinner v /\
    List.length (ivalues w) = List.length (ivalues v) /\
    forall j m, (j < List.length (ipoints v))%nat -> (m < iinner v)%nat ->
      entry (ivalues w) (iinner v) j m =
      if (Nat.eqb j i && Nat.leb start m && Nat.ltb m (start + List.length row))%bool then nth (m - start) row 0%R
      else entry (ivalues v) (iinner v) j m.
Proof.
  unfold table_of. intros T I B. unfold set_segment.
  assert (Hb : (iinner v * i + iinner v <= List.length (ivalues v))%nat) by (rewrite T; nia).
  rewrite (proj2 (Nat.ltb_ge _ _) Hb), (proj2 (Nat.leb_le _ _) B), Nat.eqb_refl. cbn [negb andb].
  eexists. split; [reflexivity|]. cbn [ipoints iinner ivalues]. split; [reflexivity|]. split; [reflexivity|]. split.
  - rewrite !app_length, firstn_length, skipn_length. lia.
  - intros j m J M. unfold entry.
    assert (Lf : List.length (firstn (iinner v * i + start) (ivalues v)) = (iinner v * i + start)%nat) by (rewrite firstn_length; lia).
    destruct (Nat.eqb_spec j i) as [->|Ne]; cbn [andb].
    + destruct (Nat.leb_spec start m); cbn [andb].
      * destruct (Nat.ltb_spec m (start + List.length row)).
        -- rewrite app_nth2 by (rewrite Lf; lia). rewrite Lf, app_nth1 by nia. f_equal. nia.
        -- rewrite app_nth2 by (rewrite Lf; lia). rewrite Lf, app_nth2 by nia. rewrite nth_skipn. f_equal. nia.
      * rewrite app_nth1 by (rewrite Lf; nia). rewrite nth_firstn_lt by nia. reflexivity.
    + destruct (le_lt_dec i j) as [L|L].
      * rewrite app_nth2 by (rewrite Lf; nia). rewrite Lf, app_nth2 by nia. rewrite nth_skipn. f_equal. nia.
      * rewrite app_nth1 by (rewrite Lf; nia). rewrite nth_firstn_lt by nia. reflexivity.
Qed.

Lemma set_loop_ok start iv (rows : R -> list R) : (forall t, List.length (rows t) = iinner iv) ->
  forall todo done v, ipoints v = done ++ todo -> table_of (ipoints v) (iinner v) (ivalues v) ->
  (start + iinner iv <= iinner v)%nat -> (forall t, In t todo -> interp_at iv t = Ok (rows t)) ->
  exists w, set_loop start iv todo (List.length done) v = Ok w /\ ipoints w = ipoints v /\ iinner w = iinner v /\
    List.length (ivalues w) = List.length (ivalues v) /\
    forall j m, (j < List.length (ipoints v))%nat -> (m < iinner v)%nat ->
      entry (ivalues w) (iinner v) j m =
      if (Nat.leb (List.length done) j && Nat.leb start m && Nat.ltb m (start + iinner iv))%bool
      then nth (m - start) (rows (nth j (ipoints v) 0%R)) 0%R
      else entry (ivalues v) (iinner v) j m.
Proof.
  intro LR. induction todo as [|t todo IH]; intros done v P T B H.
  - exists v. cbn [set_loop]. repeat split; auto. intros j m J M. rewrite app_nil_r in P. rewrite P in J.
    rewrite (proj2 (Nat.leb_gt _ _) J). reflexivity.
  - cbn [set_loop]. rewrite H by (left; reflexivity). cbn [obind].
    assert (Ld : (List.length done < List.length (ipoints v))%nat) by (rewrite P, app_length; cbn [List.length]; lia).
    destruct (set_segment_ok v (List.length done) start (rows t) T Ld) as (v1 & E1 & P1 & I1 & L1 & N1); [rewrite LR; exact B|].
    rewrite LR in E1, N1. rewrite E1. cbn [obind].
    destruct (IH (done ++ [t]) v1) as (w & Ew & Pw & Iw & Lw & Nw).
    { rewrite P1, P, <- app_assoc. reflexivity. }
    { unfold table_of in *. rewrite P1, I1, L1. exact T. }
    { rewrite I1. exact B. }
    { intros s I. apply H. right. exact I. }
    rewrite app_length in Ew, Nw. cbn [List.length] in Ew, Nw. rewrite Nat.add_1_r in Ew, Nw.
    exists w. rewrite P1, I1 in *. split; [exact Ew|]. repeat split; auto; [congruence|].
    intros j m J M. rewrite Nw, N1 by auto.
    destruct (Nat.leb_spec start m); cbn [andb]; rewrite ?andb_false_r; cbn [andb]; [|reflexivity].
    rewrite !andb_true_r.
    destruct (Nat.ltb_spec m (start + iinner iv)); [|rewrite !andb_false_r; reflexivity]. rewrite !andb_true_r.
    destruct (Nat.eqb_spec j (List.length done)) as [->|Ne].
    + rewrite Nat.leb_refl. destruct (Nat.leb_spec (S (List.length done)) (List.length done)); [lia|].
      rewrite P, app_nth2, Nat.sub_diag by lia. reflexivity.
    + destruct (Nat.leb_spec (S (List.length done)) j), (Nat.leb_spec (List.length done) j); try lia; reflexivity.
Qed.

Definition the_row (iv : ivec) (t : R) : list R :=
  match interp_at iv t with Ok r => if Nat.eqb (List.length r) (iinner iv) then r else repeat 0%R (iinner iv) | _ => repeat 0%R (iinner iv) end.
Lemma the_row_length iv t : List.length (the_row iv t) = iinner iv.
Proof.
  unfold the_row. destruct (interp_at iv t) as [r| |]; try apply repeat_length.
  destruct (Nat.eqb_spec (List.length r) (iinner iv)); auto. apply repeat_length.
Qed.

(** The loop on a file with increasing points. *)
Lemma set_loop_full start iv v : increasing (ipoints iv) -> ipoints iv <> [] -> table_of (ipoints iv) (iinner iv) (ivalues iv) ->
  table_of (ipoints v) (iinner v) (ivalues v) -> (start + iinner iv <= iinner v)%nat ->
  (forall t, In t (ipoints v) -> covered tolerance (ipoints iv) t) ->
  exists w f, set_loop start iv (ipoints v) 0 v = Ok w /\ columns_set v start (iinner iv) f w /\
    forall i t k, nth_error (ipoints v) i = Some t -> (k < iinner iv)%nat ->
      piecewise_linear tolerance (ipoints iv) (fun i => entry (ivalues iv) (iinner iv) i k) t (f i k).
Proof.
  intros Hi Hn Ht T B C.
  destruct (set_loop_ok start iv (the_row iv) (the_row_length iv) (ipoints v) [] v eq_refl T B) as (w & Ew & Pw & Iw & Lw & Nw).
  { intros t I. destruct (interpolation_full iv t Hi Hn Ht) as [K _]. destruct (K (C t I)) as (r & Er & Lr & _).
    unfold the_row. rewrite Er, (proj2 (Nat.eqb_eq _ _) Lr). reflexivity. }
  exists w, (fun i k => nth k (the_row iv (nth i (ipoints v) 0%R)) 0%R). split; [exact Ew|]. split.
  - unfold columns_set. repeat split; auto.
    + intros k E K. rewrite Iw, Nw by auto. cbn [List.length Nat.leb andb].
      destruct (Nat.leb_spec start m); [|lia]. destruct (Nat.ltb_spec m (start + iinner iv)); [|lia]. cbn [andb]. f_equal. lia.
    + intro D. rewrite Iw, Nw by auto. cbn [List.length Nat.leb andb].
      destruct (Nat.leb_spec start m), (Nat.ltb_spec m (start + iinner iv)); try lia; reflexivity.
  - intros i t k E K. rewrite (nth_error_nth _ _ 0%R E).
    destruct (interpolation_full iv t Hi Hn Ht) as [Q _]. destruct (Q (C t (nth_error_In _ _ E))) as (r & Er & Lr & Pr).
    unfold the_row. rewrite Er, (proj2 (Nat.eqb_eq _ _) Lr). apply Pr. exact K.
Qed.

Lemma set_loop_throws start iv : increasing (ipoints iv) -> ipoints iv <> [] -> table_of (ipoints iv) (iinner iv) (ivalues iv) ->
  forall todo done v t, ipoints v = done ++ todo -> table_of (ipoints v) (iinner v) (ivalues v) -> (start + iinner iv <= iinner v)%nat ->
  In t todo -> ~ covered tolerance (ipoints iv) t -> set_loop start iv todo (List.length done) v = Exc.
Proof.
  intros Hi Hn Ht. induction todo as [|s todo IH]; intros done v t P T B I N; [destruct I|]. cbn [set_loop].
  destruct (interpolation_full iv s Hi Hn Ht) as [K1 K2].
  destruct (interp_at iv s) as [r| |] eqn:E; cbn [obind]; [|reflexivity|].
  2:{ exfalso. destruct (Classical_Prop.classic (covered tolerance (ipoints iv) s)) as [C|C].
      - destruct (K1 C) as (r & Q & _). discriminate Q.
      - discriminate (K2 C). }
  destruct (Classical_Prop.classic (covered tolerance (ipoints iv) s)) as [C|C]; [|discriminate (K2 C)].
  destruct (K1 C) as (r' & Q & L & _). injection Q as <-.
  destruct I as [->|I]; [contradiction|].
  assert (Ld : (List.length done < List.length (ipoints v))%nat) by (rewrite P, app_length; cbn [List.length]; lia).
  destruct (set_segment_ok v (List.length done) start r T Ld) as (v1 & E1 & P1 & I1 & L1 & _); [rewrite L; exact B|].
  rewrite L in E1. rewrite E1. cbn [obind].
  replace (S (List.length done)) with (List.length (done ++ [s])) by (rewrite app_length; cbn; lia).
  apply (IH (done ++ [s]) v1 t); auto.
  - rewrite P1, P, <- app_assoc. reflexivity.
  - unfold table_of in *. rewrite P1, I1, L1. exact T.
  - rewrite I1. exact B.
Qed.

(** ** The table of a document *)
Lemma concat_table (rows : list (R * list R)) m : (forall tr, In tr rows -> List.length (snd tr) = m) ->
  table_of (map fst rows) m (List.concat (map snd rows)) /\
  forall i k, (i < List.length rows)%nat -> (k < m)%nat ->
    entry (List.concat (map snd rows)) m i k = nth k (snd (nth i rows (0%R, []))) 0%R.
Proof.
  intro L. split.
  - unfold table_of. rewrite map_length. induction rows as [|tr rows IH]; [reflexivity|]. cbn [map List.concat List.length].
    rewrite app_length, IH, L by (try (left; reflexivity); intros; apply L; right; auto). lia.
  - induction rows as [|tr rows IH]; intros i k I K; [cbn in I; lia|]. cbn [map List.concat].
    assert (Lt : List.length (snd tr) = m) by (apply L; left; reflexivity). unfold entry. destruct i as [|i]; cbn [nth].
    + rewrite app_nth1 by lia. reflexivity.
    + rewrite app_nth2 by nia. rewrite Lt. replace (S i * m + k - m)%nat with (i * m + k)%nat by nia.
      apply IH; auto. intros; apply L; right; auto. cbn in I. lia.
Qed.

(** ** Saving *)
Lemma nth_segment (l : list R) s len k : (k < len)%nat -> (s + len <= List.length l)%nat -> nth_error (firstn len (skipn s l)) k = Some (nth (s + k) l 0%R).
Proof.
  intros K B. rewrite (nth_error_nth' _ 0%R) by (rewrite firstn_length, skipn_length; lia).
  rewrite nth_firstn_lt by exact K. rewrite nth_skipn. reflexivity.
Qed.
Lemma saved_step_ok c v i : table_of (ipoints v) (iinner v) (ivalues v) -> (cc_start c + cc_count c <= iinner v)%nat ->
  (i < List.length (ipoints v))%nat ->
  saved_step c v i = Ok (row_entry "time" (nth i (ipoints v) 0%R,
     map (fun k => entry (ivalues v) (iinner v) i (cc_start c + k)) (seq 0 (cc_count c)))).
Proof.
  unfold table_of. intros T B I. unfold saved_step, get. rewrite (nth_error_nth' _ 0%R) by exact I. cbn [obind].
  unfold vector_at_index, segment.
  assert (Hb : (iinner v * i + iinner v <= List.length (ivalues v))%nat) by (rewrite T; nia).
  rewrite (proj2 (Nat.ltb_ge _ _) Hb), (proj2 (Nat.leb_le _ _) Hb). cbn [obind].
  rewrite (omapM_all _ (fun k => entry (ivalues v) (iinner v) i (cc_start c + k))).
  - cbn [omap]. reflexivity.
  - intros k K. apply in_seq in K. rewrite nth_segment by lia. unfold entry. f_equal. f_equal. lia.
Qed.
Definition doc (v : ivec) (c : control_component) : json := document "time" (cc_id c) (component_rows v (cc_start c) (cc_count c)).
Lemma saved_data c v : table_of (ipoints v) (iinner v) (ivalues v) -> (cc_start c + cc_count c <= iinner v)%nat ->
  omapM (saved_step c v) (seq 0 (List.length (ipoints v))) = Ok (map (row_entry "time") (component_rows v (cc_start c) (cc_count c))).
Proof.
  intros T B. unfold component_rows. rewrite map_map. apply omapM_all. intros i I. apply in_seq in I. apply saved_step_ok; auto. lia.
Qed.

Definition sorted_types (ts : list (string * json)) : Prop := StronglySorted before (map fst ts).
Lemma set_field_keys ts k w : sorted_types ts -> sorted_types (set_field ts k w) /\
  forall a b, In (a, b) (set_field ts k w) -> (a, b) = (k, w) \/ In (a, b) ts.
Proof.
  unfold sorted_types. induction ts as [|[k' w'] ts IH]; intro Hs.
  - cbn. split; [constructor; constructor|]. intros a b [E|[]]; auto.
  - cbn [map fst] in Hs. inversion Hs as [|? ? H1 H2]; subst. cbn [set_field].
    destruct (String.compare k k') eqn:E.
    + apply compare_eq in E. subst k'. cbn [map fst]. split; [exact Hs|]. intros a b [Q|Q]; [left; congruence|right; right; exact Q].
    + cbn [map fst]. split.
      * constructor; [exact Hs|]. constructor; [exact E|]. rewrite Forall_forall in *. intros x I. eapply before_trans; [exact E|]. apply H2, I.
      * intros a b [Q|Q]; auto.
    + apply compare_gt in E. destruct (IH H1) as [A B]. cbn [map fst]. split.
      * constructor; [exact A|]. rewrite Forall_forall in *. intros x I. apply in_map_iff in I. destruct I as [[a b] [<- I]]. cbn [fst].
        destruct (B a b I) as [Q|Q]; [injection Q as -> ->; exact E|]. apply H2. change a with (fst (a, b)). apply in_map, Q.
      * intros a b [Q|Q]; [right; left; exact Q|]. destruct (B a b Q) as [Z|Z]; auto. right. right. exact Z.
Qed.
Lemma sorted_nodup ts : sorted_types ts -> NoDup (map fst ts).
Proof.
  unfold sorted_types. induction (map fst ts) as [|x l IH]; intro Hs; constructor; inversion Hs as [|? ? H1 H2]; subst.
  - intro I. rewrite Forall_forall in H2. apply (before_irrefl x), H2, I.
  - apply IH, H1.
Qed.

(** The file after saving some components. *)
Definition file_of (v : ivec) (done : list control_component) (j : json) : Prop :=
  exists fs, j = JObj fs /\
    forall class, match field fs class with
      | None => forall c, In c done -> cc_class c <> class
      | Some w => exists ts, w = JObj ts /\ sorted_types ts /\
          (forall a b, In (a, b) ts -> exists l, b = JArr l /\ forall e, In e l -> exists x, has_id e x) /\
          forall type, field ts type = match filter (matches class type) done with [] => None | l => Some (JArr (map (doc v) l)) end
      end.
Definition saved (v : ivec) (done : list control_component) (j : json) : Prop :=
  (j = JNull /\ done = []) \/ file_of v done j.

Lemma doc_id v c : has_id (doc v c) (cc_id c).
Proof. eexists. split; reflexivity. Qed.

Lemma save_component_ok v c done j : table_of (ipoints v) (iinner v) (ivalues v) -> (cc_start c + cc_count c <= iinner v)%nat ->
  saved v done j -> exists j', save_component c v j = Ok j' /\ file_of v (done ++ [c]) j'.
Proof.
  intros T B Hs. unfold save_component.
  assert (A : exists fs1 ts, (if contains j (cc_class c) then Ok j else assign j (cc_class c) (JObj [])) = Ok (JObj fs1) /\
     field fs1 (cc_class c) = Some (JObj ts) /\ sorted_types ts /\
          (forall a b, In (a, b) ts -> exists l, b = JArr l /\ forall e, In e l -> exists x, has_id e x) /\
          (forall type, field ts type = match filter (matches (cc_class c) type) done with [] => None | l => Some (JArr (map (doc v) l)) end) /\
     forall class, class <> cc_class c -> match field fs1 class with
      | None => forall c, In c done -> cc_class c <> class
      | Some w => exists ts, w = JObj ts /\ sorted_types ts /\
          (forall a b, In (a, b) ts -> exists l, b = JArr l /\ forall e, In e l -> exists x, has_id e x) /\
          forall type, field ts type = match filter (matches class type) done with [] => None | l => Some (JArr (map (doc v) l)) end
      end).
  { destruct Hs as [[-> ->]|[fs [-> H]]].
    - exists [(cc_class c, JObj [])], []. cbn [contains assign field]. rewrite String.eqb_refl.
      split; [reflexivity|]. split; [reflexivity|]. split; [constructor|]. split; [intros a b []|]. split; [reflexivity|].
      intros class N. destruct (String.eqb_spec (cc_class c) class) as [E|_]; [congruence|]. intros ? [].
    - cbn [contains]. pose proof (H (cc_class c)) as Hc. destruct (field fs (cc_class c)) as [w|] eqn:E.
      + destruct Hc as (ts & -> & S1 & S2 & S3). exists fs, ts.
        split; [reflexivity|]. split; [exact E|]. split; [exact S1|]. split; [exact S2|]. split; [exact S3|]. intros class _. apply H.
      + cbn [assign]. eexists _, []. split; [reflexivity|]. rewrite field_set, String.eqb_refl. split; [reflexivity|].
        split; [constructor|]. split; [intros a b []|]. split.
        * intro type. cbn [field]. replace (filter (matches (cc_class c) type) done) with (@nil control_component); [reflexivity|].
          symmetry. clear -Hc. induction done as [|d done IH]; [reflexivity|]. cbn [filter].
          assert (Mc : matches (cc_class c) type d = false).
          { unfold matches. destruct (String.eqb_spec (cc_class d) (cc_class c)) as [E|_]; [exfalso; apply (Hc d); [left; reflexivity|exact E]|reflexivity]. }
          rewrite Mc. apply IH. intros c' I. apply Hc. right. exact I.
        * intros class N. rewrite field_set. destruct (String.eqb_spec (cc_class c) class) as [E'|_]; [congruence|]. apply H. }
  destruct A as (fs1 & ts & E1 & F1 & S1 & S2 & S3 & O1). rewrite E1. cbn [obind at_const]. rewrite F1. cbn [obind contains].
  assert (A2 : exists ts1 l, (if match field ts (cc_type c) with Some _ => true | None => false end then Ok (JObj ts) else assign (JObj ts) (cc_type c) (JArr []))
     = Ok (JObj ts1) /\ field ts1 (cc_type c) = Some (JArr l) /\ l = map (doc v) (filter (matches (cc_class c) (cc_type c)) done) /\
     sorted_types ts1 /\ (forall a b, In (a, b) ts1 -> exists l, b = JArr l /\ forall e, In e l -> exists x, has_id e x) /\
     forall type, type <> cc_type c -> field ts1 type = field ts type).
  { rewrite S3. destruct (filter (matches (cc_class c) (cc_type c)) done) as [|d l] eqn:E.
    - eexists _, []. cbn [assign]. split; [reflexivity|]. rewrite field_set, String.eqb_refl. split; [reflexivity|]. split; [reflexivity|].
      destruct (set_field_keys ts (cc_type c) (JArr []) S1) as [K1 K2]. split; [exact K1|]. split.
      + intros a b I. destruct (K2 a b I) as [Q|Q]; [|apply S2 with a, Q]. injection Q as -> ->. exists []. split; [reflexivity|intros e []].
      + intros type N. rewrite field_set. destruct (String.eqb_spec (cc_type c) type); [congruence|reflexivity].
    - exists ts, (map (doc v) (d :: l)). split; [reflexivity|]. split; [rewrite S3, E; reflexivity|]. split; [reflexivity|]. auto. }
  destruct A2 as (ts1 & l & E2 & F2 & -> & S1' & S2' & O2). rewrite E2. cbn [obind].
  rewrite saved_data by auto. cbn [obind at_const]. rewrite F2. cbn [obind push_back assign].
  eexists. split; [reflexivity|]. eexists. split; [reflexivity|]. intro class. rewrite field_set.
  change (JObj [("data", JArr (map (row_entry "time") (component_rows v (cc_start c) (cc_count c)))); ("id", JStr (cc_id c))]) with (doc v c).
  destruct (String.eqb_spec (cc_class c) class) as [<-|N].
  - eexists. split; [reflexivity|].
    destruct (set_field_keys ts1 (cc_type c) (JArr (map (doc v) (filter (matches (cc_class c) (cc_type c)) done) ++ [doc v c])) S1') as [K1 K2].
    split; [exact K1|]. split.
    + intros a b I. destruct (K2 a b I) as [Q|Q]; [|apply S2' with a, Q]. injection Q as -> ->. eexists. split; [reflexivity|].
      intros e J. apply in_app_iff in J. destruct J as [J|[<-|[]]]; [|eexists; apply doc_id].
      apply in_map_iff in J. destruct J as [d [<- _]]. eexists. apply doc_id.
    + intro type. rewrite field_set, filter_app. cbn [filter].
      assert (Mc : matches (cc_class c) type c = String.eqb (cc_type c) type) by (unfold matches; rewrite String.eqb_refl; reflexivity).
      rewrite Mc; clear Mc. destruct (String.eqb_spec (cc_type c) type) as [Et|Nt]; [subst type|].
      * change [doc v c] with (map (doc v) [c]). rewrite <- map_app.
        destruct (filter (matches (cc_class c) (cc_type c)) done); reflexivity.
      * rewrite app_nil_r, O2 by congruence. apply S3.
  - assert (Hf : forall type, filter (matches class type) (done ++ [c]) = filter (matches class type) done).
    { intro type. rewrite filter_app. cbn [filter].
      assert (Mc : matches class type c = false) by (unfold matches; destruct (String.eqb_spec (cc_class c) class); [congruence|reflexivity]).
      rewrite Mc. apply app_nil_r. }
    pose proof (O1 class ltac:(congruence)) as O. destruct (field fs1 class) as [w|].
    + destruct O as (ts' & -> & Z1 & Z2 & Z3). exists ts'. split; [reflexivity|]. split; [exact Z1|]. split; [exact Z2|].
      intro type. rewrite Hf. apply Z3.
    + intros d I. apply in_app_iff in I. destruct I as [I|[<-|[]]]; [apply O, I|exact N].
Qed.

Lemma save_all v : table_of (ipoints v) (iinner v) (ivalues v) ->
  forall todo done j, (forall c, In c todo -> (cc_start c + cc_count c <= iinner v)%nat) -> saved v done j ->
  exists j', save_controls_to_json todo v j = Ok j' /\ saved v (done ++ todo) j'.
Proof.
  intro T. unfold save_controls_to_json. induction todo as [|c todo IH]; intros done j B Hs.
  - exists j. rewrite app_nil_r. auto.
  - cbn [ofold]. destruct (save_component_ok v c done j T (B c (or_introl eq_refl)) Hs) as (j1 & E & F). rewrite E. cbn [obind].
    destruct (IH (done ++ [c]) j1) as (j' & E' & F'); [intros; apply B; right; auto|right; exact F|].
    exists j'. split; [exact E'|]. rewrite <- app_assoc in F'. exact F'.
Qed.
