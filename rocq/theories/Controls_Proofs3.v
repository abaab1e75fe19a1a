(** * Proofs about control files: reading back what was saved *)
From Coq Require Import Reals List Bool Arith Lia Lra String Sorted.
From Verif Require Import Base Interp_Model Interp_Spec Interp_Proofs Interp_Proofs2 Json_Model Json_Spec Json_Proofs Json_Proofs2 Json_Proofs3
  Json_Props Defaults_Model Controls_Model Controls_Spec Controls_Proofs Controls_Proofs2.
Import ListNotations.
Local Open Scope string_scope.
Local Open Scope list_scope.

Lemma piecewise_ext tol pts f g t y : (forall i, (i < List.length pts)%nat -> f i = g i) ->
  piecewise_linear tol pts f t y -> piecewise_linear tol pts g t y.
Proof.
  intros E H. assert (L : forall i a, nth_error pts i = Some a -> f i = g i).
  { intros i a Q. apply E. apply nth_error_Some. congruence. }
  destruct H as [[i [A B]]|[[i [a [b [A [B [C D]]]]]]|[[a [A [B C]]]|[n [b [A [B [C D]]]]]]]].
  - left. exists i. rewrite <- (L i t A). auto.
  - right. left. exists i, a, b. rewrite <- (L i a A), <- (L (S i) b B). auto.
  - right. right. left. exists a. rewrite <- (L 0%nat a A). auto.
  - right. right. right. exists n, b. rewrite <- (L n b A). auto.
Qed.

Lemma set_document uninit start n v x rows : increasing (map fst rows) -> rows <> [] ->
  (forall tr, In tr rows -> List.length (snd tr) = n) ->
  table_of (ipoints v) (iinner v) (ivalues v) -> (start + n <= iinner v)%nat ->
  ((forall t, In t (ipoints v) -> covered tolerance (map fst rows) t) ->
     exists w f, set_simple_control_values uninit start v (document "time" x rows) (make_boundary_schema n) = Ok w /\
       columns_set v start n f w /\
       forall i t k, nth_error (ipoints v) i = Some t -> (k < n)%nat ->
         piecewise_linear tolerance (map fst rows) (fun i => nth k (snd (nth i rows (0%R, []))) 0%R) t (f i k)) /\
  ((exists t, In t (ipoints v) /\ ~ covered tolerance (map fst rows) t) ->
     set_simple_control_values uninit start v (document "time" x rows) (make_boundary_schema n) = Exc).
Proof.
  intros Hi Hn Hl T B. unfold set_simple_control_values.
  rewrite (construct_document uninit (make_boundary_schema n) "time" x rows n); auto.
  2:{ apply valid_boundary_schema, document_ok, Hl. }
  cbn [obind]. destruct (concat_table rows n Hl) as [Tt Te].
  assert (Hn' : map fst rows <> []) by (destruct rows; [congruence|discriminate]).
  set (iv := mk_ivec (map fst rows) n (List.concat (map snd rows))). split.
  - intro C. destruct (set_loop_full start iv v) as (w & f & Ew & Cw & Fw); auto.
    exists w, f. split; [exact Ew|]. split; [exact Cw|]. intros i t k E K.
    eapply piecewise_ext; [|apply (Fw i t k E K)]. intros i' I'. cbn [iv ivalues iinner ipoints] in *. apply Te; auto.
    rewrite map_length in I'. exact I'.
  - intros [t [I N]]. apply (set_loop_throws start iv Hi Hn' Tt (ipoints v) [] v t); auto.
Qed.

Lemma component_rows_length v start count : forall tr, In tr (component_rows v start count) -> List.length (snd tr) = count.
Proof. intros tr I. unfold component_rows in I. apply in_map_iff in I. destruct I as [i [<- _]]. cbn [snd]. rewrite map_length, seq_length. reflexivity. Qed.
Lemma component_rows_points v start count : map fst (component_rows v start count) = ipoints v.
Proof.
  unfold component_rows. rewrite map_map. cbn [fst]. apply nth_ext with 0%R 0%R; rewrite map_length, seq_length; [reflexivity|].
  intros i I. rewrite (nth_indep _ 0%R (nth 0 (ipoints v) 0%R)) by (rewrite map_length, seq_length; exact I).
  rewrite (map_nth (fun i => nth i (ipoints v) 0%R)), seq_nth by exact I. reflexivity.
Qed.
Lemma component_rows_nth v start count i k : (i < List.length (ipoints v))%nat -> (k < count)%nat ->
  nth k (snd (nth i (component_rows v start count) (0%R, []))) 0%R = entry (ivalues v) (iinner v) i (start + k).
Proof.
  intros I K. unfold component_rows.
  set (g := fun i => (nth i (ipoints v) 0%R, map (fun k => entry (ivalues v) (iinner v) i (start + k)) (seq 0 count))).
  rewrite (nth_indep _ (0%R, []) (g 0%nat)) by (rewrite map_length, seq_length; exact I).
  rewrite map_nth, seq_nth by exact I. unfold g. cbn [snd Nat.add].
  set (h := fun k => entry (ivalues v) (iinner v) i (start + k)).
  rewrite (nth_indep _ 0%R (h 0%nat)) by (rewrite map_length, seq_length; exact K).
  rewrite map_nth, seq_nth by exact K. reflexivity.
Qed.

(** One component reads what was saved for it. *)
Lemma component_back uninit c v w : increasing (ipoints v) -> ipoints v <> [] -> table_of (ipoints w) (iinner w) (ivalues w) ->
  ipoints w = ipoints v -> iinner w = iinner v -> (cc_start c + cc_count c <= iinner v)%nat ->
  exists w', component_controls uninit c w (doc v c) = Ok w' /\
    columns_set w (cc_start c) (cc_count c) (fun i k => entry (ivalues v) (iinner v) i (cc_start c + k)) w'.
Proof.
  intros Hi Hn T P I B. unfold component_controls, doc.
  destruct (set_document uninit (cc_start c) (cc_count c) w (cc_id c) (component_rows v (cc_start c) (cc_count c))) as [K _].
  { rewrite component_rows_points. exact Hi. }
  { intro E. apply Hn. rewrite <- (component_rows_points v (cc_start c) (cc_count c)), E. reflexivity. }
  { apply component_rows_length. }
  { exact T. } { rewrite I. exact B. }
  rewrite component_rows_points in K. destruct K as (w' & f & E & C & F).
  { intros t It. rewrite P in It. apply In_nth_error in It. destruct It as [i It].
    destruct (nth_error_lt (ipoints v) 0) as [a Ha]; [destruct (ipoints v); [congruence|cbn; lia]|].
    pose proof (nth_error_last (ipoints v) 0%R Hn) as Hb.
    assert (Hlt : (i < List.length (ipoints v))%nat) by (eapply nth_error_lt_inv; eauto).
    exists a, (last (ipoints v) 0%R). split; [exact Ha|]. split; [exact Hb|].
    pose proof (increasing_nth_le (ipoints v) Hi 0 i a t ltac:(lia) Ha It).
    pose proof (increasing_nth_le (ipoints v) Hi i (List.length (ipoints v) - 1) t _ ltac:(lia) It Hb).
    change tolerance with EPSILON. pose proof EPSILON_pos. lra. }
  exists w'. split; [exact E|]. destruct C as (C1 & C2 & C3 & C4). unfold columns_set. split; [exact C1|]. split; [exact C2|]. split; [exact C3|].
  intros i m Il M. destruct (C4 i m Il M) as [A1 A2]. split; [|exact A2]. intros k Ek K. rewrite (A1 k Ek K).
  assert (Iv : (i < List.length (ipoints v))%nat) by (rewrite <- P; exact Il).
  destruct (nth_error_lt (ipoints v) i Iv) as [t Ht].
  apply (piecewise_linear_unique EPSILON (ipoints v) (fun i => entry (ivalues v) (iinner v) i (cc_start c + k)) t).
  - apply Rlt_le, EPSILON_pos.
  - exact Hi.
  - change EPSILON with tolerance. eapply piecewise_ext; [|apply (F i t k); [rewrite P; exact Ht|exact K]].
    intros i' I'. apply component_rows_nth; auto.
  - left. exists i. auto.
Qed.

(** The file that was saved. *)
Lemma file_of_good v comps j : file_of v comps j -> good_file j.
Proof.
  intros [fs [-> H]]. exists fs. split; [reflexivity|].
  assert (G : forall class w, field fs class = Some w -> good_class w).
  { intros class w E. specialize (H class). rewrite E in H. destruct H as (ts & -> & S1 & S2 & _). exists ts. split; [reflexivity|].
    split; [apply sorted_nodup, S1|exact S2]. }
  split; intros w E; eapply G; eauto.
Qed.
Lemma file_of_type v comps j class type : file_of v comps j -> of_type j class type = map (doc v) (filter (matches class type) comps).
Proof.
  intros [fs [-> H]]. unfold of_type, types. specialize (H class). destruct (field fs class) as [w|].
  - destruct H as (ts & -> & _ & _ & F). rewrite F. destruct (filter (matches class type) comps); reflexivity.
  - cbn [field]. replace (filter (matches class type) comps) with (@nil control_component); [reflexivity|].
    symmetry. induction comps as [|d l IH]; [reflexivity|]. cbn [filter].
    assert (Mc : matches class type d = false).
    { unfold matches. destruct (String.eqb_spec (cc_class d) class) as [E|_]; [exfalso; apply (H d); [left; reflexivity|exact E]|reflexivity]. }
    rewrite Mc. apply IH. intros c I. apply H. right. exact I.
Qed.
Lemma in_type j class e : good_file j -> In class ["nodes"; "connections"] ->
  (In e (components j class) <-> exists type, In e (of_type j class type)).
Proof.
  intros G I. assert (Cg : class_good j class) by (destruct I as [<-|[<-|[]]]; [apply good_nodes|apply good_connections]; exact G).
  unfold components, of_type. rewrite in_flat_map. split.
  - intros [[t w] [J E]]. exists t. cbn [snd] in E.
    destruct G as [fs [-> [G1 G2]]]. unfold types in *. destruct (field fs class) as [x|] eqn:Q; [|destruct J].
    assert (Gc : good_class x) by (destruct I as [<-|[<-|[]]]; auto). destruct Gc as (ts & -> & N & _).
    rewrite (field_nodup ts t w N J). exact E.
  - intros [t E]. destruct (field (types j class) t) as [w|] eqn:Q; [|destruct E]. exists (t, w). split; [apply field_in, Q|exact E].
Qed.
Lemma file_of_components v comps j e : two_classes comps -> file_of v comps j ->
  (In e (all_components j) <-> exists c, In c comps /\ e = doc v c).
Proof.
  intros Tc F. pose proof (file_of_good v comps j F) as G. unfold all_components. rewrite in_app_iff.
  assert (A : forall class, In class ["nodes"; "connections"] -> (In e (components j class) <-> exists c, In c comps /\ cc_class c = class /\ e = doc v c)).
  { intros class I. rewrite (in_type j class e G I). split.
    - intros [type J]. rewrite (file_of_type v comps j class type F) in J. apply in_map_iff in J. destruct J as [c [<- J]].
      apply filter_In in J. destruct J as [J M]. unfold matches in M. apply andb_true_iff in M. destruct M as [M _]. apply String.eqb_eq in M. eauto.
    - intros [c [J [E ->]]]. exists (cc_type c). rewrite (file_of_type v comps j class (cc_type c) F). apply in_map, filter_In.
      split; [exact J|]. unfold matches. rewrite E, !String.eqb_refl. reflexivity. }
  rewrite (A "nodes"), (A "connections") by (cbn; auto). split.
  - intros [[c [J [_ ->]]]|[c [J [_ ->]]]]; eauto.
  - intros [c [J ->]]. destruct (Tc c J) as [E|[E|[]]]; [left|right]; exists c; auto.
Qed.


Lemma calls_back uninit comps v : increasing (ipoints v) -> ipoints v <> [] ->
  (forall c, In c comps -> (cc_start c + cc_count c <= iinner v)%nat) ->
  forall calls w, (forall n e, In (n, e) calls -> exists c, nth_error comps n = Some c /\ e = doc v c) ->
  table_of (ipoints w) (iinner w) (ivalues w) -> ipoints w = ipoints v -> iinner w = iinner v ->
  exists w', ofold (fun v call => obind (get comps (fst call)) (fun c => component_controls uninit c v (snd call))) calls w = Ok w' /\
    ipoints w' = ipoints v /\ iinner w' = iinner v /\ List.length (ivalues w') = List.length (ivalues w) /\
    forall i m, (i < List.length (ipoints v))%nat -> (m < iinner v)%nat ->
      ((exists n e c, In (n, e) calls /\ nth_error comps n = Some c /\ column_of c m) ->
         entry (ivalues w') (iinner v) i m = entry (ivalues v) (iinner v) i m) /\
      ((forall n e c, In (n, e) calls -> nth_error comps n = Some c -> ~ column_of c m) ->
         entry (ivalues w') (iinner v) i m = entry (ivalues w) (iinner v) i m).
Proof.
  intros Hi Hn B. induction calls as [|[n e] calls IH]; intros w H T P I.
  - exists w. cbn [ofold]. repeat split; auto. intros (n & e & c & [] & _).
  - cbn [ofold fst snd]. destruct (H n e (or_introl eq_refl)) as [c [Q ->]]. unfold get at 1. rewrite Q. cbn [obind].
    destruct (component_back uninit c v w Hi Hn T P I (B c (nth_error_In _ _ Q))) as (w1 & E1 & C1 & C2 & C3 & C4). rewrite E1. cbn [obind].
    destruct (IH w1) as (w' & E' & P' & I' & L' & N').
    { intros n' e' J. apply H. right. exact J. }
    { unfold table_of in *. rewrite C1, C2, C3. exact T. } { congruence. } { congruence. }
    exists w'. split; [exact E'|]. split; [exact P'|]. split; [exact I'|]. split; [congruence|].
    intros i m Il M. destruct (N' i m Il M) as [A1 A2].
    destruct (C4 i m) as [D1 D2]; [rewrite P; exact Il|rewrite I; exact M|]. rewrite C2, I in D1, D2.
    destruct (Classical_Prop.classic (exists n e c, In (n, e) calls /\ nth_error comps n = Some c /\ column_of c m)) as [K|K].
    + split; [intros _; apply A1, K|]. intro Z. exfalso. destruct K as (n1 & e1 & c1 & K1 & K2 & K3). apply (Z n1 e1 c1); auto. right. exact K1.
    + assert (K' : forall n e c, In (n, e) calls -> nth_error comps n = Some c -> ~ column_of c m) by (intros n1 e1 c1 K1 K2 K3; apply K; eauto 10).
      rewrite (A2 K'). split.
      * intros (n1 & e1 & c1 & [J|J] & K2 & K3); [|exfalso; eapply K'; eauto]. injection J as <- <-. rewrite Q in K2. injection K2 as <-.
        unfold column_of in K3. rewrite (D1 (m - cc_start c)%nat) by lia. f_equal. lia.
      * intro Z. apply D2. specialize (Z n (doc v c) c (or_introl eq_refl) Q). unfold column_of in Z. lia.
Qed.

Lemma round_trip uninit comps v w : increasing (ipoints v) -> ipoints v <> [] ->
  table_of (ipoints v) (iinner v) (ivalues v) -> table_of (ipoints w) (iinner w) (ivalues w) ->
  ipoints w = ipoints v -> iinner w = iinner v ->
  NoDup (map cc_id comps) -> two_classes comps -> (forall c, In c comps -> (cc_start c + cc_count c <= iinner v)%nat) ->
  exists j w', save_controls_to_json comps v JNull = Ok j /\ set_initial_controls uninit comps w j = Ok w' /\
    ipoints w' = ipoints v /\ iinner w' = iinner v /\ List.length (ivalues w') = List.length (ivalues w) /\
    forall i m, (i < List.length (ipoints v))%nat -> (m < iinner v)%nat ->
      ((exists c, In c comps /\ column_of c m) -> entry (ivalues w') (iinner v) i m = entry (ivalues v) (iinner v) i m) /\
      ((forall c, In c comps -> ~ column_of c m) -> entry (ivalues w') (iinner v) i m = entry (ivalues w) (iinner v) i m).
Proof.
  intros Hi Hn Tv Tw P I Nd Tc B.
  destruct (save_all v Tv comps [] JNull B (or_introl (conj eq_refl eq_refl))) as (j & Ej & Sj). cbn [app] in Sj. exists j.
  destruct Sj as [[-> ->]|F].
  - exists w. split; [exact Ej|]. split; [reflexivity|]. repeat split; auto. intros (c & [] & _).
  - pose proof (file_of_good v comps j F) as G. destruct (C57_distribution (map cc_id comps) j G Nd) as (U & X & D).
    assert (Dn : distribute (map cc_id comps) j <> Exc).
    { intro E. apply X in E. destruct E as [x [Ix Nx]]. apply in_map_iff in Ix. destruct Ix as [c [<- Ic]]. apply Nx.
      unfold all_ids. apply in_map_iff. exists (doc v c). split; [apply has_id_id, doc_id|]. apply (file_of_components v comps j); eauto. }
    unfold set_initial_controls. destruct (distribute (map cc_id comps) j) as [calls| |] eqn:Ed; [|congruence|congruence]. cbn [obind].
    destruct (D calls eq_refl) as [D1 D2].
    destruct (calls_back uninit comps v Hi Hn B calls w) as (w' & E' & P' & I' & L' & N').
    { intros n e J. apply D1 in J. destruct J as [J Q]. apply (file_of_components v comps j e Tc F) in J. destruct J as [c [Jc ->]].
      rewrite (has_id_id _ _ (doc_id v c)) in Q. rewrite nth_error_map in Q. destruct (nth_error comps n) as [d|] eqn:Qd; [|discriminate].
      cbn in Q. injection Q as Q. exists d. split; [reflexivity|]. f_equal.
      apply In_nth_error in Jc. destruct Jc as [n' Jc].
      assert (n = n').
      { apply (proj1 (NoDup_nth_error (map cc_id comps)) Nd); [rewrite map_length; apply nth_error_Some; congruence|].
        rewrite !nth_error_map, Qd, Jc. cbn. congruence. }
      subst n'. congruence. }
    { exact Tw. } { exact P. } { exact I. }
    exists w'. split; [exact Ej|]. split; [exact E'|]. split; [exact P'|]. split; [exact I'|]. split; [exact L'|].
    intros i m Il M. destruct (N' i m Il M) as [A1 A2]. split.
    + intros [c [Ic K]]. apply A1. apply In_nth_error in Ic. destruct Ic as [n Ic].
      destruct (D2 n) as [e J]; [rewrite map_length; apply nth_error_Some; congruence|]. eauto 10.
    + intro Z. apply A2. intros n e c _ Q. apply Z. eapply nth_error_In, Q.
Qed.

(** The indices cover everything. *)
Lemma indices_ok comps : forall next, let r := set_control_indices next comps in
  (next <= snd r)%nat /\ map cc_id (fst r) = map cc_id comps /\ (two_classes comps -> two_classes (fst r)) /\
  (forall c, In c (fst r) -> (next <= cc_start c /\ cc_start c + cc_count c <= snd r)%nat) /\
  (forall m, (next <= m < snd r)%nat -> exists c, In c (fst r) /\ column_of c m).
Proof.
  induction comps as [|c comps IH]; intro next; cbn [set_control_indices]; [cbn; repeat split; auto; try (intros ? []); intros; lia|].
  destruct (IH (next + cc_count c)%nat) as (A & B & C & D & E). cbn [fst snd map cc_id]. split; [lia|]. split; [f_equal; exact B|].
  split; [|split].
  - intros T d [<-|J]; [apply (T c); left; reflexivity|]. apply C; [|exact J]. intros d' J'. apply T. right. exact J'.
  - intros d [<-|J]; [cbn; lia|]. specialize (D d J). lia.
  - intros m M. destruct (le_lt_dec (next + cc_count c) m) as [L|L].
    + destruct (E m) as [d [J K]]; [lia|]. exists d. split; [right; exact J|exact K].
    + eexists. split; [left; reflexivity|]. unfold column_of. cbn. lia.
Qed.
