(** * Proofs: controls and initial values of a run *)
From Coq Require Import Reals ZArith Lra Lia List Bool Arith String.
From Verif Require Import Base Interp_Model Interp_Spec Interp_Proofs Interp_Props Json_Model Json_Spec Json_Proofs Json_Proofs2 Json_Proofs3 Json_Props Defaults_Model
  Controls_Model Controls_Spec Controls_Proofs Controls_Proofs2 Controls_Proofs3 Controls_Props Calc Euler_Model Euler_Spec Newton_Model Evolve_Model
  Net_Model Net_Spec Net_Proofs5 States_Model States_Spec States_Proofs3 States_Proofs5 Factory_Model Factory_Spec Factory_Proofs8 Sim_Model Sim_Spec
  Input_Model Input_Spec Input_Proofs Input_Proofs2 Input_Proofs3.
Import ListNotations.
Local Open Scope string_scope.
Local Open Scope list_scope.

(** ** Control grid *)
Lemma int_entry_unique settings key n m : int_entry settings key n -> int_entry settings key m -> n = m.
Proof.
  intros (x & E & A & B) (y & F & C & D). assert (x = y) by (unfold number_entry in *; congruence). subst y.
  destruct (Rle_lt_dec 0 x) as [H|H].
  - specialize (A H). specialize (C H). assert (n < m + 1)%Z by (apply lt_IZR; rewrite plus_IZR; lra). assert (m < n + 1)%Z by (apply lt_IZR; rewrite plus_IZR; lra). lia.
  - specialize (B H). specialize (D H). assert (n - 1 < m)%Z by (apply lt_IZR; rewrite minus_IZR; lra). assert (m - 1 < n)%Z by (apply lt_IZR; rewrite minus_IZR; lra). lia.
Qed.
Lemma contains_entry j k : contains j k = match entry_of j k with Some _ => true | None => false end.
Proof. destruct j; reflexivity. Qed.
Lemma timedata_numbers settings t : timedata_ctor settings = Ok t ->
  number_entry settings "start_time" (starttime t) /\ number_entry settings "end_time" (endtime t).
Proof.
  unfold timedata_ctor. intro H. apply obind_Ok in H. destruct H as (a & Ha & H). apply obind_Ok in H. destruct H as (b & Hb & H).
  apply obind_Ok in H. destruct H as (d & Hd & H). apply omap_Ok in H. destruct H as (n & _ & ->). cbn [starttime endtime]. split; apply number_at_entry; assumption.
Qed.
Lemma control_grid all settings t points : timedata_ctor settings = Ok t -> control_points t all = Ok points -> control_times_of all settings points.
Proof.
  intros T H. destruct (timedata_numbers settings t T) as [Na Nb]. unfold control_points in H. rewrite contains_entry in H. unfold control_times_of.
  destruct (entry_of all "control_settings") as [c|] eqn:E; [|apply (points_grid settings t points T H)].
  apply obind_Ok in H. destruct H as (c' & Ec & H). apply at_const_entry in Ec. assert (c' = c) by congruence. subst c'.
  exists (starttime t), (endtime t). split; [exact Na|]. split; [exact Nb|]. rewrite !contains_entry in H.
  destruct (entry_of c "desired_delta_t") as [d|] eqn:Ed, (entry_of c "number_of_steps") as [n|] eqn:En; cbn [andb] in H; try discriminate.
  - apply obind_Ok in H. destruct H as (x & Hx & H). exists x. split; [apply number_at_entry, Hx|]. apply omap_Ok in H. destruct H as (g & Hg & ->).
    destruct (Rlt_le_dec (starttime t) (endtime t)) as [L|L]; [|rewrite C03_bad_arguments_rejected in Hg by auto; discriminate].
    destruct (Rlt_le_dec 0 x) as [P|P]; [|rewrite C03_bad_arguments_rejected in Hg by auto; discriminate].
    destruct (C03_time_grid _ _ _ L P) as (g' & m & Eg & M0 & G & _ & _ & _ & S & Mi). assert (g' = g) by congruence. subst g'. exists m. auto.
  - intros m Im L M2. apply obind_Ok in H. destruct H as (z & Hz & H).
    assert (Iz : int_entry c "number_of_steps" z).
    { unfold int_at in Hz. apply obind_Ok in Hz. destruct Hz as (v & Ev & Hz). apply at_const_entry in Ev. destruct Im as (x & Ex & _).
      unfold number_entry in Ex. assert (v = JNum x) by congruence. subst v. cbn [get_int] in Hz. destruct (_ && _)%bool in Hz; [|discriminate].
      injection Hz as <-. exists x. split; [exact Ex|]. apply truncate_spec. }
    rewrite <- (int_entry_unique _ _ _ _ Im Iz) in H. apply omap_Ok in H. destruct H as (g & Hg & ->).
    destruct (C03_number_of_points_grid _ _ m L M2) as (g' & Eg & G). assert (g' = g) by congruence. subst g'. exact G.
Qed.

(** ** Control indices *)
Definition cmoved (c : control_component) (s : nat) : control_component := mkControl (cc_class c) (cc_type c) (cc_id c) s (cc_count c).
Lemma cindices_flat {A} (f : A -> list control_component) (size : A -> nat) l :
  (forall a, In a l -> (f a = [] /\ size a = 0%nat) \/ exists c, f a = [c] /\ cc_count c = size a) ->
  forall next, snd (set_control_indices next (flat_map f l)) = snd (assign_indices next (map size l)) /\
    forall i a c, nth_error l i = Some a -> In c (f a) ->
      In (cmoved c (fst (nth i (fst (assign_indices next (map size l))) (0, 0)%nat))) (fst (set_control_indices next (flat_map f l))).
Proof.
  induction l as [|a l IH]; intros H next.
  - split; [reflexivity|]. intros [|i] a c E; discriminate.
  - assert (Hl : forall a, In a l -> (f a = [] /\ size a = 0%nat) \/ exists c, f a = [c] /\ cc_count c = size a) by (intros; apply H; right; auto).
    cbn [flat_map map assign_indices]. destruct (H a (or_introl eq_refl)) as [[Ef Es]|[c [Ef Es]]]; rewrite Ef.
    + rewrite Es, Nat.add_0_r. cbn [app]. destruct (IH Hl next) as [A1 A2].
      destruct (assign_indices next (map size l)) as [blocks after]. cbn [fst snd] in *. split; [exact A1|].
      intros [|i] b c E I; cbn in E; [injection E as <-; rewrite Ef in I; destruct I|]. cbn [nth]. apply (A2 i b c E I).
    + cbn [app set_control_indices]. rewrite Es. destruct (IH Hl (next + size a)%nat) as [A1 A2].
      destruct (assign_indices (next + size a) (map size l)) as [blocks after]. cbn [fst snd] in *. split; [exact A1|].
      intros [|i] b c' E I; cbn in E.
      * injection E as <-. rewrite Ef in I. destruct I as [<-|[]]. left. unfold cmoved. cbn [nth fst]. rewrite Es. reflexivity.
      * right. cbn [nth]. apply (A2 i b c' E I).
Qed.
Definition controls_of_edge (e : made_edge) : list control_component :=
  match e_type (me_edge e) with
  | ECompressor _ | EControlvalve => [mkControl "connections" (me_type e) (me_id e) 0 1]
  | _ => []
  end.
Lemma controls_placed nodes edges comps n : set_control_indices 0 (control_components_of edges) = (comps, n) ->
  let N := network_of nodes edges in
  n = number_of_controls N /\
  (forall i e, nth_error edges i = Some e -> controlled (e_type (me_edge e)) ->
     In (mkControl "connections" (me_type e) (me_id e) (fst (control_block N i)) 1) comps) /\
  forall c, In c comps -> cc_count c = 1%nat /\ exists i e, nth_error edges i = Some e /\ controlled (e_type (me_edge e)) /\ cc_id c = me_id e.
Proof.
  cbv zeta. intro H. change (control_components_of edges) with (flat_map controls_of_edge edges) in H.
  destruct (cindices_flat controls_of_edge (fun e => edge_controls (e_type (me_edge e))) edges) with (next := 0%nat) as [A B].
  { intros e _. unfold controls_of_edge. destruct (e_type (me_edge e)); cbn; auto; right; eexists; split; reflexivity. }
  rewrite H in A, B. cbn [fst snd] in A, B.
  assert (S : map (fun e => edge_controls (e_type (me_edge e))) edges = control_sizes (network_of nodes edges)).
  { unfold control_sizes, network_of. cbn [Net_Model.edges]. rewrite map_map. reflexivity. }
  rewrite S in A, B. split; [exact A|]. split.
  - intros i e E C. apply (B i e (mkControl "connections" (me_type e) (me_id e) 0 1) E). unfold controls_of_edge. destruct (e_type (me_edge e)); try destruct C; left; reflexivity.
  - intros c I. destruct (C65_indices _ _ _ _ H) as (M & _ & _). apply (in_map (fun c => (cc_class c, cc_type c, cc_id c, cc_count c))) in I. rewrite M in I.
    apply in_map_iff in I. destruct I as (c0 & E & I). apply in_flat_map in I. destruct I as (e & Ie & I). apply In_nth_error in Ie. destruct Ie as [i Ie].
    unfold controls_of_edge in I. assert (Q : controlled (e_type (me_edge e)) /\ c0 = mkControl "connections" (me_type e) (me_id e) 0 1).
    { destruct (e_type (me_edge e)); try destruct I as []; (split; [exact Logic.I|]); try congruence; try contradiction. }
    destruct Q as [Q ->]. injection E as _ _ E1 E2. split; [congruence|]. exists i, e. auto.
Qed.

(** ** Controls from the file *)
Lemma numbers_inj l : forall m, map JNum l = map JNum m -> l = m.
Proof. induction l as [|x l IH]; intros [|y m] H; try discriminate; [reflexivity|]. cbn [map] in H. injection H as -> H. f_equal. apply IH, H. Qed.
Lemma time_row a b : row_entry "time" a = row_entry "time" b -> a = b.
Proof. destruct a as [t l], b as [u m]. unfold row_entry. cbn [fst snd]. cbn. intro H. injection H as -> H. rewrite (numbers_inj _ _ H). reflexivity. Qed.
Lemma document_rows x rows rows' : document "time" x rows = document "time" x rows' -> rows = rows'.
Proof.
  intro R. assert (R' : map (row_entry "time") rows = map (row_entry "time") rows').
  { unfold document in R. remember (map (row_entry "time") rows) as A. remember (map (row_entry "time") rows') as B. congruence. }
  clear R. revert rows' R'. induction rows as [|a r IH]; intros [|b r'] R; try discriminate; [reflexivity|].
  cbn [map] in R. remember (row_entry "time" a) as A. remember (row_entry "time" b) as B. injection R as R1 R2.
  rewrite (time_row a b) by congruence. rewrite (IH r' R2). reflexivity.
Qed.
Definition rows_good (c : control_component) (P : list R) (rows : list (R * list R)) : Prop :=
  increasing (map fst rows) /\ rows <> [] /\ (forall tr, In tr rows -> List.length (snd tr) = cc_count c) /\
  forall t, In t P -> covered Interp_Spec.tolerance (map fst rows) t.
Lemma calls_controls uninit comps P N :
  (forall c, In c comps -> (cc_start c + cc_count c <= N)%nat) ->
  (forall n n' c c' m, nth_error comps n = Some c -> nth_error comps n' = Some c' -> column_of c m -> column_of c' m -> n = n') ->
  forall calls w, (forall n e, In (n, e) calls -> exists c rows, nth_error comps n = Some c /\ e = document "time" (cc_id c) rows /\ rows_good c P rows) ->
  (forall n e e', In (n, e) calls -> In (n, e') calls -> e = e') ->
  ipoints w = P -> iinner w = N -> table_of (ipoints w) (iinner w) (ivalues w) ->
  exists w', ofold (fun v call => obind (get comps (fst call)) (fun c => component_controls uninit c v (snd call))) calls w = Ok w' /\
    ipoints w' = P /\ iinner w' = N /\ table_of (ipoints w') (iinner w') (ivalues w') /\
    (forall n e c rows i t k, In (n, e) calls -> nth_error comps n = Some c -> e = document "time" (cc_id c) rows -> nth_error P i = Some t -> (k < cc_count c)%nat ->
       at_place rows k t (Interp_Spec.entry (ivalues w') N i (cc_start c + k))) /\
    (forall i m, (i < List.length P)%nat -> (m < N)%nat -> (forall n e c, In (n, e) calls -> nth_error comps n = Some c -> ~ column_of c m) ->
       Interp_Spec.entry (ivalues w') N i m = Interp_Spec.entry (ivalues w) N i m).
Proof.
  intros Bd Dis. induction calls as [|[n e] calls IH]; intros w H Fn EP EN T.
  - exists w. cbn [ofold]. repeat split; auto. intros n e c rows i t k [].
  - cbn [ofold fst snd]. destruct (H n e (or_introl eq_refl)) as (c & rows & Q & -> & Inc & Ne & Len & Cov).
    unfold get at 1. rewrite Q. cbn [obind]. pose proof (Bd c (nth_error_In _ _ Q)) as Bc.
    destruct (C65_set uninit (cc_start c) (cc_count c) w (cc_id c) rows Inc Ne Len T ltac:(rewrite EN; exact Bc)) as [S1 _].
    rewrite EP in S1. destruct (S1 Cov) as (w1 & f & E1 & (C1 & C2 & C3 & C4) & Fp). clear S1.
    unfold component_controls at 1. rewrite E1. cbn [obind].
    destruct (IH w1) as (w' & E' & P' & I' & T' & V' & K').
    { intros n' e' J. apply H. right. exact J. }
    { intros n' e1 e2 J1 J2. apply (Fn n'); right; assumption. }
    { congruence. } { congruence. } { unfold table_of in *. rewrite C1, C2, C3. exact T. }
    exists w'. split; [exact E'|]. split; [exact P'|]. split; [exact I'|]. split; [exact T'|].
    assert (Col : forall i m, (i < List.length P)%nat -> (m < N)%nat ->
       (forall k, m = (cc_start c + k)%nat -> (k < cc_count c)%nat -> Interp_Spec.entry (ivalues w1) N i m = f i k) /\
       ((m < cc_start c \/ cc_start c + cc_count c <= m)%nat -> Interp_Spec.entry (ivalues w1) N i m = Interp_Spec.entry (ivalues w) N i m)).
    { intros i m Hi Hm. specialize (C4 i m). rewrite C2, EP, EN in C4. apply C4; assumption. }
    split.
    + intros n' e' c' rows' i t k [J|J] Q' Ee Et Hk; [|apply (V' n' e' c' rows' i t k J Q' Ee Et Hk)].
      injection J as <- <-. assert (c' = c) by congruence. subst c'.
      assert (Hi : (i < List.length P)%nat) by (apply nth_error_Some; congruence).
      destruct (Classical_Prop.classic (exists n1 e1 c1, In (n1, e1) calls /\ nth_error comps n1 = Some c1 /\ column_of c1 (cc_start c + k))) as [X|X].
      * destruct X as (n1 & e1 & c1 & X1 & X2 & X3). assert (n1 = n) by (apply (Dis n1 n c1 c (cc_start c + k)%nat X2 Q X3); unfold column_of; lia). subst n1.
        assert (e1 = document "time" (cc_id c) rows) by (apply (Fn n); [right; exact X1|left; reflexivity]). subst e1.
        apply (V' n (document "time" (cc_id c) rows) c rows' i t k X1 Q Ee Et Hk).
      * rewrite (K' i (cc_start c + k)%nat Hi ltac:(lia)) by (intros n1 e1 c1 X1 X2 X3; apply X; eauto 10).
        rewrite (proj1 (Col i (cc_start c + k)%nat Hi ltac:(lia)) k eq_refl Hk).
        assert (R : document "time" (cc_id c) rows' = document "time" (cc_id c) rows) by congruence.
        assert (rows' = rows).
        { apply (document_rows _ _ _ R). }
        subst rows'. apply (Fp i t k Et Hk).
    + intros i m Hi Hm Z. rewrite (K' i m Hi Hm) by (intros n1 e1 c1 X1 X2; apply (Z n1 e1 c1 (or_intror X1) X2)).
      apply (proj2 (Col i m Hi Hm)). specialize (Z n _ c (or_introl eq_refl) Q). unfold column_of in Z. lia.
Qed.
Lemma time_document_id x rows : id (document "time" x rows) = x.
Proof. reflexivity. Qed.
Lemma controls_file uninit comps0 comps N w w' j : set_control_indices 0 comps0 = (comps, N) ->
  iinner w = N -> table_of (ipoints w) (iinner w) (ivalues w) ->
  good_file j -> NoDup (map cc_id comps) -> NoDup (all_ids j) ->
  (forall c, In c comps -> exists rows, In (document "time" (cc_id c) rows) (all_components j) /\ rows_good c (ipoints w) rows) ->
  set_initial_controls uninit comps w j = Ok w' ->
  ipoints w' = ipoints w /\ iinner w' = N /\ table_of (ipoints w') (iinner w') (ivalues w') /\
  forall c rows i t k, In c comps -> In (document "time" (cc_id c) rows) (all_components j) -> nth_error (ipoints w) i = Some t -> (k < cc_count c)%nat ->
    at_place rows k t (Interp_Spec.entry (ivalues w') N i (cc_start c + k)).
Proof.
  intros Si EN T G Nd Na Hc H. destruct (C65_indices _ _ _ _ Si) as (_ & _ & Cov & Dis).
  destruct (indices_ok comps0 0) as (_ & _ & _ & Bd & _). rewrite Si in Bd. cbn [fst snd] in Bd.
  destruct (C57_distribution (map cc_id comps) j G Nd) as (U & X & D). unfold set_initial_controls in H.
  destruct (distribute (map cc_id comps) j) as [calls| |] eqn:Ed; try discriminate. cbn [obind] in H.
  destruct (D calls eq_refl) as [D1 D2].
  assert (Same : forall a b, In a (all_components j) -> In b (all_components j) -> id a = id b -> a = b).
  { clear -Na. unfold all_ids in Na. induction (all_components j) as [|d l IH]; [intros a b []|].
    cbn [map] in Na. inversion Na as [|? ? N1 N2]; subst. intros a b [<-|A] [<-|B] E; auto.
    - exfalso. apply N1. rewrite E. apply in_map, B.
    - exfalso. apply N1. rewrite <- E. apply in_map, A. }
  destruct (calls_controls uninit comps (ipoints w) N) with (calls := calls) (w := w) as (w2 & E2 & P2 & I2 & T2 & V2 & _); auto.
  { intros c I. apply (Bd c I). }
  { intros n e J. apply D1 in J. destruct J as [J Q]. rewrite nth_error_map in Q. destruct (nth_error comps n) as [c|] eqn:Qc; [|discriminate].
    injection Q as Q. destruct (Hc c (nth_error_In _ _ Qc)) as (rows & I & R). exists c, rows. split; [reflexivity|]. split; [|exact R].
    apply Same; auto. }
  { intros n e e' J J'. apply D1 in J. apply D1 in J'. destruct J as [J Q], J' as [J' Q']. apply Same; auto. rewrite Q in Q'. congruence. }
  assert (w2 = w') by congruence. subst w2. split; [exact P2|]. split; [exact I2|]. split; [exact T2|].
  intros c rows i t k Ic I Et Hk. apply In_nth_error in Ic. destruct Ic as [n Ic].
  destruct (D2 n) as [e J]; [rewrite map_length; apply nth_error_Some; congruence|].
  assert (e = document "time" (cc_id c) rows).
  { apply D1 in J. destruct J as [J Q]. apply Same; auto. rewrite nth_error_map, Ic in Q. cbn in Q. rewrite time_document_id. congruence. }
  apply (V2 n e c rows i t k J Ic ltac:(assumption) Et Hk).
Qed.

(** ** Controls of a run *)
Lemma NoDup_flat {A B C : Type} (f : A -> list B) (g : B -> C) (h : A -> C) l :
  (forall a, f a = [] \/ exists b, f a = [b] /\ g b = h a) -> NoDup (map h l) -> NoDup (map g (flat_map f l)).
Proof.
  intros Q. induction l as [|a l IH]; intro H; [constructor|]. cbn [map flat_map] in *. inversion H as [|? ? Na Nl]; subst.
  destruct (Q a) as [->|[b [-> Eb]]]; cbn [app map]; [apply IH, Nl|]. constructor; [|apply IH, Nl].
  rewrite Eb. intro I. apply in_map_iff in I. destruct I as (b' & E & I). apply in_flat_map in I. destruct I as (a' & Ia & Ib).
  apply Na. destruct (Q a') as [Z|[b2 [Z E2]]]; rewrite Z in Ib; [destruct Ib|]. destruct Ib as [<-|[]]. rewrite <- E, E2. apply in_map, Ia.
Qed.
Lemma constructed_ids uninit ns es nodes edges : construct uninit (ns, es) = Ok (nodes, edges) ->
  map mn_id nodes = map (fun entry => id (snd entry)) ns /\ map me_id edges = map (fun entry => id (snd entry)) es.
Proof.
  intro H. destruct (construct_ids _ _ _ _ _ H) as [A B]. apply (f_equal (map snd)) in A. apply (f_equal (map snd)) in B. rewrite !map_map in A, B. cbn [snd] in A, B. split; symmetry; assumption.
Qed.
Lemma loop_inner start iv ts : forall i v w, set_loop start iv ts i v = Ok w -> iinner w = iinner v.
Proof.
  induction ts as [|t ts IH]; intros i v w H; cbn [set_loop] in H; [congruence|].
  apply obind_Ok in H. destruct H as (row & _ & H). apply obind_Ok in H. destruct H as (v' & E & H). rewrite (IH _ _ _ H).
  unfold set_segment in E. destruct (_ <? _)%nat in E; [discriminate|]. destruct (negb _) in E; [discriminate|]. injection E as <-. reflexivity.
Qed.
Lemma controls_inner uninit comps v j w : set_initial_controls uninit comps v j = Ok w -> iinner w = iinner v.
Proof.
  unfold set_initial_controls. intro H. apply obind_Ok in H. destruct H as (calls & _ & H). revert v H.
  induction calls as [|[n e] calls IH]; intros v H; cbn [ofold] in H; [congruence|].
  apply obind_Ok in H. destruct H as (v' & E & H). rewrite (IH _ H). apply obind_Ok in E. destruct E as (c & _ & E).
  unfold component_controls, set_simple_control_values in E. apply obind_Ok in E. destruct E as (iv & _ & E). apply (loop_inner _ _ _ _ _ _ E).
Qed.
Lemma edge_made nodes edges i e : nth_error (Net_Model.edges (network_of nodes edges)) i = Some e -> exists m, nth_error edges i = Some m /\ me_edge m = e.
Proof. cbn. rewrite nth_error_map. destruct (nth_error edges i) as [m|]; [|discriminate]. cbn. intro H. exists m. split; congruence. Qed.
Lemma made_edge_nth nodes edges i m : nth_error edges i = Some m -> nth_error (Net_Model.edges (network_of nodes edges)) i = Some (me_edge m).
Proof. intro H. cbn. rewrite nth_error_map, H. reflexivity. Qed.
Lemma run_controls uninit ns es nodes edges comps nc t all j w :
  construct uninit (ns, es) = Ok (nodes, edges) ->
  set_control_indices 0 (control_components_of edges) = (comps, nc) ->
  setup_controls uninit comps nc t all j = Ok w ->
  let N := network_of nodes edges in
  iinner w = number_of_controls N /\
  ((0 < number_of_controls N)%nat -> exists points cj, control_points t all = Ok points /\ j = Ok cj /\
     (controls_complete es N cj points -> forall s c, interp_at w s = Ok c -> controls_given es N cj points s (control_vector c))).
Proof.
  cbv zeta. intros C Ci H. destruct (controls_placed nodes edges comps nc Ci) as (En & Pl & Back). destruct (prepared_described _ _ _ _ _ C) as [_ De].
  set (N := network_of nodes edges) in *. unfold setup_controls in H. rewrite <- En. destruct (0 <? nc)%nat eqn:Z.
  - apply obind_Ok in H. destruct H as (points & Ep & H). apply obind_Ok in H. destruct H as (cj & Ej & H).
    split; [apply (controls_inner _ _ _ _ _ H)|]. intros _. exists points, cj. split; [exact Ep|]. split; [exact Ej|].
    intros (G & Na & Ne & Np & Ip & Hc) s c Es i entry e rows E1 E2 Ct Id.
    destruct (controls_file uninit _ comps nc (mk_ivec points nc (map uninit (seq 0 (nc * List.length points)))) w cj Ci eq_refl) as (P & I & T & V); auto.
    { unfold table_of. cbn [ipoints iinner ivalues]. rewrite map_length, seq_length. lia. }
    { replace (map cc_id comps) with (map cc_id (flat_map controls_of_edge edges)).
      - apply (NoDup_flat _ _ me_id); [|destruct (constructed_ids _ _ _ _ _ C) as [_ ->]; exact Ne].
        intro a. unfold controls_of_edge. destruct (e_type (me_edge a)); auto; right; eexists; split; reflexivity.
      - destruct (C65_indices _ _ _ _ Ci) as (M & _). apply (f_equal (map (fun q => snd (fst q)))) in M. rewrite !map_map in M. cbn [fst snd] in M. symmetry. exact M. }
    { intros cc Ic. destruct (Back cc Ic) as (Cn & i' & m & Em & Ctm & Eid). destruct (De i' m Em) as (entry' & Ee' & _ & Eid' & _).
      destruct (Hc i' entry' (me_edge m) Ee' (made_edge_nth nodes edges _ _ Em) Ctm) as (rows' & I1 & I2 & I3 & I4 & I5).
      exists rows'. rewrite Eid, Eid'. split; [exact I1|]. unfold rows_good. rewrite Cn. auto. }
    destruct (edge_made _ _ _ _ E2) as (m & Em & <-). destruct (De i m Em) as (entry' & Ee' & _ & Eid' & _). assert (entry' = entry) by congruence. subst entry'.
    pose proof (Pl i m Em Ct) as Ic. fold N in Ic. cbn [ipoints iinner] in *.
    destruct (C01_interpolation w s) as [A B]; [congruence|congruence|exact T|].
    destruct (Classical_Prop.classic (covered Interp_Spec.tolerance (ipoints w) s)) as [Cv|Cv]; [|rewrite (B Cv) in Es; discriminate].
    destruct (A Cv) as (row & Er & Lr & K). assert (row = c) by congruence. subst row.
    set (b := fst (control_block N i)) in *.
    assert (Hb : (b < nc)%nat).
    { destruct (C65_indices _ _ _ _ Ci) as (_ & _ & Cov & _). apply Cov. exists (mkControl "connections" (me_type m) (me_id m) b 1). split; [exact Ic|]. unfold column_of. cbn. lia. }
    exists (map (fun i => Interp_Spec.entry (ivalues w) nc i b) (seq 0 (List.length points))). split; [rewrite map_length, seq_length; reflexivity|]. split.
    + intros k t' y Et Ey.
      assert (Hk : (k < List.length points)%nat) by (apply nth_error_Some; congruence).
      rewrite nth_error_map in Ey. rewrite (nth_error_nth' (seq 0 (List.length points)) 0%nat) in Ey by (rewrite seq_length; exact Hk). rewrite seq_nth in Ey by exact Hk. cbn in Ey. injection Ey as <-.
      specialize (V _ rows k t' 0%nat Ic). cbn [cc_id cc_start cc_count] in V. rewrite Eid', Nat.add_0_r in V. apply V; auto.
    + destruct (K b ltac:(lia)) as [K1 _]. rewrite P in K1. unfold control_vector.
      apply (piecewise_ext _ _ (fun i => Interp_Spec.entry (ivalues w) (iinner w) i b)); [|exact K1].
      intros k Hk. symmetry. apply nth_error_nth. rewrite nth_error_map. rewrite (nth_error_nth' (seq 0 (List.length points)) 0%nat) by (rewrite seq_length; exact Hk).
      rewrite seq_nth by exact Hk. rewrite I. reflexivity.
  - injection H as <-. apply Nat.ltb_ge in Z. cbn [iinner no_controls]. split; [lia|]. intro. lia.
Qed.

(** ** Initial values of a run *)
Lemma node_made nodes edges i t : nth_error (Net_Model.nodes (network_of nodes edges)) i = Some t -> exists m, nth_error nodes i = Some m /\ nodetype_of m = t.
Proof. cbn. rewrite nth_error_map. destruct (nth_error nodes i) as [m|]; [|discriminate]. cbn. intro H. exists m. split; congruence. Qed.
Lemma made_node_nth nodes edges i m : nth_error nodes i = Some m -> nth_error (Net_Model.nodes (network_of nodes edges)) i = Some (nodetype_of m).
Proof. intro H. cbn. rewrite nth_error_map, H. reflexivity. Qed.
(** Power nodes ask for the same documents. *)
Definition like (k k' : state_kind) : Prop := asked k = asked k' /\ places k = places k' /\ forall y, first_state k y = first_state k' y.
Lemma like_refl k : like k k. Proof. repeat split. Qed.
Lemma node_component N jn k : node_kind (nodetype_of (snd jn)) = Some k -> exists k', like k k' /\
  node_states_of N jn = [mkState "nodes" (mn_type (snd jn)) (mn_id (snd jn)) 0 k'].
Proof.
  unfold node_states_of, nodetype_of, node_kind. destruct (mn_data (snd jn)); try discriminate. intro H. injection H as <-.
  eexists. split; [|reflexivity]. repeat split.
Qed.
Lemma edge_component m k : edge_kind (e_type (me_edge m)) = Some k -> edge_states_of m = [mkState "connections" (me_type m) (me_id m) 0 k].
Proof. unfold edge_states_of, edge_kind. destruct (e_type (me_edge m)); intro H; try discriminate; injection H as <-; reflexivity. Qed.
Lemma numbered_in {A} (l : list A) : forall k n a, In (n, a) (combine (seq k (List.length l)) l) -> (k <= n)%nat /\ nth_error l (n - k) = Some a.
Proof.
  induction l as [|x l IH]; intros k n a H; [destruct H|]. cbn [List.length seq combine] in H. destruct H as [E|H].
  - injection E as <- <-. rewrite Nat.sub_diag. split; [lia|reflexivity].
  - destruct (IH _ _ _ H) as [L E]. split; [lia|]. replace (n - k)%nat with (S (n - S k)) by lia. exact E.
Qed.
Lemma component_origin nodes edges c : In c (state_components_of nodes edges) ->
  (exists i m k, nth_error nodes i = Some m /\ node_kind (nodetype_of m) = Some k /\ like k (sc_kind c) /\ sc_id c = mn_id m) \/
  (exists i m, nth_error edges i = Some m /\ edge_kind (e_type (me_edge m)) = Some (sc_kind c) /\ sc_id c = me_id m).
Proof.
  intro I. apply in_app_or in I. destruct I as [I|I]; apply in_flat_map in I.
  - left. destruct I as ([n m] & I & Ic). apply numbered_in in I. destruct I as [_ E]. rewrite Nat.sub_0_r in E. exists n, m.
    assert (Q : exists k, node_kind (nodetype_of m) = Some k).
    { unfold node_states_of in Ic. cbn [snd] in Ic. unfold nodetype_of, node_kind. destruct (mn_data m); try destruct Ic as []. all: try contradiction. eexists. reflexivity. }
    destruct Q as [k Q]. exists k. destruct (node_component (network_of nodes edges) (n, m) k Q) as (k' & L & E').
    rewrite E' in Ic. destruct Ic as [<-|[]]. cbn [sc_kind sc_id snd]. auto.
  - right. destruct I as (m & I & Ic). apply In_nth_error in I. destruct I as [i E]. exists i, m.
    assert (Q : exists k, edge_kind (e_type (me_edge m)) = Some k).
    { unfold edge_states_of in Ic. unfold edge_kind. destruct (e_type (me_edge m)); try (eexists; reflexivity). destruct Ic. }
    destruct Q as [k Q]. rewrite (edge_component m k Q) in Ic. destruct Ic as [<-|[]]. cbn [sc_kind sc_id]. auto.
Qed.
Lemma run_initial uninit ns es nodes edges comps n j x :
  construct uninit (ns, es) = Ok (nodes, edges) -> set_state_indices 0 (state_components_of nodes edges) = (comps, n) ->
  set_initial_values uninit comps (map uninit (seq 0 n)) j = Ok x ->
  initial_complete ns es (network_of nodes edges) j -> initial_state_given ns es (network_of nodes edges) j (vec_of x).
Proof.
  intros C Si H (G & Na & Nd & He & Hn). destruct (components_placed _ _ _ _ Si) as (En & Pn & Pe). destruct (prepared_described _ _ _ _ _ C) as [Dn De].
  destruct (constructed_ids _ _ _ _ _ C) as [Idn Ide].
  destruct (state_indices (state_components_of nodes edges) 0) as (_ & Mi & Mk & _). rewrite Si in Mi, Mk. cbn [fst] in Mi, Mk.
  destruct (network_ok _ comps n j Si G) as (w & Lw & Sw & Vw); auto.
  { rewrite Mi, components_items. apply (NoDup_flat _ _ (fun a : item => match a with inl jn => mn_id (snd jn) | inr e => me_id e end)).
    - intros [jn|e]; cbn [item_states].
      + unfold node_states_of. destruct (mn_data (snd jn)); auto. right. eexists. split; reflexivity.
      + unfold edge_states_of. destruct (e_type (me_edge e)); auto; right; eexists; split; reflexivity.
    - unfold items. rewrite map_app, !map_map. rewrite map_app in Nd. rewrite <- Idn, <- Ide in Nd.
      replace (map (fun x => mn_id (snd x)) (combine (seq 0 (List.length nodes)) nodes)) with (map mn_id nodes); [exact Nd|].
      rewrite <- (map_map snd mn_id). rewrite map_snd_combine by apply seq_length. reflexivity. }
  { intros c Ic. apply In_nth_error in Ic. destruct Ic as [q Ec].
    assert (O : exists c0, In c0 (state_components_of nodes edges) /\ sc_id c0 = sc_id c /\ sc_kind c0 = sc_kind c).
    { pose proof (f_equal (fun l => nth_error l q) Mi) as E1. pose proof (f_equal (fun l => nth_error l q) Mk) as E2. cbn beta in E1, E2. rewrite !nth_error_map, Ec in E1, E2.
      destruct (nth_error (state_components_of nodes edges) q) as [c0|] eqn:E0; [|discriminate]. exists c0. cbn in E1, E2. split; [apply (nth_error_In _ _ E0)|]. split; congruence. }
    destruct O as (c0 & I0 & <- & <-). destruct (component_origin _ _ _ I0) as [(i & m & k & Em & K & (L1 & L2 & L3) & ->)|(i & m & Em & K & ->)].
    - destruct (Dn i m Em) as (entry & Ee & _ & -> & _). destruct (Hn i entry _ k Ee (made_node_nth _ edges _ _ Em) K) as (rows & I1 & I2 & I3 & I4).
      exists rows. split; [exact I1|]. unfold rows_ok in *. rewrite <- L1, <- L2. auto.
    - destruct (De i m Em) as (entry & Ee & _ & -> & _). destruct (He i entry _ _ Ee (made_edge_nth nodes _ _ _ Em) K) as (rows & I1 & I2 & I3 & I4).
      exists rows. auto. }
  assert (w = x) by (rewrite Sw in H by (rewrite map_length, seq_length; reflexivity); congruence). subst w.
  assert (Given : forall c k s rows m t, In (moved c s) comps -> like k (sc_kind c) -> In (document "x" (sc_id c) rows) (all_components j) ->
    nth_error (places k) m = Some t -> exists y q, at_place rows 0 t y /\ at_place rows 1 t q /\ vec_of x (s + 2 * m)%nat = first_state k y /\ vec_of x (s + 2 * m + 1)%nat = q).
  { intros c k s rows m t Ic (_ & L2 & L3) I Et. destruct (Vw (moved c s) rows Ic I) as (vals & [_ Sv] & St). cbn [moved sc_kind sc_start] in *.
    rewrite L2 in Et. destruct (Sv m t Et) as (y & q & Y & Q & A & B). exists y, q. split; [exact Y|]. split; [exact Q|]. unfold vec_of. rewrite L3.
    split; apply nth_error_nth; [apply St, A|rewrite <- Nat.add_assoc; apply St, B]. }
  split.
  - intros i entry e k E1 E2 K rows m t I Et. destruct (edge_made _ _ _ _ E2) as (me & Em & <-). destruct (De i me Em) as (entry' & Ee & _ & Eid & _).
    assert (entry' = entry) by congruence. subst entry'.
    apply (Given (mkState "connections" (me_type me) (me_id me) 0 k) k (fst (edge_block (network_of nodes edges) i)) rows m t); auto.
    + apply (Pe i me _ Em). rewrite (edge_component _ _ K). left. reflexivity.
    + apply like_refl.
    + cbn [sc_id]. rewrite Eid. exact I.
  - intros i entry nt k E1 E2 K rows m t I Et. destruct (node_made _ _ _ _ E2) as (mn & Em & <-). destruct (Dn i mn Em) as (entry' & Ee & _ & Eid & _).
    assert (entry' = entry) by congruence. subst entry'.
    destruct (node_component (network_of nodes edges) (i, mn) k K) as (k' & L & En').
    apply (Given (mkState "nodes" (mn_type mn) (mn_id mn) 0 k') k (fst (node_block (network_of nodes edges) i)) rows m t); auto.
    + apply (Pn i mn _ Em). rewrite En'. left. reflexivity.
    + cbn [sc_id]. rewrite Eid. exact I.
Qed.
