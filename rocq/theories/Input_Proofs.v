(** * Proofs: the network that is constructed from the entries *)
From Coq Require Import Reals ZArith Lra Lia List Bool Arith String.
From Verif Require Import Base Interp_Model Interp_Spec Interp_Proofs Interp_Props Json_Model Json_Spec Json_Proofs Defaults_Model Controls_Model Controls_Spec
  Controls_Proofs Controls_Proofs2 Calc Euler_Model Net_Model Net_Spec Bounds_Model Bounds_Spec Bounds_Proofs2 States_Model States_Spec States_Proofs3
  Factory_Proofs8 States_Props Sim_Spec Units_Spec Units_Props Input_Model Input_Spec.
From Verif Require Units_Model.
Import ListNotations.
Local Open Scope string_scope.
Local Open Scope list_scope.

Lemma omap_Ok {A B} (f : A -> B) x b : omap f x = Ok b -> exists a, x = Ok a /\ b = f a.
Proof. destruct x; cbn; intro H; try discriminate. injection H as <-. eauto. Qed.
Lemma at_const_entry j k v : at_const j k = Ok v -> entry_of j k = Some v.
Proof. destruct j as [| | | | |fs]; try discriminate. cbn. destruct (field fs k); congruence. Qed.
Lemma number_at_entry j k x : number_at j k = Ok x -> number_entry j k x.
Proof.
  unfold number_at, number_entry. intro H. apply obind_Ok in H. destruct H as (v & E & H). rewrite (at_const_entry _ _ _ E).
  destruct v; try discriminate. cbn in H. congruence.
Qed.
Lemma id_of_id j x : id_of j = Ok x -> id j = x /\ entry_of j "id" = Some (JStr x).
Proof.
  unfold id_of. intro H. apply obind_Ok in H. destruct H as (v & E & H). apply at_const_entry in E.
  destruct v; try discriminate. cbn in H. injection H as <-. destruct j as [| | | | |fs]; try discriminate. cbn in E |- *. rewrite E. auto.
Qed.

(** ** Boundary values *)
Lemma table_given rows n : rows <> [] -> increasing (map fst rows) -> (forall tr, In tr rows -> List.length (snd tr) = n) ->
  forall t,
    (covered Interp_Spec.tolerance (map fst rows) t ->
       exists row, interp_at (mk_ivec (map fst rows) n (List.concat (map snd rows))) t = Ok row /\ List.length row = n /\
         forall k, (k < n)%nat -> at_place rows k t (nth k row 0%R)) /\
    (~ covered Interp_Spec.tolerance (map fst rows) t -> interp_at (mk_ivec (map fst rows) n (List.concat (map snd rows))) t = Exc).
Proof.
  intros Ne Inc L t. destruct (concat_table rows n L) as [T E].
  assert (Ne' : map fst rows <> []) by (destruct rows; [congruence|discriminate]).
  destruct (C01_interpolation (mk_ivec (map fst rows) n (List.concat (map snd rows))) t Inc Ne' T) as [A B]. cbn [ipoints iinner ivalues] in A, B.
  split; [|exact B]. intro Cv. destruct (A Cv) as (row & Q & Lr & K). exists row. split; [exact Q|]. split; [exact Lr|].
  intros k Hk. destruct (K k Hk) as [P _]. unfold at_place.
  assert (Ext : forall f g y, (forall i, (i < List.length (map fst rows))%nat -> f i = g i) ->
    piecewise_linear Interp_Spec.tolerance (map fst rows) f t y -> piecewise_linear Interp_Spec.tolerance (map fst rows) g t y).
  { intros f g y H [(i & H1 & H2)|[(i & a & b & H1 & H2 & H3 & H4)|[(a & H1 & H2 & H3)|(m & b & H1 & H2 & H3 & H4)]]].
    - left. exists i. split; [exact H1|]. rewrite <- H; [exact H2|]. apply nth_error_Some. congruence.
    - right. left. exists i, a, b. repeat split; auto; try lra.
      assert (i < List.length (map fst rows))%nat by (apply nth_error_Some; congruence).
      assert (S i < List.length (map fst rows))%nat by (apply nth_error_Some; congruence). rewrite <- !H by assumption. exact H4.
    - right. right. left. exists a. repeat split; auto; try lra. rewrite <- H; [exact H3|]. apply nth_error_Some. congruence.
    - right. right. right. exists m, b. repeat split; auto; try lra. rewrite <- H; [exact H4|]. lia. }
  refine (Ext _ _ _ _ P). intros i Hi. rewrite map_length in Hi. apply E; assumption.
Qed.
Lemma read_document uninit n x rows iv : rows <> [] -> construct_from_json uninit (document "time" x rows) (make_boundary_schema n) = Ok iv ->
  (forall tr, In tr rows -> List.length (snd tr) = n) /\ iv = mk_ivec (map fst rows) n (List.concat (map snd rows)).
Proof.
  intros Ne H. assert (V : valid (depth (make_boundary_schema n)) (make_boundary_schema n) (document "time" x rows) = true).
  { unfold construct_from_json, validate_json in H. destruct (valid _ _ _); [reflexivity|discriminate]. }
  assert (L := proj1 (document_ok n x rows) (proj1 (valid_boundary_schema n _) V)). split; [exact L|].
  rewrite (construct_document uninit _ "time" x rows n) in H; auto. congruence.
Qed.
Lemma table_boundary data uninit n b iv : at_const data "boundary_values" = Ok b ->
  construct_from_json uninit b (make_boundary_schema n) = Ok iv -> boundary_given data n 1 (Input_Model.boundary_of iv).
Proof.
  intros A H x rows E Ne Inc. apply at_const_entry in A. assert (b = document "time" x rows) by congruence. subst b.
  destruct (read_document _ _ _ _ _ Ne H) as [L ->]. split; [exact L|]. intro t.
  destruct (table_given rows n Ne Inc L t) as [P Q]. unfold Input_Model.boundary_of. split; intro Cv.
  - destruct (P Cv) as (row & R & Lr & K). rewrite R. cbn [omap]. eexists. split; [reflexivity|]. intros k Hk. unfold vec_of. rewrite Rmult_1_l. apply K, Hk.
  - rewrite (Q Cv). reflexivity.
Qed.
Lemma source_given uninit data iv : source_values uninit data = Ok iv -> boundary_given data 1 1 (Input_Model.boundary_of iv).
Proof. unfold source_values. intro H. apply obind_Ok in H. destruct H as (b & A & H). apply (table_boundary data uninit 1 b iv A H). Qed.
Lemma sink_given uninit data iv : sink_values uninit data = Ok iv -> boundary_given data 1 (-1) (Input_Model.boundary_of iv).
Proof.
  rewrite <- (negative_negative iv). intro H. apply sink_backward in H. apply source_given in H.
  intros x rows E Ne Inc. destruct (H x rows E Ne Inc) as [L K]. split; [exact L|]. intro t. destruct (K t) as [P Q].
  unfold Input_Model.boundary_of in *. rewrite interp_neg. split; intro Cv.
  - destruct (P Cv) as (v & B & W). destruct (interp_at (negative iv) t) as [row| |]; try discriminate. cbn [omap] in B |- *.
    eexists. split; [reflexivity|]. intros k Hk. specialize (W k Hk). injection B as <-. unfold vec_of in *.
    replace (nth k (map Ropp row) 0%R) with (- nth k row 0)%R; [replace (-1 * - nth k row 0)%R with (1 * nth k row 0)%R by ring; exact W|].
    rewrite <- Ropp_0 at 2. rewrite map_nth. reflexivity.
  - specialize (Q Cv). destruct (interp_at (negative iv) t); try discriminate. reflexivity.
Qed.

(** ** Nodes *)
Lemma node_described uninit entry m : make_node uninit entry = Ok m ->
  mn_type m = fst entry /\ id (snd entry) = mn_id m /\ describes_node (snd entry) (fst entry) (nodetype_of m).
Proof.
  destruct entry as [type data]. unfold make_node. cbn [fst snd]. intro H. apply obind_Ok in H. destruct H as (x & Hx & H).
  apply omap_Ok in H. destruct H as (d & Hd & ->). cbn [mn_type mn_id]. split; [reflexivity|]. split; [apply (id_of_id _ _ Hx)|].
  unfold nodetype_of. cbn [mn_data]. unfold node_ctor in Hd.
  destruct (String.eqb_spec type "Innode") as [->|_]; [injection Hd as <-; constructor|].
  destruct (String.eqb_spec type "Source") as [->|_]; [apply omap_Ok in Hd; destruct Hd as (iv & Hv & ->); constructor; apply (source_given _ _ _ Hv)|].
  destruct (String.eqb type "Sink" || String.eqb type "ConstraintSink")%bool eqn:Sk.
  { apply omap_Ok in Hd. destruct Hd as (iv & Hv & ->). apply is_sink; [|apply (sink_given _ _ _ Hv)].
    apply orb_true_iff in Sk. destruct Sk as [Sk|Sk]; apply String.eqb_eq in Sk; subst; cbn; auto. }
  destruct (String.eqb_spec type "Pressureboundarynode") as [->|_]; [apply omap_Ok in Hd; destruct Hd as (iv & Hv & ->); constructor; apply (source_given _ _ _ Hv)|].
  assert (Pw : forall k ext, powernode_ctor uninit k ext data = Ok d ->
    In (type, k, ext) [("PQnode", PQ, false); ("PVnode", PV, false); ("Vphinode", Vphi, false); ("ExternalPowerplant", Vphi, true)] ->
    describes_node data type (match d with DInnode => Innode | DFlow iv => Flownode false (Input_Model.boundary_of iv)
      | DPressure iv => Pressurenode (Input_Model.boundary_of iv) | DPower k external G B iv => Powernode k external G B (Input_Model.boundary_of iv) end)).
  { intros k ext P I. unfold powernode_ctor in P. apply obind_Ok in P. destruct P as (b & A & P). apply obind_Ok in P. destruct P as (iv & Hv & P).
    apply obind_Ok in P. destruct P as (G & HG & P). apply obind_Ok in P. destruct P as (B & HB & P). injection P as <-.
    apply (is_power _ type k ext); auto using number_at_entry. apply (table_boundary data uninit 2 b iv A Hv). }
  destruct (String.eqb_spec type "PQnode") as [->|_]; [apply (Pw _ _ Hd); cbn; auto|].
  destruct (String.eqb_spec type "PVnode") as [->|_]; [apply (Pw _ _ Hd); cbn; auto|].
  destruct (String.eqb_spec type "Vphinode") as [->|_]; [apply (Pw _ _ Hd); cbn; auto|].
  destruct (String.eqb_spec type "ExternalPowerplant") as [->|_]; [apply (Pw _ _ Hd); cbn; auto|]. discriminate.
Qed.

(** ** Edges *)
Lemma position_first ids x n : position ids x = Some n -> first_with_id ids x n.
Proof.
  revert n. induction ids as [|y ids IH]; intros n H; [discriminate|]. cbn [position] in H. destruct (String.eqb_spec y x) as [->|E].
  - injection H as <-. split; [reflexivity|]. intros i Hi. lia.
  - destruct (position ids x) as [m|]; [|discriminate]. injection H as <-. destruct (IH m eq_refl) as [A B]. split; [exact A|].
    intros [|i] Hi; cbn; [congruence|]. apply B. lia.
Qed.
Lemma length_at_entry data key x : length_at data key = Ok x -> length_entry data key x.
Proof.
  unfold length_at. intro H. apply obind_Ok in H. destruct H as (j & A & H). apply at_const_entry in A.
  destruct (C42_rejects Units_Model.length_units j x ltac:(cbn; auto) H) as (u & v & name & f & -> & R & _ & ->).
  exists u, v, name, f. auto.
Qed.
Lemma pipe_described data t : pipe_ctor data = Ok t -> describes_edgetype data "Pipe" t.
Proof.
  unfold pipe_ctor. intro H. apply obind_Ok in H. destruct H as (L & HL & H). apply obind_Ok in H. destruct H as (ds & Hds & H).
  apply obind_Ok in H. destruct H as (n & Hn & H). destruct (n <? 2)%Z eqn:N2; [discriminate|]. apply Z.ltb_ge in N2.
  apply obind_Ok in H. destruct H as (d & Hd & H). apply obind_Ok in H. destruct H as (k & Hk & H).
  apply obind_Ok in H. destruct H as (sch & _ & H).
  assert (t = EPipe d k (L / IZR (n - 1)) (Z.to_nat n)) as ->.
  { destruct sch; try discriminate. repeat match type of H with context [match ?x with _ => _ end] => destruct x; try discriminate end. congruence. }
  assert (Hz : (IZR (n - 1) = INR (Z.to_nat n - 1))%R).
  { rewrite INR_IZR_INZ. f_equal. lia. }
  assert (Hp : (0 < IZR (n - 1))%R) by (apply IZR_lt; lia).
  apply (is_pipe data L ds); auto using length_at_entry, number_at_entry.
  - lia.
  - rewrite <- Hz. field. lra.
  - intro HL0. unfold pipe_number_of_points in Hn. destruct (Reqb ds 0) eqn:E0; [discriminate|].
    destruct (_ && _)%bool eqn:Bd in Hn; [|discriminate]. injection Hn as <-.
    assert (E0' : ds <> 0%R) by (intro; subst; rewrite (proj2 (Reqb_true 0 0)) in E0 by reflexivity; discriminate).
    assert (Cl : (L / ds <= IZR (Rceil (L / ds)) < L / ds + 1)%R).
    { unfold Rceil. destruct (base_Int_part (- (L / ds))) as [A B]. rewrite opp_IZR. lra. }
    assert (Pq : (0 < L / ds)%R).
    { assert (C1 : (1 <= IZR (Rceil (L / ds)))%R) by (apply IZR_le; lia). lra. }
    assert (Pd : (0 < ds)%R).
    { destruct (Rtotal_order ds 0) as [Q|[Q|Q]]; [|contradiction|exact Q]. exfalso.
      assert (L / ds < 0)%R; [|lra]. unfold Rdiv. apply Rinv_lt_0_compat in Q. nra. }
    replace (Rceil (L / ds) + 1 - 1)%Z with (Rceil (L / ds)) in * by lia. split.
    + split; [apply Rdiv_lt_0_compat; lra|]. apply Rmult_le_reg_r with (IZR (Rceil (L / ds))); [lra|].
      unfold Rdiv at 1. rewrite Rmult_assoc, Rinv_l by lra. rewrite Rmult_1_r.
      assert (L = (L / ds) * ds)%R by (field; lra). nra.
    + intros m Hm Q. assert (Pm : (0 < INR (m - 1))%R) by (apply lt_0_INR; lia).
      assert (Q' : (L / ds <= INR (m - 1))%R).
      { apply Rmult_le_reg_r with ds; [lra|]. unfold Rdiv at 1. rewrite Rmult_assoc, Rinv_l by lra. rewrite Rmult_1_r.
        apply Rmult_le_compat_r with (r := INR (m - 1)) in Q; [|lra]. unfold Rdiv in Q. rewrite Rmult_assoc, Rinv_l in Q by lra. lra. }
      assert (Q3 : (IZR (Rceil (L / ds)) < IZR (Z.of_nat (m - 1) + 1))%R) by (rewrite plus_IZR, <- INR_IZR_INZ; lra).
      apply lt_IZR in Q3. lia.
Qed.
Lemma edge_described nodes entry m : make_edge nodes entry = Ok m ->
  me_type m = fst entry /\ id (snd entry) = me_id m /\ describes_edge (map mn_id nodes) entry (me_edge m).
Proof.
  destruct entry as [type data]. unfold make_edge. cbn [fst snd]. intro H. apply obind_Ok in H. destruct H as (x & Hx & H).
  apply obind_Ok in H. destruct H as ([s t] & He & H). apply omap_Ok in H. destruct H as (et & Ht & ->). cbn [me_type me_id me_edge fst snd].
  split; [reflexivity|]. split; [apply (id_of_id _ _ Hx)|].
  assert (Nd : forall key j, node_named nodes data key = Ok j -> exists a, entry_of data key = Some (JStr a) /\ first_with_id (map mn_id nodes) a j).
  { intros key j Q. unfold node_named in Q. apply obind_Ok in Q. destruct Q as (a & Qa & Q). apply obind_Ok in Qa. destruct Qa as (ja & Qj & Qa).
    apply at_const_entry in Qj. destruct ja; try discriminate. cbn in Qa. injection Qa as <-. exists s0. split; [exact Qj|].
    destruct (position (map mn_id nodes) s0) eqn:P; [|discriminate]. injection Q as <-. apply position_first, P. }
  unfold edge_ends in He. apply obind_Ok in He. destruct He as (a & Ha & He). apply obind_Ok in He. destruct He as (b & Hb & He).
  destruct (Nat.eqb_spec a b) as [|Ne]; [discriminate|]. injection He as <- <-.
  destruct (Nd _ _ Ha) as (xa & Ea & Fa). destruct (Nd _ _ Hb) as (xb & Eb & Fb).
  split; [exists xa, xb; cbn; auto|]. split; [exact Ne|]. cbn [snd fst e_type].
  unfold edge_ctor in Ht.
  destruct (String.eqb_spec type "Pipe") as [->|_]; [apply pipe_described, Ht|].
  destruct (String.eqb_spec type "Shortpipe") as [->|_]; [injection Ht as <-; constructor|].
  destruct (String.eqb_spec type "Compressorstation") as [->|_]; [injection Ht as <-; constructor|].
  destruct (String.eqb_spec type "Controlvalve") as [->|_]; [injection Ht as <-; constructor|].
  destruct (String.eqb_spec type "Gaspowerconnection") as [->|_].
  { apply obind_Ok in Ht. destruct Ht as (g & Hg & Ht). apply obind_Ok in Ht. destruct Ht as (p & Hp & Ht). injection Ht as <-. constructor; apply number_at_entry; assumption. }
  destruct (String.eqb_spec type "Transmissionline") as [->|_]; [|discriminate].
  apply obind_Ok in Ht. destruct Ht as (g & Hg & Ht). apply obind_Ok in Ht. destruct Ht as (p & Hp & Ht). injection Ht as <-. constructor; apply number_at_entry; assumption.
Qed.

Lemma construct_inv uninit ns es nodes edges : construct uninit (ns, es) = Ok (nodes, edges) ->
  Forall2 (fun entry m => make_node uninit entry = Ok m) ns nodes /\ Forall2 (fun entry m => make_edge nodes entry = Ok m) es edges.
Proof.
  unfold construct. cbn [fst snd]. intro H. apply obind_Ok in H. destruct H as (n & Hn & H). apply obind_Ok in H. destruct H as (e & He & H).
  injection H as <- <-. split; apply omapM_inv; assumption.
Qed.
Lemma Forall2_map_r {A B C} (P : A -> C -> Prop) (f : B -> C) l m : Forall2 (fun a b => P a (f b)) l m -> Forall2 P l (map f m).
Proof. induction 1; constructor; auto. Qed.
Lemma Forall2_imp {A B} (P Q : A -> B -> Prop) l m : (forall a b, P a b -> Q a b) -> Forall2 P l m -> Forall2 Q l m.
Proof. induction 2; constructor; auto. Qed.
Lemma construct_ids uninit ns es nodes edges : construct uninit (ns, es) = Ok (nodes, edges) ->
  map (fun entry => (fst entry, id (snd entry))) ns = map (fun m => (mn_type m, mn_id m)) nodes /\
  map (fun entry => (fst entry, id (snd entry))) es = map (fun m => (me_type m, me_id m)) edges.
Proof.
  intro H. destruct (construct_inv _ _ _ _ _ H) as [A B]. split.
  - clear -A. induction A as [|x y l m P F IH]; [reflexivity|]. cbn [map]. destruct (node_described _ _ _ P) as (-> & -> & _). f_equal. exact IH.
  - clear -B. induction B as [|x y l m P F IH]; [reflexivity|]. cbn [map]. destruct (edge_described _ _ _ P) as (-> & -> & _). f_equal. exact IH.
Qed.
Lemma construct_describes uninit ns es nodes edges : construct uninit (ns, es) = Ok (nodes, edges) ->
  describes_network ns es (network_of nodes edges).
Proof.
  intro H. destruct (construct_inv _ _ _ _ _ H) as [A B]. destruct (construct_ids _ _ _ _ _ H) as [I _].
  assert (Ids : map (fun entry => id (snd entry)) ns = map mn_id nodes).
  { apply (f_equal (map snd)) in I. rewrite !map_map in I. exact I. }
  split; cbn [network_of Net_Model.nodes Net_Model.edges].
  - apply Forall2_map_r. refine (Forall2_imp _ _ _ _ _ A). intros a b P. apply (node_described _ _ _ P).
  - rewrite Ids. apply Forall2_map_r. refine (Forall2_imp _ _ _ _ _ B). intros a b P. apply (edge_described _ _ _ P).
Qed.
