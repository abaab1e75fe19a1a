(** * Proofs: construction of networks with stochastic nodes *)
From Coq Require Import Reals ZArith Lra Lia List Bool Arith String.
From Verif Require Import Base Interp_Model Interp_Spec Interp_Proofs Json_Model Json_Spec Json_Proofs Json_Proofs2 Defaults_Model Controls_Model Controls_Spec
  Controls_Proofs Calc Euler_Model Net_Model Net_Spec Bounds_Model States_Model States_Spec Factory_Proofs8 Sim_Spec Stoch_Model Stoch_Proofs Input_Model Input_Spec
  Input_Proofs Input_Proofs2 Input_Proofs3 Noise_Model Noise_Spec.
From Verif Require Seed_Model Seed_Spec Seed_Props.
Import ListNotations.
Local Open Scope string_scope.
Local Open Scope list_scope.

(** ** The network of the mean values *)
Definition mean_node (m : made_node) : made_node :=
  mkMade (if String.eqb (mn_type m) stochastic_type then "PQnode" else mn_type m) (mn_id m) (mn_data m).
Lemma omapM_map_eq {A B C D} (f : A -> outcome B) (g : C -> outcome D) (a : A -> C) (b : B -> D) l m :
  (forall x y, In x l -> f x = Ok y -> g (a x) = Ok (b y)) -> omapM f l = Ok m -> omapM g (map a l) = Ok (map b m).
Proof.
  intros H E. revert m E. induction l as [|x l IH]; intros m E; cbn [omapM map] in *; [injection E as <-; reflexivity|].
  apply obind_Ok in E. destruct E as (y & Ey & E). apply obind_Ok in E. destruct E as (r & Er & E). injection E as <-.
  rewrite (H x y (or_introl eq_refl) Ey). cbn [obind]. rewrite (IH (fun z w I => H z w (or_intror I)) r Er). reflexivity.
Qed.
Lemma make_noisy_mean {G} (pcg : (nat -> list Z) -> G) entropy uninit je n : make_noisy_node pcg entropy uninit je = Ok n ->
  make_node uninit (mean_entry (snd je)) = Ok (mean_node (nn_node n)) /\ mn_type (nn_node n) = fst (snd je) /\ mn_id (nn_node n) = id (snd (snd je)) /\
  ((fst (snd je) = stochastic_type /\ (exists b s, powernode_ctor uninit PQ false (snd (snd je)) = Ok b /\ mn_data (nn_node n) = b /\
      stochastic_ctor pcg (entropy (fst je)) (snd (snd je)) = Ok s /\ nn_noise n = Some (fst s) /\ nn_output n = snd s)) \/
   (fst (snd je) <> stochastic_type /\ nn_noise n = None /\ nn_output n = JNull)).
Proof.
  destruct je as [j [type data]]. unfold make_noisy_node. cbn [fst snd]. destruct (String.eqb_spec type "StochasticPQnode") as [->|N]; intro H.
  - apply obind_Ok in H. destruct H as (x & Hx & H). apply obind_Ok in H. destruct H as (d & Hd & H). apply omap_Ok in H. destruct H as (so & Hs & ->).
    cbn [nn_node nn_noise nn_output mn_type mn_id mn_data]. unfold mean_entry, mean_node, make_node. cbn [fst snd mn_type mn_id mn_data].
    unfold stochastic_type at 1. rewrite !String.eqb_refl. rewrite Hx. cbn [obind]. change (node_ctor uninit "PQnode" data) with (powernode_ctor uninit PQ false data).
    rewrite Hd. cbn [omap]. split; [reflexivity|]. split; [reflexivity|]. split; [symmetry; apply (id_of_id _ _ Hx)|]. left. split; [reflexivity|]. exists d, so. auto.
  - apply omap_Ok in H. destruct H as (m & Hm & ->). cbn [nn_node nn_noise nn_output]. destruct (node_described _ _ _ Hm) as (T & I & _). cbn [fst snd] in T, I.
    assert (E : mean_node m = m). { unfold mean_node. rewrite T. destruct (String.eqb_spec type stochastic_type); [contradiction|]. rewrite <- T. destruct m; reflexivity. }
    assert (E2 : mean_entry (type, data) = (type, data)). { unfold mean_entry. cbn [fst snd]. destruct (String.eqb_spec type stochastic_type); [contradiction|reflexivity]. }
    rewrite E, E2. auto 10.
Qed.
Lemma mean_network nodes edges : network_of (map mean_node nodes) edges = network_of nodes edges.
Proof. unfold network_of. rewrite map_map. reflexivity. Qed.
Lemma make_edge_ids nodes nodes' entry : map mn_id nodes = map mn_id nodes' -> make_edge nodes entry = make_edge nodes' entry.
Proof. intro H. unfold make_edge, edge_ends, node_named. rewrite H. reflexivity. Qed.
Lemma omapM_ext {A B} (f g : A -> outcome B) l : (forall a, f a = g a) -> omapM f l = omapM g l.
Proof. intro H. induction l as [|a l IH]; [reflexivity|]. cbn. rewrite H, IH. reflexivity. Qed.

Lemma forall2_length {A B} (Q : A -> B -> Prop) l l' : Forall2 Q l l' -> List.length l = List.length l'.
Proof. induction 1; cbn; congruence. Qed.
Lemma noisy_inv {G} (pcg : (nat -> list Z) -> G) entropy uninit ns es nodes edges : construct_noisy pcg entropy uninit (ns, es) = Ok (nodes, edges) ->
  construct uninit (map mean_entry ns, es) = Ok (map mean_node (map nn_node nodes), edges) /\
  List.length nodes = List.length ns /\
  forall j n, nth_error nodes j = Some n -> exists entry, nth_error ns j = Some entry /\ make_noisy_node pcg entropy uninit (j, entry) = Ok n.
Proof.
  unfold construct_noisy. cbn [fst snd]. intro H. apply obind_Ok in H. destruct H as (n0 & Hn & H). apply obind_Ok in H. destruct H as (e0 & He & H).
  injection H as <- <-. split; [|split].
  - unfold construct. cbn [fst snd].
    assert (E : map mean_entry ns = map (fun je => mean_entry (snd je)) (combine (seq 0 (List.length ns)) ns)).
    { rewrite <- (map_map snd mean_entry), map_snd_combine by apply seq_length. reflexivity. }
    rewrite E, map_map. rewrite (omapM_map_eq (make_noisy_node pcg entropy uninit) _ _ (fun n => mean_node (nn_node n)) _ n0); [|intros je n _ Q; apply (make_noisy_mean _ _ _ _ _ Q)|exact Hn].
    cbn [obind]. rewrite (omapM_ext _ (make_edge (map nn_node n0))); [rewrite He; reflexivity|]. intro a. apply make_edge_ids. rewrite !map_map. reflexivity.
  - apply omapM_inv in Hn. pose proof (forall2_length _ _ _ Hn) as Hl. rewrite combine_length, seq_length, Nat.min_id in Hl. congruence.
  - intros j n E. apply omapM_inv in Hn. destruct (Forall2_nth _ _ _ Hn j n E) as ([k entry] & E1 & Q).
    assert (K : nth_error ns j = Some entry /\ k = j).
    { destruct (nth_error ns j) as [en|] eqn:En.
      - rewrite (nth_numbered ns 0 j en En) in E1. injection E1 as <- <-. auto.
      - exfalso. apply nth_error_None in En. assert (X : (j < List.length (combine (seq 0 (List.length ns)) ns))%nat) by (apply nth_error_Some; congruence).
        rewrite combine_length, seq_length in X. lia. }
    destruct K as [K ->]. exists entry. auto.
Qed.

(** ** The parameters *)
Definition process_P {G} (s : stochastic_data G) : process :=
  mkProcess (stability_parameter s) (cut_off_factor s) (theta_P s) (sigma_P s) (number_of_stochastic_steps s).
Definition process_Q {G} (s : stochastic_data G) : process :=
  mkProcess (stability_parameter s) (cut_off_factor s) (theta_Q s) (sigma_Q s) (number_of_stochastic_steps s).
Lemma stochastic_inv {G} (pcg : (nat -> list Z) -> G) entropy data s o : stochastic_ctor pcg entropy data = Ok (s, o) ->
  describes_process data "theta_P" "sigma_P" (process_P s) /\ describes_process data "theta_Q" "sigma_Q" (process_Q s) /\
  exists b g out, entry_of data "boundary_values" = Some b /\ Seed_Model.stochastic_node pcg entropy (seed_value_of b) = Ok (g, out) /\
    distribution s = g /\ o = seed_output out.
Proof.
  unfold stochastic_ctor. intro H. apply obind_Ok in H. destruct H as (b & Hb & H). apply obind_Ok in H. destruct H as (st & H1 & H).
  apply obind_Ok in H. destruct H as (cu & H2 & H). apply obind_Ok in H. destruct H as (sP & H3 & H). apply obind_Ok in H. destruct H as (tP & H4 & H).
  apply obind_Ok in H. destruct H as (sQ & H5 & H). apply obind_Ok in H. destruct H as (tQ & H6 & H). apply obind_Ok in H. destruct H as (n & H7 & H).
  apply obind_Ok in H. destruct H as ([g out] & H8 & H). cbn [fst snd] in H. injection H as <- <-.
  assert (Si : forall x, number_entry data "number_of_stochastic_steps" x -> int_entry data "number_of_stochastic_steps" n).
  { intros x Hx. unfold int_at in H7. apply obind_Ok in H7. destruct H7 as (v & Ev & Q). apply at_const_entry in Ev. unfold number_entry in Hx.
    assert (v = JNum x) by congruence. subst v. cbn [get_int] in Q. destruct (_ && _)%bool in Q; [|discriminate]. injection Q as <-. exists x. split; [exact Hx|]. apply truncate_spec. }
  unfold describes_process, process_P, process_Q. cbn [stability cut_off theta sigma steps stability_parameter cut_off_factor sigma_P theta_P sigma_Q theta_Q number_of_stochastic_steps distribution].
  split; [|split]; try (repeat (split; [apply number_at_entry; assumption|]); exact Si).
  exists b, g, out. split; [apply at_const_entry, Hb|]. auto.
Qed.

(** Mean values, also next to a seed. *)
Lemma rows_valid fs n rows : control_ok n (JObj fs) -> field fs "data" = Some (JArr (map (row_entry "time") rows)) ->
  forall tr, In tr rows -> List.length (snd tr) = n.
Proof.
  intros (fs' & E & _ & _ & _ & D) F tr I. injection E as <-. apply field_in in F. destruct (D _ F) as (es & Q & H). injection Q as <-.
  specialize (H (row_entry "time" tr) (in_map _ _ _ I)). destruct (H _ eq_refl) as [_ B].
  destruct (B _ (or_intror (or_introl eq_refl))) as [l [Q L]]. injection Q as Q. rewrite <- L.
  rewrite <- (map_length JNum (snd tr)), Q, map_length. reflexivity.
Qed.
Lemma construct_rows uninit fs rows n : control_ok n (JObj fs) -> field fs "data" = Some (JArr (map (row_entry "time") rows)) -> rows <> [] ->
  construct_from_json uninit (JObj fs) (make_boundary_schema n) = Ok (mk_ivec (map fst rows) n (List.concat (map snd rows))).
Proof.
  intros V F Ne. pose proof (rows_valid fs n rows V F) as L. destruct rows as [|tr rows]; [congruence|].
  pose proof (construct_ok uninit (JObj fs) (make_boundary_schema n) (row_entry "time" tr) (map (row_entry "time") rows) (tr :: rows) (JArr (map JNum (snd tr)))) as K.
  assert (Sz : size (JArr (map JNum (snd tr))) = n) by (cbn [size]; rewrite map_length; apply L; left; reflexivity).
  rewrite Sz in K. apply K; clear K.
  - apply valid_boundary_schema, V.
  - cbn [at_const]. rewrite F. reflexivity.
  - reflexivity.
  - change (if contains (row_entry "time" tr) "x" then "x" else "time") with "time".
    change (row_entry "time" tr :: map (row_entry "time") rows) with (map (row_entry "time") (tr :: rows)).
    clear -L. induction (tr :: rows) as [|[t r] l IH]; constructor.
    + split; [reflexivity|]. split; [|apply (L (t, r)); left; reflexivity]. apply row_of_entry. discriminate.
    + apply IH. intros x I. apply L. right. exact I.
Qed.
Lemma means_described uninit data k ext G B iv : powernode_ctor uninit k ext data = Ok (DPower k ext G B iv) -> means_given data (Input_Model.boundary_of iv).
Proof.
  unfold powernode_ctor. intro H. apply obind_Ok in H. destruct H as (b & Hb & H). apply obind_Ok in H. destruct H as (iv' & Hv & H).
  apply obind_Ok in H. destruct H as (G' & HG & H). apply obind_Ok in H. destruct H as (B' & HB & H). injection H as <- <- <-.
  intros fs rows E F Ne Inc. apply at_const_entry in Hb. assert (b = JObj fs) by congruence. subst b.
  assert (V : control_ok 2 (JObj fs)).
  { apply valid_boundary_schema. unfold construct_from_json, validate_json in Hv. destruct (valid _ _ _); [reflexivity|discriminate]. }
  pose proof (rows_valid fs 2 rows V F) as L. rewrite (construct_rows _ _ _ _ V F Ne) in Hv. injection Hv as <-. split; [exact L|]. intro t.
  destruct (table_given rows 2 Ne Inc L t) as [P Q]. unfold Input_Model.boundary_of. split; intro Cv.
  - destruct (P Cv) as (row & R & Lr & K). rewrite R. cbn [omap]. eexists. split; [reflexivity|]. intros m Hm. unfold vec_of. apply K, Hm.
  - rewrite (Q Cv). reflexivity.
Qed.
Lemma powernode_shape uninit k ext data d : powernode_ctor uninit k ext data = Ok d -> exists G B iv, d = DPower k ext G B iv.
Proof.
  unfold powernode_ctor. intro H. apply obind_Ok in H. destruct H as (b & Hb & H). apply obind_Ok in H. destruct H as (iv' & Hv & H).
  apply obind_Ok in H. destruct H as (G' & HG & H). apply obind_Ok in H. destruct H as (B' & HB & H). injection H as <-. eauto.
Qed.

(** ** The paths *)
Lemma abs_between x a : (Rabs x <= a -> - a <= x <= a)%R.
Proof. intro H. unfold Rabs in H. destruct (Rcase_abs x); lra. Qed.
Lemma oup_step_cut c theta mu sigma h xi x : cut_to c mu (x + theta * (mu - x) * h + sigma * xi)%R (oup_step c theta mu sigma h xi x).
Proof.
  unfold oup_step, cut_to. cbv zeta. set (v := (x + theta * (mu - x) * h + sigma * xi)%R). clearbody v. split.
  - intros ->. unfold sgn. assert (E : Rltb 0 0 = false) by (apply Rltb_false; lra). rewrite E.
    rewrite (proj2 (Rltb_false _ _)) by lra. rewrite (proj2 (Rltb_false _ _)) by lra. reflexivity.
  - intros Hm Hc. unfold sgn. destruct (Rlt_le_dec 0 mu) as [P|P].
    + rewrite (proj2 (Rltb_true 0 mu)) by lra. rewrite (proj2 (Rltb_false mu 0)) by lra. replace (1 - 0)%R with 1%R by ring.
      rewrite (Rabs_pos_eq mu) by lra.
      destruct (Rltb (1 * v) ((1 - c) * 1 * mu)) eqn:A; [apply Rltb_true in A|apply Rltb_false in A].
      * split; [rewrite Rabs_left1 by nra; lra|]. intros z Hz. apply abs_between in Hz. rewrite (Rabs_left1 (v - (1 - c) * mu)) by lra. rewrite Rabs_left1 by lra. lra.
      * destruct (Rltb ((1 + c) * 1 * mu) (1 * v)) eqn:A2; [apply Rltb_true in A2|apply Rltb_false in A2].
        -- split; [rewrite Rabs_pos_eq by nra; lra|]. intros z Hz. apply abs_between in Hz. rewrite !Rabs_pos_eq by lra. lra.
        -- split; [apply Rabs_le; lra|]. intros z _. replace (v - v)%R with 0%R by ring. rewrite Rabs_R0. apply Rabs_pos.
    + assert (N : (mu < 0)%R) by lra. rewrite (proj2 (Rltb_false 0 mu)) by lra. rewrite (proj2 (Rltb_true mu 0)) by lra. replace (0 - 1)%R with (-1)%R by ring.
      rewrite (Rabs_left1 mu) by lra.
      destruct (Rltb (-1 * v) ((1 - c) * -1 * mu)) eqn:A; [apply Rltb_true in A|apply Rltb_false in A].
      * split; [rewrite Rabs_pos_eq by nra; lra|]. intros z Hz. apply abs_between in Hz. rewrite !Rabs_pos_eq by lra. lra.
      * destruct (Rltb ((1 + c) * -1 * mu) (-1 * v)) eqn:A2; [apply Rltb_true in A2|apply Rltb_false in A2].
        -- split; [rewrite Rabs_left1 by nra; lra|]. intros z Hz. apply abs_between in Hz. rewrite !Rabs_left1 by lra. lra.
        -- split; [apply Rabs_le; lra|]. intros z _. replace (v - v)%R with 0%R by ring. rewrite Rabs_R0. apply Rabs_pos.
Qed.
Lemma oup_path n draw c theta mu sigma h : forall k x, exists path, path 0%nat = x /\ path n = oup_loop n draw k c theta mu sigma h x /\
  forall i, (i < n)%nat -> cut_to c mu (path i + theta * (mu - path i) * h + sigma * draw (k + i)%nat 0 (sqrt h))%R (path (S i)).
Proof.
  induction n as [|n IH]; intros k x; [exists (fun _ => x); split; [reflexivity|split; [reflexivity|lia]]|].
  cbn [oup_loop]. set (y := oup_step c theta mu sigma h (draw k 0%R (sqrt h)) x). destruct (IH (S k) y) as (path & P0 & Pn & Ps).
  exists (fun i => match i with O => x | S i' => path i' end). split; [reflexivity|]. split; [exact Pn|]. intros [|i] Hi.
  - rewrite P0, Nat.add_0_r. apply oup_step_cut.
  - replace (k + S i)%nat with (S k + i)%nat by lia. apply Ps. lia.
Qed.
Lemma sample_end {G} (s : stochastic_data G) draw k last th mean dt sg v k' : sample_path s draw k last th mean dt sg = Ok (v, k') ->
  path_end (mkProcess (stability_parameter s) (cut_off_factor s) th sg (number_of_stochastic_steps s)) draw k k' last mean dt v.
Proof.
  unfold sample_path, euler_maruyama_oup. intro H. apply obind_Ok in H. destruct H as (n & Hn & H). rewrite Hn in H. cbn [omap] in H. injection H as <- <-.
  destruct (steps_ok _ _ _ _ _ Hn) as (A & T & L & U & _).
  destruct (oup_path (Z.to_nat n) draw (cut_off_factor s) th mean sg (dt / IZR n) k last) as (path & P0 & Pn & Ps).
  exists (Z.to_nat n), (dt / IZR n)%R, path. cbn [stability cut_off theta sigma steps].
  split; [reflexivity|]. split; [lia|]. split; [exact A|]. split; [exact T|]. split; [|split; [|split; [|auto]]].
  - intro Hp. assert (Q : (0 < IZR n)%R) by (apply IZR_lt; lia). assert (E : INR (Z.to_nat n) = IZR n) by (rewrite INR_IZR_INZ, Z2Nat.id by lia; reflexivity).
    rewrite E. split; [field; lra|]. apply U. lia.
  - intro Z0. assert (n = 0)%Z by lia. subst n. assert (S0 : number_of_stochastic_steps s = 0%Z) by lia. split; [exact S0|].
    intros [Tp Dp]. revert Hn. unfold compute_stable_number_of_oup_steps. rewrite S0. cbn [Z.ltb Z.compare Z.eqb].
    rewrite (proj2 (Rleb_false (stability_parameter s) 0)), (proj2 (Rleb_false 2 (stability_parameter s))), (proj2 (Rltb_false th 0)), (proj2 (Rltb_true 0 th)), (proj2 (Rltb_true 0 dt)) by lra.
    cbn [orb andb]. destruct (_ <=? _)%Z; [|discriminate]. intro E. injection E as E.
    assert (C : (0 <= IZR (Rceil (th * dt / stability_parameter s)))%R).
    { destruct (Rceil_spec (th * dt / stability_parameter s)) as [C _]. assert (0 < th * dt / stability_parameter s)%R by (apply Rdiv_lt_0_compat; nra). lra. }
    apply le_IZR in C. lia.
  - intros Lt Sp. revert Hn. unfold compute_stable_number_of_oup_steps.
    rewrite (proj2 (Rleb_false (stability_parameter s) 0)), (proj2 (Rleb_false 2 (stability_parameter s))), (proj2 (Rltb_false th 0)) by lra. cbn [orb].
    destruct (Z.ltb_spec (number_of_stochastic_steps s) 0); [lia|]. destruct (Z.eqb_spec (number_of_stochastic_steps s) 0); [lia|].
    destruct (Rleb (stability_parameter s) (th * (dt / IZR (number_of_stochastic_steps s)))) eqn:E; [intros _; apply Rleb_true, E|]. intro Q. injection Q as <-. lia.
Qed.
