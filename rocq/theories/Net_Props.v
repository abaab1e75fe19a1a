(** * Properties of the network equations: C28-C35, C52-C56 *)
From Coq Require Import Bool Reals Lra Lia List Arith Permutation.
From Coquelicot Require Import Coquelicot.
From Verif Require Import Base Interp_Model Interp_Proofs Calc Euler_Model Euler_Spec Euler_Proofs Euler_Proofs2
  Box_Model Box_Spec Box_Proofs Net_Model Net_Spec Net_Proofs Net_Proofs2 Net_Proofs3 Net_Proofs4 Net_Proofs5
  Net_Proofs6 Net_Proofs7 Net_Proofs8 Net_Proofs9 Net_Proofs10.
Import ListNotations.
Local Open Scope R_scope.

(** ** C28: pipes *)

(** With any balance law whose source is defined at the grid points, the rows strictly between
    the two boundary rows are assigned, each once, and nothing else is written. *)
Theorem C28_rows :
  forall e np bl dx t0 t1 last new,
    (2 <= np)%nat -> ge_after e = (ge_start e + 2 * np)%nat ->
    (forall j, (j < np)%nat -> exists s, bl_source bl (seg new (ge_start e + 2 * j)) = Ok s) ->
    exists ws, pipe_loop e (cell_evaluate bl dx t0 t1 last new) = Ok ws /\
      map write_index ws = seq (ge_start e + 1) (2 * np - 2) /\
      forall w, In w ws -> exists i r, w = Assign i r.
Proof. intros e np bl dx t0 t1 last new H1 H2. apply pipe_writes. split; auto. Qed.
Print Assumptions C28_rows.

Theorem C28_jacobian_new_state :
  forall n e np bl dx t0 t1 last u,
    (2 <= np)%nat -> ge_after e = (ge_start e + 2 * np)%nat -> (ge_after e <= n)%nat ->
    (forall j, (j < np)%nat -> law_differentiable_at 2 bl (seg u (ge_start e + 2 * j))) ->
    component_jacobian n (seq (ge_start e + 1) (2 * np - 2))
      (fun x => pipe_loop e (cell_evaluate bl dx t0 t1 last x)) u
      (pipe_loop e (cell_d_new_state bl dx t0 t1 last u)).
Proof.
  intros n e np bl dx t0 t1 last u H1 H2 H3 H4.
  replace (2 * np - 2)%nat with (ge_after e - ge_start e - 2)%nat by lia.
  apply jac_component; [|apply seq_NoDup]. apply (pipe_new_jac n e np); auto. split; auto.
Qed.
Print Assumptions C28_jacobian_new_state.

Theorem C28_jacobian_last_state :
  forall n e np bl dx t0 t1 u new,
    (2 <= np)%nat -> ge_after e = (ge_start e + 2 * np)%nat -> (ge_after e <= n)%nat ->
    (forall j, (j < np)%nat -> exists s, bl_source bl (seg new (ge_start e + 2 * j)) = Ok s) ->
    component_jacobian n (seq (ge_start e + 1) (2 * np - 2))
      (fun x => pipe_loop e (cell_evaluate bl dx t0 t1 x new)) u
      (pipe_loop e (cell_d_last_state bl dx t0 t1 u new)).
Proof.
  intros n e np bl dx t0 t1 u new H1 H2 H3 H4.
  replace (2 * np - 2)%nat with (ge_after e - ge_start e - 2)%nat by lia.
  apply jac_component; [|apply seq_NoDup]. apply (pipe_last_jac n e np); auto. split; auto.
Qed.
Print Assumptions C28_jacobian_last_state.

(** The contributions stay in the rows between the boundary rows and in the pipe's columns. *)
Theorem C28_entries_inside :
  forall e np bl dx t0 t1 last new ts t,
    (2 <= np)%nat -> ge_after e = (ge_start e + 2 * np)%nat ->
    pipe_loop e (cell_d_new_state bl dx t0 t1 last new) = Ok ts \/
    pipe_loop e (cell_d_last_state bl dx t0 t1 last new) = Ok ts ->
    In t ts ->
    (ge_start e < fst (fst t) < ge_after e - 1)%nat /\ (ge_start e <= snd (fst t) < ge_after e)%nat.
Proof. intros e np bl dx t0 t1 last new ts t H1 H2. apply (pipe_inside e np). split; auto. Qed.
Print Assumptions C28_entries_inside.

(** The pipe of the program uses the gas equations. *)
Theorem C28_gas_pipe :
  forall n e np d k dx t0 t1 last u c,
    ge_kind e = Pipe d k dx -> geometry d k ->
    (2 <= np)%nat -> ge_after e = (ge_start e + 2 * np)%nat -> (ge_after e <= n)%nat ->
    (forall j, (j < np)%nat -> 0 < u (ge_start e + 2 * j)%nat /\ Reynolds (u (ge_start e + 2 * j + 1)%nat) d < 4000) ->
    component_jacobian n (seq (ge_start e + 1) (2 * np - 2))
      (fun x => edge_evaluate e t0 t1 last x c) u (edge_d_new_state e t0 t1 last u c) /\
    component_jacobian n (seq (ge_start e + 1) (2 * np - 2))
      (fun x => edge_evaluate e t0 t1 x u c) last (edge_d_last_state e t0 t1 last u c) /\
    edge_d_control e = Ok [].
Proof.
  intros n e np d k dx t0 t1 last u c K G H1 H2 H3 H4.
  unfold edge_evaluate, edge_d_new_state, edge_d_last_state, edge_d_control. rewrite K.
  split; [|split; [|reflexivity]].
  - apply C28_jacobian_new_state; auto. intros j Hj. destruct (H4 j Hj) as [A B].
    apply euler_differentiable; auto. unfold seg. rewrite Nat.add_0_r. exact A.
  - apply C28_jacobian_last_state; auto. intros j Hj. eexists. apply source_ok. exact G.
Qed.
Print Assumptions C28_gas_pipe.

Definition flat (values : list R) : vec := fun k => nth k values 0.
(** Three grid points behind two foreign variables. *)
Example C28_case :
  geometry 1 (1 / 100) /\
  ge_after (mkGas 0 2 8 (Pipe 1 (1 / 100) 100)) = (ge_start (mkGas 0 2 8 (Pipe 1 (1 / 100) 100)) + 2 * 3)%nat /\
  (forall j, (j < 3)%nat -> 0 < flat [0; 0; 40; 0; 41; 0; 42; 0] (2 + 2 * j)%nat /\
     Reynolds (flat [0; 0; 40; 0; 41; 0; 42; 0] (2 + 2 * j + 1)%nat) 1 < 4000) /\
  pipe_indices (mkGas 0 2 8 (Pipe 1 (1 / 100) 100)) = Ok [3; 5]%nat.
Proof.
  split; [|split; [reflexivity|split; [|reflexivity]]].
  - unfold geometry. assert (/ 10 ^ 11 <= 1) by (rewrite <- Rinv_1; apply Rinv_le_contravar; lra). lra.
  - intros j Hj. destruct j as [|[|[|j]]]; [| | |lia]; (split; [cbn; lra|]);
      unfold Reynolds; cbn; rewrite Rabs_R0; lra.
Qed.

(** ** C29: short pipes, compressors and control valves *)
Theorem C29_equations :
  forall e t0 t1 last x c,
    ge_after e = (ge_start e + 4)%nat ->
    let s := ge_start e in
    let means (P : Prop) := exists ws, edge_evaluate e t0 t1 last x c = Ok ws /\
      map write_index ws = [(s + 1)%nat; (s + 2)%nat] /\
      ((forall v, run_writes ws v (s + 1)%nat = 0 /\ run_writes ws v (s + 2)%nat = 0) <-> P) in
    match ge_kind e with
    | Shortpipe => means (x (s + 2)%nat = x s /\ x (s + 3)%nat = x (s + 1)%nat)
    | Compressorstation i => means (x (s + 2)%nat = x s + c i /\ x (s + 3)%nat = x (s + 1)%nat)
    | Controlvalve i => means (x (s + 2)%nat = x s - c i /\ x (s + 3)%nat = x (s + 1)%nat)
    | _ => True
    end.
Proof.
  intros e t0 t1 last x c Hs. cbv zeta. unfold edge_evaluate.
  assert (Z : forall a b (P : Prop), (a = 0 /\ b = 0 <-> P) ->
    exists ws, Ok (short_rows e a b) = Ok ws /\
      map write_index ws = [(ge_start e + 1)%nat; (ge_start e + 2)%nat] /\
      ((forall v, run_writes ws v (ge_start e + 1)%nat = 0 /\ run_writes ws v (ge_start e + 2)%nat = 0) <-> P)).
  { intros a b P HP. exists (short_rows e a b). split; [reflexivity|].
    unfold short_rows, equation_start_index. replace (ge_start e + 1 + 1)%nat with (ge_start e + 2)%nat by lia.
    split; [reflexivity|]. rewrite <- HP. cbn [run_writes fold_left run_write]. unfold vset.
    rewrite !Nat.eqb_refl. destruct (Nat.eqb_spec (ge_start e + 1) (ge_start e + 2)); [lia|].
    split; [intro H; apply (H (fun _ => 0))|intros H v; exact H]. }
  assert (I : forall k, seg x (end_index dend e) k = x (ge_start e + 2 + k)%nat).
  { intro k. unfold seg, end_index. f_equal. lia. }
  assert (J : forall k, seg x (end_index dstart e) k = x (ge_start e + k)%nat) by reflexivity.
  destruct (ge_kind e); auto; rewrite !short_state by exact Hs; cbn [obind]; apply Z;
    rewrite !I, !J, !Nat.add_0_r; replace (ge_start e + 2 + 1)%nat with (ge_start e + 3)%nat by lia;
    split; intros [A B]; split; lra.
Qed.
Print Assumptions C29_equations.

Theorem C29_jacobians :
  forall n m e t0 t1 last u c,
    ge_after e = (ge_start e + 4)%nat -> (ge_after e <= n)%nat ->
    match ge_kind e with
    | Shortpipe => True | Compressorstation i | Controlvalve i => (i < m)%nat | _ => False
    end ->
    let rows := [(ge_start e + 1)%nat; (ge_start e + 2)%nat] in
    component_jacobian n rows (fun x => edge_evaluate e t0 t1 last x c) u (edge_d_new_state e t0 t1 last u c) /\
    component_jacobian n rows (fun x => edge_evaluate e t0 t1 x u c) last (edge_d_last_state e t0 t1 last u c) /\
    component_jacobian m rows (fun x => edge_evaluate e t0 t1 last u x) c (edge_d_control e).
Proof.
  intros n m e t0 t1 last u c Hs Hn Hk rows.
  assert (R : edge_rows e = rows).
  { unfold edge_rows, rows. destruct (ge_kind e); try (destruct Hk; fail); rewrite Hs;
      replace (ge_start e + 4 - ge_start e - 2)%nat with 2%nat by lia; cbn [seq];
      replace (S (ge_start e + 1)) with (ge_start e + 2)%nat by lia; reflexivity. }
  assert (ND : NoDup rows).
  { unfold rows. constructor; [intros [Q|[]]; lia|]. constructor; [intros []|constructor]. }
  assert (S : gas_size e) by (unfold gas_size; destruct (ge_kind e); try (destruct Hk; fail); exact Hs).
  assert (RG : edge_regular n e u) by (unfold edge_regular; destruct (ge_kind e); try (destruct Hk; fail); exact I).
  assert (DA : edge_data_ok n e) by (unfold edge_data_ok; destruct (ge_kind e); try (destruct Hk; fail); exact I).
  rewrite <- R in *. repeat split; apply jac_component; auto.
  - apply edge_new_jac; auto.
  - apply edge_last_jac; auto.
  - apply (edge_control_jac m n); auto. destruct (ge_kind e); auto.
Qed.
Print Assumptions C29_jacobians.

(** A compressor raising 40 bar by 3 bar. *)
Example C29_case :
  exists ws, edge_evaluate (mkGas 0 1 5 (Compressorstation 0)) 0 1 (flat []) (flat [7; 40; 2; 43; 2]) (flat [3]) = Ok ws /\
    forall v, run_writes ws v 2%nat = 0 /\ run_writes ws v 3%nat = 0.
Proof. eexists. split; [reflexivity|]. intro v. cbn. unfold vset. cbn. split; lra. Qed.

(** ** C30: junctions *)

(** [att] are the attached edge ends (an edge with two variables has no end); their rows are
    different. *)
Theorem C30_equations :
  forall (att : attached) x q,
    List.Forall has_end att -> NoDup (map end_row att) ->
    exists ws, flow_balance att x q = Ok ws /\
      Permutation (assigned ws) (map end_row att) /\
      (forall w, In w ws -> In (write_index w) (map end_row att)) /\
      ((forall r v, In r (map end_row att) -> run_writes ws v r = 0) <->
       (att <> [] ->
        (exists pr, forall de, In de att -> end_pressure de x = pr) /\
        rsum (fun de => dsign (fst de) * end_flow de x) att = q)).
Proof.
  intros att x q H ND. exists (pflow att x q). split; [apply flow_ok; exact H|].
  destruct (pflow_rows att x q) as [R A]. pose proof (flow_rows_perm att) as PM.
  pose proof (flow_rows_nodup att ND) as ND'.
  split; [rewrite R; exact PM|]. split.
  - intros w Hw. destruct (adds_ok_index _ [] w A Hw) as [K|[]]. rewrite R in K.
    eapply Permutation_in; eauto.
  - rewrite <- flow_zero by exact ND'. rewrite <- (vanishes_run _ _ R A ND').
    split; intros K r v Hr; apply K;
      [apply (Permutation_in _ PM)|apply (Permutation_in _ (Permutation_sym PM))]; exact Hr.
Qed.
Print Assumptions C30_equations.

Theorem C30_jacobian :
  forall n (att : attached) q u,
    List.Forall has_end att -> NoDup (map end_row att) ->
    NoDup (map (fun de => ge_addr (snd de)) att) ->
    (forall de, In de att -> (end_index (fst de) (snd de) + 2 <= n)%nat) ->
    (forall de, In de att -> match ge_kind (snd de) with
       | Pipe _ _ _ => 0 < u (end_index (fst de) (snd de)) | _ => True end) ->
    exists rows, Permutation rows (map end_row att) /\
      component_jacobian n rows (fun x => flow_balance att x q) u (flow_derivative att u).
Proof.
  intros n att q u H ND NA HN HR. exists (flow_rows att). split; [apply flow_rows_perm|].
  apply jac_component; [|apply flow_rows_nodup; exact ND]. apply flow_jac; auto.
  - apply List.Forall_forall. exact HN.
  - apply nodup_ends. exact NA.
  - apply List.Forall_forall. intros de Hd. specialize (HR de Hd). unfold end_regular.
    destruct (ge_kind (snd de)); auto. apply nonneg_density_ok. lra.
Qed.
Print Assumptions C30_jacobian.

(** A junction where a short pipe ends and a pipe and a compressor start. *)
Definition junction : attached :=
  [(dstart, mkGas 1 4 10 (Pipe 1 (1 / 100) 100)); (dstart, mkGas 2 10 14 (Compressorstation 0));
   (dend, mkGas 0 0 4 Shortpipe)].
Example C30_case :
  List.Forall has_end junction /\ map end_row junction = [4; 10; 3]%nat /\
  map (fun de => end_index (fst de) (snd de)) junction = [4; 10; 2]%nat /\
  map (fun de => dsign (fst de)) junction = [1; 1; -1].
Proof. repeat split; cbn; repeat constructor. Qed.

(** ** C31: pressure boundary nodes *)
Theorem C31_equations :
  forall (att : attached) x q,
    List.Forall has_end att -> NoDup (map end_row att) ->
    exists ws, pressure_evaluate att x q = Ok ws /\ assigned ws = map end_row att /\
      (forall w, In w ws -> In (write_index w) (map end_row att)) /\
      ((forall r v, In r (map end_row att) -> run_writes ws v r = 0) <->
       forall de, In de att -> end_pressure de x = q).
Proof.
  intros att x q H ND. destruct (pressure_zero att x q H ND) as [ws [E [R [A V]]]].
  exists ws. split; [exact E|]. split; [exact R|]. split.
  - intros w Hw. destruct (adds_ok_index _ [] w A Hw) as [K|[]]. rewrite R in K. exact K.
  - rewrite <- V. apply vanishes_run; auto.
Qed.
Print Assumptions C31_equations.

Theorem C31_jacobian :
  forall n (att : attached) q u,
    List.Forall has_end att -> NoDup (map end_row att) ->
    (forall de, In de att -> (end_index (fst de) (snd de) + 2 <= n)%nat) ->
    (forall de, In de att -> match ge_kind (snd de) with
       | Pipe _ _ _ => 0 < u (end_index (fst de) (snd de)) | _ => True end) ->
    component_jacobian n (map end_row att) (fun x => pressure_evaluate att x q) u (pressure_derivative att u).
Proof.
  intros n att q u H ND HN HR. apply jac_component; [|exact ND]. apply pressure_jac; auto.
  - apply List.Forall_forall. exact HN.
  - apply List.Forall_forall. intros de Hd. specialize (HR de Hd). unfold end_regular.
    destruct (ge_kind (snd de)); auto. apply nonneg_density_ok. lra.
Qed.
Print Assumptions C31_jacobian.

Example C31_case : exists ws, pressure_evaluate
    [(dstart, mkGas 2 10 14 (Compressorstation 0)); (dend, mkGas 0 0 4 Shortpipe)]
    (flat [0; 0; 50; 1; 0; 0; 0; 0; 0; 0; 50; 7]) 50 = Ok ws /\
  forall v, run_writes ws v 10%nat = 0 /\ run_writes ws v 3%nat = 0.
Proof. eexists. split; [reflexivity|]. intro v. cbn. unfold vset. cbn. split; lra. Qed.

(** ** An example network

    A pressure node feeds a pipe with three grid points to an inner node; a compressor leads from
    there to a sink, a gas power plant to an external power plant, which feeds a PQ node. *)
Definition constant (a b : R) : boundary := fun _ => Ok (v2 a b).
Definition sample : network :=
  mkNet [Pressurenode (constant 60 0); Innode; Flownode true (constant 10 0);
         Powernode Vphi true 1 0 (constant 1 0); Powernode PQ false 0 0 (constant (-1) 0)]
        [mkEdge 0 1 (EPipe 1 (1 / 100) 100 3); mkEdge 1 2 (ECompressor 1);
         mkEdge 1 3 (EGaspower 2 3); mkEdge 3 4 (ELine (-1) 2)].
Lemma geometry_sample : geometry 1 (1 / 100).
Proof. unfold geometry. assert (/ 10 ^ 11 <= 1) by (rewrite <- Rinv_1; apply Rinv_le_contravar; lra). lra. Qed.
Lemma sample_well_formed : well_formed sample.
Proof.
  unfold well_formed, sample. cbn [edges]. repeat constructor; cbn; auto; lia.
Qed.
Lemma sample_pipes : pipes_ok sample.
Proof.
  unfold pipes_ok, sample. cbn [edges].
  repeat (apply List.Forall_cons; [cbn [e_type]; repeat split; try apply geometry_sample; try lra; try exact I|]).
  apply List.Forall_nil.
Qed.
Lemma sample_boundary t : boundary_defined sample t.
Proof.
  intros [|[|[|[|[|j]]]]]; cbn; auto; try (destruct j; cbn; auto); repeat eexists.
Qed.
Definition sample_state : vec := fun k => if Nat.even k then 1 else 0.
Lemma sample_regular : regular_state sample sample_state.
Proof.
  intros i e H. destruct i as [|[|[|[|i]]]]; cbn in H; try discriminate; try (destruct i; discriminate);
    injection H as <-; cbn [e_type]; auto.
  intros m Hm. change (edge_block sample 0) with (4, 10)%nat. cbn [fst].
  destruct m as [|[|[|m]]]; [| | |lia]; cbv zeta; unfold seg, sample_state; cbn;
    (split; [lra|]); unfold Reynolds; rewrite Rabs_R0; lra.
Qed.

(** ** C32: the system is square and fully determined *)
Theorem C32_square :
  forall N t0 t1 last x c,
    well_formed N -> pipes_ok N -> boundary_defined N t1 ->
    exists ws, evaluate_writes N t0 t1 last x c = Ok ws /\
      Permutation (assigned ws) (seq 0 (number_of_states N)) /\
      (forall w, In w ws -> (write_index w < number_of_states N)%nat) /\
      forall before i r after, ws = before ++ AddTo i r :: after -> In i (assigned before).
Proof.
  intros N t0 t1 last x c W HP HB. destruct (writes_zero N t0 t1 last x c W HP HB) as [ws [[E [R A]] _]].
  exists ws. split; [exact E|]. pose proof (rows_perm N W) as PM. split; [rewrite R; exact PM|]. split.
  - intros w Hw. destruct (adds_ok_index _ [] w A Hw) as [K|[]]. rewrite R in K.
    apply (Permutation_in _ PM) in K. apply in_seq in K. lia.
  - intros before i r after Ew. subst ws. clear -A.
    assert (G : forall seen, adds_ok seen (before ++ AddTo i r :: after) -> In i (assigned before) \/ In i seen).
    { clear A. induction before as [|[j y|j y] before IH]; intros seen B; cbn in B.
      - right. tauto.
      - destruct (IH _ B) as [K|[->|K]]; [left; right; exact K|left; left; reflexivity|right; exact K].
      - destruct B as [_ B]. apply (IH _ B). }
    destruct (G [] A) as [K|[]]. exact K.
Qed.
Print Assumptions C32_square.

(** The residual does not depend on what was in the vector before; all its rows are set. *)
Theorem C32_determined :
  forall N t0 t1 last x c v,
    well_formed N -> pipes_ok N -> boundary_defined N t1 ->
    exists r, evaluate N t0 t1 last x c v = Ok r /\
      (forall i, (number_of_states N <= i)%nat -> r i = v i) /\
      forall i v' r', (i < number_of_states N)%nat -> evaluate N t0 t1 last x c v' = Ok r' -> r' i = r i.
Proof.
  intros N t0 t1 last x c v W HP HB. destruct (evaluate_zero N t0 t1 last x c v W HP HB) as [r [E [_ H]]].
  exists r. auto.
Qed.
Print Assumptions C32_determined.

Example C32_case : well_formed sample /\ pipes_ok sample /\ boundary_defined sample 7 /\ number_of_states sample = 16%nat.
Proof. split; [apply sample_well_formed|split; [apply sample_pipes|split; [apply sample_boundary|reflexivity]]]. Qed.

(** ** C33: power flow *)

(** P and Q are real and imaginary part of V conj(I). *)
Theorem C33_complex_power :
  forall N j k ext G B b x,
    well_formed N -> nth_error (nodes N) j = Some (Powernode k ext G B b) ->
    P (power_of N j) x = Ok (fst (power N j G B x)) /\
    Q (power_of N j) x = Ok (snd (power N j G B x)).
Proof.
  intros N j k ext G B b x W H.
  assert (Hp : is_power_node N j) by (unfold is_power_node; rewrite H; exact I).
  destruct (power_known N j W Hp) as [_ [l [HL _]]].
  rewrite (power_value N j k ext G B b l x W H HL). cbn [fst snd].
  split; [apply P_ok|apply Q_ok]; exact HL.
Qed.
Print Assumptions C33_complex_power.

Theorem C33_jacobian :
  forall N j k ext G B b v u,
    well_formed N -> nth_error (nodes N) j = Some (Powernode k ext G B b) ->
    let s := fst (node_block N j) in
    component_jacobian (number_of_states N) [s; (s + 1)%nat]
      (power_evaluate k (power_of N j) (v 0%nat) (v 1%nat)) u (power_d_new_state k (power_of N j) u).
Proof.
  intros N j k ext G B b v u W H s.
  assert (Hp : is_power_node N j) by (unfold is_power_node; rewrite H; exact I).
  destruct (power_known N j W Hp) as [L [l [HL HK]]].
  assert (S : pn_start (power_of N j) = s) by (unfold power_of; rewrite H; reflexivity).
  rewrite <- S. apply jac_component; [eapply power_jac; eauto|].
  constructor; [intros [K|[]]; lia|]. constructor; [intros []|constructor].
Qed.
Print Assumptions C33_jacobian.

(** A loop of two parallel lines with opposite orientation. *)
Example C33_case :
  let N := mkNet [Powernode Vphi false 3 4 (constant 1 0); Powernode PQ false 1 2 (constant 1 1)]
                 [mkEdge 0 1 (ELine 5 6); mkEdge 1 0 (ELine 7 8)] in
  well_formed N /\ pn_lines (power_of N 1) = [(7, 8, Some 0%nat); (5, 6, Some 0%nat)] /\
  power N 1 1 2 (flat [1; 0; 1; 0]) = (13, -16).
Proof.
  cbv zeta. split; [|split; [reflexivity|]].
  - unfold well_formed. cbn [edges]. repeat constructor; cbn; auto.
  - unfold power, current, voltage. cbn. rewrite cos_0, sin_0. unfold Cmult, Cconj, Cplus, RtoC. cbn.
    f_equal; ring.
Qed.

(** ** C34: conversion of gas to power *)
Theorem C34_linear :
  forall g2p p2g q,
    (kappa <= q -> generated_power g2p p2g q = Ok (g2p * q)) /\
    (q <= - kappa -> generated_power g2p p2g q = Ok (p2g * q)).
Proof.
  intros g2p p2g q. rewrite gp_ok. split; intro H.
  - rewrite (proj1 (gp_high g2p p2g q H)). reflexivity.
  - rewrite (proj1 (gp_low g2p p2g q H)). reflexivity.
Qed.
Print Assumptions C34_linear.
Theorem C34_smooth :
  forall g2p p2g, exists f f' : R -> R,
    (forall q, generated_power g2p p2g q = Ok (f q) /\ dgenerated_power_dq g2p p2g q = Ok (f' q)) /\
    (forall q, is_derive f q (f' q)) /\ (forall q, continuous f' q).
Proof.
  intros g2p p2g. exists (gp g2p p2g), (dgp g2p p2g). split; [|split].
  - intro q. split; [apply gp_ok|apply dgp_ok].
  - apply gp_derive.
  - apply dgp_continuous.
Qed.
Print Assumptions C34_smooth.
Theorem C34_increasing :
  forall g2p p2g q q' w w',
    sqrt 2 * Rabs (p2g - g2p) < p2g + g2p -> q < q' ->
    generated_power g2p p2g q = Ok w -> generated_power g2p p2g q' = Ok w' -> w < w'.
Proof.
  intros g2p p2g q q' w w' H Hq E E'. rewrite gp_ok in E, E'.
  assert (gp g2p p2g q = w) by congruence. assert (gp g2p p2g q' = w') by congruence. subst.
  apply gp_increasing; auto.
Qed.
Print Assumptions C34_increasing.
Example C34_case : sqrt 2 * Rabs (3 - 2) < 3 + 2 /\ generated_power 2 3 60 = Ok 120.
Proof.
  split.
  - replace (3 - 2) with 1 by ring. rewrite Rabs_R1.
    assert (sqrt 2 < 2) by (rewrite <- (sqrt_square 2) at 2 by lra; apply sqrt_lt_1; lra). lra.
  - rewrite (proj1 (C34_linear 2 3 60)) by (unfold kappa; lra). f_equal; lra.
Qed.

(** ** C56: more gas always means more power *)
Theorem C56_monotone_refuted :
  exists g2p p2g q q' w w', 0 < g2p /\ 0 < p2g /\ q < q' /\
    generated_power g2p p2g q = Ok w /\ generated_power g2p p2g q' = Ok w' /\ w' < w.
Proof.
  exists 1, 100, 36, 48, (gp 1 100 36), (gp 1 100 48). split; [lra|]. split; [lra|]. split; [lra|].
  split; [apply gp_ok|]. split; [apply gp_ok|].
  rewrite (proj1 (gp_mid 1 100 36 ltac:(unfold kappa; lra))), (proj1 (gp_mid 1 100 48 ltac:(unfold kappa; lra))).
  unfold poly, kappa. lra.
Qed.
Print Assumptions C56_monotone_refuted.

(** ** C35: index blocks *)
Theorem C35_blocks :
  forall sizes,
    let blocks := fst (assign_indices 0 sizes) in
    length blocks = length sizes /\
    (forall i s, nth_error sizes i = Some s ->
       exists a, nth_error blocks i = Some (a, (a + s)%nat) /\ a = list_sum (firstn i sizes)) /\
    snd (assign_indices 0 sizes) = list_sum sizes /\
    flat_map (fun b => seq (fst b) (snd b - fst b)) blocks = seq 0 (snd (assign_indices 0 sizes)).
Proof.
  intro sizes. cbv zeta. destruct (assign_tile sizes 0) as [T1 [T2 T3]].
  split; [exact T3|]. split; [|split].
  - assert (G : forall next i s, nth_error sizes i = Some s ->
      nth_error (fst (assign_indices next sizes)) i
      = Some ((next + list_sum (firstn i sizes))%nat, (next + list_sum (firstn i sizes) + s)%nat)).
    { clear. induction sizes as [|s0 sizes IH]; intros next i s H; [destruct i; discriminate|].
      cbn [assign_indices]. specialize (IH (next + s0)%nat).
      destruct (assign_indices (next + s0) sizes) as [blocks after]. cbn [fst] in *.
      destruct i as [|i]; cbn [nth_error firstn list_sum fold_right].
      - cbn in H. rewrite Nat.add_0_r. congruence.
      - cbn in H. rewrite (IH i s H). fold (list_sum (firstn i sizes)). rewrite !Nat.add_assoc. reflexivity. }
    intros i s H. exists (list_sum (firstn i sizes)). split; [apply (G 0%nat i s H)|reflexivity].
  - exact T2.
  - rewrite T2. exact T1.
Qed.
Print Assumptions C35_blocks.
Theorem C35_network :
  forall N,
    (forall j t, nth_error (nodes N) j = Some t ->
       snd (node_block N j) = (fst (node_block N j) + node_states t)%nat) /\
    (forall i e, nth_error (edges N) i = Some e ->
       snd (edge_block N i) = (fst (edge_block N i) + edge_states (e_type e))%nat /\
       snd (control_block N i) = (fst (control_block N i) + edge_controls (e_type e))%nat) /\
    flat_map (fun b => seq (fst b) (snd b - fst b))
      (map (node_block N) (seq 0 (length (nodes N))) ++ map (edge_block N) (seq 0 (length (edges N))))
    = seq 0 (number_of_states N) /\
    flat_map (fun b => seq (fst b) (snd b - fst b)) (map (control_block N) (seq 0 (length (edges N))))
    = seq 0 (number_of_controls N).
Proof.
  intro N. split; [|split; [|split]].
  - intros j t H. destruct (node_block_spec N j t H) as [s [E _]]. rewrite E. reflexivity.
  - intros i e H. destruct (edge_block_spec N i e H) as [s [E _]]. destruct (control_block_spec N i e H) as [s' [E' _]].
    rewrite E, E'. split; reflexivity.
  - rewrite <- (proj1 (assign_tile (state_sizes N) 0)) at 1 || idtac.
    unfold number_of_states. rewrite (proj1 (proj2 (assign_tile (state_sizes N) 0))), Nat.add_0_l.
    rewrite <- (proj1 (assign_tile (state_sizes N) 0)). fold (state_blocks N). unfold range. f_equal.
    unfold node_block, edge_block. symmetry. apply split_nth. apply state_blocks_length.
  - unfold number_of_controls. rewrite (proj1 (proj2 (assign_tile (control_sizes N) 0))), Nat.add_0_l.
    rewrite <- (proj1 (assign_tile (control_sizes N) 0)). fold (control_blocks N). unfold range. f_equal.
    unfold control_block.
    assert (L : length (control_blocks N) = length (edges N)).
    { unfold control_blocks. rewrite (proj2 (proj2 (assign_tile (control_sizes N) 0))). apply map_length. }
    rewrite <- L. apply map_nth_seq.
Qed.
Print Assumptions C35_network.
Example C35_case :
  assign_indices 0 [2; 0; 3; 1]%nat = ([(0, 2); (2, 2); (2, 5); (5, 6)], 6)%nat /\
  state_blocks sample = [(0, 0); (0, 0); (0, 0); (0, 2); (2, 4); (4, 10); (10, 14); (14, 16); (16, 16)]%nat.
Proof. split; reflexivity. Qed.

(** ** C53: the Jacobians of the whole network *)
Theorem C53_new_state :
  forall N t0 t1 last u c v,
    well_formed N -> pipes_ok N -> boundary_defined N t1 -> regular_state N u ->
    exists ts, d_evaluate_d_new_state N t0 t1 last u c = Ok ts /\
      is_jacobian (number_of_states N) (number_of_states N)
        (fun x => evaluate N t0 t1 last x c v) u (matrix_of ts).
Proof.
  intros N t0 t1 last u c v W HP HB HR.
  exact (jac_finish _ _ _ _ _ _ v (network_new_jac N t0 t1 last u c W HP HB HR) (rows_perm N W)).
Qed.
Print Assumptions C53_new_state.
Theorem C53_last_state :
  forall N t0 t1 u new c v,
    well_formed N -> pipes_ok N -> boundary_defined N t1 ->
    exists ts, d_evaluate_d_last_state N t0 t1 u new c = Ok ts /\
      is_jacobian (number_of_states N) (number_of_states N)
        (fun x => evaluate N t0 t1 x new c v) u (matrix_of ts).
Proof.
  intros N t0 t1 u new c v W HP HB.
  exact (jac_finish _ _ _ _ _ _ v (network_last_jac N t0 t1 u new c W HP HB) (rows_perm N W)).
Qed.
Print Assumptions C53_last_state.
Theorem C53_control :
  forall N t0 t1 last new u v,
    well_formed N -> pipes_ok N -> boundary_defined N t1 ->
    exists ts, d_evaluate_d_control N t0 t1 last new u = Ok ts /\
      is_jacobian (number_of_states N) (number_of_controls N)
        (fun x => evaluate N t0 t1 last new x v) u (matrix_of ts).
Proof.
  intros N t0 t1 last new u v W HP HB.
  exact (jac_finish _ _ _ _ _ _ v (network_control_jac N t0 t1 last new u W HP HB) (rows_perm N W)).
Qed.
Print Assumptions C53_control.
Example C53_case : well_formed sample /\ pipes_ok sample /\ boundary_defined sample 7 /\ regular_state sample sample_state.
Proof. split; [apply sample_well_formed|split; [apply sample_pipes|split; [apply sample_boundary|apply sample_regular]]]. Qed.

(** ** C54: a zero of the residual is a solution of the equations of the network *)
Theorem C54_solution :
  forall N t0 t1 last x c v,
    well_formed N -> pipes_ok N -> boundary_defined N t1 ->
    exists r, evaluate N t0 t1 last x c v = Ok r /\
      ((forall i, (i < number_of_states N)%nat -> r i = 0) <-> network_equations N t0 t1 last x c).
Proof.
  intros N t0 t1 last x c v W HP HB. destruct (evaluate_zero N t0 t1 last x c v W HP HB) as [r [E [H _]]].
  exists r. auto.
Qed.
Print Assumptions C54_solution.

(** Pressure node, short pipe, compressor, sink: a solution. *)
Example C54_case :
  let N := mkNet [Pressurenode (constant 50 0); Innode; Flownode true (constant 10 0)]
                 [mkEdge 0 1 EShortpipe; mkEdge 1 2 (ECompressor 1)] in
  well_formed N /\ exists r,
    evaluate N 0 1 (flat []) (flat [50; 10; 50; 10; 50; 10; 53; 10]) (flat [3]) (flat []) = Ok r /\
    forall i, (i < number_of_states N)%nat -> r i = 0.
Proof.
  cbv zeta. split.
  - unfold well_formed. cbn [edges]. repeat constructor; cbn; auto.
  - eexists. split; [reflexivity|]. intros i Hi. change (number_of_states _) with 8%nat in Hi.
    do 8 (destruct i as [|i]; [cbn; unfold vset; cbn; lra|]). lia.
Qed.

(** ** C52: the constrained quantity of a ConstraintSink is its pressure in bar *)
Lemma density_is_not_pressure : p 1 / bar <> 1.
Proof.
  assert (C : 130000 < c_vac_squared).
  { unfold c_vac_squared, p_0, Temp, z_0, T_0, rho_0. rewrite bar_val.
    apply (Rmult_lt_reg_r (1005 / 1000 * (27315 / 100) * (785 / 1000))); [lra|].
    field_simplify; lra. }
  assert (A : - / 10 ^ 7 < alpha).
  { unfold alpha, p_crit, T_crit, Temp. rewrite bar_val.
    apply (Rmult_lt_reg_r (464512 / 10000 * 100000 * (28315 / 100))); [lra|].
    field_simplify; lra. }
  assert (C' : c_vac_squared < 140000).
  { unfold c_vac_squared, p_0, Temp, z_0, T_0, rho_0. rewrite bar_val.
    apply (Rmult_lt_reg_r (1005 / 1000 * (27315 / 100) * (785 / 1000))); [lra|].
    field_simplify; lra. }
  pose proof alpha_neg as A'. unfold p. rewrite !Rmult_1_r, bar_val. intro K.
  assert (D : 1 <= 1 - alpha * c_vac_squared) by nra.
  assert (E : c_vac_squared = 100000 * (1 - alpha * c_vac_squared)).
  { apply (f_equal (fun t => t * (100000 * (1 - alpha * c_vac_squared)))) in K.
    field_simplify in K; [lra|lra]. }
  assert (F : - (alpha * c_vac_squared) < / 10) by nra. lra.
Qed.
Theorem C52_pressure_refuted :
  exists e x r, has_end (dend, e) /\ 0 < x (end_index dend e) /\
    sink_constraint [(dend, e)] x = Ok r /\ r <> end_pressure (dend, e) x.
Proof.
  exists (mkGas 0 0 4 (Pipe 1 (1 / 100) 100)), (flat [1; 0; 1; 0]), 1.
  split; [cbn; lia|]. split; [cbn; lra|]. split; [reflexivity|].
  unfold end_pressure. cbn. intro K. apply density_is_not_pressure. symmetry. exact K.
Qed.
Print Assumptions C52_pressure_refuted.

(** Unless the first attached edge is a pipe, the claim holds, and the derivative is right. *)
Theorem C52_pressure_partial :
  forall n de (att : attached) idx u,
    has_end de -> (forall d k dx, ge_kind (snd de) <> Pipe d k dx) -> (end_index (fst de) (snd de) < n)%nat ->
    (forall x, sink_constraint (de :: att) x = Ok (end_pressure de x)) /\
    (exists ts, sink_constraint_d_state (de :: att) idx = Ok ts /\
      gradient n (end_pressure de) u (matrix_of ts idx) /\
      (forall r c, r <> idx \/ (n <= c)%nat -> matrix_of ts r c = 0)).
Proof.
  intros n [d e] att idx u HE HK HN. cbn [fst snd] in *.
  pose proof (fun x => boundary_state_ok (d, e) x HE) as S. cbn [fst snd] in S.
  pose proof (state_index_ok (d, e) HE) as J. cbn [fst snd] in J.
  assert (EP : forall x, end_pressure (d, e) x = x (end_index d e)).
  { intro x. unfold end_pressure. cbn [fst snd]. destruct (ge_kind e) eqn:K; try reflexivity.
    exfalso. eapply HK. reflexivity. }
  split.
  - intro x. unfold sink_constraint, get. cbn [nth_error obind]. rewrite S. cbn [obind].
    rewrite EP. unfold seg. rewrite Nat.add_0_r. reflexivity.
  - exists [(idx, end_index d e, 1)]. split.
    { unfold sink_constraint_d_state, get. cbn [nth_error obind]. rewrite J. reflexivity. }
    split.
    + apply (gradient_ext n (fun x => x (end_index d e))); [intro x; apply EP|].
      eapply gradient_value; [apply gradient_proj; exact HN|].
      intros j Hj. cbn. rewrite Nat.eqb_refl. cbn. rewrite Rplus_0_r. reflexivity.
    + intros r c H. cbn. destruct (Nat.eqb_spec idx r); cbn; [|ring].
      destruct (Nat.eqb_spec (end_index d e) c); [|ring]. subst. destruct H; [congruence|lia].
Qed.
Print Assumptions C52_pressure_partial.
(** A sink without edges reads behind the end of the empty list of edges. *)
Theorem C52_no_edges_refuted : forall x idx,
  sink_constraint [] x = UB /\ sink_constraint_d_state [] idx = UB.
Proof. split; reflexivity. Qed.
Print Assumptions C52_no_edges_refuted.
Example C52_case : sink_constraint [(dend, mkGas 0 0 4 Shortpipe)] (flat [50; 1; 49; 1]) = Ok 49.
Proof. reflexivity. Qed.

(** ** C55: a network that can be set up can be evaluated *)

(** A transmission line may connect a power node to a gas node: the null pointer of the failed
    cast is dereferenced. *)
Theorem C55_line_to_gas_node_refuted :
  exists N, constructible N /\ setup_ok N = true /\ pipes_ok N /\ (forall t, boundary_defined N t) /\
    forall t0 t1 last x c v, evaluate N t0 t1 last x c v = UB.
Proof.
  exists (mkNet [Powernode PQ false 1 2 (constant 1 0); Innode] [mkEdge 0 1 (ELine 1 2)]).
  split; [|split; [reflexivity|split; [|split]]].
  - unfold constructible. cbn [edges]. apply List.Forall_cons; [cbn; lia|apply List.Forall_nil].
  - unfold pipes_ok. cbn [edges]. apply List.Forall_cons; [exact I|apply List.Forall_nil].
  - intro t. intros [|[|j]]; cbn; auto; [eexists; reflexivity|destruct j; exact I].
  - reflexivity.
Qed.
Print Assumptions C55_line_to_gas_node_refuted.

(** A gas edge may end at a power node: nobody writes the equation of that end, the result keeps
    whatever was there before. *)
Theorem C55_gas_edge_to_power_node_refuted :
  exists N i, constructible N /\ setup_ok N = true /\ pipes_ok N /\ (forall t, boundary_defined N t) /\
    (i < number_of_states N)%nat /\
    forall t0 t1 last x c v, exists r, evaluate N t0 t1 last x c v = Ok r /\ r i = v i.
Proof.
  exists (mkNet [Pressurenode (constant 50 0); Powernode Vphi false 1 2 (constant 1 0)] [mkEdge 0 1 EShortpipe]), 5%nat.
  split; [|split; [reflexivity|split; [|split; [|split]]]].
  - unfold constructible. cbn [edges]. apply List.Forall_cons; [cbn; lia|apply List.Forall_nil].
  - unfold pipes_ok. cbn [edges]. apply List.Forall_cons; [exact I|apply List.Forall_nil].
  - intro t. intros [|[|j]]; cbn; auto; try (eexists; reflexivity). destruct j; exact I.
  - change (number_of_states _) with 6%nat. lia.
  - intros. eexists. split; reflexivity.
Qed.
Print Assumptions C55_gas_edge_to_power_node_refuted.

(** If lines join power nodes and gas edges gas nodes (except the end of a gas power connection),
    nothing is left undefined. *)
Theorem C55_evaluable_partial :
  forall N t0 t1 last x c v,
    well_formed N -> pipes_ok N -> boundary_defined N t1 ->
    exists r, evaluate N t0 t1 last x c v = Ok r /\
      forall i v' r', (i < number_of_states N)%nat -> evaluate N t0 t1 last x c v' = Ok r' -> r' i = r i.
Proof.
  intros N t0 t1 last x c v W HP HB. destruct (C32_determined N t0 t1 last x c v W HP HB) as [r [E [_ H]]].
  exists r. auto.
Qed.
Print Assumptions C55_evaluable_partial.
Example C55_case : well_formed sample /\ constructible sample /\ setup_ok sample = true.
Proof.
  split; [apply sample_well_formed|]. split; [|reflexivity].
  unfold constructible, sample. cbn [edges].
  repeat (apply List.Forall_cons; [cbn; lia|]). apply List.Forall_nil.
Qed.

(** What setting up accepts: gas power connections end at external power plants, and every
    external power plant has a connection. *)
Theorem C55_setup :
  forall N,
    setup_ok N = true <->
    (forall e g2p p2g, In e (edges N) -> e_type e = EGaspower g2p p2g ->
       exists k G B b, nth_error (nodes N) (e_to e) = Some (Powernode k true G B b)) /\
    (forall j k G B b, nth_error (nodes N) j = Some (Powernode k true G B b) ->
       exists e g2p p2g, In e (edges N) /\ e_type e = EGaspower g2p p2g /\ (e_from e = j \/ e_to e = j)).
Proof.
  intros N. unfold setup_ok. rewrite andb_true_iff, !forallb_forall. split.
  - intros [H1 H2]. split.
    + intros e g p I T. specialize (H1 e I). unfold is_gaspower in H1. rewrite T in H1. cbn in H1.
      unfold is_external in H1. destruct (nth_error (nodes N) (e_to e)) as [[| | |k x G B b]|]; try discriminate.
      destruct x; [|discriminate]. exists k, G, B, b. reflexivity.
    + intros j k G B b E. assert (L : (j < length (nodes N))%nat) by (apply nth_error_Some; congruence).
      specialize (H2 j ltac:(apply in_seq; lia)). unfold is_external in H2. rewrite E in H2. cbn in H2.
      apply existsb_exists in H2. destruct H2 as (e & I & H). apply andb_true_iff in H. destruct H as [G1 H].
      unfold is_gaspower in G1. destruct (e_type e) as [| | | |g p|] eqn:T; try discriminate.
      exists e, g, p. split; [exact I|]. split; [exact T|]. apply orb_true_iff in H.
      destruct H as [H|H]; apply Nat.eqb_eq in H; auto.
  - intros [H1 H2]. split.
    + intros e I. unfold is_gaspower. destruct (e_type e) as [| | | |g p|] eqn:T; try reflexivity.
      destruct (H1 e g p I T) as (k & G & B & b & E). unfold is_external. rewrite E. reflexivity.
    + intros j _. unfold is_external. destruct (nth_error (nodes N) j) as [[| | |k x G B b]|] eqn:E; try reflexivity.
      destruct x; [|reflexivity]. cbn. destruct (H2 j k G B b E) as (e & g & p & I & T & D).
      apply existsb_exists. exists e. split; [exact I|]. unfold is_gaspower. rewrite T. cbn.
      apply orb_true_iff. destruct D as [D|D]; [left|right]; apply Nat.eqb_eq; exact D.
Qed.
Print Assumptions C55_setup.
(** A connection to an ordinary power node is rejected. *)
Example C55_setup_case :
  setup_ok (mkNet [Innode; Powernode Vphi false 1 2 (constant 1 0)] [mkEdge 0 1 (EGaspower 1 2)]) = false.
Proof. reflexivity. Qed.
