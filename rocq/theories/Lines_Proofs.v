(** Only the total admittance between two nodes matters. *)
From Coq Require Import Reals ZArith Lra Lia List Arith Bool.
From Coquelicot Require Import Complex.
From Verif Require Import Base Calc Euler_Model Box_Model Net_Model Net_Spec Net_Proofs5 Net_Proofs8 Level_Spec Level_Proofs Mass_Proofs Grid_Proofs2
  Insert_Proofs Parallel_Spec Parallel_Proofs.
From Verif Require Import Lines_Spec.
Import ListNotations.
Local Open Scope R_scope.

Lemma csum_zero {A} (f : A -> C) l : (forall a, In a l -> f a = RtoC 0) -> csum f l = RtoC 0.
Proof. induction l as [|a l IH]; intro H; [reflexivity|]. cbn. unfold csum in IH. rewrite IH by (intros; apply H; right; assumption). rewrite (H a) by (left; reflexivity). apply Cplus_0_r. Qed.
Lemma csum_plus {A} (f g : A -> C) l : csum (fun a => Cplus (f a) (g a)) l = Cplus (csum f l) (csum g l).
Proof.
  induction l as [|a l IH]; cbn; [rewrite Cplus_0_r; reflexivity|]. unfold csum in IH. rewrite IH. rewrite <- !Cplus_assoc. f_equal. rewrite !Cplus_assoc. f_equal. apply Cplus_comm.
Qed.
Lemma csum_same_on {A} (f g : A -> C) l : (forall a, In a l -> f a = g a) -> csum f l = csum g l.
Proof. induction l as [|a l IH]; intro H; [reflexivity|]. cbn. unfold csum in IH. rewrite IH by (intros; apply H; right; assumption). rewrite (H a) by (left; reflexivity). reflexivity. Qed.
Lemma csum_pick (f : nat -> C) n a : (a < n)%nat -> csum (fun k => if Nat.eqb k a then f k else RtoC 0) (seq 0 n) = f a.
Proof.
  intro H. assert (G : forall m s, (s <= a < s + m)%nat -> csum (fun k => if Nat.eqb k a then f k else RtoC 0) (seq s m) = f a).
  { induction m as [|m IH]; intros s L; [lia|]. cbn [seq]. cbn. unfold csum in IH. destruct (Nat.eqb_spec s a) as [->|Ne].
    - pose proof (csum_zero (fun k => if Nat.eqb k a then f k else RtoC 0) (seq (S a) m)) as Z. unfold csum in Z. rewrite Z; [apply Cplus_0_r|].
      intros k I. apply in_seq in I. rewrite (proj2 (Nat.eqb_neq k a)) by lia. reflexivity.
    - rewrite IH by lia. apply Cplus_0_l. }
  apply G. lia.
Qed.

(** What a line adds to the current at a node. *)
Definition line_current (V : nat -> C) (j : nat) (e : edge) : C :=
  match e_type e with
  | ELine g b => Cplus (if Nat.eqb (e_from e) j then Cmult (g, b) (V (e_to e)) else RtoC 0) (if Nat.eqb (e_to e) j then Cmult (g, b) (V (e_from e)) else RtoC 0)
  | _ => RtoC 0
  end.
Definition between (e : edge) (j k : nat) : C := if joins e j k then match e_type e with ELine g b => (g, b) | _ => RtoC 0 end else RtoC 0.
Lemma current_by_nodes V j n ls : (forall e, In e ls -> is_line e /\ e_from e <> e_to e /\ (e_from e < n)%nat /\ (e_to e < n)%nat) ->
  csum (line_current V j) ls = csum (fun k => Cmult (total_admittance ls j k) (V k)) (seq 0 n).
Proof.
  induction ls as [|e ls IH]; intro H.
  - cbn. symmetry. apply csum_zero. intros k _. apply Cmult_0_l.
  - change (total_admittance (e :: ls) j) with (fun k => Cplus (between e j k) (total_admittance ls j k)).
    transitivity (csum (fun k => Cplus (Cmult (between e j k) (V k)) (Cmult (total_admittance ls j k) (V k))) (seq 0 n)).
    2:{ apply csum_same_on. intros k _. symmetry. apply Cmult_plus_distr_r. }
    rewrite csum_plus. cbn [csum fold_right]. change (fold_right (fun a acc => Cplus (line_current V j a) acc) (RtoC 0) ls) with (csum (line_current V j) ls).
    rewrite IH by (intros; apply H; right; assumption). f_equal.
    destruct (H e (or_introl eq_refl)) as (L & Ne & Lf & Lt). unfold is_line in L. unfold line_current. destruct (e_type e) as [| | | | |g b] eqn:T; try contradiction.
    destruct (Nat.eqb_spec (e_from e) j) as [Ef|Ef], (Nat.eqb_spec (e_to e) j) as [Et|Et].
    + congruence.
    + rewrite Cplus_0_r. rewrite <- (csum_pick (fun k => Cmult (g, b) (V k)) n (e_to e) Lt). apply csum_same_on. intros k _. unfold between, joins. rewrite T.
      rewrite (proj2 (Nat.eqb_eq _ _) Ef), (proj2 (Nat.eqb_neq _ _) Et), andb_false_r, orb_false_r. cbn [andb]. rewrite (Nat.eqb_sym (e_to e) k).
      destruct (Nat.eqb k (e_to e)); [reflexivity|symmetry; apply Cmult_0_l].
    + rewrite Cplus_0_l. rewrite <- (csum_pick (fun k => Cmult (g, b) (V k)) n (e_from e) Lf). apply csum_same_on. intros k _. unfold between, joins. rewrite T.
      rewrite (proj2 (Nat.eqb_eq _ _) Et), (proj2 (Nat.eqb_neq _ _) Ef), andb_true_r. cbn [andb orb]. rewrite (Nat.eqb_sym (e_from e) k).
      destruct (Nat.eqb k (e_from e)); [reflexivity|symmetry; apply Cmult_0_l].
    + rewrite Cplus_0_r. symmetry. apply csum_zero. intros k _. unfold between, joins.
      rewrite (proj2 (Nat.eqb_neq _ _) Ef), (proj2 (Nat.eqb_neq _ _) Et), andb_false_r. apply Cmult_0_l.
Qed.

(** ** Networks that begin with the same edges and end with lines *)
Section Lines.
Variables (ns : list nodetype) (es ls ls' : list edge).
Hypothesis Hl : Forall is_line ls.
Hypothesis Hl' : Forall is_line ls'.
Let N := mkNet ns (es ++ ls).
Let N' := mkNet ns (es ++ ls').
Hypothesis W : well_formed N.
Hypothesis W' : well_formed N'.
Hypothesis H : same_totals ls ls'.

Lemma lines_zero l : Forall is_line l -> map (fun e => edge_states (e_type e)) l = repeat 0%nat (length l) /\ map (fun e => edge_controls (e_type e)) l = repeat 0%nat (length l).
Proof.
  induction 1 as [|e l L _ (IH1 & IH2)]; [split; reflexivity|]. cbn. rewrite IH1, IH2. unfold is_line in L. destruct (e_type e); try contradiction. split; reflexivity.
Qed.
Lemma blocks_same a z z' k : forall n, (k < length a)%nat ->
  nth k (fst (assign_indices n (a ++ repeat 0%nat z))) (0, 0)%nat = nth k (fst (assign_indices n (a ++ repeat 0%nat z'))) (0, 0)%nat.
Proof.
  intros n L. destruct (nth_error a k) as [s|] eqn:E; [|apply nth_error_None in E; lia].
  assert (X : forall y, nth_error (a ++ repeat 0%nat y) k = Some s) by (intro; rewrite nth_error_app1; assumption).
  rewrite !(nth_error_nth _ _ _ (assign_start _ n _ _ (X _))). rewrite !firstn_app. replace (k - length a)%nat with 0%nat by lia. reflexivity.
Qed.
Lemma lines_sizes M l : M = mkNet ns (es ++ l) -> Forall is_line l ->
  state_sizes M = (map node_states ns ++ map (fun e => edge_states (e_type e)) es) ++ repeat 0%nat (length l) /\
  control_sizes M = map (fun e => edge_controls (e_type e)) es ++ repeat 0%nat (length l).
Proof.
  intros -> L. unfold state_sizes, control_sizes. cbn [nodes edges]. rewrite !map_app. destruct (lines_zero l L) as (-> & ->). rewrite app_assoc. auto.
Qed.
Lemma lines_node_block j : (j < length ns)%nat -> node_block N' j = node_block N j.
Proof.
  intro L. unfold node_block, state_blocks. rewrite (proj1 (lines_sizes N' ls' eq_refl Hl')), (proj1 (lines_sizes N ls eq_refl Hl)). apply blocks_same.
  rewrite app_length, map_length. lia.
Qed.
Lemma lines_edge_block i : (i < length es)%nat -> edge_block N' i = edge_block N i.
Proof.
  intro L. unfold edge_block, state_blocks. rewrite (proj1 (lines_sizes N' ls' eq_refl Hl')), (proj1 (lines_sizes N ls eq_refl Hl)). cbn [N N' nodes]. apply blocks_same.
  rewrite app_length, !map_length. lia.
Qed.
Lemma lines_control_block i : (i < length es)%nat -> control_block N' i = control_block N i.
Proof.
  intro L. unfold control_block, control_blocks. rewrite (proj2 (lines_sizes N' ls' eq_refl Hl')), (proj2 (lines_sizes N ls eq_refl Hl)). apply blocks_same.
  rewrite map_length. exact L.
Qed.
Lemma lines_total : number_of_states N' = number_of_states N.
Proof.
  unfold number_of_states. rewrite (proj1 (lines_sizes N' ls' eq_refl Hl')), (proj1 (lines_sizes N ls eq_refl Hl)).
  assert (S : forall q n, snd (assign_indices n q) = (n + list_sum q)%nat).
  { induction q as [|s q IH]; intro n; cbn; [lia|]. specialize (IH (n + s)%nat). destruct (assign_indices (n + s) q). cbn [snd] in *. rewrite IH. unfold list_sum. lia. }
  rewrite !S, !list_sum_app. assert (Z : forall y, list_sum (repeat 0%nat y) = 0%nat) by (induction y; cbn; auto). rewrite !Z. reflexivity.
Qed.

Lemma gas_edge_in M l i e : M = mkNet ns (es ++ l) -> Forall is_line l -> nth_error (edges M) i = Some e -> carries_gas e = true -> (i < length es)%nat /\ nth_error es i = Some e.
Proof.
  intros -> L Hi C. cbn [edges] in Hi. destruct (lt_dec i (length es)) as [X|X]; [rewrite nth_error_app1 in Hi by exact X; auto|].
  rewrite nth_error_app2 in Hi by lia. apply nth_error_In in Hi. pose proof (proj1 (Forall_forall _ _) L e Hi) as Le. exfalso. exact (gas_not_line e C Le).
Qed.
Lemma in_front l i e : nth_error es i = Some e -> nth_error (edges (mkNet ns (es ++ l))) i = Some e.
Proof. intro Hi. cbn. rewrite nth_error_app1; [exact Hi|]. apply nth_error_Some. congruence. Qed.
Lemma lines_flow i d x : (i < length es)%nat -> flow_at N' i d x = flow_at N i d x.
Proof. intro L. unfold flow_at, end_position. rewrite lines_edge_block by exact L. reflexivity. Qed.
Lemma lines_pressure i e d x : (i < length es)%nat -> pressure_at N' i e d x = pressure_at N i e d x.
Proof. intro L. unfold pressure_at, end_position. rewrite lines_edge_block by exact L. reflexivity. Qed.
Lemma lines_equal j x pr : equal_pressures N' j x pr <-> equal_pressures N j x pr.
Proof.
  split; intros E i e d Hi C T.
  - destruct (gas_edge_in N ls i e eq_refl Hl Hi C) as (L & Hi'). rewrite <- lines_pressure by exact L. exact (E i e d (in_front ls' i e Hi') C T).
  - destruct (gas_edge_in N' ls' i e eq_refl Hl' Hi C) as (L & Hi'). rewrite lines_pressure by exact L. exact (E i e d (in_front ls i e Hi') C T).
Qed.
Lemma lines_has j : has_gas_edge N' j <-> has_gas_edge N j.
Proof.
  split; intros (i & e & d & Hi & C & T); exists i, e, d; (split; [|auto]).
  - apply in_front. apply (gas_edge_in N' ls' i e eq_refl Hl' Hi C).
  - apply in_front. apply (gas_edge_in N ls i e eq_refl Hl Hi C).
Qed.
Lemma front_outflow M l j x : M = mkNet ns (es ++ l) -> Forall is_line l ->
  net_outflow M j x = rsum (fun ie => if carries_gas (snd ie) then (if Nat.eqb (e_from (snd ie)) j then flow_at M (fst ie) dstart x else 0)
                       - (if Nat.eqb (e_to (snd ie)) j then flow_at M (fst ie) dend x else 0) else 0) (combine (seq 0 (length es)) es).
Proof.
  intros E L. unfold net_outflow, numbered. rewrite E at 1 2. cbn [edges]. rewrite app_length, seq_app.
  assert (Co : forall (a b : list nat) (u v : list edge), length a = length u -> combine (a ++ b) (u ++ v) = combine a u ++ combine b v).
  { induction a as [|x0 a IH]; intros b [|y0 u] v HL; try discriminate; [reflexivity|]. cbn. rewrite IH by (injection HL; auto). reflexivity. }
  rewrite Co by apply seq_length. rewrite rsum_app.
  match goal with |- ?u + ?v = _ => assert (Z : v = 0); [|rewrite Z; apply Rplus_0_r] end.
  generalize (0 + length es)%nat. clear E. induction L as [|e q Le _ IH]; intro s; [reflexivity|]. cbn [length seq combine rsum fst snd].
  rewrite IH. unfold is_line in Le. unfold carries_gas. destruct (e_type e); try contradiction. ring.
Qed.
Lemma lines_outflow j x : net_outflow N' j x = net_outflow N j x.
Proof.
  rewrite (front_outflow N' ls' j x eq_refl Hl'), (front_outflow N ls j x eq_refl Hl). apply rsum_ext. intros (i, e) I. apply in_combine_seq in I. cbn [fst snd].
  rewrite !lines_flow by (apply nth_error_Some; congruence). reflexivity.
Qed.
Lemma lines_voltage j x : (j < length ns)%nat -> voltage N' j x = voltage N j x.
Proof. intro L. unfold voltage. rewrite lines_node_block by exact L. reflexivity. Qed.
Lemma lines_ends M l e : M = mkNet ns (es ++ l) -> well_formed M -> In e (es ++ l) -> e_from e <> e_to e /\ (e_from e < length ns)%nat /\ (e_to e < length ns)%nat.
Proof.
  intros E WM I. pose proof (proj1 (Forall_forall _ _) WM e) as K. rewrite E in K. cbn [edges] in K. specialize (K I). destruct K as (K & _).
  rewrite <- E in I || idtac. apply In_nth_error in I. destruct I as (i & Hi). assert (Hi' : nth_error (edges M) i = Some e) by (rewrite E; exact Hi).
  pose proof (edge_inside M WM i e Hi') as X. rewrite E in X. cbn [nodes] in X. split; [exact K|exact X].
Qed.
Lemma lines_power j G B x : (j < length ns)%nat -> power N' j G B x = power N j G B x.
Proof.
  intro L. unfold power, current. rewrite lines_voltage by exact L. f_equal. f_equal. f_equal. cbn [N N' edges]. fold N N'.
  change (csum (line_current (fun k => voltage N' k x) j) (es ++ ls') = csum (line_current (fun k => voltage N k x) j) (es ++ ls)).
  rewrite !csum_app. f_equal.
  - apply csum_same_on. intros e I. destruct (lines_ends N ls e eq_refl W ltac:(apply in_or_app; auto)) as (_ & A & B0).
    unfold line_current. rewrite !lines_voltage by assumption. reflexivity.
  - rewrite (current_by_nodes _ j (length ns) ls'), (current_by_nodes _ j (length ns) ls).
    + apply csum_same_on. intros k I. apply in_seq in I. rewrite (H j k), lines_voltage by lia. reflexivity.
    + intros e I. split; [exact (proj1 (Forall_forall _ _) Hl e I)|]. exact (lines_ends N ls e eq_refl W ltac:(apply in_or_app; auto)).
    + intros e I. split; [exact (proj1 (Forall_forall _ _) Hl' e I)|]. exact (lines_ends N' ls' e eq_refl W' ltac:(apply in_or_app; auto)).
Qed.
Lemma lines_equations t0 t1 last x c : network_equations N t0 t1 last x c -> network_equations N' t0 t1 last x c.
Proof.
  intros (A & E). split.
  - intros j t Hj. assert (L : (j < length ns)%nat) by (apply nth_error_Some; change ns with (nodes N'); congruence). specialize (A j t Hj). destruct t as [|sink b|b|k ext G B b]; cbn [node_equation] in *.
    + rewrite lines_outflow, lines_has. setoid_rewrite lines_equal. exact A.
    + rewrite lines_outflow, lines_has. setoid_rewrite lines_equal. exact A.
    + rewrite lines_has. setoid_rewrite lines_equal. exact A.
    + rewrite lines_power, lines_node_block by exact L. exact A.
  - intros i e Hi. destruct (carries_gas e) eqn:C.
    + destruct (gas_edge_in N' ls' i e eq_refl Hl' Hi C) as (L & Hi'). specialize (E i e (in_front ls i e Hi')). unfold edge_equation in *.
      rewrite lines_edge_block, lines_control_block by exact L. destruct (e_type e); try exact E. cbn [N N' nodes] in *.
      assert (In' : In e (es ++ ls)) by (apply in_or_app; left; eapply nth_error_In; exact Hi').
      destruct (lines_ends N ls e eq_refl W In') as (_ & _ & Lt). destruct (nth_error ns (e_to e)) as [[| | |]|]; try exact E. setoid_rewrite (lines_power (e_to e)); [exact E|exact Lt].
    + unfold edge_equation. unfold carries_gas in C. destruct (e_type e); try discriminate. exact Logic.I.
Qed.
End Lines.
