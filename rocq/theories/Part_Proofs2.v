(** Exact solutions, and parts with one edge to the rest. *)
From Coq Require Import Reals Lra Lia List Arith Bool.
From Verif Require Import Base Interp_Model Calc Euler_Model Box_Model
  Net_Model Net_Spec Net_Proofs5 Net_Proofs8 Net_Props Newton_Model Evolve_Model Sim_Model Sim_Spec Sim_Props Mass_Spec Mass_Proofs Level_Proofs2 Part_Spec Part_Proofs.
Import ListNotations.
Local Open Scope R_scope.

Lemma exact_within N t0 t1 last x c : well_formed N -> pipes_ok N -> boundary_defined N t1 ->
  network_equations N t0 t1 last x c -> network_equations_within N 0 t0 t1 last x c.
Proof.
  intros W HP HB H.
  destruct (C54_solution N t0 t1 last x c (fun _ => 0) W HP HB) as (r & E & Hr).
  destruct (C90_residual N 0 t0 t1 last x c (fun _ => 0) W HP HB (Rle_refl 0)) as (r' & E' & K).
  rewrite E in E'. injection E' as <-.
  apply K. pose proof (proj2 Hr H) as Z. clear - Z. apply Req_le. unfold euclidean_norm.
  replace (sum_squares (number_of_states N) r) with 0; [apply sqrt_0|]. symmetry.
  assert (Q : forall n, (forall i, (i < n)%nat -> r i = 0) -> sum_squares n r = 0).
  { induction n as [|n IH]; intro Hn; cbn; [reflexivity|]. rewrite IH by (intros; apply Hn; lia). rewrite Hn by lia. ring. }
  apply Q. exact Z.
Qed.

Section Part.
Variable N : network.
Variable part : nat -> bool.
Hypothesis W : well_formed N.

Lemma part_exact t0 t1 last x c : pipes_ok N -> t0 <= t1 -> boundary_defined N t1 -> network_equations N t0 t1 last x c ->
  part_linepack N part x = part_linepack N part last
    + (t1 - t0) * (rho_0 * (part_supply N part t1 x + inflow N part x - part_burnt N part x)).
Proof.
  intros HP Ht HB H.
  pose proof (part_balance N part 0 t0 t1 last x c W HP (Rle_refl 0) Ht (exact_within N t0 t1 last x c W HP HB H)) as B.
  unfold part_error in B. rewrite Rmult_0_l in B.
  match type of B with Rabs ?a <= 0 => assert (a = 0); [destruct (Req_dec a 0) as [Q|Q]; [exact Q|]; apply Rabs_no_R0 in Q; pose proof (Rabs_pos a); lra|lra] end.
Qed.

Lemma rsum_single {A} (f : nat * A -> R) (l : list A) i a : nth_error l i = Some a ->
  (forall k b, nth_error l k = Some b -> k <> i -> f (k, b) = 0) -> rsum f (combine (seq 0 (length l)) l) = f (i, a).
Proof.
  intros Hi H. pose proof (pick (fun k b => f (k, b)) l i a 0 Hi) as P. cbn [Nat.add] in P. rewrite <- P. apply rsum_ext. intros [k b] Hk. cbn [fst snd].
  destruct (Nat.eqb_spec i k) as [<-|Ne]; [reflexivity|]. apply H; [|congruence]. apply in_combine_seq in Hk. exact Hk.
Qed.
Lemma inflow_single i e x : only_border N part i e -> inflow N part x = crossing N part x i e.
Proof.
  intros (He & U). unfold inflow. apply (rsum_single (fun ie => crossing N part x (fst ie) (snd ie)) (edges N) i e He).
  intros k b Hk Ne. cbn [fst snd]. specialize (U k b Hk). unfold crossing, carries_gas in *.
  destruct (e_type b), (part (e_from b)), (part (e_to b)); try reflexivity; exfalso; apply Ne, U; auto; discriminate.
Qed.

Lemma consumers_supply time x x' : only_consumers N part -> part_supply N part time x = part_supply N part time x'.
Proof.
  intros (C & _). unfold part_supply. apply rsum_ext. intros [j t] Hj. cbn [fst snd]. apply in_combine_seq in Hj.
  destruct t as [|sink b|b|k ext G B b]; try reflexivity. rewrite (C j b Hj). reflexivity.
Qed.
Lemma consumers_burnt x : only_consumers N part -> part_burnt N part x = 0.
Proof.
  intros (_ & C). unfold part_burnt. transitivity (rsum (fun _ : nat * edge => 0) (numbered N)); [|rewrite rsum_const; ring].
  apply rsum_ext. intros [i e] He. cbn [fst snd]. apply in_numbered in He. specialize (C e (nth_error_In _ _ He)).
  destruct (e_type e); try reflexivity. destruct (part (e_from e)); [destruct (C eq_refl)|reflexivity].
Qed.
Lemma no_pipes_linepack x : (forall e, In e (edges N) -> inner part e = true -> match e_type e with EPipe _ _ _ _ => False | _ => True end) ->
  part_linepack N part x = 0.
Proof.
  intro NP. unfold part_linepack. transitivity (rsum (fun _ : nat * edge => 0) (numbered N)); [|rewrite rsum_const; ring].
  apply rsum_ext. intros [i e] He. cbn [fst snd]. apply in_numbered in He. specialize (NP e (nth_error_In _ _ He)).
  destruct (inner part e); [|reflexivity]. specialize (NP eq_refl). destruct (e_type e); [destruct NP|reflexivity..].
Qed.
End Part.
