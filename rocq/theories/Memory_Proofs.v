(** Without pipes the equations of a time step contain nothing of the step before. *)
From Coq Require Import Reals ZArith Lra Lia List Arith Bool.
From Verif Require Import Base Interp_Model Interp_Proofs Calc Euler_Model Box_Model Net_Model Net_Spec Newton_Model Newton_Spec Evolve_Model Evolve_Spec
  Evolve_Proofs Sim_Model Sim_Spec Sim_Proofs2 Sim_Proofs3.
From Verif Require Import Memory_Spec.
Import ListNotations.
Local Open Scope R_scope.

Section Network.
Variable N : network.
Hypothesis NP : no_pipe N.

Lemma gas_of_no_pipe i e g : In e (edges N) -> gas_of N i e = Some g ->
  match ge_kind g with Pipe _ _ _ => False | _ => True end.
Proof.
  intros I E. assert (K := proj1 (Forall_forall _ _) NP e I). cbn beta in K. unfold gas_of in E. destruct (edge_block N i).
  destruct (e_type e); try easy; injection E as <-; exact Logic.I.
Qed.
Lemma numbered_in ie : In ie (numbered N) -> In (snd ie) (edges N).
Proof. destruct ie as (i, e). apply in_combine_r. Qed.
Lemma on_edges_no_pipe {A} sel (f f' : gasedge -> outcome (list A)) :
  (forall g, match ge_kind g with Pipe _ _ _ => False | _ => True end -> f g = f' g) -> on_edges N sel f = on_edges N sel f'.
Proof.
  intro E. unfold on_edges.
  assert (G : forall l, (forall ie, In ie l -> In (snd ie) (edges N)) ->
    flat_map (fun ie => if sel (snd ie) then match gas_of N (fst ie) (snd ie) with Some g => [f g] | None => [] end else []) l
    = flat_map (fun ie => if sel (snd ie) then match gas_of N (fst ie) (snd ie) with Some g => [f' g] | None => [] end else []) l).
  { induction l as [|ie l IH]; intro H; [reflexivity|]. cbn. rewrite IH by (intros; apply H; right; assumption). f_equal.
    destruct (sel (snd ie)); [|reflexivity]. destruct (gas_of N (fst ie) (snd ie)) as [g|] eqn:Eg; [|reflexivity].
    rewrite E; [reflexivity|]. eapply gas_of_no_pipe; [|exact Eg]. apply H. left. reflexivity. }
  apply G. exact numbered_in.
Qed.
Lemma on_nodes_in {A} (f f' : nat -> nodetype -> outcome (list A)) :
  (forall j t, In t (nodes N) -> f j t = f' j t) -> on_nodes N f = on_nodes N f'.
Proof.
  intro E. unfold on_nodes. apply map_ext_in. intros (j, t) I. cbn. apply E. exact (in_combine_r _ _ _ _ I).
Qed.

Lemma evaluate_no_memory t0 t1 t0' t1' last last' x c v : same_values N t1 t1' ->
  evaluate N t0 t1 last x c v = evaluate N t0' t1' last' x c v.
Proof.
  intro SV. unfold evaluate. assert (E : evaluate_writes N t0 t1 last x c = evaluate_writes N t0' t1' last' x c).
  { unfold evaluate_writes. f_equal. f_equal; [|f_equal; apply on_edges_no_pipe; intros g Hg; unfold edge_evaluate; destruct (ge_kind g); easy].
    apply on_nodes_in. intros j t I. assert (K := proj1 (Forall_forall _ _) SV t I). cbn beta in K. unfold node_evaluate.
    destruct t; [reflexivity| | |]; rewrite K; reflexivity. }
  rewrite E. reflexivity.
Qed.
Lemma d_new_no_memory t0 t1 t0' t1' last last' x c :
  d_evaluate_d_new_state N t0 t1 last x c = d_evaluate_d_new_state N t0' t1' last' x c.
Proof.
  unfold d_evaluate_d_new_state. f_equal.
  f_equal. f_equal; apply on_edges_no_pipe; intros g Hg; unfold edge_d_new_state; destruct (ge_kind g); easy.
Qed.
Lemma oconcat_nil {A} (l : list (outcome (list A))) : (forall o, In o l -> o = Ok []) -> oconcat l = Ok [].
Proof.
  intro H. unfold oconcat. induction l as [|o l IH]; [reflexivity|]. cbn. rewrite IH by (intros; apply H; right; assumption).
  rewrite (H o (or_introl eq_refl)). reflexivity.
Qed.
Lemma d_last_nil t0 t1 last x c : d_evaluate_d_last_state N t0 t1 last x c = Ok [].
Proof.
  unfold d_evaluate_d_last_state.
  assert (E : forall sel, on_edges N sel (fun g => edge_d_last_state g t0 t1 last x c) = on_edges N sel (fun _ => Ok [])).
  { intro sel. apply on_edges_no_pipe. intros g Hg. unfold edge_d_last_state. destruct (ge_kind g); easy. }
  rewrite !E. apply oconcat_nil. intros o I. rewrite !in_app_iff in I. destruct I as [I|[I|I]].
  - apply in_map_iff in I. destruct I as (jt & <- & _). reflexivity.
  - apply in_flat_map in I. destruct I as (ie & _ & I). destruct (negb _); [|easy]. destruct (gas_of _ _ _); [|easy].
    destruct I as [<-|[]]. reflexivity.
  - apply in_flat_map in I. destruct I as (ie & _ & I). destruct (is_control _); [|easy]. destruct (gas_of _ _ _); [|easy].
    destruct I as [<-|[]]. reflexivity.
Qed.

Lemma within_no_memory eps t0 t0' t1 last last' x c :
  network_equations_within N eps t0 t1 last x c -> network_equations_within N eps t0' t1 last' x c.
Proof.
  intros (A & B). split; [exact A|]. intros i e He. specialize (B i e He).
  assert (K := proj1 (Forall_forall _ _) NP e (nth_error_In _ _ He)). cbn beta in K. unfold edge_equation_within in *. destruct (e_type e); easy.
Qed.
Lemma equations_no_memory t0 t0' t1 last last' x c :
  network_equations N t0 t1 last x c -> network_equations N t0' t1 last' x c.
Proof.
  intros (A & B). split; [exact A|]. intros i e He. specialize (B i e He).
  assert (K := proj1 (Forall_forall _ _) NP e (nth_error_In _ _ He)). cbn beta in K. unfold edge_equation in *. destruct (e_type e); easy.
Qed.
End Network.

(** ** Nothing changes from one time to the next *)
Section Unchanged.
Variables (E LU : Type) (n : nat) (N : network).
Variable factor : E -> R -> R -> vec -> list R -> vec -> option LU.
Variable linsolve : LU -> vec -> vec.
Let PB := network_problem E LU n (fun _ => N) (fun e _ _ _ _ => Ok e) factor linsolve.
Hypothesis NP : no_pipe N.

Lemma accepted_stays cfg fuel controls t0 t1 t2 u v w e e' :
  (0 <= maximal_iterations (newton cfg))%Z -> tolerance (newton cfg) < 1000000 ->
  same_values N t1 t2 -> interp_at controls t1 = interp_at controls t2 ->
  accepted PB (newton cfg) fuel controls t0 t1 u v e -> accepted PB (newton cfg) fuel controls t1 t2 v w e' -> w = v.
Proof.
  intros Hm Ht SV Ct A1 A2.
  assert (NN : never_nan PB) by (intros ? ? ? ? ? ?; discriminate).
  destruct (accepted_equations PB fuel cfg controls t0 t1 u v e NN Hm Ht A1) as (c & Hc & Q).
  destruct A2 as (c' & e0 & full & sol & Hc' & _ & S & _).
  assert (c' = c) by (destruct Hc as [[? ?]|[? ?]], Hc' as [[? ?]|[? ?]]; try lia; congruence). subst c'.
  unfold solve in S.
  assert (Ev : ns_norm (system_of PB e' t1 t2 v c) (ns_eval (system_of PB e' t1 t2 v c) v) = pr_norm PB (pr_eval PB e t0 t1 u c v)).
  { cbn. rewrite (evaluate_no_memory N NP t1 t2 t0 t1 v u); [reflexivity|].
    unfold same_values in *. eapply Forall_impl; [|exact SV]. intros []; auto. }
  rewrite Ev in S. clear Ev. set (nr := pr_norm PB (pr_eval PB e t0 t1 u c v)) in *.
  assert (L : xleb nr (Fin (tolerance (newton cfg))) = true).
  { unfold nr in *. cbn in *. apply Rleb_true. exact Q. }
  rewrite L in S. injection S. auto.
Qed.
End Unchanged.

(** ** A run *)
Definition settled_net : network :=
  mkNet [Pressurenode (fun _ => Ok (v2 (50 + 1) 0)); Flownode true (fun _ => Ok (v2 10 0))] [mkEdge 0 1 EShortpipe].
Definition settled_problem : problem :=
  network_problem unit unit 4 (fun _ => settled_net) (fun e _ _ _ _ => Ok e) (fun _ _ _ _ _ _ => Some tt) rising_solve.
Lemma settled_run :
  simulate settled_problem 1 1 sim_settings none [0; 1; 2] (rising_state 0) tt
  = (Some (Ok [rising_state 0; rising_state 1; rising_state 1]), tt).
Proof.
  assert (S1 : solve (system_of settled_problem tt 0 1 (rising_state 0) []) 1 (newton sim_settings) true (rising_state 0)
    = Some (Ok (rising_state 1, {| success := true; residual := Fin 0; used_iterations := 1 |}))).
  { pose proof (rising_step 0) as S. replace (0 + 1) with 1 in S by ring. exact S. }
  assert (S2 : solve (system_of settled_problem tt 1 2 (rising_state 1) []) 1 (newton sim_settings) true (rising_state 1)
    = Some (Ok (rising_state 1, {| success := true; residual := Fin 0; used_iterations := 0 |}))).
  { unfold solve. assert (Z : ns_norm (system_of settled_problem tt 1 2 (rising_state 1) [])
      (ns_eval (system_of settled_problem tt 1 2 (rising_state 1) []) (rising_state 1)) = Fin 0).
    { cbn [system_of ns_norm ns_eval settled_problem network_problem pr_norm pr_eval].
      assert (Ev : evaluate settled_net 1 2 (rising_state 1) (rising_state 1) (control_vector []) (fun _ => 0) = Ok (single (1 - 1))) by exact (rising_eval 1 1 (rising_state 1) 1).
      rewrite Ev, norm_single. replace ((1 - 1) ^ 2) with 0 by ring. rewrite sqrt_0. reflexivity. }
    rewrite Z. cbn [xleb]. rewrite (proj2 (Rleb_true 0 (tolerance (newton sim_settings)))) by (cbn; lra). reflexivity. }
  unfold simulate. change (current_controls none 1) with (Ok (@nil R)). cbv iota.
  cbn [simulate_loop]. change (current_controls none 1) with (Ok (@nil R)). change (current_controls none 2) with (Ok (@nil R)). cbv iota.
  unfold time_step, make_one_step. cbn [attempts]. cbn [pr_prepare settled_problem network_problem].
  cbn [use_simplified_newton sim_settings negb].
  rewrite S1. cbn [success]. rewrite S2. reflexivity.
Qed.
