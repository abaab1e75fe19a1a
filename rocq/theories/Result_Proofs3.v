(** * The run of the problem of Result_Proofs2.v: simulations with two tables of controls *)
From Coq Require Import Reals ZArith Lra Lia List Arith Bool String.
From Verif Require Import Base Interp_Model Interp_Spec Interp_Proofs Json_Model Controls_Model Calc Net_Model Net_Spec Sim_Model Sim_Spec
  Cost_Spec Iface_Model Whole_Spec Input_Model Input_Proofs5
  Setup_Model Setup_Spec Setup_Proofs2 Answer_Model Answer_Spec Answer_Proofs Answer_Proofs2 Answer_Proofs3 Result_Model Result_Proofs Result_Proofs2 Evolve_Proofs
  Forest_Spec Forest_Props.
From Verif Require Newton_Model Evolve_Model Iface_Proofs3 Optim_Model Optim_Spec Run_Model Adjoint_Model States_Model.
Import ListNotations.
Local Open Scope list_scope.

(** The equations are linear; this is the solution of the linear system of a Newton step. *)
Definition tight_factor (_ : unit) (_ _ : R) (_ : vec) (_ : list R) (_ : vec) : option unit := Some tt.
Definition tight_solve (_ : unit) (b : vec) : vec :=
  fun k => nth k [b 0%nat; - (b 2%nat + b 3%nat); b 0%nat + b 1%nat; - b 3%nat]%R 0%R.
Lemma tight_exact : solves_exactly 4 (fun _ : unit => opt_network) tight_factor tight_solve.
Proof.
  intros e t0 t1 last c x ts E _. exists tt. split; [reflexivity|]. intros b r Hr.
  cbn in E. injection E as <-. do 4 (destruct r as [|r]; [cbn; ring|]). lia.
Qed.
Lemma tight_well_formed : well_formed opt_network.
Proof. unfold well_formed; cbn; repeat constructor; cbn; auto; discriminate. Qed.
Lemma tight_short : short_net opt_network.
Proof.
  split; [|intros e [<-|[]]; exact Logic.I]. intros j Hj. do 2 (destruct j as [|j]; [exact Logic.I|]). cbn in Hj. lia.
Qed.
Lemma tight_forest : forest opt_network.
Proof.
  exists (fun _ => 0%nat), (fun j => (1 - j)%nat). split; [|split].
  - intros i e H. destruct i as [|i]; cbn in H; [injection H as <-; cbn; split; [lia|exact Logic.I]|destruct i; discriminate].
  - intros i i' H H' _. cbn in H, H'. lia.
  - intros e j _ _ B. exists 0%nat. destruct j as [|[|j]]; [cbn; lia|destruct B|destruct j; destruct B].
Qed.
Lemma tight_boundary t : (0 <= t <= 2)%R -> boundary_defined opt_network t.
Proof.
  intros T j. destruct j as [|[|j]]; cbn [opt_network network_of opt_nodes nodes map nodetype_of mn_data nth_error].
  - unfold Input_Model.boundary_of. rewrite small_interp by lra. eexists. reflexivity.
  - unfold Input_Model.boundary_of. rewrite small_interp by lra. eexists. reflexivity.
  - destruct j; exact Logic.I.
Qed.
Lemma Rabs_def2_le a b : (Rabs a <= b -> - b <= a <= b)%R.
Proof. unfold Rabs. destruct (Rcase_abs a); lra. Qed.
(** With the constant controls [y] the pressure behind the compressor is, up to the tolerance, 50 + y. *)
Lemma tight_run y : exists u v,
  Evolve_Model.simulate (opt_system tight_factor tight_solve) 1075 2 small_solver (mk_ivec [0; 2]%R 1 [y; y]) [0; 1; 2]%R small_state tt
    = (Some (Ok [small_state; u; v]), tt) /\ (50 + y - 1 / 50 <= v 2%nat)%R.
Proof.
  destruct (C109_simulation unit unit 4 (fun _ => opt_network) (fun e _ _ _ _ => Ok e) tight_factor tight_solve 1075 2 small_solver (mk_ivec [0; 2]%R 1 [y; y]) [0; 1; 2]%R small_state tt)
    as (rows & [] & H & L & K).
  - intros _. split; [exact tight_well_formed|]. split; [exact tight_short|]. split; [exact (proj2 (C109_forest _ tight_well_formed tight_short) tight_forest)|reflexivity].
  - intros e t It. apply tight_boundary. destruct It as [<-|[<-|[<-|[]]]]; lra.
  - intros t It. exists [y]. apply (small_interp 2 y t); [lra|]. destruct It as [<-|[<-|[<-|[]]]]; lra.
  - eauto.
  - exact tight_exact.
  - cbn. lra.
  - cbn. lia.
  - lia.
  - cbn. lia.
  - destruct rows as [|x' [|u [|v [|w rows]]]]; try discriminate L. exists u, v.
    assert (x' = small_state) as ->.
    { destruct (Evolve_Proofs.simulate_ok _ _ _ _ _ _ _ _ _ _ H) as (_ & _ & Hx & _). cbn in Hx. congruence. }
    split; [exact H|].
    destruct (K 1%nat 1%R 2%R u v eq_refl eq_refl eq_refl eq_refl) as (c & _ & e1 & Hc & _ & Nn & Ne).
    assert (c = [y]) as ->.
    { assert (Q : Evolve_Model.current_controls (mk_ivec [0; 2]%R 1 [y; y]) 2 = Ok [y]) by (apply (small_interp 2 y 2); lra). congruence. }
    specialize (Ne 0%nat _ eq_refl). cbn in Ne. destruct Ne as [Ne _].
    specialize (Nn 1%nat _ eq_refl). cbn in Nn. destruct Nn as (b & Hb & Pn).
    { exists 0%nat, (mkEdge 1 0 (ECompressor 1)), dstart. cbn. auto. }
    unfold Input_Model.boundary_of in Hb. rewrite small_interp in Hb by lra. cbn in Hb. injection Hb as <-.
    specialize (Pn 0%nat (mkEdge 1 0 (ECompressor 1)) dstart eq_refl eq_refl ltac:(cbn; auto)). cbn in Pn.
    unfold within in Ne, Pn. apply Rabs_def2_le in Ne. apply Rabs_def2_le in Pn. lra.
Qed.
