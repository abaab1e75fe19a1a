(** * Property C106: the order and direction in which components are entered do not matter *)
From Coq Require Import Reals Lra Lia List Arith Bool.
From Verif Require Import Base Calc Euler_Model Net_Model Net_Spec Net_Props Renumber_Spec Renumber_Proofs Renumber_Proofs2.
Import ListNotations.
Local Open Scope R_scope.

(** Every state of a network has its counterpart if the same network is entered differently, and the new network is
    well formed, too. *)
Theorem C106_state : forall N N' pn pe flip, well_formed N -> same_network N N' pn pe flip ->
  well_formed N' /\ forall x, exists y, same_state N N' pn pe flip x y.
Proof.
  intros N N' pn pe flip W S. split; [apply (well_formed_same N N' pn pe flip W S)|]. intro x. apply (state_exists N N' pn pe flip S).
Qed.
Print Assumptions C106_state.

(** The counterparts of solutions are solutions, and only they. *)
Theorem C106_equations : forall N N' pn pe flip t0 t1 last last' x y c c',
  well_formed N -> same_network N N' pn pe flip ->
  same_state N N' pn pe flip last last' -> same_state N N' pn pe flip x y -> same_control N N' pe c c' ->
  (network_equations N' t0 t1 last' y c' <-> network_equations N t0 t1 last x c).
Proof. intros. eapply network_same; eassumption. Qed.
Print Assumptions C106_equations.

(** The residual of the new network is zero exactly if that of the original is. *)
Theorem C106_residual : forall N N' pn pe flip t0 t1 last last' x y c c' v v',
  well_formed N -> same_network N N' pn pe flip -> pipes_ok N -> boundary_defined N t1 ->
  same_state N N' pn pe flip last last' -> same_state N N' pn pe flip x y -> same_control N N' pe c c' ->
  exists r r', evaluate N t0 t1 last x c v = Ok r /\ evaluate N' t0 t1 last' y c' v' = Ok r' /\
    ((forall i, (i < number_of_states N')%nat -> r' i = 0) <-> (forall i, (i < number_of_states N)%nat -> r i = 0)).
Proof.
  intros N N' pn pe flip t0 t1 last last' x y c c' v v' W S HP HB XL X XC.
  pose proof (network_same N N' pn pe flip W S t0 t1 last last' x y c c' XL X XC) as E.
  pose proof (well_formed_same N N' pn pe flip W S) as W'.
  assert (HP' : pipes_ok N').
  { apply List.Forall_forall. intros e' He'. apply In_nth_error in He'. destruct He' as (i' & H).
    destruct (edge_found N N' pn pe flip S i' e' H) as (i & e & Hi & -> & ->). rewrite image_type.
    unfold pipes_ok in HP. rewrite List.Forall_forall in HP. apply HP. apply (nth_error_In _ _ Hi). }
  assert (HB' : boundary_defined N' t1).
  { intro j'. destruct (nth_error (nodes N') j') as [t|] eqn:En; [|exact Logic.I].
    destruct (node_found N N' pn pe flip S j' t En) as (j & Hj & ->). pose proof (HB j) as Q. rewrite Hj in Q. exact Q. }
  destruct (C54_solution N t0 t1 last x c v W HP HB) as (r & Er & Hr).
  destruct (C54_solution N' t0 t1 last' y c' v' W' HP' HB') as (r' & Er' & Hr').
  exists r, r'. split; [exact Er|]. split; [exact Er'|]. rewrite Hr, Hr'. exact E.
Qed.
Print Assumptions C106_residual.

(** Case: three nodes with a pipe and a compressor, entered in the opposite order, with the pipe turned around. *)
Definition entered : network :=
  mkNet [Pressurenode (fun _ => Ok (v2 50 0)); Innode; Flownode true (fun _ => Ok (v2 10 0))]
        [mkEdge 0 1 (EPipe 1 (1 / 100) 1000 3); mkEdge 1 2 (ECompressor 0)].
Definition entered_differently : network :=
  mkNet [Flownode true (fun _ => Ok (v2 10 0)); Innode; Pressurenode (fun _ => Ok (v2 50 0))]
        [mkEdge 1 0 (ECompressor 0); mkEdge 1 2 (EPipe 1 (1 / 100) 1000 3)].
Example C106_case : well_formed entered /\
  same_network entered entered_differently (fun j => 2 - j)%nat (fun i => 1 - i)%nat (fun i => Nat.eqb i 0) /\
  same_state entered entered_differently (fun j => 2 - j)%nat (fun i => 1 - i)%nat (fun i => Nat.eqb i 0)
    (fun k => nth k [41; 10; 40; 9; 39; 8; 49; 8; 53; 8] 0) (fun k => nth k [49; 8; 53; 8; 39; -8; 40; -9; 41; -10] 0) /\
  same_control entered entered_differently (fun i => 1 - i)%nat (fun _ => 4) (fun _ => 4) /\
  pipes_ok entered /\ boundary_defined entered 7.
Proof.
  split; [unfold well_formed; cbn [entered edges]; repeat constructor; cbn; auto; discriminate|]. split; [|split; [|split; [|split]]].
  - split; [reflexivity|]. split; [split; cbn [length nodes edges entered]; intros; lia|]. split; [reflexivity|]. split; [split; cbn [length nodes edges entered]; intros; lia|]. split.
    + intros j t H. destruct j as [|[|[|j]]]; cbn in H; [injection H as <-; reflexivity..|destruct j; discriminate].
    + intros i e H. destruct i as [|[|i]]; cbn in H; [injection H as <-..|destruct i; discriminate]; cbn; split; auto; discriminate.
  - split.
    + intros j k H _. destruct j as [|[|[|j]]]; cbn in H; try destruct H. destruct j; destruct H.
    + intros i e H. destruct i as [|[|i]]; cbn in H; [injection H as <-..|destruct i; discriminate].
      * intros s s' m Hm. subst s s'. cbn [points e_type] in Hm. destruct m as [|[|[|m]]]; [| | |lia]; cbn; split; ring.
      * intros s s' k Hk. subst s s'. cbn [edge_states e_type] in Hk. destruct k as [|[|[|[|k]]]]; [reflexivity..|lia].
  - intros i e _ _. reflexivity.
  - unfold pipes_ok; cbn [entered edges]; repeat constructor; cbn; lra.
  - intro j. destruct j as [|[|[|j]]]; cbn; eauto. destruct j; exact Logic.I.
Qed.
