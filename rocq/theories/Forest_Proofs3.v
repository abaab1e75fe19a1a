(** Networks of trees are determined; Newton's method needs one step. *)
From Coq Require Import Reals Lra Lia ZArith List Arith Bool.
From Coquelicot Require Import Coquelicot.
From Verif Require Import Base Interp_Model Calc Euler_Model Euler_Spec Box_Model Net_Model Net_Spec Net_Proofs5 Net_Proofs8 Net_Props Mass_Proofs Newton_Model Evolve_Model Sim_Model Sim_Proofs
  Grid_Spec Level_Spec Level_Proofs Level_Proofs2 Stuck_Proofs Linear_Proofs Forest_Spec Forest_Proofs Forest_Proofs2.
Import ListNotations.
Local Open Scope R_scope.

(** ** Trees *)
Lemma forest_determined N : well_formed N -> short_net N -> forest N -> determined N.
Proof.
  intros W S (child & depth & T & Inj & Root) h z (U1 & U2 & U3).
  assert (Eq : forall i e, nth_error (edges N) i = Some e -> h (e_from e) = h (e_to e)).
  { intros i e He. pose proof (U2 i e He) as H. pose proof (proj2 S e (nth_error_In _ _ He)) as Sh. unfold short in Sh.
    destruct (e_type e); try (destruct Sh; fail); exact H. }
  assert (Gas : forall i e j, nth_error (edges N) i = Some e -> e_from e = j \/ e_to e = j -> is_gas_node N j).
  { intros i e j He Ej. unfold well_formed in W. rewrite List.Forall_forall in W. destruct (W e (nth_error_In _ _ He)) as (_ & K).
    pose proof (proj2 S e (nth_error_In _ _ He)) as Sh. unfold short in Sh. destruct (e_type e); try (destruct Sh; fail); destruct Ej; subst j; tauto. }
  assert (H0 : forall m j i e, (depth j < m)%nat -> nth_error (edges N) i = Some e -> e_from e = j \/ e_to e = j -> h j = 0).
  { induction m as [|m IH]; intros j i e L He Ej; [lia|].
    pose proof (Gas i e j He Ej) as G. unfold is_gas_node in G. destruct (nth_error (nodes N) j) as [t|] eqn:Hj; [|destruct G].
    assert (D : (exists b, t = Pressurenode b) \/ balances N j).
    { unfold balances. rewrite Hj. destruct t; try (destruct G; fail); [right; exact Logic.I|right; exact Logic.I|left; eauto]. }
    destruct D as [(b & ->)|Hb]; [exact (U1 j b Hj)|].
    destruct (Root e j (nth_error_In _ _ He) Ej Hb) as (i' & Hi' & C).
    destruct (nth_error (edges N) i') as [e'|] eqn:He'; [|apply nth_error_None in He'; lia].
    destruct (T i' e' He') as ([(C1 & C2)|(C1 & C2)] & _); rewrite C in C1.
    - rewrite C1, <- (Eq i' e' He'). apply (IH (e_from e') i' e'); [rewrite C1 in L; lia|exact He'|left; reflexivity].
    - rewrite C1, (Eq i' e' He'). apply (IH (e_to e') i' e'); [rewrite C1 in L; lia|exact He'|right; reflexivity]. }
  set (M := list_max (map (fun i => depth (child i)) (seq 0 (length (edges N))))).
  assert (HM : forall i, (i < length (edges N))%nat -> (depth (child i) <= M)%nat).
  { intros i Hi. pose proof (proj1 (list_max_le (map (fun i => depth (child i)) (seq 0 (length (edges N)))) M) (le_n _)) as F.
    rewrite List.Forall_forall in F. apply F. apply in_map_iff. exists i. split; [reflexivity|]. apply in_seq. lia. }
  assert (Z0 : forall m i e, (M - depth (child i) < m)%nat -> nth_error (edges N) i = Some e -> z i = 0).
  { induction m as [|m IH]; intros i e L He; [lia|].
    assert (Hi : (i < length (edges N))%nat) by (apply nth_error_Some; congruence).
    destruct (T i e He) as (C & Hb). pose proof (U3 (child i) Hb) as D. unfold divergence in D.
    destruct (short_ends N i e S He) as (_ & Cg & _).
    rewrite (rsum_ext _ (fun ie => if Nat.eqb (fst ie) i then (if carries_gas (snd ie)
                  then (if Nat.eqb (e_from (snd ie)) (child i) then z (fst ie) else 0)
                       - (if Nat.eqb (e_to (snd ie)) (child i) then z (fst ie) else 0)
                  else 0) else 0)) in D.
    - unfold numbered in D. rewrite (rsum_only _ (edges N) 0 i e He) in D.
      + cbn [fst snd] in D. rewrite Nat.add_0_l in D. rewrite Nat.eqb_refl, Cg in D. destruct C as [(C1 & C2)|(C1 & C2)]; rewrite C1, Nat.eqb_refl in D.
        * destruct (Nat.eqb_spec (e_from e) (e_to e)) as [Q|Q]; [rewrite Q in C2; lia|]. lra.
        * destruct (Nat.eqb_spec (e_to e) (e_from e)) as [Q|Q]; [rewrite Q in C2; lia|]. lra.
      + intros k w K. cbn [fst]. destruct (Nat.eqb_spec k i); [cbn in K; lia|reflexivity].
    - intros [i' e'] I. apply in_numbered in I. cbn [fst snd]. destruct (Nat.eqb_spec i' i) as [_|Ne]; [reflexivity|].
      assert (Hi' : (i' < length (edges N))%nat) by (apply nth_error_Some; congruence).
      assert (Deep : (depth (child i) < depth (child i'))%nat -> z i' = 0).
      { intro Q. apply (IH i' e'); [|exact I]. pose proof (HM i Hi). pose proof (HM i' Hi'). lia. }
      destruct (T i' e' I) as (C' & _).
      assert (Cne : child i' <> child i) by (intro Q; apply Ne; apply (Inj i' i Hi' Hi Q)).
      destruct (carries_gas e'); [|reflexivity].
      destruct (Nat.eqb_spec (e_from e') (child i)) as [Q1|Q1], (Nat.eqb_spec (e_to e') (child i)) as [Q2|Q2]; try ring.
      + rewrite Deep; [ring|]. destruct C' as [(C1 & C2)|(C1 & C2)]; [rewrite C1, <- Q1; exact C2|congruence].
      + rewrite Deep; [ring|]. destruct C' as [(C1 & C2)|(C1 & C2)]; [congruence|rewrite C1, <- Q2; exact C2]. }
  intros (i & e & d & He & _ & [Q|Q]); apply Q.
  - apply (H0 (Datatypes.S (depth (end_node e d))) (end_node e d) i e); [lia|exact He|]. destruct d; [left|right]; reflexivity.
  - apply (Z0 (Datatypes.S (M - depth (child i))) i e); [lia|exact He].
Qed.

(** ** Newton's method *)
Lemma norm_zero n (r : vec) : (forall k, (k < n)%nat -> r k = 0) -> euclidean_norm n r = 0.
Proof.
  intro H. unfold euclidean_norm. assert (Z : sum_squares n r = 0).
  { induction n as [|n IH]; [reflexivity|]. cbn [sum_squares]. rewrite IH by (intros; apply H; lia). rewrite (H n) by lia. ring. }
  rewrite Z. apply sqrt_0.
Qed.
Section Newton.
Context {E LU : Type}.
Variable n : nat.
Variable net : E -> network.
Variable prepare : E -> R -> R -> vec -> list R -> outcome E.
Variable factor : E -> R -> R -> vec -> list R -> vec -> option LU.
Variable linsolve : LU -> vec -> vec.
Hypothesis X : solves_exactly n net factor linsolve.

Lemma one_step e t0 t1 last c x fuel cfg full :
  well_formed (net e) -> short_net (net e) -> determined (net e) -> number_of_states (net e) = n -> boundary_defined (net e) t1 ->
  0 <= tolerance cfg -> (1 <= maximal_iterations cfg)%Z ->
  exists y s, solve (system_of (network_problem E LU n net prepare factor linsolve) e t0 t1 last c) fuel cfg full x = Some (Ok (y, s)) /\
    success s = true /\
    (y = x /\ used_iterations s = 0%Z \/
     used_iterations s = 1%Z /\ network_equations (net e) t0 t1 last y (control_vector c)).
Proof.
  intros W S D Hn HB Ht Hm. set (cv := control_vector c). destruct (affine (net e) t1 W S HB) as (ts & Et & AF).
  pose proof (determined_regular (net e) t0 t1 last x cv ts W S D (Et _ _ _ _ _)) as NS. rewrite Hn in NS.
  set (ev := fun x => match evaluate (net e) t0 t1 last x cv (fun _ => 0) with Ok r => r | _ => fun _ => 0 end).
  assert (AE : forall x y k, (k < n)%nat -> ev y k = ev x k + vsum n (fun j => matrix_of ts k j * (y j - x j))).
  { intros x' y' k Hk. destruct (AF t0 last cv (fun _ => 0) x' y') as (f & r & Ef & Er & Q). unfold ev. rewrite Ef, Er. rewrite Hn in Q. apply Q. exact Hk. }
  destruct (X e t0 t1 last c x ts (Et _ _ _ _ _) NS) as (lu & Ef & L).
  set (y := fun k => x k + 1 * - linsolve lu (ev x) k).
  assert (Zy : forall k, (k < n)%nat -> ev y k = 0).
  { intros k Hk. rewrite (AE x y k Hk). pose proof (L (ev x) k Hk) as Q.
    rewrite (vsum_ext n _ (fun j => -1 * (matrix_of ts k j * linsolve lu (ev x) j))) by (intros; unfold y; ring). rewrite vsum_scal, Q. ring. }
  assert (Zc : forall k, (k < n)%nat -> linsolve lu (ev y) k = 0).
  { apply (injective n (matrix_of ts) (linsolve lu (ev y)) (fun _ => 0) NS). intros r Hr. rewrite (L (ev y) r Hr), (Zy r Hr).
    symmetry. rewrite (vsum_ext n _ (fun _ => 0)) by (intros; ring). apply vsum_zero. }
  unfold solve. cbv zeta. cbn [system_of ns_eval ns_norm ns_factor network_problem pr_eval pr_norm pr_factor]. fold cv. fold (ev x).
  destruct (xleb (Fin (euclidean_norm n (ev x))) (Fin (tolerance cfg))) eqn:Le.
  { eexists x, _. split; [reflexivity|]. split; [reflexivity|]. left. split; reflexivity. }
  cbn [xleb] in Le.
  assert (Gt : xgtb (Fin (euclidean_norm n (ev x))) (Fin (tolerance cfg)) = true).
  { cbn [xgtb xltb]. unfold Rltb, Rleb in *. destruct (Rle_dec (euclidean_norm n (ev x)) (tolerance cfg)); [discriminate|].
    destruct (Rlt_dec (tolerance cfg) (euclidean_norm n (ev x))); [reflexivity|lra]. }
  assert (NG : xgtb (Fin (euclidean_norm n (ev y))) (Fin (tolerance cfg)) = false).
  { rewrite (norm_zero n (ev y) Zy). cbn [xgtb xltb]. unfold Rltb. destruct (Rlt_dec (tolerance cfg) 0); [lra|reflexivity]. }
  rewrite Ef.
  set (Sy := system_of (network_problem E LU n net prepare factor linsolve) e t0 t1 last c).
  assert (St : forall lu0, (full = false -> lu0 = Some lu) -> newton_step Sy fuel full lu0 x (ev x) = Some (Ok (y, ev y))).
  { intros lu0 H0. unfold newton_step. cbv zeta.
    assert (F : (if full then ns_factor Sy x else lu0) = Some lu) by (destruct full; [exact Ef|apply H0; reflexivity]). rewrite F.
    assert (DS : damp Sy fuel lu x (ns_neg Sy (ns_linsolve Sy lu (ev x))) (ns_norm Sy (ns_neg Sy (ns_linsolve Sy lu (ev x)))) 1 y (ev y)
      (ns_norm Sy (ns_neg Sy (ns_linsolve Sy lu (ev y)))) = Some (Ok (1, y, ev y))).
    { assert (Cn : xgtb (ns_norm Sy (ns_neg Sy (ns_linsolve Sy lu (ev y)))) (xscale (1 - / 2 * 1) (ns_norm Sy (ns_neg Sy (ns_linsolve Sy lu (ev x))))) = false).
      { cbn [Sy system_of ns_norm ns_neg ns_linsolve network_problem pr_norm pr_neg pr_linsolve xscale xgtb xltb].
        rewrite (norm_zero n (fun k => - linsolve lu (ev y) k)) by (intros k Hk; rewrite (Zc k Hk); ring).
        unfold Rltb. destruct (Rlt_dec ((1 - / 2 * 1) * euclidean_norm n (fun k => - linsolve lu (ev x) k)) 0) as [Q|]; [|reflexivity].
        exfalso. unfold euclidean_norm in Q. pose proof (sqrt_pos (sum_squares n (fun k => - linsolve lu (ev x) k))). lra. }
      destruct fuel; cbn [damp]; rewrite Cn; reflexivity. }
    change (ns_move Sy x 1 (ns_neg Sy (ns_linsolve Sy lu (ev x)))) with y. change (ns_eval Sy y) with (ev y). rewrite DS. reflexivity. }
  assert (exists left, Z.to_nat (maximal_iterations cfg) = Datatypes.S left) as (left & HL) by (exists (Z.to_nat (maximal_iterations cfg) - 1)%nat; lia).
  assert (Lo : newton_loop Sy fuel (tolerance cfg) full (Some lu) (Z.to_nat (maximal_iterations cfg)) x (ev x) default_solution =
    Some (Ok (y, {| success := false; residual := Fin (euclidean_norm n (ev y)); used_iterations := 1 |}))).
  { rewrite HL. cbn [newton_loop]. change (ns_norm Sy (ev x)) with (Fin (euclidean_norm n (ev x))). rewrite Gt.
    rewrite St by reflexivity. destruct left as [|left]; cbn [newton_loop]; [reflexivity|].
    change (ns_norm Sy (ev y)) with (Fin (euclidean_norm n (ev y))). rewrite NG. reflexivity. }
  exists y. eexists. split.
  - destruct full; rewrite Lo; reflexivity.
  - cbn [success used_iterations residual]. rewrite NG, andb_false_r. split; [reflexivity|]. right. split; [reflexivity|].
    destruct (C54_solution (net e) t0 t1 last y cv (fun _ => 0) W (short_pipes _ S) HB) as (r & Er & Ir). apply Ir.
    intros i Hi. rewrite Hn in Hi. pose proof (Zy i Hi) as Q. unfold ev in Q. rewrite Er in Q. exact Q.
Qed.

Lemma steps_finish fuel sfuel cfg controls :
  0 <= tolerance (newton cfg) -> (1 <= maximal_iterations (newton cfg))%Z -> (1 <= sfuel)%nat ->
  (forall e, well_formed (net e) /\ short_net (net e) /\ determined (net e) /\ number_of_states (net e) = n) ->
  (forall e t0 t1 x c, exists e', prepare e t0 t1 x c = Ok e') ->
  forall times, (forall e t, In t times -> boundary_defined (net e) t) -> (forall t, In t times -> exists c, current_controls controls t = Ok c) ->
  forall t0 last x e, exists rows e', simulate_loop (network_problem E LU n net prepare factor linsolve) fuel sfuel cfg controls times t0 last x e = (Some (Ok rows), e').
Proof.
  intros Ht Hm Hs HN HP. induction times as [|t times IH]; intros HB HC t0 last x e; [cbn; eauto|].
  cbn [simulate_loop]. destruct (HC t (or_introl eq_refl)) as (c & ->).
  unfold time_step, make_one_step. destruct sfuel as [|sf]; [lia|]. cbn [attempts].
  change (pr_prepare (network_problem E LU n net prepare factor linsolve) e t0 t last c) with (prepare e t0 t last c).
  destruct (HP e t0 t last c) as (e1 & ->). destruct (HN e1) as (W & S & D & Hn).
  destruct (one_step e1 t0 t last c x fuel (newton cfg) (negb (use_simplified_newton cfg)) W S D Hn (HB e1 t (or_introl eq_refl)) Ht Hm) as (y & s & Es & Su & _).
  rewrite Es. rewrite Su. cbv iota beta. rewrite Su.
  destruct (IH ltac:(intros; apply HB; right; assumption) ltac:(intros; apply HC; right; assumption) t y y e1) as (rows & e2 & E2).
  rewrite E2. eauto.
Qed.
End Newton.
