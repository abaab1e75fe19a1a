(** When the residual vanishes. *)
From Coq Require Import Reals Lra Lia List Arith Permutation.
From Coquelicot Require Import Complex.
From Verif Require Import Base Interp_Model Calc Euler_Model Euler_Spec Euler_Proofs Euler_Proofs2
  Box_Model Box_Spec Box_Proofs Net_Model Net_Spec Net_Proofs Net_Proofs2 Net_Proofs3 Net_Proofs4 Net_Proofs5 Net_Proofs6.
Import ListNotations.
Local Open Scope R_scope.

(** A component that was evaluated. *)
Definition done (rows : list nat) (o : outcome (list write)) (ws : list write) : Prop :=
  o = Ok ws /\ assigned ws = rows /\ adds_ok [] ws.
Definition vanishes (ws : list write) : Prop := forall r, In r (assigned ws) -> wsum ws r = 0.

Lemma jac_done m rows o u dj : jac_ok m rows (fun _ => o) u dj -> exists ws, done rows o ws.
Proof.
  intros [W [ts [d [Hd [E [_ [_ [A _]]]]]]]]. exists (W u). split; [|apply A].
  apply (E u). intro k. rewrite Rminus_diag_eq, Rabs_R0; auto.
Qed.
Lemma wsum_outside ws r : adds_ok [] ws -> ~ In r (assigned ws) -> wsum ws r = 0.
Proof.
  intros A H. assert (K : forall w, In w ws -> write_index w <> r).
  { intros w Hw E. destruct (adds_ok_index ws [] w A Hw) as [K|[]]. rewrite E in K. auto. }
  clear -K. induction ws as [|w ws IH]; [reflexivity|]. rewrite wsum_cons.
  destruct (Nat.eqb_spec (write_index w) r); [exfalso; eapply K; [left; reflexivity|auto]|].
  rewrite IH; [ring|]. intros; apply K; right; auto.
Qed.
Lemma vanishes_app a b : adds_ok [] a -> adds_ok [] b -> NoDup (assigned a ++ assigned b) ->
  (vanishes (a ++ b) <-> vanishes a /\ vanishes b).
Proof.
  intros A B ND.
  assert (D : forall r, In r (assigned a) -> ~ In r (assigned b)).
  { intros r Ha Hb. revert ND Ha Hb. generalize (assigned a) (assigned b). clear.
    intros l m ND. induction l as [|x l IH]; [intros []|]. cbn in ND. inversion ND as [|? ? H1 H2]; subst.
    intros [->|K] Hm; [apply H1, in_app_iff; auto|auto]. }
  unfold vanishes. rewrite assigned_app. split.
  - intro H. split; intros r Hr.
    + specialize (H r ltac:(apply in_app_iff; auto)). rewrite wsum_app, (wsum_outside b) in H by auto. lra.
    + specialize (H r ltac:(apply in_app_iff; auto)). rewrite wsum_app, (wsum_outside a) in H; [lra|auto|].
      intro K. exact (D r K Hr).
  - intros [Ha Hb] r Hr. apply in_app_iff in Hr. rewrite wsum_app. destruct Hr as [Hr|Hr].
    + rewrite (Ha r Hr), (wsum_outside b) by auto. ring.
    + rewrite (Hb r Hr), (wsum_outside a); [ring|auto|]. intro K. exact (D r K Hr).
Qed.

Lemma NoDup_app_both {A} (a b : list A) : NoDup (a ++ b) -> NoDup a /\ NoDup b.
Proof.
  induction a as [|x a IH]; cbn; intro H; [split; [constructor|auto]|].
  inversion H as [|? ? H1 H2]; subst. destruct (IH H2). split; [|auto]. constructor; auto.
  intro K. apply H1, in_app_iff. auto.
Qed.
(** A list of components. *)
Lemma done_concat {A} (rows : A -> list nat) (f : A -> outcome (list write)) l :
  (forall a, In a l -> exists ws, done (rows a) (f a) ws) ->
  exists ws, done (flat_map rows l) (oconcat (map f l)) ws /\
    (NoDup (flat_map rows l) ->
     (vanishes ws <-> forall a ws', In a l -> f a = Ok ws' -> vanishes ws')).
Proof.
  induction l as [|a l IH]; intro H.
  - exists []. split; [repeat split; cbn; auto|]. intros _. split; [intros _ a ws' []|intros _ r []].
  - destruct (H a (or_introl eq_refl)) as [w1 [E1 [R1 A1]]].
    destruct IH as [w2 [[E2 [R2 A2]] V2]]; [intros; apply H; right; auto|].
    exists (w1 ++ w2). split.
    + split; [|split].
      * change (oconcat (map f (a :: l))) with (oapp (f a) (oconcat (map f l))). rewrite E1, E2. reflexivity.
      * rewrite assigned_app, R1, R2. reflexivity.
      * apply adds_ok_app; auto.
    + cbn [flat_map]. intro ND. rewrite vanishes_app; auto; [|rewrite R1, R2; exact ND].
      rewrite V2 by (eapply NoDup_app_both; eauto). split.
      * intros [Va Vl] b ws' [->|Hb] Eb; [assert (ws' = w1) by congruence; subst; auto|eapply Vl; eauto].
      * intro Hall. split; [apply (Hall a); [left; auto|auto]|]. intros b ws' Hb Eb. apply (Hall b); [right; auto|auto].
Qed.
Lemma done_app r1 r2 o1 o2 w1 w2 : done r1 o1 w1 -> done r2 o2 w2 -> done (r1 ++ r2) (oapp o1 o2) (w1 ++ w2).
Proof.
  intros [E1 [R1 A1]] [E2 [R2 A2]]. split; [rewrite E1, E2; reflexivity|].
  split; [rewrite assigned_app; congruence|apply adds_ok_app; auto].
Qed.

(** ** Flow nodes *)
Lemma pbal_index rest x : forall oeq op leq w, In w (pbal rest x oeq op leq) ->
  write_index w = leq \/ In (write_index w) (removelast (oeq :: map end_row rest)).
Proof.
  induction rest as [|de rest IH]; intros oeq op leq w H; [destruct H|].
  cbn [pbal] in H. destruct H as [<-|[<-|H]].
  - right. left. reflexivity.
  - left. reflexivity.
  - destruct (IH _ _ _ _ H) as [K|K]; [left; auto|right].
    change (removelast (oeq :: map end_row (de :: rest))) with (oeq :: removelast (end_row de :: map end_row rest)).
    right. exact K.
Qed.
Lemma wsum_no_index ws r : (forall w, In w ws -> write_index w <> r) -> wsum ws r = 0.
Proof.
  intro K. induction ws as [|w ws IH]; [reflexivity|]. rewrite wsum_cons.
  destruct (Nat.eqb_spec (write_index w) r); [exfalso; eapply K; [left; reflexivity|auto]|].
  rewrite IH; [ring|]. intros; apply K; right; auto.
Qed.
Lemma removelast_in {A} (l : list A) a : In a (removelast l) -> In a l.
Proof.
  induction l as [|b l IH]; [auto|]. destruct l as [|c l]; [intros []|].
  change (removelast (b :: c :: l)) with (b :: removelast (c :: l)). intros [->|H]; [left; auto|right; auto].
Qed.
Lemma pbal_zero rest x : forall oeq op leq,
  NoDup (removelast (oeq :: map end_row rest)) -> ~ In leq (removelast (oeq :: map end_row rest)) ->
  ((forall r, In r (removelast (oeq :: map end_row rest)) -> wsum (pbal rest x oeq op leq) r = 0)
    <-> forall de, In de rest -> end_pressure de x = op) /\
  wsum (pbal rest x oeq op leq) leq = rsum (fun de => dsign (fst de) * end_flow de x) rest.
Proof.
  induction rest as [|de rest IH]; intros oeq op leq ND NI.
  - cbn. split; [|reflexivity]. split; [intros _ de []|intros _ r []].
  - change (removelast (oeq :: map end_row (de :: rest))) with (oeq :: removelast (end_row de :: map end_row rest)) in *.
    inversion ND as [|? ? N1 N2]; subst.
    assert (Ne : oeq <> leq) by (intros ->; apply NI; left; auto).
    assert (NI' : ~ In leq (removelast (end_row de :: map end_row rest))) by (intro K; apply NI; right; auto).
    destruct (IH (end_row de) (end_pressure de x) leq N2 NI') as [Z1 Z2].
    assert (W : forall r, wsum (pbal (de :: rest) x oeq op leq) r =
      (if Nat.eqb oeq r then end_pressure de x - op else 0) +
      ((if Nat.eqb leq r then dsign (fst de) * end_flow de x else 0)
       + wsum (pbal rest x (end_row de) (end_pressure de x) leq) r)) by reflexivity.
    split.
    + split.
      * intros H de' Hin. pose proof (H oeq (or_introl eq_refl)) as H0.
        rewrite W, Nat.eqb_refl in H0.
        destruct (Nat.eqb_spec leq oeq); [congruence|].
        rewrite wsum_no_index in H0.
        2:{ intros w Hw E. destruct (pbal_index _ _ _ _ _ _ Hw) as [K|K]; [congruence|]. rewrite E in K. auto. }
        assert (Ep : end_pressure de x = op) by lra.
        destruct Hin as [<-|Hin]; [exact Ep|]. rewrite <- Ep. apply Z1; [|exact Hin].
        intros r Hr. specialize (H r (or_intror Hr)). rewrite W in H.
        destruct (Nat.eqb_spec oeq r); [subst; contradiction|].
        destruct (Nat.eqb_spec leq r); [subst; contradiction|]. lra.
      * intros H r [<-|Hr].
        -- rewrite W, Nat.eqb_refl. destruct (Nat.eqb_spec leq oeq); [congruence|].
           rewrite wsum_no_index.
           2:{ intros w Hw E. destruct (pbal_index _ _ _ _ _ _ Hw) as [K|K]; [congruence|]. rewrite E in K. auto. }
           rewrite (H de) by (left; auto). ring.
        -- rewrite W. destruct (Nat.eqb_spec oeq r); [subst; contradiction|].
           destruct (Nat.eqb_spec leq r); [subst; contradiction|].
           rewrite (proj2 Z1); [ring| |exact Hr]. intros de' Hd. rewrite (H de') by (right; auto).
           symmetry. apply H. left. auto.
    + rewrite W, Nat.eqb_refl, Z2. destruct (Nat.eqb_spec oeq leq); [congruence|]. cbn [rsum]. ring.
Qed.

Lemma flow_zero att x q : NoDup (flow_rows att) ->
  (vanishes (pflow att x q) <->
   (att <> [] -> (exists pr, forall de, In de att -> end_pressure de x = pr) /\
                 rsum (fun de => dsign (fst de) * end_flow de x) att = q)).
Proof.
  intro ND. unfold vanishes. rewrite (proj1 (pflow_rows att x q)).
  destruct att as [|de0 rest]; [cbn; split; [intros _ H; congruence|intros _ r []]|].
  unfold flow_rows in *. inversion ND as [|? ? N1 N2]; subst. cbn [map] in *.
  set (leq := end_row (last (de0 :: rest) de0)) in *.
  destruct (pbal_zero rest x (end_row de0) (end_pressure de0 x) leq N2 N1) as [Z1 Z2].
  assert (W : forall r, wsum (pflow (de0 :: rest) x q) r =
     (if Nat.eqb leq r then -1 * q else 0) + ((if Nat.eqb leq r then dsign (fst de0) * end_flow de0 x else 0)
      + wsum (pbal rest x (end_row de0) (end_pressure de0 x) leq) r)) by reflexivity.
  split.
  - intros H _. split.
    + exists (end_pressure de0 x). intros de [<-|Hd]; [reflexivity|]. apply Z1; [|exact Hd].
      intros r Hr. specialize (H r (or_intror Hr)). rewrite W in H.
      destruct (Nat.eqb_spec leq r); [subst r; contradiction|]. lra.
    + specialize (H leq (or_introl eq_refl)). rewrite W, Nat.eqb_refl, Z2 in H. cbn [rsum]. lra.
  - intros H. destruct (H ltac:(discriminate)) as [[pr Hp] Hs]. cbn [rsum] in Hs. intros r [<-|Hr].
    + rewrite W, Nat.eqb_refl, Z2. lra.
    + rewrite W. destruct (Nat.eqb_spec leq r); [subst r; contradiction|].
      rewrite (proj2 Z1); [ring| |exact Hr]. intros de Hd. rewrite (Hp de) by (right; auto).
      symmetry. apply Hp. left. auto.
Qed.

(** ** Pressure nodes *)
Lemma pressure_zero att x q : List.Forall has_end att -> NoDup (map end_row att) ->
  exists ws, pressure_evaluate att x q = Ok ws /\ assigned ws = map end_row att /\ adds_ok [] ws /\
    (vanishes ws <-> forall de, In de att -> end_pressure de x = q).
Proof.
  induction att as [|de att IH]; intros H ND.
  - exists []. cbn. repeat split; auto. intros _ de [].
  - inversion H as [|? ? H1 H2]; subst. cbn [map] in ND. inversion ND as [|? ? N1 N2]; subst.
    destruct (IH H2 N2) as [ws [E [A1 [A2 V]]]]. destruct de as [d e].
    pose proof (end_vec_ok (d, e) x H1) as Ev. cbn [fst snd] in Ev.
    exists (Assign (end_row (d, e)) (end_pressure (d, e) x - q) :: ws). split; [|split; [|split]].
    + unfold pressure_evaluate in *. cbn [map oconcat fold_right]. unfold oconcat in E. rewrite E, Ev.
      cbn [obind]. rewrite end_vec_0. reflexivity.
    + cbn. f_equal. exact A1.
    + cbn [adds_ok]. eapply adds_ok_incl; [|exact A2]. intros i [].
    + change (Assign (end_row (d, e)) (end_pressure (d, e) x - q) :: ws)
        with ([Assign (end_row (d, e)) (end_pressure (d, e) x - q)] ++ ws).
      rewrite vanishes_app; [|cbn; auto|auto|cbn [assigned flat_map app]; fold (assigned ws); rewrite A1; exact ND].
      rewrite V. split.
      * intros [Va Vl] de [<-|Hd]; [|auto]. specialize (Va (end_row (d, e)) (or_introl eq_refl)).
        cbn [wsum fold_right write_index wval] in Va. rewrite Nat.eqb_refl in Va. lra.
      * intro Hall. split; [|intros; apply Hall; right; auto].
        intros r [<-|[]]. cbn [wsum fold_right write_index wval]. rewrite Nat.eqb_refl.
        rewrite (Hall (d, e)) by (left; auto). ring.
Qed.

(** Two rows. *)
Lemma two_zero i j a b : i <> j -> (vanishes [Assign i a; Assign j b] <-> a = 0 /\ b = 0).
Proof.
  intro Ne. unfold vanishes. cbn [assigned flat_map app wsum fold_right write_index wval]. split.
  - intro H. pose proof (H i (or_introl eq_refl)) as Hi. pose proof (H j (or_intror (or_introl eq_refl))) as Hj.
    rewrite Nat.eqb_refl in Hi, Hj. destruct (Nat.eqb_spec j i); [congruence|].
    destruct (Nat.eqb_spec i j); [congruence|]. lra.
  - intros [-> ->] r _. destruct (Nat.eqb i r), (Nat.eqb j r); ring.
Qed.
Lemma one_zero i a : vanishes [Assign i a] <-> a = 0.
Proof.
  unfold vanishes. cbn [assigned flat_map app wsum fold_right write_index wval]. split.
  - intro H. specialize (H i (or_introl eq_refl)). rewrite Nat.eqb_refl in H. lra.
  - intros -> r _. destruct (Nat.eqb i r); ring.
Qed.
