(** Limits of the power that lines carry. *)
From Coq Require Import Reals Lra Lia List Arith Bool.
From Coquelicot Require Import Rcomplements Complex.
From Verif Require Import Base Calc Euler_Model Net_Model Net_Spec Net_Proofs5 Net_Proofs8 Sim_Spec Mass_Proofs Load_Spec.
Import ListNotations.
Local Open Scope R_scope.

Lemma mod2 (z : C) : Cmod z * Cmod z = fst z * fst z + snd z * snd z.
Proof. unfold Cmod. rewrite sqrt_sqrt by nra. ring. Qed.
Lemma mod_le (z : C) a : 0 <= a -> fst z * fst z + snd z * snd z <= a * a -> Cmod z <= a.
Proof. intros Ha H. rewrite <- mod2 in H. pose proof (Cmod_ge_0 z). nra. Qed.

Lemma Cmod_conj (z : C) : Cmod (Cconj z) = Cmod z.
Proof. unfold Cmod, Cconj. cbn [fst snd]. f_equal. ring. Qed.

(** The power of one node with voltage [w], own admittance [Y] and current [I] from the lines. *)
Definition one_power (Y I w : C) : C := Cmult w (Cconj (Cplus (Cmult Y w) I)).

Lemma one_distance Y I w :
  Cmod (Cminus (one_power Y I w) (Cmult (Cconj Y) (RtoC (Cmod w * Cmod w)))) = Cmod w * Cmod I.
Proof.
  rewrite <- (Cmod_conj I), <- (Cmod_mult w (Cconj I)). f_equal. rewrite mod2. destruct Y as [G B], I as [a b], w as [c d].
  unfold one_power, Cminus, Copp, Cmult, Cconj, Cplus, RtoC. cbn [fst snd]. f_equal; ring.
Qed.
Lemma one_square Y I w (s := one_power Y I w) (z := Cmod w * Cmod w) :
  Cmod s * Cmod s + (Cmod Y * Cmod Y) * (z * z) = z * (Cmod I * Cmod I + 2 * (fst s * fst Y - snd s * snd Y)).
Proof.
  subst s z. rewrite !mod2. destruct Y as [G B], I as [a b], w as [c d].
  unfold one_power, Cminus, Copp, Cmult, Cconj, Cplus. cbn [fst snd]. ring.
Qed.
Lemma one_carried Y I w : carried Y (one_power Y I w) (Cmod I).
Proof.
  unfold carried. pose proof (one_square Y I w) as Q. cbv zeta in Q.
  set (s := one_power Y I w) in *. set (m := Cmod I * Cmod I + 2 * (fst s * fst Y - snd s * snd Y)) in *.
  pose proof (Cmod_ge_0 s). pose proof (Cmod_ge_0 Y). pose proof (Cmod_ge_0 w).
  destruct (Req_dec (Cmod w) 0) as [Z|Z].
  - assert (w = RtoC 0) by (apply Cmod_eq_0; exact Z). subst w.
    assert (S0 : s = RtoC 0) by (subst s; unfold one_power; ring).
    subst m. rewrite S0, Cmod_0. cbn [RtoC fst snd]. pose proof (Rle_0_sqr (Cmod I)). unfold Rsqr in *. lra.
  - set (z := Cmod w * Cmod w) in *. assert (0 < z) by (subst z; nra).
    assert (z * (2 * (Cmod s * Cmod Y)) <= z * m).
    { rewrite <- Q. pose proof (Rle_0_sqr (Cmod s - Cmod Y * z)). unfold Rsqr in *. lra. }
    apply Rmult_le_reg_l with z; assumption.
Qed.
Lemma carried_more Y s a b : 0 <= a <= b -> carried Y s a -> carried Y s b.
Proof. unfold carried. intros. nra. Qed.

Definition line_current (N : network) (V : nat -> C) (j : nat) : C :=
  csum (fun e => match e_type e with
                 | ELine g b =>
                     Cplus (if Nat.eqb (e_from e) j then Cmult (g, b) (V (e_to e)) else RtoC 0)
                           (if Nat.eqb (e_to e) j then Cmult (g, b) (V (e_from e)) else RtoC 0)
                 | _ => RtoC 0
                 end) (edges N).
Lemma power_one N j G B x : power N j G B x = one_power (G, B) (line_current N (fun k => voltage N k x) j) (voltage N j x).
Proof. reflexivity. Qed.

Lemma csum_mod {A} (f : A -> C) (g : A -> R) l : (forall a, In a l -> Cmod (f a) <= g a) -> Cmod (csum f l) <= rsum g l.
Proof.
  induction l as [|a l IH]; intro H; cbn.
  - rewrite Cmod_0. lra.
  - eapply Rle_trans; [apply Cmod_triangle|]. apply Rplus_le_compat; [apply H; left; reflexivity|]. apply IH. intros; apply H; right; assumption.
Qed.
Lemma reach_bound N V (U : nat -> R) j :
  (forall e g b, In e (edges N) -> e_type e = ELine g b ->
     (e_from e = j -> Cmod (V (e_to e)) <= U (e_to e)) /\ (e_to e = j -> Cmod (V (e_from e)) <= U (e_from e))) ->
  Cmod (line_current N V j) <= line_reach N U j.
Proof.
  intro H. apply csum_mod. intros e He. destruct (e_type e) as [| | | | |g b] eqn:T; try (rewrite Cmod_0; lra).
  destruct (H e g b He T) as (H1 & H2). pose proof (Cmod_ge_0 (g, b)).
  eapply Rle_trans; [apply Cmod_triangle|]. apply Rplus_le_compat.
  - destruct (Nat.eqb_spec (e_from e) j) as [E|_]; [|rewrite Cmod_0; lra]. rewrite Cmod_mult. specialize (H1 E). nra.
  - destruct (Nat.eqb_spec (e_to e) j) as [E|_]; [|rewrite Cmod_0; lra]. rewrite Cmod_mult. specialize (H2 E). nra.
Qed.
Lemma limit N j G B x :
  Cmod (Cminus (power N j G B x) (Cmult (Cconj (G, B)) (RtoC (magnitude N x j * magnitude N x j))))
    <= magnitude N x j * line_reach N (magnitude N x) j /\
  carried (G, B) (power N j G B x) (line_reach N (magnitude N x) j).
Proof.
  assert (L : Cmod (line_current N (fun k => voltage N k x) j) <= line_reach N (magnitude N x) j).
  { apply reach_bound. intros. split; intro; apply Rle_refl. }
  rewrite power_one. split.
  - unfold magnitude at 1 2. rewrite one_distance. apply Rmult_le_compat_l; [apply Cmod_ge_0|exact L].
  - eapply carried_more; [|apply one_carried]. split; [apply Cmod_ge_0|exact L].
Qed.

Lemma voltage_mod N k x : Cmod (voltage N k x) = Rabs (x (fst (node_block N k))).
Proof.
  unfold voltage, Cmod. cbn [fst snd]. rewrite <- sqrt_Rsqr_abs. f_equal. unfold Rsqr.
  pose proof (sin2_cos2 (x (fst (node_block N k) + 1)%nat)) as H. unfold Rsqr in H.
  transitivity (x (fst (node_block N k)) * x (fst (node_block N k)) * (sin (x (fst (node_block N k) + 1)%nat) * sin (x (fst (node_block N k) + 1)%nat) + cos (x (fst (node_block N k) + 1)%nat) * cos (x (fst (node_block N k) + 1)%nat))); [ring|rewrite H; ring].
Qed.
Lemma given_near N eps t0 t1 last x c k u : network_equations_within N eps t0 t1 last x c ->
  given_voltage N t1 k = Some u -> Cmod (voltage N k x) <= Rabs u + eps.
Proof.
  intros (H & _) G. rewrite voltage_mod. unfold given_voltage in G.
  destruct (nth_error (nodes N) k) as [[| | |kind ext G0 B0 b]|] eqn:E; try discriminate. specialize (H k _ E). cbn [node_equation_within] in H.
  destruct H as (v & Ev & H).
  assert (Q : forall a b', within eps a b' -> Rabs a <= Rabs b' + eps).
  { unfold within. intros a b' K. replace a with (b' + (a - b')) by ring. pose proof (Rabs_triang b' (a - b')). lra. }
  destruct kind; [discriminate|..]; rewrite Ev in G; injection G as <-; destruct H as (H1 & H2); apply Q; assumption.
Qed.
Lemma mod_sum a b : Cmod (a, b) <= Rabs a + Rabs b.
Proof.
  apply mod_le; [pose proof (Rabs_pos a); pose proof (Rabs_pos b); lra|]. cbn [fst snd].
  pose proof (Rabs_pos a). pose proof (Rabs_pos b). pose proof (Rsqr_abs a) as Qa. pose proof (Rsqr_abs b) as Qb. unfold Rsqr in *.
  nra.
Qed.
Lemma inner_mod (s Y : C) : fst s * fst Y - snd s * snd Y <= Cmod s * Cmod Y.
Proof.
  pose proof (mod2 (Cmult s Y)) as Q. rewrite Cmod_mult in Q. pose proof (Cmod_ge_0 s). pose proof (Cmod_ge_0 Y).
  pose proof (Rmult_le_pos _ _ H H0). unfold Cmult in Q. cbn [fst snd] in Q. set (a := fst s * fst Y - snd s * snd Y) in *. set (b := fst s * snd Y + snd s * fst Y) in *. nra.
Qed.
Lemma overload_unsolvable N eps t0 t1 last x c j : 0 <= eps -> overloaded N eps t1 j -> ~ network_equations_within N eps t0 t1 last x c.
Proof.
  intros He (ext & G & B & bd & v & U & Hj & Hb & HU & Hlt) H.
  pose proof (proj1 H j _ Hj) as K. cbn [node_equation_within] in K. destruct K as (v' & Ev & K1 & K2). rewrite Hb in Ev. injection Ev as <-.
  set (s' := power N j G B x) in *. set (s := (v 0%nat, v 1%nat)) in *.
  assert (L : Cmod (line_current N (fun k => voltage N k x) j) <= line_reach N (fun k => U k + eps) j).
  { apply reach_bound. intros e g b Hin T. destruct (HU e g b Hin T) as (H1 & H2). split; intro E.
    - destruct (H1 E) as (u & Gu & Lu). pose proof (given_near N eps t0 t1 last x c _ u H Gu). lra.
    - destruct (H2 E) as (u & Gu & Lu). pose proof (given_near N eps t0 t1 last x c _ u H Gu). lra. }
  assert (Ca : carried (G, B) s' (line_reach N (fun k => U k + eps) j)).
  { unfold s'. rewrite power_one. eapply carried_more; [|apply one_carried]. split; [apply Cmod_ge_0|exact L]. }
  unfold carried in Ca. set (R := line_reach N (fun k => U k + eps) j) in *. clearbody R.
  set (d := Cminus s' s).
  assert (Dd : Cmod d <= 2 * eps).
  { subst d s. destruct s' as [p q]. unfold Cminus, Copp, Cplus. cbn [fst snd]. cbn [fst snd] in K1, K2. unfold within in K1, K2.
    eapply Rle_trans; [apply mod_sum|]. unfold Rminus in *. lra. }
  assert (Ss : Cmod s <= Cmod s' + 2 * eps).
  { replace s with (Cplus s' (Copp d)) by (subst d; ring). eapply Rle_trans; [apply Cmod_triangle|]. rewrite Cmod_opp. lra. }
  assert (Re1 : fst s' * G - snd s' * B = (fst s * G - snd s * B) + (fst d * G - snd d * B)).
  { subst d s. destruct s' as [p q]. unfold Cminus, Copp, Cplus. cbn [fst snd]. ring. }
  pose proof (inner_mod d (G, B)) as Id. cbn [fst snd] in Id, Ca. pose proof (Cmod_ge_0 (G, B)) as Y0.
  change (fst s) with (v 0%nat) in *. change (snd s) with (v 1%nat) in *.
  assert (M1 : Cmod s * Cmod (G, B) <= (Cmod s' + 2 * eps) * Cmod (G, B)) by (apply Rmult_le_compat_r; assumption).
  assert (M2 : Cmod d * Cmod (G, B) <= (2 * eps) * Cmod (G, B)) by (apply Rmult_le_compat_r; assumption).
  lra.
Qed.

(** ** Solving for the voltage of one node *)
Lemma polar (w : C) : exists phi, w = (Cmod w * cos phi, Cmod w * sin phi).
Proof.
  destruct (Req_dec (Cmod w) 0) as [Z|Z].
  { exists 0. apply Cmod_eq_0 in Z. subst w. rewrite Cmod_0. unfold RtoC. f_equal; ring. }
  pose proof (Cmod_ge_0 w) as P. assert (P' : 0 < Cmod w) by lra. pose proof (mod2 w) as Q. destruct w as [a b]. cbn [fst snd] in Q.
  set (r := Cmod (a, b)) in *.
  assert (E : (a / r) * (a / r) + (b / r) * (b / r) = 1) by (field_simplify; [|lra]; replace (a ^ 2 + b ^ 2) with (r * r) by (rewrite Q; ring); field; lra).
  assert (In1 : -1 <= a / r <= 1) by nra.
  destruct (Rle_dec 0 b) as [Hb|Hb].
  - exists (acos (a / r)). rewrite cos_acos, sin_acos by exact In1.
    replace (1 - (a / r)²) with ((b / r)²) by (unfold Rsqr; lra). rewrite sqrt_Rsqr by (apply Rdiv_le_0_compat; lra). f_equal; field; lra.
  - exists (- acos (a / r)). rewrite cos_neg, sin_neg, cos_acos, sin_acos by exact In1.
    replace (1 - (a / r)²) with ((- (b / r))²) by (unfold Rsqr; lra).
    rewrite sqrt_Rsqr; [f_equal; field; lra|]. assert (b / r < 0) by (pose proof (Rinv_0_lt_compat r P'); unfold Rdiv; nra). lra.
Qed.
Lemma root_zero (high : bool) (Y I s : C) (z := square_root high Y s (Cmod I)) : Y <> RtoC 0 -> carried Y s (Cmod I) ->
  0 <= z /\ (Cmod Y * Cmod Y) * (z * z) - (Cmod I * Cmod I + 2 * (fst s * fst Y - snd s * snd Y)) * z + Cmod s * Cmod s = 0.
Proof.
  intros HY Ca. subst z. unfold carried in Ca. unfold square_root. cbv zeta. set (m := Cmod I * Cmod I + 2 * (fst s * fst Y - snd s * snd Y)) in *.
  assert (Y0 : 0 < Cmod Y) by (apply Cmod_gt_0; exact HY). pose proof (Cmod_ge_0 s) as S0.
  pose proof (Rmult_le_pos _ _ S0 (Rlt_le _ _ Y0)) as K0. assert (M0 : 0 <= m) by lra.
  set (h := Cmod Y * Cmod Y). assert (H0 : 0 < h) by (subst h; nra).
  assert (D0 : 0 <= m * m - 4 * (Cmod s * Cmod s) * h).
  { replace (m * m - 4 * (Cmod s * Cmod s) * h) with ((m - 2 * (Cmod s * Cmod Y)) * (m + 2 * (Cmod s * Cmod Y))) by (subst h; ring). apply Rmult_le_pos; lra. }
  assert (Dm : m * m - 4 * (Cmod s * Cmod s) * h <= m * m) by (pose proof (Rmult_le_pos _ _ (Rmult_le_pos _ _ S0 S0) (Rlt_le _ _ H0)); lra).
  pose proof (sqrt_sqrt _ D0) as Q. pose proof (sqrt_pos (m * m - 4 * (Cmod s * Cmod s) * h)) as Q0.
  assert (Qm : sqrt (m * m - 4 * (Cmod s * Cmod s) * h) <= m).
  { pose proof (sqrt_le_1 _ _ D0 (Rle_trans _ _ _ D0 Dm) Dm) as K. rewrite (sqrt_square m M0) in K. exact K. }
  set (q := sqrt _) in *. split.
  - apply Rdiv_le_0_compat; [destruct high; lra|lra].
  - transitivity ((q * q - (m * m - 4 * (Cmod s * Cmod s) * h)) / (4 * h)); [destruct high; field; lra|rewrite Q; field; lra].
Qed.
Lemma one_solve (high : bool) (Y I s : C) : Y <> RtoC 0 -> carried Y s (Cmod I) ->
  exists V phi, one_power Y I (V * cos phi, V * sin phi) = s /\ V * V = square_root high Y s (Cmod I).
Proof.
  intros HY Ca. destruct (root_zero high Y I s HY Ca) as (Z0 & Qz). set (z := square_root high Y s (Cmod I)) in *. clearbody z. clear Ca.
  set (t := Cminus s (Cmult (Cconj Y) (RtoC z))).
  assert (T : Cmod t * Cmod t = z * (Cmod I * Cmod I)).
  { subst t. rewrite (mod2 Y), (mod2 s) in Qz. rewrite (mod2 (Cminus _ _)). destruct Y as [G B], s as [p q].
    unfold Cminus, Copp, Cmult, Cconj, Cplus, RtoC. cbn [fst snd] in *. lra. }
  assert (W : exists w, Cmod w * Cmod w = z /\ Cmult w (Cconj I) = t).
  { destruct (Req_dec (Cmod I) 0) as [I0|I0].
    - exists (RtoC (sqrt z)). rewrite Cmod_R. rewrite <- Rabs_mult, sqrt_sqrt by exact Z0. split; [apply Rabs_pos_eq; exact Z0|].
      rewrite I0 in T. assert (Cmod t = 0) by nra. apply Cmod_eq_0 in H. apply Cmod_eq_0 in I0. rewrite H, I0.
      unfold Cconj, Cmult, RtoC. cbn [fst snd]. f_equal; ring.
    - assert (J : Cconj I <> RtoC 0) by (intro Q; apply I0; rewrite <- Cmod_conj, Q; apply Cmod_0).
      exists (Cdiv t (Cconj I)). split; [|field; exact J].
      rewrite Cmod_div by exact J. rewrite Cmod_conj. transitivity (Cmod t * Cmod t / (Cmod I * Cmod I)); [field; exact I0|]. rewrite T. field. exact I0. }
  destruct W as (w & Wz & Wt). destruct (polar w) as (phi & Hp). exists (Cmod w), phi. rewrite <- Hp. split; [|exact Wz].
  assert (E : one_power Y I w = Cplus (Cmult (Cconj Y) (RtoC (Cmod w * Cmod w))) (Cmult w (Cconj I))).
  { rewrite mod2. destruct Y as [G B], I as [a b], w as [c d]. unfold one_power, Cmult, Cconj, Cplus, RtoC. cbn [fst snd]. f_equal; ring. }
  rewrite E, Wz, Wt. subst t. ring.
Qed.
(** The square of the voltage is one of the two roots. *)
Lemma one_roots (Y I w : C) : Y <> RtoC 0 ->
  Cmod w * Cmod w = square_root true Y (one_power Y I w) (Cmod I) \/ Cmod w * Cmod w = square_root false Y (one_power Y I w) (Cmod I).
Proof.
  intro HY. pose proof (one_carried Y I w) as Ca. pose proof (one_square Y I w) as Q. cbv zeta in Q.
  destruct (root_zero true Y I (one_power Y I w) HY Ca) as (_ & Q1). destruct (root_zero false Y I (one_power Y I w) HY Ca) as (_ & Q2).
  unfold square_root in *. cbv zeta in *. set (s := one_power Y I w) in *. set (m := Cmod I * Cmod I + 2 * (fst s * fst Y - snd s * snd Y)) in *.
  assert (Y0 : 0 < Cmod Y) by (apply Cmod_gt_0; exact HY). set (h := Cmod Y * Cmod Y) in *. assert (H0 : 0 < h) by (subst h; nra).
  set (q := sqrt _) in *. set (z := Cmod w * Cmod w) in *. set (z1 := (m + 1 * q) / (2 * h)) in *. set (z2 := (m + -1 * q) / (2 * h)) in *.
  assert (Sum : h * (z1 + z2) = m) by (subst z1 z2; field; lra).
  assert (P : h * ((z - z1) * (z - z2)) = 0).
  { assert (Pr : h * (z1 * z2) = Cmod s * Cmod s).
    { replace (h * (z1 * z2)) with (z1 * (h * (z1 + z2)) - h * (z1 * z1)) by ring. rewrite Sum. lra. }
    replace (h * ((z - z1) * (z - z2))) with (h * (z * z) - z * (h * (z1 + z2)) + h * (z1 * z2)) by ring. rewrite Sum, Pr. lra. }
  apply Rmult_integral in P. destruct P as [P|P]; [lra|]. apply Rmult_integral in P. destruct P; [left|right]; lra.
Qed.
