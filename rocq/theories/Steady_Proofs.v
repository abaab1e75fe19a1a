(** * Proofs about steady states *)
From Coq Require Import Reals ZArith Lra Lia List Arith Bool Psatz.
From Coquelicot Require Import Coquelicot.
From Verif Require Import Base Interp_Model Interp_Proofs Calc Euler_Model Euler_Spec Euler_Proofs Euler_Proofs2 Newton_Model Evolve_Model
  Box_Model Net_Model Net_Spec Net_Proofs5 Net_Proofs9 Sim_Model Sim_Spec Sim_Proofs2 Sim_Proofs3 Steady_Spec.
Import ListNotations.
Local Open Scope R_scope.

(** ** The friction factor is positive *)
Section Friction.
Variables d k : R.
Hypothesis Hg : geometry d k.

Lemma dsj_negative : dsj_impl d k 4000 <= 0.
Proof.
  assert (B : 4000 <= 4000 + 1) by lra. pose proof (inner_bounds d k Hg 4000 B) as [A1 A2].
  pose proof (log_inner_neg d k Hg 4000 B) as L. pose proof ln10_pos as T. pose proof (rpow_big 4000 B) as P.
  unfold dsj_impl, dsj. revert A1 A2 L P. generalize (log10 (inner d k 4000)). generalize (inner d k 4000), (Rpower 4000 (9 / 10)).
  intros ia ra la A1 A2 L P.
  assert (L2 : 0 < la * la) by nra. assert (L3 : la * la * la < 0) by (apply Ropp_lt_cancel; rewrite Ropp_0, Ropp_mult_distr_r; apply Rmult_lt_0_compat; lra).
  assert (X : 0 < - (1 / 2) / (la * la * la)).
  { replace (- (1 / 2) / (la * la * la)) with (1 / 2 * / - (la * la * la)) by (field; lra).
    apply Rmult_lt_0_compat; [lra|]. apply Rinv_0_lt_compat. lra. }
  assert (Y : 0 < / ln 10) by (apply Rinv_0_lt_compat; auto).
  assert (Z : 0 < / ia) by (apply Rinv_0_lt_compat; auto).
  assert (W : 0 < / (ra * 4000)) by (apply Rinv_0_lt_compat; lra).
  assert (V : - (574 / 100) * (9 / 10) / (ra * 4000) < 0) by (unfold Rdiv; nra).
  revert V. generalize (- (574 / 100) * (9 / 10) / (ra * 4000)). intros v V.
  assert (Q : 0 < / ln 10 * / ia) by (apply Rmult_lt_0_compat; auto).
  assert (Q2 : / ln 10 * / ia * v < 0) by nra.
  assert (Q3 : - (1 / 2) / (la * la * la) * (/ ln 10 * / ia * v) < 0) by nra.
  assert (0 < ia * ia) by nra. nra.
Qed.

Lemma poly_positive Re : 2000 <= Re <= 4000 -> 0 < poly d k Re.
Proof.
  intro H. pose proof dsj_negative as D1. pose proof (sj_pos d k Hg 4000 ltac:(lra)) as Y1.
  set (t := (Re - 2000) / 2000). assert (T : 0 <= t <= 1) by (unfold t; lra).
  assert (E : poly d k Re = 32 / 1000 * ((1 - t) * (1 - t) * (1 + t)) + sj d k 4000 * (t * t * (3 - 2 * t))
    + 2000 * - dsj_impl d k 4000 * (t * t * (1 - t))).
  { unfold poly, coeffs, lu_solve, dot4, laminar_border, turbulent_border, t. cbn [v4].
    generalize (sj d k 4000), (dsj_impl d k 4000). intros a b. field. }
  rewrite E. assert (A : 0 <= (1 - t) * (1 - t) * (1 + t)) by (apply Rmult_le_pos; [nra|lra]).
  assert (B : 0 <= t * t * (3 - 2 * t)) by (apply Rmult_le_pos; [nra|lra]).
  assert (C : 0 <= t * t * (1 - t)) by (apply Rmult_le_pos; [nra|lra]).
  assert (C' : 0 <= 2000 * - dsj_impl d k 4000 * (t * t * (1 - t))) by (apply Rmult_le_pos; [lra|exact C]).
  destruct (Rlt_dec t 1) as [L|L].
  - assert (0 < (1 - t) * (1 - t) * (1 + t)) by (apply Rmult_lt_0_compat; [nra|lra]). nra.
  - assert (t = 1) by lra. replace (t * t * (3 - 2 * t)) with 1 in * by nra. nra.
Qed.

Lemma lam_positive Re : 0 < Re -> 0 < lam d k Re.
Proof.
  intro H. unfold lam. reals_cases; try lra.
  - apply Rdiv_lt_0_compat; lra.
  - apply sj_pos; [exact Hg|lra].
  - apply poly_positive. lra.
Qed.

(** Friction acts against the flow. *)
Lemma friction_positive q : 0 < q -> 0 < friction d k q.
Proof.
  intro H. rewrite friction_lam by (auto; lra). pose proof (coef_pos d k Hg) as C.
  rewrite Rabs_pos_eq by lra. assert (0 < coef d * q) by nra.
  pose proof (lam_positive (coef d * q) H0). assert (0 < lam d k (coef d * q) * q) by nra. nra.
Qed.
End Friction.

(** ** The equations of a step that changes nothing *)
Lemma cell_steady_iff d k dx t0 t1 left right : t0 < t1 ->
  (cell_balanced d k dx t0 t1 left right left right <-> cell_steady d k dx left right).
Proof.
  intro H. split; intros (sl & sr & E1 & E2 & B); exists sl, sr; (split; [exact E1|split; [exact E2|]]); intros c Hc; specialize (B c Hc).
  - assert (X : (t1 - t0) * (flux d left c - flux d right c + dx * ((sl c + sr c) / 2)) = 0) by lra.
    apply Rmult_integral in X. destruct X; lra.
  - rewrite <- B. ring.
Qed.
Lemma steady_iff N t0 t1 x c : t0 < t1 -> (network_equations N t0 t1 x x c <-> steady_equations N t1 x c).
Proof.
  intro H. unfold network_equations, steady_equations.
  assert (E : forall i e, edge_equation N i e t0 t1 x x c <-> edge_steady N i e x c).
  { intros i e. unfold edge_equation, edge_steady, edge_equation. destruct (e_type e) as [d k dx np| | | | |]; try reflexivity.
    split; intros B m Hm; apply (cell_steady_iff d k dx t0 t1); auto. }
  split; intros (A & B); (split; [exact A|]); intros i e He; apply E; auto.
Qed.

(** ** The simulation keeps a steady state *)
Section Stays.
Variables (LU : Type) (n : nat) (N : network).
Variable factor : unit -> R -> R -> vec -> list R -> vec -> option LU.
Variable linsolve : LU -> vec -> vec.
Let PB := network_problem unit LU n (fun _ => N) (fun e _ _ _ _ => Ok e) factor linsolve.

Lemma stays_loop fuel sfuel cfg controls x times t0 :
  0 <= tolerance (newton cfg) -> number_of_states N = n -> well_formed N -> pipes_ok N ->
  (forall t, In t times -> boundary_defined N t) ->
  (forall t t', In t' times -> exists c, current_controls controls t' = Ok c /\ network_equations N t t' x x (control_vector c)) ->
  simulate_loop PB fuel (S sfuel) cfg controls times t0 x x tt = (Some (Ok (map (fun _ => x) times)), tt).
Proof.
  intros Ht Hn W HP HB. revert t0. induction times as [|t1 times IH]; intros t0 HE; [reflexivity|].
  cbn [simulate_loop map]. destruct (HE t0 t1 (or_introl eq_refl)) as (c & Hc & Heq). rewrite Hc.
  assert (S : forall full, solve (system_of PB tt t0 t1 x c) fuel (newton cfg) full x =
    Some (Ok (x, {| success := true; residual := Fin 0; used_iterations := 0 |}))).
  { intro full. unfold solve.
    destruct (evaluate_zero N t0 t1 x x (control_vector c) (fun _ => 0) W HP (HB t1 (or_introl eq_refl))) as [r [Er [Z _]]].
    assert (Nr : ns_norm (system_of PB tt t0 t1 x c) (ns_eval (system_of PB tt t0 t1 x c) x) = Fin 0).
    { cbn. rewrite Er. unfold euclidean_norm. rewrite sum_squares_zero, sqrt_0; [reflexivity|].
      intros i Hi. apply (proj2 Z); [exact Heq|]. lia. }
    rewrite Nr. cbn [xleb]. rewrite (proj2 (Rleb_true 0 (tolerance (newton cfg))) Ht). reflexivity. }
  unfold time_step, make_one_step. cbn [attempts]. cbn [pr_prepare PB network_problem].
  rewrite S. cbn [success]. rewrite IH; [reflexivity|intros; apply HB; right; auto|intros; apply HE; right; auto].
Qed.
End Stays.

Lemma steady_any_times N t0 t1 x c : steady_equations N t1 x c -> network_equations N t0 t1 x x c.
Proof.
  intros (A & B). split; [exact A|]. intros i e He. specialize (B i e He). unfold edge_steady, edge_equation in *.
  destruct (e_type e); try exact B. intros m Hm. destruct (B m Hm) as (sl & sr & E1 & E2 & K).
  exists sl, sr. split; [exact E1|]. split; [exact E2|]. intros c' Hc. rewrite <- (K c' Hc). ring.
Qed.

(** ** Pressure along a pipe *)
Lemma area_half d : circle_area (/ 2 * d) = circle_area (d / 2).
Proof. unfold circle_area. field. Qed.

Lemma pressure_positive r : 0 < r -> 0 < p r.
Proof.
  intro H. pose proof (nonneg_density_ok r ltac:(lra)) as D. unfold density_ok in D. pose proof c_vac_pos.
  unfold p. apply Rdiv_lt_0_compat; [nra|exact D].
Qed.
Lemma inverse_density r : 0 < r -> / r = c_vac_squared * / p r + c_vac_squared * alpha.
Proof.
  intro H. pose proof (nonneg_density_ok r ltac:(lra)) as D. unfold density_ok in D. pose proof c_vac_pos.
  unfold p. field. repeat split; lra.
Qed.
Lemma subsonic_pressure d u : 0 < d -> subsonic d u ->
  let a := circle_area (d / 2) in (rho_0 * u 1%nat) * (rho_0 * u 1%nat) * c_vac_squared < (a * p (u 0%nat)) * (a * p (u 0%nat)).
Proof.
  intros Hd (Hr & c2 & D & V) a. pose proof (area_pos d Hd) as A. rewrite area_half in A. fold a in A.
  pose proof (nonneg_density_ok (u 0%nat) ltac:(lra)) as DO. pose proof c_vac_pos as C.
  assert (E : c2 = dp_drho (u 0%nat)).
  { rewrite <- (is_derive_unique _ _ _ D). apply is_derive_unique, p_derive. exact DO. }
  subst c2. unfold velocity, dp_drho in V. fold a in V. unfold density_ok in DO. unfold p.
  set (r := u 0%nat) in *. set (q := u 1%nat) in *. set (w := 1 - alpha * c_vac_squared * r) in *. cbv zeta in V.
  apply (Rmult_lt_compat_r ((a * r) * (a * r))) in V; [|apply Rmult_lt_0_compat; apply Rmult_lt_0_compat; assumption].
  replace (rho_0 * q / (a * r) * (rho_0 * q / (a * r)) * ((a * r) * (a * r))) with (rho_0 * q * (rho_0 * q)) in V by (field; lra).
  apply (Rmult_lt_compat_r c_vac_squared) in V; [|exact C].
  replace (a * (c_vac_squared * r / w) * (a * (c_vac_squared * r / w))) with (c_vac_squared / (w * w) * (a * r * (a * r)) * c_vac_squared) by (field; lra).
  exact V.
Qed.
Lemma momentum_difference d q r s : 0 < d -> 0 < r -> 0 < s ->
  let a := circle_area (d / 2) in
  (flux d (v2 r q) 1%nat - flux d (v2 s q) 1%nat) * (a * rho_0 * (p r * p s))
  = (p r - p s) * (a * p r * (a * p s) - rho_0 * q * (rho_0 * q) * c_vac_squared).
Proof.
  intros Hd Hr Hs a. pose proof (area_pos d Hd) as A. pose proof rho_0_pos as R0.
  unfold flux. cbn [v2]. rewrite area_half in *. fold a in A |- *.
  pose proof (pressure_positive r Hr). pose proof (pressure_positive s Hs).
  unfold Rdiv. rewrite (inverse_density r Hr), (inverse_density s Hs). field. repeat split; lra.
Qed.

Lemma source_sign d k u : geometry d k -> 0 < u 0%nat -> exists s, source d k u = Ok (v2 0 s) /\
  (0 < u 1%nat -> s < 0) /\ (u 1%nat = 0 -> s = 0) /\ (u 1%nat < 0 -> 0 < s).
Proof.
  intros G Hr. exists (fconst d * friction d k (u 1%nat) / u 0%nat). split; [apply source_ok; exact G|].
  assert (F : fconst d < 0).
  { unfold fconst. pose proof (geo_d d k G) as Hd. pose proof (area_pos d Hd). pose proof rho_0_pos.
    assert (0 < 2 * circle_area (/ 2 * d) * d) by nra. unfold Rdiv.
    assert (0 < / (2 * circle_area (/ 2 * d) * d)) by (apply Rinv_0_lt_compat; auto). nra. }
  assert (I : 0 < / u 0%nat) by (apply Rinv_0_lt_compat; auto). unfold Rdiv.
  split; [|split]; intro H.
  - pose proof (friction_positive d k G _ H). assert (fconst d * friction d k (u 1%nat) < 0) by nra. nra.
  - rewrite H. assert (Z : friction d k 0 = 0) by (unfold friction; destruct (Rltb _ _); ring). rewrite Z. ring.
  - pose proof (friction_positive d k G (- u 1%nat) ltac:(lra)) as K. rewrite friction_odd in K.
    assert (0 < fconst d * friction d k (u 1%nat)) by nra. nra.
Qed.

Lemma flux_ext d u i : flux d u i = flux d (v2 (u 0%nat) (u 1%nat)) i.
Proof. reflexivity. Qed.

Lemma square_product a b c : 0 < a -> 0 < b -> 0 <= c -> c < a * a -> c < b * b -> c < a * b.
Proof. intros A B C H1 H2. destruct (Rle_dec a b); nra. Qed.

Lemma pressure_drop_cell d k dx left right : geometry d k -> 0 < dx -> cell_steady d k dx left right ->
  left 1%nat = right 1%nat /\
  (subsonic d left -> subsonic d right ->
   (0 < left 1%nat -> p (right 0%nat) < p (left 0%nat)) /\
   (left 1%nat = 0 -> p (right 0%nat) = p (left 0%nat)) /\
   (left 1%nat < 0 -> p (left 0%nat) < p (right 0%nat))).
Proof.
  intros G Hdx (sl & sr & E1 & E2 & B). pose proof (geo_d d k G) as Hd.
  assert (Q : left 1%nat = right 1%nat).
  { specialize (B 0%nat ltac:(lia)). rewrite (source_ok d k G) in E1, E2. injection E1 as <-. injection E2 as <-.
    unfold flux in B. cbn [v2] in B. pose proof (area_pos d Hd) as A. pose proof rho_0_pos.
    apply (Rmult_eq_reg_l (rho_0 / circle_area (/ 2 * d))); [lra|].
    apply Rgt_not_eq, Rdiv_lt_0_compat; lra. }
  split; [exact Q|]. intros SL SR.
  pose proof (subsonic_pressure d left Hd SL) as KL. pose proof (subsonic_pressure d right Hd SR) as KR.
  cbv zeta in KL, KR. rewrite <- Q in KR. destruct SL as (HL & _), SR as (HR & _).
  pose proof (area_pos d Hd) as A. rewrite area_half in A. pose proof rho_0_pos as R0. pose proof c_vac_pos as C.
  pose proof (pressure_positive _ HL) as PL. pose proof (pressure_positive _ HR) as PR.
  pose proof (momentum_difference d (left 1%nat) _ _ Hd HL HR) as MD. cbv zeta in MD.
  destruct (source_sign d k left G HL) as (s1 & S1 & N1 & Z1 & P1).
  destruct (source_sign d k right G HR) as (s2 & S2 & N2 & Z2 & P2). rewrite <- Q in *.
  rewrite S1 in E1. rewrite S2 in E2. injection E1 as <-. injection E2 as <-.
  specialize (B 1%nat ltac:(lia)). rewrite (flux_ext d left), (flux_ext d right) in B. rewrite <- Q in B. cbn [v2] in B.
  set (a := circle_area (d / 2)) in *. set (fl := flux d (v2 (left 0%nat) (left 1%nat)) 1%nat) in *.
  set (fr := flux d (v2 (right 0%nat) (left 1%nat)) 1%nat) in *.
  set (X := a * rho_0 * (p (left 0%nat) * p (right 0%nat))) in *.
  set (Y := a * p (left 0%nat) * (a * p (right 0%nat)) - rho_0 * left 1%nat * (rho_0 * left 1%nat) * c_vac_squared) in *.
  assert (HX : 0 < X) by (unfold X; apply Rmult_lt_0_compat; apply Rmult_lt_0_compat; assumption).
  assert (HY : 0 < Y).
  { unfold Y. assert (K : rho_0 * left 1%nat * (rho_0 * left 1%nat) * c_vac_squared < a * p (left 0%nat) * (a * p (right 0%nat))); [|lra].
    apply square_product; [apply Rmult_lt_0_compat; assumption|apply Rmult_lt_0_compat; assumption| |exact KL|exact KR].
    apply Rmult_le_pos; [apply Rle_0_sqr|lra]. }
  split; [|split]; intro H.
  - specialize (N1 H). specialize (N2 H). assert (D : 0 < fl - fr) by nra.
    assert (0 < (p (left 0%nat) - p (right 0%nat)) * Y) by (rewrite <- MD; apply Rmult_lt_0_compat; assumption). nra.
  - specialize (Z1 H). specialize (Z2 H). assert (D : fl - fr = 0) by nra. rewrite D, Rmult_0_l in MD.
    symmetry in MD. apply Rmult_integral in MD. destruct MD; lra.
  - specialize (P1 H). specialize (P2 H). assert (D : 0 < fr - fl) by nra.
    assert (0 < (p (right 0%nat) - p (left 0%nat)) * Y).
    { replace ((p (right 0%nat) - p (left 0%nat)) * Y) with ((fr - fl) * X) by (rewrite <- (Ropp_involutive ((p (right 0%nat) - p (left 0%nat)) * Y)); lra).
      apply Rmult_lt_0_compat; assumption. }
    nra.
Qed.

(** ** Along a whole pipe *)
Lemma pipe_profile N i e d k dx np x c : nth_error (edges N) i = Some e -> e_type e = EPipe d k dx np ->
  geometry d k -> 0 < dx -> edge_steady N i e x c ->
  let s := fst (edge_block N i) in
  (forall m, (m < np)%nat -> subsonic d (seg x (s + 2 * m))) ->
  forall m m', (m < m' < np)%nat ->
    x (s + 2 * m' + 1)%nat = x (s + 2 * m + 1)%nat /\
    (0 < x (s + 2 * m + 1)%nat -> p (x (s + 2 * m')%nat) < p (x (s + 2 * m)%nat)) /\
    (x (s + 2 * m + 1)%nat = 0 -> p (x (s + 2 * m')%nat) = p (x (s + 2 * m)%nat)) /\
    (x (s + 2 * m + 1)%nat < 0 -> p (x (s + 2 * m)%nat) < p (x (s + 2 * m')%nat)).
Proof.
  intros He Ht G Hdx St s Sub m m' (H1 & H2). unfold edge_steady in St. rewrite Ht in St. fold s in St.
  assert (Cell : forall m, (m + 1 < np)%nat ->
    x (s + 2 * (m + 1) + 1)%nat = x (s + 2 * m + 1)%nat /\
    (0 < x (s + 2 * m + 1)%nat -> p (x (s + 2 * (m + 1))%nat) < p (x (s + 2 * m)%nat)) /\
    (x (s + 2 * m + 1)%nat = 0 -> p (x (s + 2 * (m + 1))%nat) = p (x (s + 2 * m)%nat)) /\
    (x (s + 2 * m + 1)%nat < 0 -> p (x (s + 2 * m)%nat) < p (x (s + 2 * (m + 1))%nat))).
  { intros a Ha. destruct (pressure_drop_cell d k dx _ _ G Hdx (St a Ha)) as (Q & K).
    destruct (K (Sub a ltac:(lia)) (Sub (a + 1)%nat ltac:(lia))) as (K1 & K2 & K3).
    unfold seg in Q, K1, K2, K3. rewrite !(Nat.add_0_r (s + _)) in *. auto. }
  clear St Sub. induction m' as [|m' IH]; [lia|].
  destruct (Nat.eq_dec m m') as [<-|Ne].
  - replace (S m) with (m + 1)%nat by lia. apply Cell. lia.
  - destruct IH as (Q & A & B & C); [lia|lia|]. destruct (Cell m' ltac:(lia)) as (Q' & A' & B' & C').
    replace (S m') with (m' + 1)%nat by lia. rewrite Q in *.
    split; [exact Q'|]. split; [|split]; intro H.
    + specialize (A H). specialize (A' H). lra.
    + rewrite (B' H). exact (B H).
    + specialize (C H). specialize (C' H). lra.
Qed.

(** ** Gas at rest *)
Lemma rest_end N P i e d x c : edge_ok N e -> nth_error (edges N) i = Some e -> carries_gas e = true ->
  edge_at_rest N P i e x c -> pressure_at N i e d x = P /\ flow_at N i d x = 0.
Proof.
  intros W He Hc HR. destruct (edge_block_spec N i e He) as (s & Es & _). pose proof bar_pos as BP.
  unfold edge_at_rest, pressure_at, flow_at, end_position in *. rewrite Es in *. cbn [fst snd] in *.
  unfold carries_gas in Hc. destruct W as (_ & W). destruct (e_type e) as [dd kk dx np| | | | |]; cbn [edge_states] in *.
  - destruct W as (W & _). destruct d.
    + destruct (HR 0%nat ltac:(lia)) as (A & B). rewrite Nat.mul_0_r, Nat.add_0_r in A, B. rewrite A. split; [field; lra|exact B].
    + destruct (HR (np - 1)%nat ltac:(lia)) as (A & B).
      replace (s + 2 * np - 2)%nat with (s + 2 * (np - 1))%nat by lia. rewrite A. split; [field; lra|exact B].
  - destruct HR as (A & B & C & D). destruct d; [auto|].
    replace (s + 4 - 2)%nat with (s + 2)%nat by lia. replace (s + 2 + 1)%nat with (s + 3)%nat by lia. auto.
  - destruct HR as (A & B & C & D & _). destruct d; [auto|].
    replace (s + 4 - 2)%nat with (s + 2)%nat by lia. replace (s + 2 + 1)%nat with (s + 3)%nat by lia. auto.
  - destruct HR as (A & B & C & D & _). destruct d; [auto|].
    replace (s + 4 - 2)%nat with (s + 2)%nat by lia. replace (s + 2 + 1)%nat with (s + 3)%nat by lia. auto.
  - destruct HR as (A & B & _). destruct d; [auto|]. replace (s + 2 - 2)%nat with s by lia. auto.
  - discriminate Hc.
Qed.

Lemma rest_outflow N P x c j : well_formed N -> (forall i e, nth_error (edges N) i = Some e -> edge_at_rest N P i e x c) ->
  net_outflow N j x = 0.
Proof.
  intros W HR. unfold net_outflow.
  assert (G : forall l, (forall ie, In ie l -> nth_error (edges N) (fst ie) = Some (snd ie)) ->
    rsum (fun ie => if carries_gas (snd ie)
                  then (if Nat.eqb (e_from (snd ie)) j then flow_at N (fst ie) dstart x else 0)
                       - (if Nat.eqb (e_to (snd ie)) j then flow_at N (fst ie) dend x else 0)
                  else 0) l = 0).
  { induction l as [|[i e] l IH]; intro H; [reflexivity|]. cbn [rsum fst snd]. rewrite IH by (intros; apply H; right; auto).
    assert (He : nth_error (edges N) i = Some e) by (apply (H (i, e)); left; reflexivity).
    destruct (carries_gas e) eqn:Hc; [|ring].
    assert (We : edge_ok N e) by (apply (proj1 (List.Forall_forall _ _) W); apply (nth_error_In _ _ He)).
    destruct (rest_end N P i e dstart x c We He Hc (HR i e He)) as (_ & F1).
    destruct (rest_end N P i e dend x c We He Hc (HR i e He)) as (_ & F2). rewrite F1, F2.
    destruct (Nat.eqb _ _), (Nat.eqb _ _); ring. }
  apply G. intros [i e] Hin. cbn [fst snd]. apply in_numbered. exact Hin.
Qed.

Lemma rest_is_steady N P t x c : well_formed N -> pipes_ok N -> at_rest N P t x c -> steady_equations N t x c.
Proof.
  intros W HP (HN & HE).
  assert (EP : forall j, equal_pressures N j x P).
  { intros j i e d He Hc _. assert (We : edge_ok N e) by (apply (proj1 (List.Forall_forall _ _) W); apply (nth_error_In _ _ He)).
    exact (proj1 (rest_end N P i e d x c We He Hc (HE i e He))). }
  split.
  - intros j ty H. specialize (HN j ty H). destruct ty as [|sink b|b|kk ext GG BB b]; cbn [node_at_rest node_equation] in *.
    + intros _. split; [exists P; apply EP|]. apply (rest_outflow N P x c); auto.
    + intros _. destruct HN as (v & Hv & H0). exists v. split; [exact Hv|]. split; [exists P; apply EP|].
      rewrite H0. rewrite (rest_outflow N P x c) by auto. destruct sink; ring.
    + intros _. destruct HN as (v & Hv & H0). exists v. split; [exact Hv|]. rewrite H0. apply EP.
    + exact HN.
  - intros i e H. specialize (HE i e H). unfold edge_at_rest, edge_steady, edge_equation in *.
    destruct (e_type e) as [d k dx np| | | | |] eqn:Ty.
    + intros m Hm. destruct (HE m ltac:(lia)) as (A1 & B1). destruct (HE (m + 1)%nat ltac:(lia)) as (A2 & B2).
      assert (G : geometry d k).
      { pose proof (proj1 (List.Forall_forall _ _) HP e (nth_error_In _ _ H)) as K. cbv beta in K. rewrite Ty in K. apply K. }
      set (s := fst (edge_block N i)) in *.
      eexists. eexists. split; [apply source_ok; exact G|]. split; [apply source_ok; exact G|].
      intros c' Hc. unfold flux, seg. rewrite !(Nat.add_0_r (s + _)). rewrite A1, A2, B1, B2.
      assert (Z : friction d k 0 = 0) by (unfold friction; destruct (Rltb _ _); ring). rewrite Z.
      destruct c' as [|[|c']]; [| |lia]; cbn [v2]; unfold Rdiv; ring.
    + destruct HE as (A & B & C & D). split; congruence.
    + destruct HE as (A & B & C & D & E). rewrite E. split; [rewrite A, C; ring|congruence].
    + destruct HE as (A & B & C & D & E). rewrite E. split; [rewrite A, C; ring|congruence].
    + destruct HE as (_ & _ & K). exact K.
    + exact Logic.I.
Qed.
