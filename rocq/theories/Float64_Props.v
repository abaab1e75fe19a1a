(** Properties C66 - C70: time grids and interpolation in double arithmetic. *)
From Coq Require Import ZArith List Bool Reals Lra Lia Sorting.
From Flocq Require Import Core IEEE754.BinarySingleNaN.
From Verif Require Import Base Float64_Model Float64_Spec Float64_Proofs Float64_Proofs2
  Float64_Proofs3 Float64_Proofs4 Float64_Proofs5.
Import ListNotations.
Local Open Scope R_scope.

(** Results are compared without the proofs inside the binary64 numbers. *)
Lemma computed : forall {A B} (o : outcome A) (f : A -> B) (b : B),
  omap f o = Ok b -> exists a, o = Ok a /\ f a = b.
Proof.
  intros A B o f b H. destruct o as [a| |]; try discriminate H. exists a.
  split; [reflexivity|]. now injection H.
Qed.

Lemma value_computed : forall (x : double) s m e, B2SF x = SpecFloat.S754_finite s m e ->
  value x = IZR (SpecFloat.cond_Zopp s (Zpos m)) * bpow radix2 e.
Proof. intros x s m e H. unfold value. rewrite <- SF2R_B2SF, H. reflexivity. Qed.

(** ** C66 the asserts about the end of a grid *)

(** A build with asserts accepts no interval that ends after 2^20 seconds (about 12 days). *)
Theorem C66_late : forall last : double, finite last -> 1048576 < value last ->
  (forall first desired d, make_from_start_delta_end64 true first desired last <> Ok d) /\
  (forall first n d, make_from_start_number_end64 true first last n <> Ok d) /\
  (forall tstart desired pts, state_grid64 true tstart last desired <> Ok pts).
Proof.
  intros last F H. assert (L : bpow radix2 20 < V last) by exact H.
  assert (A : forall first desired d,
             make_from_start_delta_end64 true first desired last <> Ok d).
  { intros first desired d E. apply delta_end_ok in E. destruct E as (n & _ & _ & _ & _ & E).
    specialize (E eq_refl). unfold end_asserts in E. cbv zeta in E.
    rewrite (no_near_late _ last F L) in E. discriminate E. }
  split; [exact A|]. split.
  - intros first n d E. unfold make_from_start_number_end64 in E.
    destruct (n <=? 0)%Z; [discriminate|]. destruct (dle last first); [discriminate|].
    cbv zeta in E. unfold end_asserts in E. cbv zeta in E.
    rewrite (no_near_late _ last F L) in E. discriminate E.
  - intros tstart desired pts E. unfold state_grid64, state_data64 in E.
    destruct (timedata_number64 tstart last desired) as [N| |]; try discriminate E.
    cbn [obind] in E.
    destruct (make_from_start_delta_end64 true tstart (timedata_delta64 tstart last N) last)
      as [d| |] eqn:E2; try discriminate E.
    exact (A _ _ _ E2).
Qed.
Print Assumptions C66_late.

(** Two weeks in steps of an hour: the interval is accepted without asserts. *)
Example C66_late_example :
  finite (of_Z 1209600) /\ 1048576 < value (of_Z 1209600) /\
  (exists d, state_data64 false (of_Z 0) (of_Z 1209600) (of_Z 3600) = Ok d /\
     number64 d = 337%Z) /\
  state_data64 true (of_Z 0) (of_Z 1209600) (of_Z 3600) = UB.
Proof.
  split; [reflexivity|]. split.
  - change (value (of_Z 1209600)) with (V (of_Z 1209600)).
    rewrite (proj2 (of_Z_val 1209600 ltac:(lia))). lra.
  - split; [|vm_compute; reflexivity].
    apply computed. vm_compute. reflexivity.
Qed.

(** So the two builds disagree about legitimate intervals. *)
Theorem C66_agree_refuted : exists tstart tend desired pts,
  finite tstart /\ finite tend /\ finite desired /\
  value tstart = 0 /\ value tend = 1209600 /\ value desired = 3600 /\
  state_grid64 false tstart tend desired = Ok pts /\ length pts = 337%nat /\
  state_grid64 true tstart tend desired = UB.
Proof.
  destruct (computed (state_grid64 false (of_Z 0) (of_Z 1209600) (of_Z 3600)) (@length _) 337%nat)
    as (pts & E & N); [vm_compute; reflexivity|].
  exists (of_Z 0), (of_Z 1209600), (of_Z 3600), pts.
  split; [reflexivity|]. split; [reflexivity|]. split; [reflexivity|].
  split; [exact (proj2 (of_Z_val 0 ltac:(lia)))|].
  split; [exact (proj2 (of_Z_val 1209600 ltac:(lia)))|].
  split; [exact (proj2 (of_Z_val 3600 ltac:(lia)))|].
  split; [exact E|]. split; [exact N|]. vm_compute. reflexivity.
Qed.
Print Assumptions C66_agree_refuted.

(** For intervals in 0 ... 2^17 seconds (about 36 hours) the asserts never fail. *)
Theorem C66_early_partial : forall first last : double, finite first -> finite last ->
  0 <= value first < value last -> value last <= 131072 ->
  (forall n, (2 <= n <= 2147483647)%Z ->
     exists d, make_from_start_number_end64 true first last n = Ok d /\
       make_from_start_number_end64 false first last n = Ok d /\ number64 d = n) /\
  (forall desired d, make_from_start_delta_end64 false first desired last = Ok d ->
     (2 <= number64 d <= 9007199254740992)%Z ->
     make_from_start_delta_end64 true first desired last = Ok d).
Proof.
  intros first last Ff Fl H H2.
  assert (NL : dle last first = false).
  { rewrite dle_val by assumption. apply Rle_bool_false. unfold value in H. lra. }
  split.
  - intros n Hn. unfold make_from_start_number_end64.
    rewrite (proj2 (Z.leb_gt n 0)) by lia. rewrite NL.
    rewrite (end_asserts_early first last (n - 1) Ff Fl H H2 ltac:(lia)). cbn [negb andb].
    eexists. split; [reflexivity|]. split; reflexivity.
  - intros desired d E Hd. apply delta_end_ok in E.
    destruct E as (n & En & -> & _ & E2 & _). cbn [number64] in Hd.
    unfold make_from_start_delta_end64. rewrite NL, E2, En. cbn [obind].
    rewrite Z.mod_small by lia.
    rewrite (end_asserts_early first last (n - 1) Ff Fl H H2 ltac:(lia)). reflexivity.
Qed.
Print Assumptions C66_early_partial.

Example C66_early_example :
  (exists d, make_from_start_delta_end64 false (of_Z 0) (of_Z 1800) (of_Z 86400) = Ok d /\
    number64 d = 49%Z) /\ finite (of_Z 86400) /\ 0 <= value (of_Z 0) < value (of_Z 86400) /\
    value (of_Z 86400) <= 131072.
Proof.
  split; [apply computed; vm_compute; reflexivity|]. split; [reflexivity|].
  unfold value. rewrite (proj2 (of_Z_val 0 ltac:(lia))), (proj2 (of_Z_val 86400 ltac:(lia))). lra.
Qed.

(** ** C67 the last point of a grid *)

(** The accumulated points of an equidistant grid drift away from the exact ones at most by the
    compounded roundoff. *)
Theorem C67_drift : forall (first delta : double) (n : nat),
  finite first -> finite delta -> 0 <= value first -> 0 <= value delta ->
  (value first + INR n * value delta) * (1 + roundoff) ^ n <= bpow radix2 1023 ->
  exists pts, grid64 false (mk_idata64 first delta (Z.of_nat n)) = Ok pts /\
    length pts = n /\
    forall i p, nth_error pts i = Some p ->
      finite p /\
      Rabs (value p - (value first + INR i * value delta))
        <= ((1 + roundoff) ^ i - 1) * (value first + INR i * value delta).
Proof.
  intros first delta n Ff Fd P1 P2 B. unfold roundoff in *. rewrite <- u_val in *.
  exists (accumulate64 first delta n). unfold grid64. cbn [first64 delta64 number64].
  rewrite Nat2Z.id. split; [reflexivity|]. split; [apply accumulate_length|].
  intros i p Hp.
  assert (Hi : (i < n)%nat).
  { rewrite <- (accumulate_length n first delta). apply nth_error_Some. congruence. }
  rewrite accumulate_nth in Hp by exact Hi. injection Hp as <-.
  apply (accumulate_error first delta n Ff Fd P1 P2 B i). lia.
Qed.
Print Assumptions C67_drift.

Example C67_drift_example :
  finite (of_Z 0) /\ finite (of_Z 60) /\ 0 <= value (of_Z 0) /\ 0 <= value (of_Z 60) /\
  (value (of_Z 0) + INR 3 * value (of_Z 60)) * (1 + roundoff) ^ 3 <= bpow radix2 1023.
Proof.
  unfold value. rewrite (proj2 (of_Z_val 0 ltac:(lia))), (proj2 (of_Z_val 60 ltac:(lia))).
  repeat split; try lra. apply Rle_trans with (bpow radix2 10); [|apply bpow_le; lia].
  rewrite two_pow by lia. change (IZR (2 ^ 10)) with 1024. unfold roundoff. simpl. lra.
Qed.

(** A day in steps of at most 420 s: the last state time is so far after the end time that a
    vector given from the start to the end time cannot be evaluated there.  (In exact
    arithmetic it is the end time.)  A build with asserts aborts. *)
Theorem C67_end_refuted : exists tstart tend desired pts back,
  finite tstart /\ finite tend /\ finite desired /\
  value tstart = 0 /\ value tend = 86400 /\ value desired = 420 /\
  state_grid64 false tstart tend desired = Ok pts /\
  nth_error pts (length pts - 1) = Some back /\ length pts = 207%nat /\
  finite back /\ value tend + / 10000000000 < value back /\
  (forall ra rb, eval64 [tstart; tend] [ra; rb] back = Exc) /\
  state_grid64 true tstart tend desired = UB.
Proof.
  destruct (computed (state_grid64 false (of_Z 0) (of_Z 86400) (of_Z 420))
    (fun l => (length l, match nth_error l 206 with
                         | Some b => is_finite b && dlt (dplus (of_Z 86400) EPSILON64) b
                                     && dlt (dplus (of_Z 86400) (lit 1 (-33))) b
                         | None => false
                         end)) (207%nat, true)) as (pts & E & G).
  { vm_compute. reflexivity. }
  exists (of_Z 0), (of_Z 86400), (of_Z 420), pts.
  apply pair_equal_spec in G. destruct G as (Len & G).
  destruct (nth_some pts 206 ltac:(lia)) as (back & Hb). rewrite Hb in G.
  apply andb_prop in G. destruct G as (G & Lb2). apply andb_prop in G. destruct G as (Fb & Lb).
  exists back. rewrite Len. change (207 - 1)%nat with 206%nat.
  destruct (of_Z_val 86400 ltac:(lia)) as (F8 & V8).
  split; [reflexivity|]. split; [reflexivity|]. split; [reflexivity|].
  split; [exact (proj2 (of_Z_val 0 ltac:(lia)))|]. split; [exact V8|].
  split; [exact (proj2 (of_Z_val 420 ltac:(lia)))|].
  split; [exact E|]. split; [exact Hb|]. split; [reflexivity|]. split; [exact Fb|].
  split.
  { unfold value. rewrite V8.
    rewrite dlt_val in Lb2; [|reflexivity | exact Fb].
    destruct (Rlt_bool_spec (V (dplus (of_Z 86400) (lit 1 (-33)))) (V back)) as [L|L];
      [|discriminate Lb2].
    assert (VV : V (dplus (of_Z 86400) (lit 1 (-33))) = 86400 + bpow radix2 (-33)).
    { change (value (dplus (of_Z 86400) (lit 1 (-33))) = 86400 + bpow radix2 (-33)).
      rewrite (value_computed (dplus (of_Z 86400) (lit 1 (-33))) false 5937362789990408 (-36))
        by (vm_compute; reflexivity).
      rewrite bpow_m33, bpow_neg by lia. change (bpow radix2 (- (-36))) with 68719476736.
      simpl. lra. }
    rewrite VV, bpow_m33 in L. lra. }
  split.
  - intros ra rb. unfold eval64. cbn [get nth_error length Nat.sub obind].
    assert (B : dle (of_Z 86400) back = true).
    { rewrite dle_val by assumption. apply Rle_bool_true.
      destruct (plus_eps (of_Z 86400) F8) as (F1 & V1).
      rewrite dlt_val in Lb by assumption. rewrite V1 in Lb.
      destruct (Rlt_bool_spec (rnd (V (of_Z 86400) + eps)) (V back)) as [L|L]; [|discriminate Lb].
      apply Rle_trans with (rnd (V (of_Z 86400) + eps)); [|lra].
      rewrite <- (rnd_id (V (of_Z 86400)) (fmt_V _)) at 1. apply rnd_mono.
      pose proof eps_small. lra. }
    unfold get. cbn [nth_error]. cbn [obind]. rewrite B, Lb. reflexivity.
  - vm_compute. reflexivity.
Qed.
Print Assumptions C67_end_refuted.

(** For short grids all asserts hold, the grid ends within 1e-10 of the end, and a vector given
    from the start to the end can be evaluated at all its points. *)
Theorem C67_short_partial : forall debug (first desired last : double) d,
  finite first -> finite last -> 0 <= value first < value last ->
  make_from_start_delta_end64 debug first desired last = Ok d ->
  (2 <= number64 d <= 2 ^ 40)%Z ->
  value last * IZR (number64 d + 4) <= 800000 ->
  exists pts, grid64 true d = Ok pts /\ grid64 false d = Ok pts /\
    Z.of_nat (length pts) = number64 d /\
    nth_error pts 0 = Some first /\
    (forall i p, nth_error pts i = Some p -> usable first last p) /\
    (forall b, nth_error pts (length pts - 1) = Some b ->
       Rabs (value b - value last) <= / 10000000000).
Proof.
  intros debug first desired last d Ff Fl H E Hn HT.
  apply delta_end_ok in E. destruct E as (n & _ & -> & _ & _ & _). cbn [number64] in *.
  rewrite Z.mod_small by lia. set (k := (n - 1)%Z) in *.
  replace (n + 4)%Z with (k + 5)%Z in HT by lia.
  destruct (short_grid first last k Ff Fl H ltac:(lia) HT) as (Fp & Mp & Bp & Ep & Ap).
  set (delta := ddiv (dminus last first) (of_Z k)) in *.
  assert (Hm : Z.to_nat n = S (Z.to_nat k)) by lia.
  exists (accumulate64 first delta (Z.to_nat n)).
  assert (Lb : nth_error (accumulate64 first delta (Z.to_nat n)) (Z.to_nat n - 1)
               = Some (point64 first delta (Z.to_nat k))).
  { rewrite accumulate_nth by lia. do 2 f_equal. lia. }
  assert (L0 : nth_error (accumulate64 first delta (Z.to_nat n)) 0 = Some first).
  { rewrite accumulate_nth by lia. reflexivity. }
  assert (S1 : is_sorted64 (accumulate64 first delta (Z.to_nat n)) = true).
  { rewrite Hm. apply sorted_accumulate. intros i Hi.
    rewrite dlt_val by (apply Fp; lia). apply Rlt_bool_false. apply Mp. lia. }
  assert (DE : deq first first = true).
  { unfold deq. rewrite dle_val by assumption. rewrite Rle_bool_true by lra. reflexivity. }
  split; [|split; [|split; [|split; [|split]]]].
  - unfold grid64. cbn [first64 delta64 number64]. rewrite accumulate_length.
    rewrite (get_nth _ _ _ L0), (get_nth _ _ _ Lb). cbn [obind].
    rewrite Z.mod_small by lia. fold k. rewrite DE, S1, Ap. reflexivity.
  - reflexivity.
  - rewrite accumulate_length. lia.
  - exact L0.
  - intros i p Hp ra rb.
    assert (Hi : (i < Z.to_nat n)%nat).
    { rewrite <- (accumulate_length (Z.to_nat n) first delta). apply nth_error_Some. congruence. }
    rewrite accumulate_nth in Hp by exact Hi. injection Hp as <-.
    set (p := point64 first delta i).
    assert (Fpi : is_finite p = true) by (apply Fp; lia).
    assert (P0 : V first <= V p) by (apply (Mp 0%nat i); lia).
    assert (Pk : V p <= V (point64 first delta (Z.to_nat k))) by (apply Mp; lia).
    unfold eval64. unfold get. cbn [nth_error length Nat.sub]. cbn [obind].
    destruct (dle last p) eqn:C1.
    + assert (X : dlt (dplus last EPSILON64) p = false).
      { destruct (plus_eps last Fl) as (F1 & V1).
        rewrite dlt_val in * by (try assumption; apply Fp; lia).
        destruct (Rlt_bool_spec (V (dplus last EPSILON64)) (V (point64 first delta (Z.to_nat k))))
          as [L|L]; [discriminate Ep|].
        apply Rlt_bool_false. lra. }
      rewrite X. now exists rb.
    + destruct (dle p first) eqn:C2.
      * assert (X : dlt p (dminus first EPSILON64) = false).
        { destruct (minus_eps first Ff) as (F1 & V1). rewrite dlt_val by assumption. rewrite V1.
          apply Rlt_bool_false. apply Rle_trans with (V first); [|lra].
          rewrite <- (rnd_id (V first) (fmt_V first)) at 2. apply rnd_mono.
          pose proof eps_small. lra. }
        rewrite X. now exists ra.
      * rewrite dle_val in C1, C2 by assumption.
        destruct (Rle_bool_spec (V last) (V p)) as [D1|D1]; [discriminate C1|].
        destruct (Rle_bool_spec (V p) (V first)) as [D2|D2]; [discriminate C2|].
        unfold lower_bound64. rewrite !dlt_val by assumption.
        rewrite (Rlt_bool_true (V first)) by lra. rewrite (Rlt_bool_false (V last)) by lra.
        cbn [nth_error obind Nat.eqb Nat.sub]. eexists. reflexivity.
  - intros b Hb. rewrite accumulate_length in Hb. rewrite Lb in Hb. injection Hb as <-.
    exact Bp.
Qed.
Print Assumptions C67_short_partial.

(** One hour in steps of 30 s. *)
Example C67_short_example :
  exists d, (make_from_start_delta_end64 false (of_Z 0) (of_Z 30) (of_Z 3600) = Ok d /\
    number64 d = 121%Z) /\ value (of_Z 3600) * IZR (number64 d + 4) <= 800000 /\
    0 <= value (of_Z 0) < value (of_Z 3600).
Proof.
  destruct (computed (make_from_start_delta_end64 false (of_Z 0) (of_Z 30) (of_Z 3600)) number64
              121%Z) as (d & E & N); [vm_compute; reflexivity|].
  exists d. split; [now split|]. rewrite N.
  unfold value. rewrite (proj2 (of_Z_val 0 ltac:(lia))), (proj2 (of_Z_val 3600 ltac:(lia))).
  split; [|lra]. change (IZR (121 + 4)) with 125. lra.
Qed.

(** ** C68 interpolation *)

Lemma row_facts : forall width pts rows i r, proper width pts rows ->
  nth_error rows i = Some r ->
  length r = width /\ all_finite r /\ bounded_by huge r.
Proof.
  intros width pts rows i r P H. apply nth_error_In in H.
  destruct P as [_ _ _ _ W Fr Br].
  rewrite Forall_forall in W, Fr, Br. auto.
Qed.

Lemma combine_blend : forall l vp vq (P : double -> double -> double -> Prop),
  length vp = length vq ->
  (forall a b, In a vp -> In b vq -> P a b (blend64 l a b)) ->
  forall j w, nth_error (map (fun '(a, b) => blend64 l a b) (combine vp vq)) j = Some w ->
  exists a b, nth_error vp j = Some a /\ nth_error vq j = Some b /\ P a b w.
Proof.
  intros l vp. induction vp as [|a vp IH]; intros [|b vq] P L H j w Hw; try discriminate L.
  - destruct j; discriminate Hw.
  - cbn [combine map] in Hw. destruct j as [|j].
    + cbn [nth_error] in *. injection Hw as <-. exists a, b.
      repeat split. apply H; now left.
    + cbn [nth_error] in *. apply (IH vq P); [now injection L | | exact Hw].
      intros x y Hx Hy. apply H; now right.
Qed.

Lemma combine_ext : forall l vp vq, length vp = length vq ->
  (forall a b, In a vp -> In b vq -> V (blend64 l a b) = V b) ->
  map V (map (fun '(a, b) => blend64 l a b) (combine vp vq)) = map V vq.
Proof.
  intros l vp. induction vp as [|a vp IH]; intros [|b vq] L H; try discriminate L; [reflexivity|].
  cbn [combine map]. f_equal; [apply H; now left|].
  apply IH; [now injection L|]. intros x y Hx Hy. apply H; now right.
Qed.

(** At the interpolation points the stored row is returned exactly, in spite of rounding. *)
Theorem C68_at_points : forall width pts rows i p r,
  proper width pts rows -> nth_error pts i = Some p -> nth_error rows i = Some r ->
  exists w, eval64 pts rows p = Ok w /\ map value w = map value r.
Proof.
  intros width pts rows i p r P Hp Hr.
  pose proof P as [Fp Bp Ip Rn Rw Fr Br].
  destruct (last_index _ _ _ Hp) as (I1 & I2).
  destruct (nth_some pts 0 I2) as (front & H0).
  destruct (nth_some pts (length pts - 1) ltac:(lia)) as (back & Hl).
  assert (Fin : forall j x, nth_error pts j = Some x -> is_finite x = true).
  { intros j x Hx. unfold all_finite in Fp. rewrite Forall_forall in Fp.
    apply Fp. eapply nth_error_In, Hx. }
  assert (Bd : forall j x, nth_error pts j = Some x -> Rabs (V x) <= bpow radix2 1000).
  { intros j x Hx. unfold bounded_by in Bp. rewrite Forall_forall in Bp.
    apply Bp. eapply nth_error_In, Hx. }
  assert (In2 : forall j k x y, (j < k)%nat -> nth_error pts j = Some x ->
            nth_error pts k = Some y -> V x < V y).
  { intros j k x y L Hx Hy. exact (strictly_nth pts j k x y Ip L Hx Hy). }
  assert (Inj : forall j x, nth_error pts j = Some x -> V x = V p -> j = i).
  { intros j x Hx E. destruct (lt_eq_lt_dec j i) as [[L|L]|L]; [|exact L|].
    - pose proof (In2 j i x p L Hx Hp). lra.
    - pose proof (In2 i j p x L Hp Hx). lra. }
  destruct (eval_cases pts rows p front back Fp Ip (Fin _ _ Hp) Rn H0 Hl) as [C|[C|C]].
  - split.
    + destruct (Nat.eq_dec i 0) as [->|N]; [rewrite H0 in Hp; injection Hp as ->; lra|].
      apply Rlt_le, (In2 0%nat i); [lia | exact H0 | exact Hp].
    + destruct (Nat.eq_dec i (length pts - 1)) as [->|N]; [rewrite Hl in Hp; injection Hp as ->; lra|].
      apply Rlt_le, (In2 i (length pts - 1)%nat); [lia | exact Hp | exact Hl].
  - destruct C as (C1 & C2). assert (E := Inj _ _ Hl (eq_sym C1)). subst i.
    exists r. split; [|reflexivity]. rewrite C2. now apply get_nth.
  - destruct C as (C1 & _ & C2). assert (E := Inj _ _ H0 (eq_sym C1)). subst i.
    exists r. split; [|reflexivity]. rewrite C2. now apply get_nth.
  - destruct C as (j & a & b & va & vb & Ha & Hb & Hva & Hvb & Hab & C).
    assert (E : S j = i).
    { destruct (lt_eq_lt_dec (S j) i) as [[L|L]|L]; [|exact L|].
      - pose proof (In2 (S j) i b p L Hb Hp). lra.
      - assert (i <= j)%nat by lia.
        destruct (Nat.eq_dec i j) as [->|N].
        + rewrite Ha in Hp. injection Hp as ->. lra.
        + pose proof (In2 i j p a ltac:(lia) Hp Ha). lra. }
    subst i. rewrite Hb in Hp. injection Hp as <-. rewrite Hvb in Hr. injection Hr as <-.
    eexists. split; [exact C|].
    destruct (weight_val b a b (Fin _ _ Hb) (Fin _ _ Ha) (Fin _ _ Hb) (Bd _ _ Ha) (Bd _ _ Hb) Hab)
      as (Fw & _ & W1).
    specialize (W1 eq_refl).
    destruct (row_facts _ _ _ _ _ P Hva) as (La & Fa & _).
    destruct (row_facts _ _ _ _ _ P Hvb) as (Lb & Fb & _).
    apply combine_ext; [congruence|]. intros x y Hx Hy.
    unfold all_finite in Fa, Fb. rewrite Forall_forall in Fa, Fb.
    apply blend_one; [exact Fw | now apply Fa | now apply Fb | exact W1].
Qed.
Print Assumptions C68_at_points.

(** Between the first and the last point every entry lies between the entries of two
    neighbouring rows, up to rounding. *)
Theorem C68_between : forall width pts rows t front back,
  proper width pts rows -> finite t ->
  nth_error pts 0 = Some front -> nth_error pts (length pts - 1) = Some back ->
  value front <= value t <= value back ->
  exists w, eval64 pts rows t = Ok w /\ length w = width /\
    forall j x, nth_error w j = Some x ->
      exists i ri rn p q a b,
        nth_error pts i = Some p /\ nth_error rows i = Some ri /\ nth_error ri j = Some a /\
        (nth_error pts (S i) = Some q /\ nth_error rows (S i) = Some rn \/ q = p /\ rn = ri) /\
        nth_error rn j = Some b /\
        value p <= value t <= value q /\
        between_up_to_rounding (value a) (value b) (value x).
Proof.
  intros width pts rows t front back P Ft H0 Hl Ht.
  pose proof P as [Fp Bp Ip Rn Rw Fr Br].
  destruct (last_index _ _ _ Hl) as (_ & I2).
  assert (Fin : forall j x, nth_error pts j = Some x -> is_finite x = true).
  { intros j x Hx. unfold all_finite in Fp. rewrite Forall_forall in Fp.
    apply Fp. eapply nth_error_In, Hx. }
  assert (Bd : forall j x, nth_error pts j = Some x -> Rabs (V x) <= bpow radix2 1000).
  { intros j x Hx. unfold bounded_by in Bp. rewrite Forall_forall in Bp.
    apply Bp. eapply nth_error_In, Hx. }
  assert (Same : forall a, between_up_to_rounding a a a).
  { intro a. unfold between_up_to_rounding. cbv zeta.
    rewrite Rmin_left, !Rmax_left by lra.
    assert (0 <= bpow radix2 (-1000)) by apply bpow_ge_0.
    assert (0 <= 8 * roundoff * Rabs a).
    { unfold roundoff. pose proof (Rabs_pos a). lra. }
    lra. }
  destruct (eval_cases pts rows t front back Fp Ip Ft Rn H0 Hl Ht) as [C|[C|C]].
  - destruct C as (C1 & C2).
    destruct (nth_some rows (length pts - 1) ltac:(lia)) as (r & Hr).
    rewrite (get_nth _ _ _ Hr) in C2. exists r. split; [exact C2|].
    split; [exact (proj1 (row_facts _ _ _ _ _ P Hr))|].
    intros j x Hx. exists (length pts - 1)%nat, r, r, back, back, x, x.
    repeat (split; [solve [assumption | now right]|]).
    unfold value. split; [lra | apply Same].
  - destruct C as (C1 & _ & C2).
    destruct (nth_some rows 0 ltac:(lia)) as (r & Hr).
    rewrite (get_nth _ _ _ Hr) in C2. exists r. split; [exact C2|].
    split; [exact (proj1 (row_facts _ _ _ _ _ P Hr))|].
    intros j x Hx. exists 0%nat, r, r, front, front, x, x.
    repeat (split; [solve [assumption | now right]|]).
    unfold value. split; [lra | apply Same].
  - destruct C as (i & p & q & vp & vq & Hp & Hq & Hvp & Hvq & Hpq & C).
    destruct (row_facts _ _ _ _ _ P Hvp) as (La & Fa & Ba).
    destruct (row_facts _ _ _ _ _ P Hvq) as (Lb & Fb & Bb).
    eexists. split; [exact C|].
    split; [rewrite map_length, combine_length; lia|].
    destruct (weight_val t p q Ft (Fin _ _ Hp) (Fin _ _ Hq) (Bd _ _ Hp) (Bd _ _ Hq) Hpq)
      as (Fw & Bw & _).
    set (l := ddiv (dminus t p) (dminus q p)) in *.
    intros j x Hx.
    destruct (combine_blend l vp vq
                (fun a b w => between_up_to_rounding (value a) (value b) (value w))
                ltac:(congruence)) with (j := j) (w := x) as (a & b & Ha & Hb & Hab);
      [| exact Hx |].
    + intros a b Ha Hb. unfold all_finite in Fa, Fb. rewrite Forall_forall in Fa, Fb.
      unfold bounded_by in Ba, Bb. rewrite Forall_forall in Ba, Bb.
      pose proof (Ba _ Ha) as Xa. pose proof (Bb _ Hb) as Xb. unfold huge, value in Xa, Xb.
      assert (XM : Rmax (Rabs (V a)) (Rabs (V b)) <= bpow radix2 1000) by (now apply Rmax_lub).
      destruct (blend_error l a b (Rmax (Rabs (V a)) (Rabs (V b))) Fw (Fa _ Ha) (Fb _ Hb) Bw
                  (Rmax_l _ _) (Rmax_r _ _) XM) as (_ & E).
      unfold between_up_to_rounding, value. cbv zeta. unfold roundoff. rewrite <- u_val.
      assert (B50 : bpow radix2 (-50) = 8 * u).
      { unfold u. change 8 with (bpow radix2 3). now rewrite <- bpow_plus. }
      rewrite B50 in E. apply abs_diff in E.
      pose proof (Rmin_l (V a) (V b)). pose proof (Rmin_r (V a) (V b)).
      pose proof (Rmax_l (V a) (V b)). pose proof (Rmax_r (V a) (V b)).
      assert (Rmin (V a) (V b) <= (1 - V l) * V a + V l * V b <= Rmax (V a) (V b)).
      { split; nra. }
      lra.
    + exists i, vp, vq, p, q, a, b. repeat (split; [solve [assumption | now left]|]).
      unfold value. split; [lra | exact Hab].
Qed.
Print Assumptions C68_between.

(** A constant vector is not reproduced exactly: 15 on [0, 3] gives more than 15 at 1. *)
Theorem C68_constant_refuted : exists pts rows t c w x,
  proper 1 pts rows /\ finite t /\ (forall r, In r rows -> r = [c]) /\
  eval64 pts rows t = Ok w /\ w = [x] /\ value c < value x.
Proof.
  destruct (computed (eval64 [of_Z 0; of_Z 3] [[of_Z 15]; [of_Z 15]] (of_Z 1)) (map B2SF)
              [SpecFloat.S754_finite false 8444249301319681 (-49)]) as (w & E & G).
  { vm_compute. reflexivity. }
  destruct w as [|x [|]]; try discriminate G. injection G as G. apply value_computed in G.
  exists [of_Z 0; of_Z 3], [[of_Z 15]; [of_Z 15]], (of_Z 1), (of_Z 15), [x], x.
  destruct (of_Z_val 0 ltac:(lia)) as (F0 & V0). destruct (of_Z_val 3 ltac:(lia)) as (F3 & V3).
  destruct (of_Z_val 15 ltac:(lia)) as (F15 & V15).
  assert (HB : 1024 <= huge).
  { unfold huge. apply Rle_trans with (bpow radix2 10); [|apply bpow_le; lia].
    rewrite two_pow by lia. apply IZR_le. lia. }
  split; [constructor|].
  - repeat constructor; assumption.
  - unfold bounded_by, value. repeat constructor; rewrite ?V0, ?V3, Rabs_pos_eq; lra.
  - unfold increasing, value. cbn [map]. rewrite V0, V3. repeat constructor. lra.
  - reflexivity.
  - repeat constructor.
  - repeat constructor; assumption.
  - unfold bounded_by, value. repeat constructor; rewrite V15, Rabs_pos_eq; lra.
  - split; [reflexivity|]. split; [intros r [<-|[<-|[]]]; reflexivity|].
    split; [exact E|]. split; [reflexivity|]. rewrite G.
    unfold value. rewrite V15, bpow_neg by lia.
    change (bpow radix2 (- (-49))) with 562949953421312. simpl. lra.
Qed.
Print Assumptions C68_constant_refuted.

(** ** C69 number of steps and step size *)

(** 34 s in steps of at most 5 s need 7 steps (8 points); the state grid has 9 points. *)
Theorem C69_number_refuted : exists tstart tend desired d pts,
  ordinary_span tstart tend /\ finite desired /\
  value tstart = 0 /\ value tend = 34 /\ value desired = 5 /\
  steps_needed (value tstart) (value tend) (value desired) = 7%Z /\
  state_data64 false tstart tend desired = Ok d /\ number64 d = 9%Z /\
  state_grid64 false tstart tend desired = Ok pts /\ length pts = 9%nat.
Proof.
  exists (of_Z 0), (of_Z 34), (of_Z 5).
  destruct (of_Z_val 0 ltac:(lia)) as (F0 & V0). destruct (of_Z_val 34 ltac:(lia)) as (F3 & V3).
  destruct (of_Z_val 5 ltac:(lia)) as (F5 & V5).
  destruct (computed (state_data64 false (of_Z 0) (of_Z 34) (of_Z 5)) number64 9%Z)
    as (d & E1 & N1); [vm_compute; reflexivity|].
  destruct (computed (state_grid64 false (of_Z 0) (of_Z 34) (of_Z 5)) (@length _) 9%nat)
    as (pts & E2 & N2); [vm_compute; reflexivity|].
  exists d, pts. split.
  - split; [reflexivity|]. unfold value.
    destruct (minus_range (of_Z 34) (of_Z 0) F3 F0) as (_ & G).
    { rewrite V0, V3. apply range_1000. rewrite Rabs_pos_eq; lra. }
    rewrite G, V0, V3. replace (34 - 0) with 34 by ring. rewrite rnd_id by (apply fmt_int; lia).
    split.
    + apply Rle_trans with (bpow radix2 0); [apply bpow_le; lia | simpl; lra].
    + apply Rle_trans with (bpow radix2 10); [simpl; lra | apply bpow_le; lia].
  - unfold value. rewrite V0, V3, V5.
    split; [reflexivity|]. split; [reflexivity|]. split; [reflexivity|]. split; [reflexivity|].
    split; [apply Zceil_imp; simpl; lra|].
    repeat (split; [assumption|]). assumption.
Qed.
Print Assumptions C69_number_refuted.

(** In general: the number of points is off by at most two from what is needed. *)
Theorem C69_number_partial : forall debug tstart tend desired number d,
  ordinary_span tstart tend -> 0 < value desired ->
  timedata_number64 tstart tend desired = Ok number -> (1 < number)%Z ->
  state_data64 debug tstart tend desired = Ok d ->
  (number64 d = number \/ number64 d = number + 1)%Z /\
  let needed := steps_needed (value tstart) (value tend) (value desired) in
  (needed <= number64 d <= needed + 3)%Z.
Proof.
  intros debug tstart tend desired number d (Fs & Bs) Pd HN LN HD.
  pose proof (number_of_points debug tstart tend desired number d Fs Bs HN LN HD) as P.
  destruct (exact_count tstart tend desired number Fs Bs Pd HN LN) as (Q & _).
  unfold steps_needed, value. cbv zeta. split; [exact P|]. lia.
Qed.
Print Assumptions C69_number_partial.

(** The step is not larger than the desired one, up to rounding. *)
Theorem C69_step : forall debug tstart tend desired number d,
  ordinary_span tstart tend -> 0 < value desired ->
  timedata_number64 tstart tend desired = Ok number -> (1 < number)%Z ->
  state_data64 debug tstart tend desired = Ok d ->
  0 < value (delta64 d) <= value desired * (1 + 8 * roundoff).
Proof.
  intros debug tstart tend desired number d (Fs & Bs) Pd HN LN HD.
  pose proof (step_bound debug tstart tend desired number d Fs Bs Pd HN LN HD) as S.
  assert (B50 : bpow radix2 (-50) = 8 * roundoff).
  { unfold roundoff. rewrite bpow_neg by lia.
    change (bpow radix2 (- (-50))) with 1125899906842624. lra. }
  rewrite B50 in S. exact S.
Qed.
Print Assumptions C69_step.

Example C69_example : exists d,
  ordinary_span (of_Z 0) (of_Z 34) /\ 0 < value (of_Z 5) /\
  timedata_number64 (of_Z 0) (of_Z 34) (of_Z 5) = Ok 8%Z /\
  state_data64 false (of_Z 0) (of_Z 34) (of_Z 5) = Ok d /\ number64 d = 9%Z.
Proof.
  destruct (of_Z_val 0 ltac:(lia)) as (F0 & V0). destruct (of_Z_val 34 ltac:(lia)) as (F3 & V3).
  destruct (computed (state_data64 false (of_Z 0) (of_Z 34) (of_Z 5)) number64 9%Z)
    as (d & E1 & N1); [vm_compute; reflexivity|].
  exists d. split.
  - split; [reflexivity|]. unfold value.
    destruct (minus_range (of_Z 34) (of_Z 0) F3 F0) as (_ & G).
    { rewrite V0, V3. apply range_1000. rewrite Rabs_pos_eq; lra. }
    rewrite G, V0, V3. replace (34 - 0) with 34 by ring. rewrite rnd_id by (apply fmt_int; lia).
    split.
    + apply Rle_trans with (bpow radix2 0); [apply bpow_le; lia | simpl; lra].
    + apply Rle_trans with (bpow radix2 10); [simpl; lra | apply bpow_le; lia].
  - split; [unfold value; rewrite (proj2 (of_Z_val 5 ltac:(lia))); lra|].
    split; [vm_compute; reflexivity|]. now split.
Qed.

(** ** C70 control times *)

(** "number_of_steps": n in the control settings gives n points, that is n - 1 steps. *)
Theorem C70_points : forall debug tstart tend desired n pts,
  control_grid64 debug tstart tend desired (settings None (Some n)) = Ok pts ->
  Z.of_nat (length pts) = n.
Proof.
  intros debug tstart tend desired n pts H. unfold control_grid64, control_data64 in H.
  unfold make_from_start_number_end64 in H.
  destruct (n <=? 0)%Z eqn:E; [discriminate|]. apply Z.leb_gt in E.
  destruct (dle tend tstart); [discriminate|]. cbv zeta in H.
  destruct (debug && _); [discriminate|]. cbn [obind] in H. unfold grid64 in H.
  cbn [first64 delta64 number64] in H.
  assert (X : pts = accumulate64 tstart (ddiv (dminus tend tstart) (of_Z (n - 1))) (Z.to_nat n)).
  { destruct debug; [|now injection H].
    destruct (get _ 0) as [a| |]; try discriminate H. cbn [obind] in H.
    destruct (get _ _) as [b| |]; try discriminate H. cbn [obind] in H.
    destruct (_ && _ && _); [now injection H | discriminate H]. }
  rewrite X, accumulate_length. lia.
Qed.
Print Assumptions C70_points.

(** A number of steps that is not positive is rejected. *)
Theorem C70_no_points : forall debug tstart tend desired n, (n <= 0)%Z ->
  control_grid64 debug tstart tend desired (settings None (Some n)) = Exc.
Proof.
  intros debug tstart tend desired n H. unfold control_grid64, control_data64, make_from_start_number_end64.
  apply Z.leb_le in H. rewrite H. reflexivity.
Qed.
Print Assumptions C70_no_points.

Theorem C70_number_refuted : exists tstart tend desired n pts,
  value tstart = 0 /\ value tend = 3600 /\ n = 4%Z /\
  control_grid64 true tstart tend desired (settings None (Some n)) = Ok pts /\
  Z.of_nat (length pts - 1) = 3%Z.
Proof.
  destruct (computed (control_grid64 true (of_Z 0) (of_Z 3600) (of_Z 60) (settings None (Some 4%Z)))
              (fun l => Z.of_nat (length l - 1)) 3%Z) as (pts & E & N); [vm_compute; reflexivity|].
  exists (of_Z 0), (of_Z 3600), (of_Z 60), 4%Z, pts.
  split; [exact (proj2 (of_Z_val 0 ltac:(lia)))|].
  split; [exact (proj2 (of_Z_val 3600 ltac:(lia)))|]. split; [reflexivity|]. now split.
Qed.
Print Assumptions C70_number_refuted.

(** With one step the (release) control grid consists of the start time only, and no later time
    can be evaluated. *)
Theorem C70_one : forall tstart tend desired t,
  finite tstart -> finite tend -> finite t -> value tstart < value tend ->
  value (dplus tstart EPSILON64) < value t ->
  control_grid64 false tstart tend desired (settings None (Some 1%Z)) = Ok [tstart] /\
  forall rows, eval64 [tstart] rows t = Exc.
Proof.
  intros tstart tend desired t Fs Fe Ft H1 H2. split.
  - unfold control_grid64, control_data64, make_from_start_number_end64.
    cbn [Z.leb Z.compare]. rewrite dle_val by assumption.
    rewrite Rle_bool_false by exact H1. reflexivity.
  - intro rows. unfold eval64, get. cbn [nth_error length Nat.sub obind].
    destruct (plus_eps tstart Fs) as (F1 & V1).
    rewrite dle_val, dlt_val by assumption.
    rewrite (Rlt_bool_true (V (dplus tstart EPSILON64))) by exact H2.
    rewrite Rle_bool_true; [reflexivity|]. unfold value in H2. rewrite V1 in H2.
    apply Rle_trans with (rnd (V tstart + eps)); [|lra].
    rewrite <- (rnd_id (V tstart) (fmt_V tstart)) at 1. apply rnd_mono.
    pose proof eps_small. lra.
Qed.
Print Assumptions C70_one.

Example C70_one_example :
  value (of_Z 0) < value (of_Z 3600) /\ value (dplus (of_Z 0) EPSILON64) < value (of_Z 60).
Proof.
  unfold value. rewrite (proj2 (of_Z_val 3600 ltac:(lia))), (proj2 (of_Z_val 60 ltac:(lia))).
  destruct (plus_eps (of_Z 0) eq_refl) as (_ & V1). rewrite V1.
  rewrite (proj2 (of_Z_val 0 ltac:(lia))). split; [lra|].
  rewrite Rplus_0_l, rnd_id by (rewrite <- eps_val; apply fmt_V).
  pose proof eps_bounds. lra.
Qed.

(** Without control settings the controls live on the state times, and the control used at a
    state time is the stored one exactly; conflicting or empty settings are rejected. *)
Theorem C70_default : forall debug tstart tend desired pts width rows i t r,
  state_grid64 debug tstart tend desired = Ok pts ->
  control_grid64 debug tstart tend desired no_settings = Ok pts /\
  (proper width pts rows -> nth_error pts i = Some t -> nth_error rows i = Some r ->
   exists w, eval64 pts rows t = Ok w /\ map value w = map value r) /\
  (forall d n, control_grid64 debug tstart tend desired (settings (Some d) (Some n)) = Exc) /\
  control_grid64 debug tstart tend desired (settings None None) = Exc.
Proof.
  intros debug tstart tend desired pts width rows i t r H. split; [exact H|].
  split; [apply C68_at_points|]. split; reflexivity.
Qed.
Print Assumptions C70_default.

Example C70_default_example : exists pts,
  state_grid64 true (of_Z 0) (of_Z 34) (of_Z 5) = Ok pts /\ length pts = 9%nat.
Proof. apply computed. vm_compute. reflexivity. Qed.
