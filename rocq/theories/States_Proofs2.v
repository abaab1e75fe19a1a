(** * Proofs about initial states: one component *)
From Coq Require Import Reals List Bool Arith Lia Lra String.
From Verif Require Import Base Interp_Model Interp_Spec Interp_Proofs Interp_Proofs2 Json_Model Json_Spec Json_Proofs Json_Proofs2 Json_Proofs3
  Defaults_Model Controls_Model Controls_Spec Controls_Proofs Controls_Proofs2 Controls_Proofs3 Calc Euler_Model Euler_Spec Euler_Proofs
  Net_Model States_Model States_Spec States_Proofs.
Import ListNotations.
Local Open Scope string_scope.
Local Open Scope list_scope.

Lemma nth_skipn {A} (l : list A) n m : nth_error (skipn n l) m = nth_error l (n + m).
Proof. revert l. induction n as [|n IH]; intro l; [reflexivity|]. destruct l as [|x l]; [cbn; destruct m; reflexivity|]. cbn. apply IH. Qed.
Definition splice (v : list R) (start : nat) (vals : list R) : list R :=
  firstn start v ++ vals ++ skipn (start + List.length vals) v.
Lemma splice_length v start vals : (start + List.length vals <= List.length v)%nat -> List.length (splice v start vals) = List.length v.
Proof. intro H. unfold splice. rewrite !app_length, firstn_length, skipn_length. lia. Qed.
Lemma splice_nth v start vals m : (start + List.length vals <= List.length v)%nat ->
  nth_error (splice v start vals) m =
    (if (Nat.leb start m && Nat.ltb m (start + List.length vals))%bool then nth_error vals (m - start) else nth_error v m).
Proof.
  intro H. unfold splice. assert (F : List.length (firstn start v) = start) by (rewrite firstn_length; lia).
  destruct (Nat.leb_spec start m) as [A|A]; cbn [andb].
  - rewrite nth_error_app2 by lia. rewrite F. destruct (Nat.ltb_spec m (start + List.length vals)) as [B|B].
    + rewrite nth_error_app1 by lia. reflexivity.
    + rewrite nth_error_app2 by lia. rewrite nth_skipn. f_equal. lia.
  - rewrite nth_error_app1 by lia. rewrite <- (firstn_skipn start v) at 2. rewrite nth_error_app1 by lia. reflexivity.
Qed.
Lemma splice_replaced v start vals : (start + List.length vals <= List.length v)%nat -> replaced v start vals (splice v start vals).
Proof. intro H. split; [apply splice_length, H|]. intros m _. apply splice_nth, H. Qed.
Lemma splice_app v start a b : (start + List.length a + List.length b <= List.length v)%nat ->
  splice (splice v start a) (start + List.length a) b = splice v start (a ++ b).
Proof.
  intro H. unfold splice at 1 3. rewrite app_length.
  assert (F : firstn (start + List.length a) (splice v start a) = firstn start v ++ a).
  { unfold splice. rewrite app_assoc. replace (start + List.length a)%nat with (List.length (firstn start v ++ a) + 0)%nat at 1
      by (rewrite app_length, firstn_length; lia).
    rewrite firstn_app_2. cbn [firstn]. apply app_nil_r. }
  rewrite F. rewrite <- !app_assoc. f_equal. f_equal. f_equal. unfold splice.
  rewrite app_assoc, skipn_app. rewrite app_length, firstn_length.
  replace (Nat.min start (List.length v)) with start by lia.
  rewrite skipn_all2 by (rewrite app_length, firstn_length; lia). cbn [app].
  replace (start + List.length a + List.length b - (start + List.length a))%nat with (List.length b) by lia.
  assert (Sk : forall (l : list R) x y, skipn x (skipn y l) = skipn (y + x) l).
  { intros l x y. revert l. induction y as [|y IH]; intro l; [reflexivity|]. destruct l as [|z l]; [cbn; apply skipn_nil|]. cbn. apply IH. }
  rewrite Sk. f_equal. lia.
Qed.

Lemma assign_splice v start len row : (start + len <= List.length v)%nat -> List.length row = len ->
  assign_segment v start len row = Ok (splice v start row).
Proof.
  intros H L. unfold assign_segment, splice. rewrite L, Nat.eqb_refl. destruct (Nat.leb_spec (start + len) (List.length v)); [reflexivity|lia].
Qed.

(** Lists of pairs. *)
Lemma pairs_length (cs : list (list R)) : (forall c, In c cs -> List.length c = 2%nat) -> List.length (List.concat cs) = (2 * List.length cs)%nat.
Proof.
  induction cs as [|c cs IH]; intro H; [reflexivity|]. cbn [List.concat List.length]. rewrite app_length, IH by (intros; apply H; right; auto).
  rewrite (H c (or_introl eq_refl)). lia.
Qed.
Lemma pairs_nth (cs : list (list R)) : (forall c, In c cs -> List.length c = 2%nat) -> forall i c, nth_error cs i = Some c ->
  nth_error (List.concat cs) (2 * i) = nth_error c 0 /\ nth_error (List.concat cs) (2 * i + 1) = nth_error c 1.
Proof.
  induction cs as [|d cs IH]; intros H i c E; [destruct i; discriminate|]. pose proof (H d (or_introl eq_refl)) as Ld.
  cbn [List.concat]. destruct i as [|i].
  - cbn in E. injection E as <-. split; apply nth_error_app1; lia.
  - cbn [nth_error] in E. destruct (IH (fun x I => H x (or_intror I)) i c E) as [A B].
    split; rewrite nth_error_app2 by lia; rewrite Ld; [rewrite <- A|rewrite <- B]; f_equal; lia.
Qed.

(** The loop: all rounds succeed. *)
Lemma loop_ok values dx convert cs : iinner values = 2%nat -> (forall c, In c cs -> List.length c = 2%nat) -> forall i cur v,
  (forall j c, nth_error cs j = Some c -> obind (interp_at values (INR (i + j) * dx)) convert = Ok c) ->
  (cur + 2 * List.length cs <= List.length v)%nat ->
  initial_loop values dx convert (List.length cs) i cur v = Ok (splice v cur (List.concat cs)).
Proof.
  intros I2. induction cs as [|c cs IH]; intros L2 i cur v H L.
  - cbn. unfold splice. rewrite Nat.add_0_r. cbn. rewrite firstn_skipn. reflexivity.
  - cbn [List.length initial_loop]. pose proof (H 0%nat c eq_refl) as E. pose proof (L2 c (or_introl eq_refl)) as Lc. rewrite Nat.add_0_r in E.
    cbn [List.length] in L.
    destruct (interp_at values (INR i * dx)) as [row| |] eqn:Ei; try discriminate. cbn [obind] in E |- *. rewrite E. cbn [obind].
    rewrite I2, (assign_splice v cur 2 c) by lia. cbn [obind]. rewrite IH.
    + f_equal. cbn [List.concat]. rewrite <- Lc. apply splice_app. rewrite pairs_length by (intros; apply L2; right; auto). lia.
    + intros x I. apply L2. right. exact I.
    + intros j x J. pose proof (H (S j) x J) as K. rewrite Nat.add_succ_r in K. exact K.
    + rewrite splice_length by lia. lia.
Qed.
(** Some round fails. *)
Lemma loop_exc values dx convert n : iinner values = 2%nat -> forall i cur v,
  (forall j, (j < n)%nat -> obind (interp_at values (INR (i + j) * dx)) convert = Exc \/
     exists c, List.length c = 2%nat /\ obind (interp_at values (INR (i + j) * dx)) convert = Ok c) ->
  (exists j, (j < n)%nat /\ obind (interp_at values (INR (i + j) * dx)) convert = Exc) ->
  (cur + 2 * n <= List.length v)%nat ->
  initial_loop values dx convert n i cur v = Exc.
Proof.
  intro I2. induction n as [|n IH]; intros i cur v H [k [Hk Ek]] L; [lia|]. cbn [initial_loop].
  destruct (H 0%nat ltac:(lia)) as [E|[c [Lc E]]]; rewrite Nat.add_0_r in E.
  - destruct (interp_at values (INR i * dx)) as [row| |]; try discriminate; cbn [obind] in E |- *; [rewrite E|]; reflexivity.
  - destruct (interp_at values (INR i * dx)) as [row| |] eqn:Ei; try discriminate. cbn [obind] in E |- *. rewrite E. cbn [obind].
    rewrite I2, (assign_splice v cur 2 c) by lia. cbn [obind]. apply IH.
    + intros j J. specialize (H (S j) ltac:(lia)). rewrite Nat.add_succ_r in H. exact H.
    + destruct k as [|k].
      * rewrite Nat.add_0_r, Ei in Ek. cbn [obind] in Ek. congruence.
      * exists k. rewrite Nat.add_succ_r in Ek. split; [lia|exact Ek].
    + rewrite splice_length by lia. lia.
Qed.

(** What one component does with a document. *)
Definition conversion (k : state_kind) : list R -> outcome (list R) :=
  match k with KPipe _ _ => pipe_transform | _ => fun row => Ok row end.
Definition points_and_step (k : state_kind) : nat * R :=
  match k with KPipe n dx => (n, dx) | KShort => (2%nat, 1%R) | _ => (1%nat, 1%R) end.
Lemma places_points k : places k = map (fun i => INR i * snd (points_and_step k))%R (seq 0 (fst (points_and_step k))).
Proof. destruct k; cbn; try reflexivity; repeat f_equal; lra. Qed.
Lemma needed_points k : needed_number_of_states k = (2 * fst (points_and_step k))%nat.
Proof. destruct k; reflexivity. Qed.

Definition table (rows : list (R * list R)) : ivec := mk_ivec (map fst rows) 2 (List.concat (map snd rows)).
Lemma component_document uninit c v x rows : rows_ok (sc_kind c) rows ->
  component_initial uninit c v (document "x" x rows) =
  initial_loop (table rows) (snd (points_and_step (sc_kind c))) (conversion (sc_kind c)) (fst (points_and_step (sc_kind c))) 0 (sc_start c) v.
Proof.
  intro Ok1. unfold component_initial. destruct (schema_of_kind (sc_kind c)) as [s [-> V]]. cbn [obind].
  assert (Vd : valid (depth s) s (document "x" x rows) = true) by (apply V, document_initial, Ok1).
  assert (Ne : rows <> []).
  { destruct Ok1 as [_ [_ H]]. intros ->. destruct (sc_kind c); apply (H 0%R); left; reflexivity. }
  assert (Cd : construct_from_json uninit (document "x" x rows) s = Ok (table rows)).
  { apply construct_document; auto. apply Ok1. }
  assert (G : forall n dx f, set_simple_initial_values uninit (sc_start c) (2 * n) v (document "x" x rows) s n dx f = initial_loop (table rows) dx f n 0 (sc_start c) v).
  { intros n dx f. unfold set_simple_initial_values, validate_json. rewrite Vd. cbn [obind]. rewrite Cd. cbn [obind table iinner].
    rewrite (proj2 (Nat.ltb_ge (2 * n) (2 * n)) (le_n _)). reflexivity. }
  destruct (sc_kind c); cbn [needed_number_of_states points_and_step fst snd conversion]; apply G.
Qed.
Lemma component_bad uninit c v j : ~ initial_ok (fst (asked (sc_kind c))) 2 (snd (asked (sc_kind c))) j -> component_initial uninit c v j = Exc.
Proof.
  intro H. unfold component_initial. destruct (schema_of_kind (sc_kind c)) as [s [-> V]]. cbn [obind].
  assert (Vd : valid (depth s) s j = false) by (apply not_true_iff_false; rewrite V; exact H).
  destruct (sc_kind c); unfold set_simple_initial_values, validate_json; rewrite Vd; reflexivity.
Qed.

Lemma row_at rows t : (forall tr, In tr rows -> List.length (snd tr) = 2%nat) -> increasing (map fst rows) -> rows <> [] ->
  (covered tolerance (map fst rows) t -> exists y q, interp_at (table rows) t = Ok [y; q] /\ at_place rows 0 t y /\ at_place rows 1 t q) /\
  (~ covered tolerance (map fst rows) t -> interp_at (table rows) t = Exc).
Proof.
  intros L I Ne. destruct (concat_table rows 2 L) as [T E].
  destruct (interpolation_full (table rows) t) as [A B]; [exact I|cbn; destruct rows; [congruence|discriminate]|exact T|].
  split; [|exact B]. intro C. destruct (A C) as [row [Er [Lr Pr]]]. cbn [iinner table] in Lr, Pr.
  destruct row as [|y [|q [|z row]]]; try discriminate Lr. exists y, q. split; [exact Er|].
  split; [destruct (Pr 0%nat ltac:(lia)) as [P _]|destruct (Pr 1%nat ltac:(lia)) as [P _]]; cbn [nth ipoints ivalues] in P; unfold at_place;
    (eapply piecewise_ext; [|exact P]); intros i Hi; rewrite map_length in Hi; apply E; lia.
Qed.
Lemma conversion_pair k y q : conversion k [y; q] = Ok [first_state k y; q].
Proof. destruct k; reflexivity. Qed.

Lemma choose_list {A} n (P : nat -> A -> Prop) : (forall j, (j < n)%nat -> exists a, P j a) ->
  exists l, List.length l = n /\ forall j a, nth_error l j = Some a -> P j a.
Proof.
  induction n as [|n IH]; intro H; [exists []; split; [reflexivity|intros [|j] a E; discriminate]|].
  destruct (IH (fun j J => H j ltac:(lia))) as [l [L Q]]. destruct (H n ltac:(lia)) as [a Ha]. exists (l ++ [a]). split; [rewrite app_length; cbn; lia|].
  intros j b E. destruct (Nat.lt_ge_cases j n) as [J|J].
  - rewrite nth_error_app1 in E by lia. apply Q, E.
  - rewrite nth_error_app2 in E by lia. rewrite L in E. destruct (j - n)%nat as [|m] eqn:D; [|destruct m; discriminate].
    injection E as <-. replace j with n by lia. exact Ha.
Qed.

Lemma component_ok k rows : rows_ok k rows -> increasing (map fst rows) ->
  (forall t, In t (places k) -> covered tolerance (map fst rows) t) ->
  exists vals, states_for k rows vals /\ List.length vals = needed_number_of_states k /\
    forall uninit c v x, sc_kind c = k -> (sc_start c + needed_number_of_states k <= List.length v)%nat ->
      component_initial uninit c v (document "x" x rows) = Ok (splice v (sc_start c) vals).
Proof.
  intros Ok1 I C. assert (Ne : rows <> []).
  { destruct Ok1 as [_ [_ H]]. intros ->. destruct k; apply (H 0%R); left; reflexivity. }
  destruct (points_and_step k) as [n dx] eqn:Ek.
  pose proof (places_points k) as Pl. pose proof (needed_points k) as Nd. rewrite Ek in Pl, Nd. cbn [fst snd] in Pl, Nd.
  assert (Ch : forall j, (j < n)%nat -> exists c, List.length c = 2%nat /\ obind (interp_at (table rows) (INR j * dx)) (conversion k) = Ok c /\
     exists y q, c = [first_state k y; q] /\ at_place rows 0 (INR j * dx) y /\ at_place rows 1 (INR j * dx) q).
  { intros j J. destruct (row_at rows (INR j * dx)%R (proj1 Ok1) I Ne) as [A _].
    destruct A as [y [q [E [Y Q]]]].
    - apply C. rewrite Pl. apply in_map_iff. exists j. split; [reflexivity|]. apply in_seq. lia.
    - exists [first_state k y; q]. split; [reflexivity|]. rewrite E. cbn [obind]. rewrite conversion_pair. split; [reflexivity|].
      exists y, q. auto. }
  destruct (choose_list _ _ Ch) as [cs [Lc Hc]].
  assert (L2 : forall c, In c cs -> List.length c = 2%nat). { intros c Ic. apply In_nth_error in Ic. destruct Ic as [j E]. apply (Hc j c E). }
  exists (List.concat cs). split; [|split].
  - split; [rewrite pairs_length, Lc, Pl, map_length, seq_length by exact L2; reflexivity|].
    intros i t E. rewrite Pl in E. pose proof E as E'.
    assert (Hi : (i < n)%nat). { assert (Q : nth_error (map (fun i => INR i * dx)%R (seq 0 n)) i <> None) by congruence. apply nth_error_Some in Q. rewrite map_length, seq_length in Q. exact Q. }
    assert (Et : t = (INR i * dx)%R).
    { rewrite (map_nth_error (fun i => INR i * dx)%R i (seq 0 n) (d := i)) in E'; [congruence|].
      rewrite (nth_error_nth' (seq 0 n) 0%nat) by (rewrite seq_length; lia). rewrite seq_nth by lia. reflexivity. }
    subst t. destruct (nth_error cs i) as [c|] eqn:En; [|apply nth_error_None in En; lia].
    destruct (Hc i c En) as [_ [_ [y [q [-> [Y Q]]]]]]. exists y, q. split; [exact Y|]. split; [exact Q|].
    apply (pairs_nth cs L2 i _ En).
  - rewrite pairs_length, Lc, Nd by exact L2. reflexivity.
  - intros uninit c v x Ec Lv. rewrite component_document by (rewrite Ec; exact Ok1). rewrite Ec, Ek. cbn [fst snd]. rewrite <- Lc.
    apply loop_ok; [reflexivity|exact L2| |lia]. intros j d E. apply (Hc j d E).
Qed.
Lemma component_uncovered k rows : rows_ok k rows -> increasing (map fst rows) ->
  (exists t, In t (places k) /\ ~ covered tolerance (map fst rows) t) ->
  forall uninit c v x, sc_kind c = k -> (sc_start c + needed_number_of_states k <= List.length v)%nat ->
      component_initial uninit c v (document "x" x rows) = Exc.
Proof.
  intros Ok1 I [t [It C]] uninit c v x Ec Lv. assert (Ne : rows <> []).
  { destruct Ok1 as [_ [_ H]]. intros ->. destruct k; apply (H 0%R); left; reflexivity. }
  destruct (points_and_step k) as [n dx] eqn:Ek.
  pose proof (places_points k) as Pl. pose proof (needed_points k) as Nd. rewrite Ek in Pl, Nd. cbn [fst snd] in Pl, Nd.
  rewrite component_document by (rewrite Ec; exact Ok1). rewrite Ec, Ek. cbn [fst snd]. apply loop_exc; [reflexivity| | |lia].
  - intros j J. destruct (row_at rows (INR (0 + j) * dx)%R (proj1 Ok1) I Ne) as [A B].
    destruct (Classical_Prop.classic (covered tolerance (map fst rows) (INR (0 + j) * dx)%R)) as [D|D].
    + right. destruct (A D) as [y [q [E _]]]. rewrite E. cbn [obind]. rewrite conversion_pair. eexists. split; [|reflexivity]. reflexivity.
    + left. rewrite (B D). reflexivity.
  - rewrite Pl in It. apply in_map_iff in It. destruct It as [j [Et J]]. apply in_seq in J. exists j. split; [lia|].
    destruct (row_at rows (INR (0 + j) * dx)%R (proj1 Ok1) I Ne) as [_ B]. rewrite B; [reflexivity|]. cbn [Nat.add]. rewrite Et. exact C.
Qed.
