From Coq Require Import Reals Lra Lia List.
From Coquelicot Require Import Coquelicot.
From Verif Require Import Base Interp_Model Calc Euler_Model Euler_Spec Euler_Proofs Euler_Proofs2 Box_Model Box_Spec.
Local Open Scope R_scope.

(** ** Gradients *)
Lemma gradient_value n f u g g' :
  gradient n f u g -> (forall k, (k < n)%nat -> g k = g' k) -> gradient n f u g'.
Proof.
  intros H E x s dx Hx. eapply is_derive_value; [apply (H x s dx Hx)|].
  apply vsum_ext. intros; rewrite E; auto.
Qed.
Lemma gradient_ext n f f' u g :
  (forall x, f' x = f x) -> gradient n f u g -> gradient n f' u g.
Proof.
  intros E H x s dx Hx. eapply is_derive_ext; [|apply (H x s dx Hx)].
  intro t; cbn. symmetry; apply E.
Qed.
Lemma gradient_const n c u : gradient n (fun _ => c) u (fun _ => 0).
Proof.
  intros x s dx Hx. eapply is_derive_value; [apply (is_derive_const (c : R))|].
  rewrite (vsum_ext _ _ (fun _ => 0)) by (intros; ring). rewrite vsum_zero. reflexivity.
Qed.
Lemma gradient_proj n i u : (i < n)%nat -> gradient n (fun x => x i) u (fun j => if Nat.eqb i j then 1 else 0).
Proof.
  intros Hi x s dx [_ H]. eapply is_derive_value; [apply H|].
  rewrite (vsum_ext _ _ (fun k => (if Nat.eqb k i then 1 else 0) * dx k)).
  - symmetry; apply vsum_delta; auto.
  - intros k Hk. destruct (Nat.eqb_spec i k), (Nat.eqb_spec k i); auto; lia.
Qed.
Lemma gradient_plus n f g u a b :
  gradient n f u a -> gradient n g u b -> gradient n (fun x => f x + g x) u (fun j => a j + b j).
Proof.
  intros Ha Hb x s dx Hx. eapply is_derive_value.
  - apply (is_derive_plus (fun r => f (x r)) (fun r => g (x r))); [apply (Ha x s dx Hx)|apply (Hb x s dx Hx)].
  - rewrite (vsum_ext n (fun j => (a j + b j) * dx j) (fun j => a j * dx j + b j * dx j)) by (intros; ring).
    rewrite vsum_plus. reflexivity.
Qed.
Lemma gradient_scal n c f u a :
  gradient n f u a -> gradient n (fun x => c * f x) u (fun j => c * a j).
Proof.
  intros Ha x s dx Hx. eapply is_derive_value.
  - apply (is_derive_scal (fun r => f (x r))). apply (Ha x s dx Hx).
  - rewrite (vsum_ext n (fun j => c * a j * dx j) (fun j => c * (a j * dx j))) by (intros; ring).
    rewrite vsum_scal. reflexivity.
Qed.
Lemma gradient_minus n f g u a b :
  gradient n f u a -> gradient n g u b -> gradient n (fun x => f x - g x) u (fun j => a j - b j).
Proof.
  intros Ha Hb.
  apply (gradient_ext n (fun x => f x + (-1) * g x)); [intro; ring|].
  eapply gradient_value; [apply gradient_plus; [apply Ha|apply gradient_scal; apply Hb]|].
  intros; cbn; ring.
Qed.
(** Functions that agree near [u] have the same gradient. *)
Lemma gradient_near n f f' u g d :
  0 < d -> (forall x, (forall k, (k < n)%nat -> Rabs (x k - u k) < d) -> f' x = f x) ->
  gradient n f u g -> gradient n f' u g.
Proof.
  intros Hd E H x s dx Hx. eapply is_derive_ext_loc; [|apply (H x s dx Hx)].
  destruct Hx as [Hx Hdx].
  assert (L : forall m, (m <= n)%nat -> locally s (fun r => forall k, (k < m)%nat -> Rabs (x r k - u k) < d)).
  { induction m as [|m IH]; intro Hm.
    - apply filter_forall. intros; lia.
    - assert (Hc : continuous (fun r => x r m) s) by (eapply is_derive_continuous; apply Hdx).
      specialize (Hc (fun y => Rabs (y - u m) < d)).
      assert (B : locally (x s m) (fun y => Rabs (y - u m) < d)).
      { exists (mkposreal d Hd). intros y Hy. rewrite (Hx m) in Hy. exact Hy. }
      specialize (Hc B). unfold filtermap in Hc.
      specialize (IH ltac:(lia)).
      refine (filter_imp _ _ _ (filter_and (F := locally s) _ _ IH Hc)).
      intros r [A B'] k Hk. destruct (Nat.eq_dec k m) as [->|N]; [exact B'|apply A; lia]. }
  refine (filter_imp (F := locally s) _ _ _ (L n (le_n n))). intros r Hr. symmetry. apply E, Hr.
Qed.

(** ** The scheme *)
Lemma new_left_jacobian n bl t0 t1 dx ll lr nl nr :
  law_differentiable_at n bl nl -> (exists s, bl_source bl nr = Ok s) ->
  exists J, devaluate_point_d_new_left bl t0 t1 dx ll lr nl nr = Ok J /\
    is_jacobian n n (fun x => evaluate_point bl t0 t1 dx ll lr x nr) nl J.
Proof.
  intros [HF [J [EJ [g [HS [d [Hd HE]]]]]]] [s Es].
  unfold devaluate_point_d_new_left. rewrite EJ. cbn [obind].
  eexists. split; [reflexivity|].
  eexists. split; [|exists d; split; [exact Hd|]].
  2: { intros x Hx. unfold evaluate_point. rewrite Es. cbn [obind]. rewrite (HE x Hx). cbn [obind].
       reflexivity. }
  intros i Hi. cbn beta.
  apply (gradient_ext n (fun x => ((1 / 2 * x i + (1 / 2 * nr i - 1 / 2 * (ll i + lr i)
      + (t1 - t0) / dx * bl_flux bl nr i - 1 / 2 * (t1 - t0) * s i))
      - (t1 - t0) / dx * bl_flux bl x i) - 1 / 2 * (t1 - t0) * g x i)).
  { intro x. ring. }
  eapply gradient_value.
  - apply gradient_minus; [apply gradient_minus|].
    + apply gradient_plus; [apply gradient_scal, gradient_proj, Hi|apply gradient_const].
    + apply gradient_scal. apply HF, Hi.
    + apply gradient_scal. apply HS, Hi.
  - intros k Hk. cbn beta. unfold id_mat. ring.
Qed.

Lemma new_right_jacobian n bl t0 t1 dx ll lr nl nr :
  law_differentiable_at n bl nr -> (exists s, bl_source bl nl = Ok s) ->
  exists J, devaluate_point_d_new_right bl t0 t1 dx ll lr nl nr = Ok J /\
    is_jacobian n n (fun x => evaluate_point bl t0 t1 dx ll lr nl x) nr J.
Proof.
  intros [HF [J [EJ [g [HS [d [Hd HE]]]]]]] [s Es].
  unfold devaluate_point_d_new_right. rewrite EJ. cbn [obind].
  eexists. split; [reflexivity|].
  eexists. split; [|exists d; split; [exact Hd|]].
  2: { intros x Hx. unfold evaluate_point. rewrite Es. rewrite (HE x Hx). cbn [obind].
       reflexivity. }
  intros i Hi. cbn beta.
  apply (gradient_ext n (fun x => ((1 / 2 * x i + (1 / 2 * nl i - 1 / 2 * (ll i + lr i)
      - (t1 - t0) / dx * bl_flux bl nl i - 1 / 2 * (t1 - t0) * s i))
      + (t1 - t0) / dx * bl_flux bl x i) - 1 / 2 * (t1 - t0) * g x i)).
  { intro x. ring. }
  eapply gradient_value.
  - apply gradient_minus; [apply gradient_plus|].
    + apply gradient_plus; [apply gradient_scal, gradient_proj, Hi|apply gradient_const].
    + apply gradient_scal. apply HF, Hi.
    + apply gradient_scal. apply HS, Hi.
  - intros k Hk. cbn beta. unfold id_mat. ring.
Qed.

Lemma last_jacobian n bl t0 t1 dx ll lr nl nr s s' :
  bl_source bl nl = Ok s -> bl_source bl nr = Ok s' ->
  (exists J, devaluate_point_d_last_left bl t0 t1 dx ll lr nl nr = Ok J /\
    is_jacobian n n (fun x => evaluate_point bl t0 t1 dx x lr nl nr) ll J) /\
  (exists J, devaluate_point_d_last_right bl t0 t1 dx ll lr nl nr = Ok J /\
    is_jacobian n n (fun x => evaluate_point bl t0 t1 dx ll x nl nr) lr J).
Proof.
  intros Es Es'. unfold evaluate_point. rewrite Es, Es'. cbn [obind].
  split; (eexists; split; [reflexivity|]; eexists; split; [|exists 1; split; [lra|intros; reflexivity]]).
  - intros i Hi. cbn beta.
    apply (gradient_ext n (fun x => - (1 / 2) * x i + (1 / 2 * (nl i + nr i) - 1 / 2 * lr i
      - (t1 - t0) / dx * (bl_flux bl nl i - bl_flux bl nr i) - 1 / 2 * (t1 - t0) * (s' i + s i)))).
    { intro x. ring. }
    eapply gradient_value.
    + apply gradient_plus; [apply gradient_scal, gradient_proj, Hi|apply gradient_const].
    + intros k Hk. unfold id_mat. ring.
  - intros i Hi. cbn beta.
    apply (gradient_ext n (fun x => - (1 / 2) * x i + (1 / 2 * (nl i + nr i) - 1 / 2 * ll i
      - (t1 - t0) / dx * (bl_flux bl nl i - bl_flux bl nr i) - 1 / 2 * (t1 - t0) * (s' i + s i)))).
    { intro x. ring. }
    eapply gradient_value.
    + apply gradient_plus; [apply gradient_scal, gradient_proj, Hi|apply gradient_const].
    + intros k Hk. unfold id_mat. ring.
Qed.

(** ** Conservation *)
Lemma telescope N (f : nat -> R) : vsum N (fun j => f j - f (S j)) = f 0%nat - f N.
Proof. induction N as [|N IH]; cbn [vsum]; [ring|]. rewrite IH. ring. Qed.

Lemma cell_balance bl t0 t1 dx ll lr nl nr i r sl sr :
  dx <> 0 ->
  bl_source bl nl = Ok sl -> bl_source bl nr = Ok sr ->
  evaluate_point bl t0 t1 dx ll lr nl nr = Ok r ->
  (r i = 0 <->
   dx * ((nl i + nr i) / 2) - dx * ((ll i + lr i) / 2)
   = (t1 - t0) * (bl_flux bl nl i - bl_flux bl nr i) + (t1 - t0) * dx * ((sl i + sr i) / 2)).
Proof.
  intros Hx El Er. unfold evaluate_point. rewrite El, Er. cbn [obind]. intro E.
  assert (Er' : r i = 1 / 2 * (nl i + nr i) - 1 / 2 * (ll i + lr i)
     - (t1 - t0) / dx * (bl_flux bl nl i - bl_flux bl nr i) - 1 / 2 * (t1 - t0) * (sr i + sl i)).
  { assert (r = fun i => 1 / 2 * (nl i + nr i) - 1 / 2 * (ll i + lr i)
     - (t1 - t0) / dx * (bl_flux bl nl i - bl_flux bl nr i) - 1 / 2 * (t1 - t0) * (sr i + sl i)) by congruence.
    subst r. reflexivity. }
  rewrite Er'. clear E Er'.
  set (A := nl i + nr i). set (B := ll i + lr i). set (F := bl_flux bl nl i - bl_flux bl nr i).
  set (S := sr i + sl i). set (T := t1 - t0).
  replace (sl i + sr i) with S by (unfold S; ring).
  assert (Q : dx * (1 / 2 * A - 1 / 2 * B - T / dx * F - 1 / 2 * T * S)
    = dx * (A / 2) - dx * (B / 2) - T * F - T * dx * (S / 2)) by (field; auto).
  split; intro H.
  - rewrite H, Rmult_0_r in Q. lra.
  - apply (Rmult_eq_reg_l dx); [|auto]. rewrite Q, Rmult_0_r. lra.
Qed.

Lemma mass_law bl t0 t1 dx (last new : nat -> vec) (src : nat -> vec) (res : nat -> vec) i N :
  dx <> 0 ->
  (forall j, (j <= N)%nat -> bl_source bl (new j) = Ok (src j)) ->
  (forall j, (j < N)%nat ->
     evaluate_point bl t0 t1 dx (last j) (last (S j)) (new j) (new (S j)) = Ok (res j) /\ res j i = 0) ->
  content N dx new i - content N dx last i
  = (t1 - t0) * (bl_flux bl (new 0%nat) i - bl_flux bl (new N) i)
    + (t1 - t0) * content N dx src i.
Proof.
  intros Hx HS HR. unfold content.
  rewrite <- (telescope N (fun j => bl_flux bl (new j) i)).
  rewrite <- !vsum_scal.
  assert (E : forall f g, vsum N f - vsum N g = vsum N (fun j => f j - g j)).
  { intros f g. induction N as [|N' IH]; cbn [vsum]; [ring|].
    rewrite <- IH; [ring| |]; intros; [apply HS|apply HR]; lia. }
  rewrite E, <- vsum_plus. apply vsum_ext. intros j Hj. cbn beta.
  destruct (HR j Hj) as [H1 H2].
  apply (cell_balance _ _ _ _ _ _ _ _ i _ (src j) (src (S j)) Hx) in H1; [|apply HS; lia|apply HS; lia].
  rewrite (proj1 H1 H2). ring.
Qed.

Lemma steady bl t0 t1 dx l r i :
  (forall s, bl_source bl l = Ok s -> s i = 0) -> (forall s, bl_source bl r = Ok s -> s i = 0) ->
  bl_flux bl l i = bl_flux bl r i ->
  forall v, evaluate_point bl t0 t1 dx l r l r = Ok v -> v i = 0.
Proof.
  intros Hl Hr HF v. unfold evaluate_point.
  destruct (bl_source bl r) as [sr| |] eqn:Er; cbn [obind]; try discriminate.
  destruct (bl_source bl l) as [sl| |] eqn:El; cbn [obind]; try discriminate.
  intro E. assert (Ev : v = fun i => 1 / 2 * (l i + r i) - 1 / 2 * (l i + r i)
     - (t1 - t0) / dx * (bl_flux bl l i - bl_flux bl r i) - 1 / 2 * (t1 - t0) * (sr i + sl i)) by congruence.
  rewrite Ev. cbn beta. rewrite HF, (Hl sl eq_refl), (Hr sr eq_refl). ring.
Qed.

(** The gas equations have no source of mass. *)
Lemma euler_differentiable d k u :
  geometry d k -> 0 < u 0%nat -> Reynolds (u 1%nat) d < 4000 ->
  law_differentiable_at 2 (isothermal_euler d k) u.
Proof.
  intros Hg Hu HR. split.
  - cbn. apply flux_jacobian; [eapply geo_d; eauto|lra|apply nonneg_density_ok; lra].
  - rewrite Reynolds_val in HR. cbn [bl_dsource_dstate bl_source isothermal_euler].
    eexists. split; [apply dsource_ok; auto|].
    eexists. split; [apply source_gradient; [lra|apply friction_derive; auto]|].
    exists 1. split; [lra|]. intros x _. apply source_ok; auto.
Qed.
