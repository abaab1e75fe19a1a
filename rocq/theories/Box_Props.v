(** * Properties of the box scheme: C27 *)
From Coq Require Import Reals Lra Lia List.
From Coquelicot Require Import Coquelicot.
From Verif Require Import Base Interp_Model Calc Euler_Model Euler_Spec Euler_Proofs Euler_Proofs2
  Box_Model Box_Spec Box_Proofs.
Local Open Scope R_scope.

Theorem C27_jacobian_new_left :
  forall n bl t0 t1 dx ll lr nl nr,
    law_differentiable_at n bl nl -> (exists s, bl_source bl nr = Ok s) ->
    exists J, devaluate_point_d_new_left bl t0 t1 dx ll lr nl nr = Ok J /\
      is_jacobian n n (fun x => evaluate_point bl t0 t1 dx ll lr x nr) nl J.
Proof. exact new_left_jacobian. Qed.
Print Assumptions C27_jacobian_new_left.

Theorem C27_jacobian_new_right :
  forall n bl t0 t1 dx ll lr nl nr,
    law_differentiable_at n bl nr -> (exists s, bl_source bl nl = Ok s) ->
    exists J, devaluate_point_d_new_right bl t0 t1 dx ll lr nl nr = Ok J /\
      is_jacobian n n (fun x => evaluate_point bl t0 t1 dx ll lr nl x) nr J.
Proof. exact new_right_jacobian. Qed.
Print Assumptions C27_jacobian_new_right.

Theorem C27_jacobian_last :
  forall n bl t0 t1 dx ll lr nl nr,
    (exists s, bl_source bl nl = Ok s) -> (exists s, bl_source bl nr = Ok s) ->
    (exists J, devaluate_point_d_last_left bl t0 t1 dx ll lr nl nr = Ok J /\
      is_jacobian n n (fun x => evaluate_point bl t0 t1 dx x lr nl nr) ll J) /\
    (exists J, devaluate_point_d_last_right bl t0 t1 dx ll lr nl nr = Ok J /\
      is_jacobian n n (fun x => evaluate_point bl t0 t1 dx ll x nl nr) lr J).
Proof. intros n bl t0 t1 dx ll lr nl nr [s Es] [s' Es']. eapply last_jacobian; eauto. Qed.
Print Assumptions C27_jacobian_last.

(** Balance over all cells: the content changes by what flows through the ends plus the
    production inside; without source only the ends count. *)
Theorem C27_balance :
  forall bl t0 t1 dx (last new src res : nat -> vec) i N,
    dx <> 0 ->
    (forall j, (j <= N)%nat -> bl_source bl (new j) = Ok (src j)) ->
    (forall j, (j < N)%nat ->
       evaluate_point bl t0 t1 dx (last j) (last (S j)) (new j) (new (S j)) = Ok (res j) /\ res j i = 0) ->
    content N dx new i - content N dx last i
    = (t1 - t0) * (bl_flux bl (new 0%nat) i - bl_flux bl (new N) i)
      + (t1 - t0) * content N dx src i.
Proof. exact mass_law. Qed.
Print Assumptions C27_balance.

(** For gas the first component has no source: the mass in the pipe changes exactly by the
    mass that flows in and out during the time step. *)
Theorem C27_mass_conservation :
  forall d k t0 t1 dx (last new res : nat -> vec) N,
    geometry d k -> dx <> 0 ->
    (forall j, (j < N)%nat ->
       evaluate_point (isothermal_euler d k) t0 t1 dx (last j) (last (S j)) (new j) (new (S j))
       = Ok (res j) /\ res j 0%nat = 0) ->
    content N dx new 0 - content N dx last 0
    = (t1 - t0) * (rho_0 / circle_area (/ 2 * d) * new 0%nat 1%nat
                   - rho_0 / circle_area (/ 2 * d) * new N 1%nat).
Proof.
  intros d k t0 t1 dx last new res N Hg Hx HR.
  rewrite (mass_law (isothermal_euler d k) t0 t1 dx last new
    (fun j => v2 0 (fconst d * friction d k (new j 1%nat) / new j 0%nat)) res 0 N Hx); [|intros; apply source_ok; auto|exact HR].
  cbn [isothermal_euler bl_flux flux v2].
  replace (content N dx (fun j => v2 0 (fconst d * friction d k (new j 1%nat) / new j 0%nat)) 0) with 0.
  - ring.
  - unfold content. rewrite (vsum_ext _ _ (fun _ => 0)); [symmetry; apply vsum_zero|].
    intros; cbn [v2]. field.
Qed.
Print Assumptions C27_mass_conservation.

Theorem C27_steady_state :
  forall bl t0 t1 dx l r i,
    (forall s, bl_source bl l = Ok s -> s i = 0) -> (forall s, bl_source bl r = Ok s -> s i = 0) ->
    bl_flux bl l i = bl_flux bl r i ->
    forall v, evaluate_point bl t0 t1 dx l r l r = Ok v -> v i = 0.
Proof. exact steady. Qed.
Print Assumptions C27_steady_state.

(** Transport with speed 2 and a linear source is a law with right Jacobians. *)
Definition transport : balancelaw :=
  mkLaw (fun x i => 2 * x i) (fun x => Ok (fun i => 3 * x i)) (fun _ i j => 2 * id_mat i j)
        (fun _ => Ok (fun i j => 3 * id_mat i j)).
Example C27_transport : forall n u, law_differentiable_at n transport u.
Proof.
  intros n u. split.
  - intros i Hi. apply gradient_scal, gradient_proj, Hi.
  - eexists. split; [reflexivity|]. eexists. split; [|exists 1; split; [lra|reflexivity]].
    intros i Hi. apply gradient_scal, gradient_proj, Hi.
Qed.
(** So are the gas equations in laminar and transitional flow, whatever the sign of the flow. *)
Example C27_euler : forall d k u,
  geometry d k -> 0 < u 0%nat -> Reynolds (u 1%nat) d < 4000 ->
  law_differentiable_at 2 (isothermal_euler d k) u.
Proof. exact euler_differentiable. Qed.
(** A cell with nonzero change: transport of 1 -> content changes by the flux difference. *)
Example C27_balance_case :
  evaluate_point (mkLaw (fun x i => 2 * x i) (fun x => Ok (fun i => 0)) (fun _ i j => 2 * id_mat i j)
     (fun _ => Ok (fun i j => 0))) 0 1 2 (v2 1 0) (v2 1 0) (v2 3 0) (v2 (5 / 3) 0)
  = Ok (fun i => 1 / 2 * (v2 3 0 i + v2 (5 / 3) 0 i) - 1 / 2 * (v2 1 0 i + v2 1 0 i)
     - (1 - 0) / 2 * (2 * v2 3 0 i - 2 * v2 (5 / 3) 0 i) - 1 / 2 * (1 - 0) * (0 + 0)) /\
  1 / 2 * (3 + 5 / 3) - 1 / 2 * (1 + 1) - (1 - 0) / 2 * (2 * 3 - 2 * (5 / 3)) - 1 / 2 * (1 - 0) * (0 + 0) = 0.
Proof. split; [reflexivity|field]. Qed.
