(** * Specification of callback histories, final reports and cache lookups *)
From Coq Require Import List Arith Reals Bool.
From Verif Require Import Base Interp_Model Optim_Model.
Import ListNotations.
Open Scope R_scope.

(** [st] is a result of simulating the controls [c]. *)
Definition simulation_of (B : backend) (c : Ctl B) (st : St B) : Prop :=
  exists e e', simulate B e c = (e', Some st).
(** [d] are derivatives computed at the controls [c] and the states [st]. *)
Definition derivatives_at (B : backend) (c : Ctl B) (st : St B) (d : Der B) : Prop :=
  exists e e', derive B e c st = (e', (true, d)).

(** The point a callback is about and whether the caller announces a change of the point. *)
Definition asks (B : backend) (cb : callback B) : option (Ctl B * bool) :=
  match cb with
  | EvalF c n | EvalGradF c n | EvalG c n | EvalJacG c n => Some (c, n)
  | JacStructure _ => None
  end.

(** Every change of the evaluation point is announced; [cur] is the point asked before. *)
Fixpoint announced (B : backend) (cur : option (Ctl B)) (h : list (callback B)) : Prop :=
  match h with
  | [] => True
  | cb :: h' =>
      match asks B cb with
      | None => announced B cur h'
      | Some (c, new) => (new = true \/ cur = None \/ cur = Some c) /\ announced B (Some c) h'
      end
  end.

(** The right answer to a callback when [st] are the states of the point. *)
Definition right_answer (B : backend) (cb : callback B) (st : St B) (r : reply) : Prop :=
  match cb, r with
  | EvalF c _, Number x => simulation_of B c st /\ x = b_cost B c st + b_penalty B c st
  | EvalG c _, Vector v => simulation_of B c st /\ v = b_constr B c st
  | EvalGradF c _, Vector v => simulation_of B c st /\ exists d, derivatives_at B c st d /\ v = gradient_of B d
  | EvalJacG c _, Vector v => simulation_of B c st /\ exists d, derivatives_at B c st d /\ v = jacobian_of B d
  | JacStructure _, Indices => True
  | _, _ => False
  end.

(** A legitimate reason for a callback to fail: the simulation failed, or, if derivatives are asked
    for, their computation. *)
Definition may_fail (B : backend) (cb : callback B) : Prop :=
  match cb with
  | EvalF c _ | EvalG c _ => exists e e', simulate B e c = (e', None)
  | EvalGradF c _ | EvalJacG c _ =>
      (exists e e', simulate B e c = (e', None)) \/
      (exists st e e' d, simulation_of B c st /\ derive B e c st = (e', (false, d)))
  | JacStructure _ => False
  end.

(** The simulator is a function of the controls. *)
Definition deterministic (B : backend) (F : Ctl B -> option (St B)) : Prop :=
  forall e c, snd (simulate B e c) = F c.

(** The point of the last evaluation in a history. *)
Fixpoint last_point (B : backend) (cur : option (Ctl B)) (h : list (callback B)) : option (Ctl B) :=
  match h with
  | [] => cur
  | cb :: h' => last_point B (match asks B cb with Some (c, _) => Some c | None => cur end) h'
  end.

(** [v] is the largest amount by which [a] exceeds [b] in some component, zero if it nowhere
    does. *)
Definition largest_excess (a b : list R) (v : R) : Prop :=
  0 <= v /\
  (forall i x y, nth_error a i = Some x -> nth_error b i = Some y -> x - y <= v) /\
  (v = 0 \/ exists i x y, nth_error a i = Some x /\ nth_error b i = Some y /\ v = x - y).

(** The request of a cache operation. *)
Definition op_request (op : cache_op) : option request :=
  match op with Refresh r | Lookup r => Some r | Cached => None end.

(** The replies expected from a cache over a deterministic simulator. *)
Definition right_cache_reply (sim : request -> option ivec) (op : cache_op) (r : cache_reply) : Prop :=
  match op with
  | Refresh q => r = Refreshed (match sim q with Some _ => true | None => false end)
  | Lookup q => r = States (sim q)
  | Cached => True
  end.

(** A request as issued by an optimizer with [n] state time points and [m] state components:
    at least one control time point, and a control table of the right size. *)
Definition proper_request (n m : nat) (r : request) : Prop :=
  length (rq_times r) = n /\ length (rq_initial r) = m /\ ipoints (rq_controls r) <> [] /\
  length (ivalues (rq_controls r)) = (length (ipoints (rq_controls r)) * iinner (rq_controls r))%nat.
