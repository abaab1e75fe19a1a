(** * Model of the optimizer's callbacks, its up-to-date flags and of the state cache
      src/IpoptWrapper/Wrapper.cpp, src/IpoptWrapper/ImplicitOptimizer.cpp,
      src/Optimization_helpers/ControlStateCache.cpp, src/Grazer/commands.cpp *)
From Coq Require Import List Arith Reals Bool.
From Verif Require Import Base Interp_Model.
Import ListNotations.
Open Scope R_scope.

(** ** ImplicitOptimizer *)

(** What the flag logic of ImplicitOptimizer is built upon.  [simulate] is the call of
    [evolver->simulate] in refresh_cache (None: it threw an exception), [derive] is
    compute_derivatives (the returned flag and the content of the members objective_gradient and
    constraint_jacobian afterwards).  Both may depend on and change anything in the rest of the
    program ([Env]: the problem's internal state, random numbers, ...).  [cost], [penalty] and
    [constr] are the functions of controls and states computed by the loops of evaluate_cost,
    evaluate_penalty and evaluate_constraints (modelled in Adjoint_Model).  Vectors passed by the
    caller have the sizes announced in get_nlp_info, so the size checks (lines 302-307 and the
    asserts) succeed; exceptions thrown by the derivative computation are not modelled. *)
Record backend : Type := mk_backend {
  Ctl : Type;
  St : Type;
  Der : Type;
  Env : Type;
  simulate : Env -> Ctl -> Env * option St;
  derive : Env -> Ctl -> St -> Env * (bool * Der);
  b_cost : Ctl -> St -> R;
  b_penalty : Ctl -> St -> R;
  b_constr : Ctl -> St -> list R;
  gradient_of : Der -> list R;
  jacobian_of : Der -> list R
}.

(** Members of ImplicitOptimizer that matter here (ImplicitOptimizer.hpp:157-172): the two
    flags, the cached states and the stored derivatives. *)
Record opt (B : backend) : Type := mk_opt {
  states_up_to_date : bool;
  derivatives_up_to_date : bool;
  cached_states : St B;
  stored : Der B;
  env : Env B
}.
Arguments mk_opt {B}. Arguments states_up_to_date {B}. Arguments derivatives_up_to_date {B}.
Arguments cached_states {B}. Arguments stored {B}. Arguments env {B}.

Section Optimizer.
Context {B : backend}.

(** new_x, ImplicitOptimizer.cpp:196-199. *)
Definition new_x (o : opt B) : opt B := mk_opt false false (cached_states o) (stored o) (env o).

(** The block "if (not states_up_to_date) refresh_cache ..." that occurs in all evaluation
    functions (lines 228-245, 267-284, 314-329, 366-381, 407-422) together with refresh_cache,
    ControlStateCache.cpp:33-50: a failed simulation leaves the cached states alone. *)
Definition refresh (o : opt B) (c : Ctl B) : opt B * bool :=
  if states_up_to_date o then (o, true)
  else
    let '(e, r) := simulate B (env o) c in
    match r with
    | None => (mk_opt false (derivatives_up_to_date o) (cached_states o) (stored o) e, false)
    | Some st => (mk_opt true (derivatives_up_to_date o) st (stored o) e, true)
    end.

(** evaluate_cost, lines 220-257. *)
Definition evaluate_cost (o : opt B) (c : Ctl B) : opt B * option R :=
  let '(o1, ok) := refresh o c in
  if ok then (o1, Some (b_cost B c (cached_states o1))) else (o1, None).

(** evaluate_penalty, lines 259-296. *)
Definition evaluate_penalty (o : opt B) (c : Ctl B) : opt B * option R :=
  let '(o1, ok) := refresh o c in
  if ok then (o1, Some (b_penalty B c (cached_states o1))) else (o1, None).

(** evaluate_objective, lines 207-219. *)
Definition evaluate_objective (o : opt B) (c : Ctl B) : opt B * option R :=
  let '(o1, r1) := evaluate_cost o c in
  match r1 with
  | None => (o1, None)
  | Some cost =>
      let '(o2, r2) := evaluate_penalty o1 c in
      match r2 with
      | None => (o2, None)
      | Some penalty => (o2, Some (cost + penalty))
      end
  end.

(** evaluate_constraints, lines 298-345. *)
Definition evaluate_constraints (o : opt B) (c : Ctl B) : opt B * option (list R) :=
  let '(o1, ok) := refresh o c in
  if ok then (o1, Some (b_constr B c (cached_states o1))) else (o1, None).

(** compute_derivatives seen from outside (lines 487-656): the flag is set only on success. *)
Definition compute_derivatives (o : opt B) (c : Ctl B) : opt B * bool :=
  let '(e, (ok, d)) := derive B (env o) c (cached_states o) in
  (mk_opt (states_up_to_date o) (if ok then true else derivatives_up_to_date o) (cached_states o) d e, ok).

(** The common part of evaluate_objective_gradient (lines 347-389) and
    evaluate_constraint_jacobian (lines 390-429). *)
Definition provide_derivatives (o : opt B) (c : Ctl B) : opt B * option (Der B) :=
  if derivatives_up_to_date o then (o, Some (stored o))
  else
    let '(o1, ok) := refresh o c in
    if ok then
      let '(o2, ok2) := compute_derivatives o1 c in
      if ok2 then (o2, Some (stored o2)) else (o2, None)
    else (o1, None).

Definition evaluate_objective_gradient (o : opt B) (c : Ctl B) : opt B * option (list R) :=
  let '(o1, r) := provide_derivatives o c in (o1, option_map (gradient_of B) r).
Definition evaluate_constraint_jacobian (o : opt B) (c : Ctl B) : opt B * option (list R) :=
  let '(o1, r) := provide_derivatives o c in (o1, option_map (jacobian_of B) r).

(** ** Callbacks of IpoptWrapper, Wrapper.cpp:100-154.  The boolean is the argument [new_x].
    [JacStructure] is eval_jac_g with [values == nullptr]. *)
Inductive callback : Type :=
| EvalF (c : Ctl B) (new : bool)
| EvalGradF (c : Ctl B) (new : bool)
| EvalG (c : Ctl B) (new : bool)
| EvalJacG (c : Ctl B) (new : bool)
| JacStructure (new : bool).

Inductive reply : Type :=
| Number (x : R)
| Vector (v : list R)
| Indices.

Definition announce (new : bool) (o : opt B) : opt B := if new then new_x o else o.

Definition handle (o : opt B) (cb : callback) : opt B * option reply :=
  match cb with
  | EvalF c new => let '(o', r) := evaluate_objective (announce new o) c in (o', option_map Number r)
  | EvalGradF c new => let '(o', r) := evaluate_objective_gradient (announce new o) c in (o', option_map Vector r)
  | EvalG c new => let '(o', r) := evaluate_constraints (announce new o) c in (o', option_map Vector r)
  | EvalJacG c new => let '(o', r) := evaluate_constraint_jacobian (announce new o) c in (o', option_map Vector r)
  | JacStructure new => (o, Some Indices)
  end.

(** A history of callbacks: the replies and the optimizer after each callback. *)
Fixpoint run (o : opt B) (h : list callback) : list (opt B * option reply) :=
  match h with
  | [] => []
  | cb :: h' => let '(o', r) := handle o cb in (o', r) :: run o' h'
  end.

Definition after (o : opt B) (h : list callback) : opt B :=
  last (map fst (run o h)) o.

(** The state after construction (ImplicitOptimizer.hpp:158-160): flags false, arbitrary content. *)
Definition fresh (st : St B) (d : Der B) (e : Env B) : opt B := mk_opt false false st d e.

(** ** Reports after the optimization *)

(** Wrapper.cpp:170-178 (finalize_solution): cost and penalty of the solution; a failed
    evaluation leaves the value zero. *)
Definition finalize_solution (o : opt B) (sol : Ctl B) : opt B * (R * R) :=
  let '(o1, c) := evaluate_cost o sol in
  let '(o2, p) := evaluate_penalty o1 sol in
  (o2, (match c with Some x => x | None => 0 end, match p with Some x => x | None => 0 end)).

(** [maxCoeff] of an Eigen vector; of an empty one it is undefined. *)
Definition maxCoeff (l : list R) : outcome R :=
  match l with [] => UB | x :: l' => Ok (fold_left Rmax l' x) end.

Definition vminus (a b : list R) : list R := map (fun '(x, y) => x - y) (combine a b).

(** commands.cpp:253-270: the two violations and the states saved afterwards.  A failed
    evaluate_constraints leaves the vector of constraints uninitialised. *)
Definition final_reports (o : opt B) (sol : Ctl B) (lower upper : list R)
  : opt B * (outcome (R * R) * St B) :=
  let '(o1, g) := evaluate_constraints o sol in
  let violations :=
    match g with
    | None => UB
    | Some g =>
        obind (maxCoeff (vminus lower g)) (fun lv =>
        obind (maxCoeff (vminus g upper)) (fun uv => Ok (Rmax 0 lv, Rmax 0 uv)))
    end in
  let '(o2, _) := evaluate_objective (new_x o1) sol in
  (o2, (violations, cached_states o2)).

End Optimizer.
Arguments callback : clear implicits.

(** ** ControlStateCache *)

(** The arguments of a lookup: controls, state time points, initial state. *)
Record request : Type := mk_request { rq_controls : ivec; rq_times : list R; rq_initial : list R }.

(** Equality of Eigen vectors; comparing vectors of different sizes violates a precondition. *)
Definition vec_eq (a b : list R) : outcome bool :=
  if (length a =? length b)%nat then Ok (forallb (fun '(x, y) => Reqb x y) (combine a b)) else UB.

(** operator== of InterpolatingVector, InterpolatingVector.cpp:348-377. *)
Definition ivec_eq (a b : ivec) : outcome bool :=
  if negb (iinner a =? iinner b)%nat then Ok false
  else if negb (length (ipoints a) =? length (ipoints b))%nat then Ok false
  else obind (vec_eq (ipoints a) (ipoints b)) (fun same =>
       if same then vec_eq (ivalues a) (ivalues b) else Ok false).

Definition oand (a : outcome bool) (b : outcome bool) : outcome bool :=
  obind a (fun x => if x then b else Ok false).

(** Members of ControlStateCache (ControlStateCache.hpp:65-66). *)
Record scache : Type := mk_scache { sc_key : request; sc_states : ivec; sc_failed : request }.

(** Default constructed members: empty vectors. *)
Definition empty_request : request := mk_request (mk_ivec [] 0 []) [] [].
Definition empty_scache : scache := mk_scache empty_request (mk_ivec [] 0 []) empty_request.

(** refresh_cache, ControlStateCache.cpp:33-50, for a deterministic simulator. *)
Definition refresh_cache (sim : request -> option ivec) (s : scache) (r : request) : scache * bool :=
  match sim r with
  | None => (mk_scache (sc_key s) (sc_states s) r, false)
  | Some st => (mk_scache r st (sc_failed s), true)
  end.

(** check_and_supply_states, ControlStateCache.cpp:56-85. *)
Definition check_and_supply_states (sim : request -> option ivec) (s : scache) (r : request)
  : outcome (scache * option ivec) :=
  obind (oand (ivec_eq (rq_controls (sc_failed s)) (rq_controls r))
        (oand (vec_eq (rq_times (sc_failed s)) (rq_times r))
              (vec_eq (rq_initial (sc_failed s)) (rq_initial r)))) (fun is_failed =>
  if is_failed then Ok (s, None)
  else
    obind (oand (ivec_eq (rq_controls r) (rq_controls (sc_key s)))
          (oand (vec_eq (rq_initial r) (rq_initial (sc_key s)))
                (vec_eq (rq_times r) (rq_times (sc_key s))))) (fun is_cached =>
    if is_cached then Ok (s, Some (sc_states s))
    else match sim r with
         | None => Ok (mk_scache (sc_key s) (sc_states s) r, None)
         | Some st => Ok (mk_scache r st (sc_failed s), Some st)
         end)).

(** Histories of cache operations; [Cached] is get_cached_states (lines 52-54). *)
Inductive cache_op : Type := Refresh (r : request) | Lookup (r : request) | Cached.
Inductive cache_reply : Type := Refreshed (ok : bool) | States (st : option ivec).

Definition cache_step (sim : request -> option ivec) (s : scache) (op : cache_op)
  : outcome (scache * cache_reply) :=
  match op with
  | Refresh r => let '(s', ok) := refresh_cache sim s r in Ok (s', Refreshed ok)
  | Lookup r => omap (fun '(s', st) => (s', States st)) (check_and_supply_states sim s r)
  | Cached => Ok (s, States (Some (sc_states s)))
  end.

Fixpoint cache_run (sim : request -> option ivec) (s : scache) (ops : list cache_op)
  : outcome (list cache_reply) :=
  match ops with
  | [] => Ok []
  | op :: ops' =>
      obind (cache_step sim s op) (fun '(s', r) =>
      omap (cons r) (cache_run sim s' ops'))
  end.
