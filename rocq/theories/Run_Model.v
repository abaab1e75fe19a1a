(** * Model of the program: the command run, its messages, files and exit code

    src/Grazer/grazer.cpp, src/Grazer/commands.cpp (grazer::run), src/IpoptWrapper/Adaptor.cpp and
    IpoptWrapper::finalize_solution.  The parts that are modelled elsewhere (reading and building
    the problem, simulating, the bounds, the texts of the result files) are given by their
    results: [Exc] if they throw.  Ipopt is not part of /repo; it is given by what it does. *)
From Coq Require Import List Arith Reals ZArith Bool String.
From Verif Require Import Base Json_Model Files_Model Optim_Model.
Import ListNotations.
Local Open Scope string_scope.
Local Open Scope list_scope.
Open Scope R_scope.

(** What is printed to std::cout, as far as it is modelled. *)
Inductive line : Type :=
| Failed_to_find_optimum (status : Z)
| Could_not_find_optimum
| Cost (x : option R)
| Penalty (x : option R)
| Overall_objective (x : option R)
| Lower_violation (x : R)
| Upper_violation (x : R)
| Can_be_found.

(** Ipopt::SUCCESS and Ipopt::Solve_Succeeded are the first enumerators, 0. *)
Definition SUCCESS : Z := 0.

(** Behaviour of Ipopt: the status of Initialize, the callbacks of OptimizeTNLP, the arguments of the
    call of finalize_solution, if there is one (status, x and obj_value), and the status returned by
    OptimizeTNLP. *)
Record ipopt (B : backend) : Type := mk_ipopt {
  initialize : Z;
  callbacks : list (callback B);
  finalize : option (Z * Ctl B * R);
  return_status : Z
}.
Arguments mk_ipopt {B}. Arguments initialize {B}. Arguments callbacks {B}. Arguments finalize {B}. Arguments return_status {B}.

(** Members of IpoptWrapper, Wrapper.hpp:88-92; [None] is the initial value: an empty vector and
    the largest double.  (best_constraints is never used.) *)
Record wrapper (B : backend) : Type := mk_wrapper {
  best_solution : option (Ctl B);
  best_objective_value : option R;
  best_cost_value : option R;
  best_penalty_value : option R
}.
Arguments mk_wrapper {B}. Arguments best_solution {B}. Arguments best_objective_value {B}.
Arguments best_cost_value {B}. Arguments best_penalty_value {B}.

Section Program.
Context {B : backend}.

(** IpoptAdaptor::optimize, Adaptor.cpp:30-47, with finalize_solution, Wrapper.cpp:155-178 (its lines
    170-178 are [Optim_Model.finalize_solution]).  The text printed for an unsuccessful status contains
    static_cast<int>(Ipopt::SUCCESS), line 164. *)
Definition optimize (I : ipopt B) (o : opt B) : opt B * wrapper B * list line * Z :=
  if negb (initialize I =? SUCCESS)%Z
  then (o, mk_wrapper None None None None, [Could_not_find_optimum], initialize I)
  else
    let o1 := after o (callbacks I) in
    match finalize I with
    | None => (o1, mk_wrapper None None None None, [], return_status I)
    | Some (status, x, obj_value) =>
        let '(o2, (cost, penalty)) := finalize_solution o1 x in
        (o2, mk_wrapper (Some x) (Some obj_value) (Some cost) (Some penalty),
         (if negb (status =? SUCCESS)%Z then [Failed_to_find_optimum SUCCESS] else []), return_status I)
    end.

(** commands.cpp:246-270: the values that are printed, the controls and the states.  With an empty
    solution evaluate_constraints returns false and evaluate_objective violates its assertion (a
    problem without controls is not modelled).  The density of the Jacobian, lines 228-245, is not
    modelled. *)
Definition report (o : opt B) (w : wrapper B) (lower upper : list R) : outcome (list line * Ctl B * St B) :=
  match best_solution w with
  | None => UB
  | Some sol =>
      let '(_, (violations, st)) := final_reports o sol lower upper in
      omap (fun '(lv, uv) =>
        ([Cost (best_cost_value w); Penalty (best_penalty_value w); Overall_objective (best_objective_value w);
          Lower_violation lv; Upper_violation uv], sol, st)) violations
  end.

(** std::ofstream o(file); o << text: neither opening nor writing throws.  [None] is a text that dump
    cannot produce (it throws). *)
Definition save (env : environment) (d : directory) (n : string) (text : option string) : outcome directory :=
  match text with
  | None => Exc
  | Some t =>
      match open_trunc env d n with
      | None => Ok d
      | Some d1 => Ok (last (write_steps d1 n t (visible env)) d1)
      end
  end.

(** A run of the program: the content of problem_data.json (all_json), the results of the parts, the
    behaviour of the operating system when a file is written, and of Ipopt. *)
Record job : Type := mk_job {
  all_json : json;
  setup : outcome unit;
  simulated : outcome (St B);
  prepared : list string -> outcome directory;
  states_text : St B -> option string;
  controls_text : Ctl B -> option string;
  writing : string -> environment;
  bounds : outcome (list R * list R);
  constructed : outcome (opt B);
  solver : ipopt B
}.

(** The variable optimize, commands.cpp:110-115. *)
Definition wants_optimization (j : json) : bool :=
  if contains j "optimize" then match at_const j "optimize" with Ok (JBool b) => b | _ => false end else false.

(** grazer::run, commands.cpp:44-361.  [setup] are lines 52-108 (the output directory is reserved, the
    files are read, the problem and the controls are built), [prepared] is
    io::prepare_output_directory (lines 134-135 and 283-285), [simulated] is line 122, [bounds] are lines
    153-213 and [constructed] lines 215-223.  The results are collected and written in lines 124-149
    and 275-321, the catch clauses throw again.  The result is the content of the output directory and what was
    printed, if the function returns (EXIT_SUCCESS). *)
Definition run (j : job) : outcome (directory * list line) :=
  obind (setup j) (fun _ =>
  if negb (wants_optimization (all_json j)) then
    obind (simulated j) (fun st =>
    obind (prepared j ["states.json"]) (fun d =>
    obind (save (writing j "states.json") d "states.json" (states_text j st)) (fun d1 =>
    Ok (d1, [Can_be_found]))))
  else
    obind (bounds j) (fun '(lower, upper) =>
    obind (constructed j) (fun o =>
    let '(o1, w, printed, _) := optimize (solver j) o in
    obind (report o1 w lower upper) (fun '(reported, sol, st) =>
    obind (prepared j ["states.json"; "controls.json"]) (fun d =>
    obind (save (writing j "controls.json") d "controls.json" (controls_text j sol)) (fun d1 =>
    obind (save (writing j "states.json") d1 "states.json" (states_text j st)) (fun d2 =>
    Ok (d2, printed ++ reported ++ [Can_be_found])))))))).

(** main, grazer.cpp:31-94: what CLI11 finds in the arguments.  Help and version are exceptions with
    exit code 0, errors have another exit code; otherwise the callback of the subcommand runs, its
    return value is dropped.  Undefined behaviour has no exit code. *)
Inductive request : Type := Help_or_version | Misuse (code : Z) | Run (j : job).
Definition main (r : request) : option Z :=
  match r with
  | Help_or_version => Some 0%Z
  | Misuse code => Some code
  | Run j => match run j with Ok _ => Some 0%Z | Exc => Some 1%Z | UB => None end
  end.
End Program.
Arguments job : clear implicits. Arguments request : clear implicits.
