(** [solve_tool] from the arguments of the user to the reported error: the starting point
    of ModelGuess, the solver of ModelRun and the bookkeeping of ModelSolve put together.
    What ModelSolve takes as the behaviour of a call (starting arrays, arrays returned by
    the solver) is computed here.

    Simplifications: those of the three files.  A starting point with a non-finite entry is
    treated as an exception.  [np.linalg.solve], [scipy.linalg.eigh] and [np.random.rand]
    are arguments. *)
From Coq Require Import Reals List Arith Bool String.
From Verif Require Import Base ModelDCM ModelCReMa ModelNetwork ModelLinsearch ModelSolver ModelDispatch ModelGuess ModelRun ModelSolve.
Import ListNotations.
Local Open Scope R_scope.

(** External functions: [np.linalg.solve], whether and what [scipy.linalg.eigh] returns, a
    bound on the feasibility loops of the line searches, and the draws of the starting
    points of the solve and of the solve of the adjacency. *)
Record environment : Type := {
  v_linsolve : (nat -> nat -> R) -> (nat -> R) -> option (nat -> R);
  v_eigh_ok : (nat -> nat -> R) -> bool;
  v_eigh : (nat -> nat -> R) -> (nat -> R) * (nat -> nat -> R);
  v_fuel : nat;
  v_rnd : nat -> R; v_rnd_adjacency : nat -> R
}.
(** The keyword arguments of [solve_tool] (graph_classes.py:932-946, 2395-2409). *)
Record settings : Type := {
  t_model : string; t_method : string; t_guess : guess;
  t_adjacency : adjacency_arg; t_method_adjacency : string; t_guess_adjacency : guess;
  t_max_steps : nat; t_full : bool; t_verbose : bool; t_linsearch : bool; t_tol : R; t_eps : R
}.
(** The options of a call of [sof.solver]: [regularise] is left at True and
    [regularise_eps] at 1e-3 (graph_classes.py:321-336, 882-897, 1473-1489, 2360-2376). *)
Definition t_options (t : settings) (method : string) (linsearch : bool) : options R :=
  {| o_tol := t_tol t; o_eps := t_eps t; o_max_steps := t_max_steps t; o_method := method_of_string method;
     o_verbose := t_verbose t; o_regularise := true; o_regularise_eps := / 1000;
     o_full_return := t_full t; o_linsearch := linsearch |}.

(** The attributes [n_steps], [norm_seq], [diff_seq], [alfa_seq] set with [full_return]. *)
Record report : Type := { r_steps : nat; r_norms : list R; r_diffs : list R; r_alfas : list R }.
Definition solved_of (r : result (nat -> R) R) : option outcome_vec :=
  match r with
  | Sol x | Full x _ _ _ _ => Some {| o_x := x; o_inf := fun _ => false |}
  | Raised | Fuel => None
  end.
Definition report_of (r : result (nat -> R) R) : option report :=
  match r with
  | Full _ k ns ds als => Some {| r_steps := k; r_norms := ns; r_diffs := ds; r_alfas := als |}
  | _ => None
  end.
Definition start_of (m : nat) (g : guessed) : option (nat -> R) :=
  match g with inl s => all_fin m (g_x0 s) | inr _ => None end.
(** One call of [sof.solver] with what [_initialize_problem] has chosen. *)
Definition solve_with (e : environment) (opt : options R) (m : nat) (d : dispatched + refusal) (a : option arguments)
    (x0 : option (nat -> R)) : result (nat -> R) R :=
  match d, a, x0 with
  | inl D, Some a, Some x0 =>
      solver (run_numerics (v_linsolve e) (v_eigh_ok e) m) (run_problem (v_eigh e) (v_fuel e) m D a) opt x0
  | _, _, _ => Raised
  end.

(** * UndirectedGraph *)
(** The length of [self.x0], and [self.x0] itself (graph_classes.py:383-509). *)
Definition u_length (g : unet) (model : string) : nat :=
  if among model ["cm"; "cm_exp"]%string then let '(r, _, _, _) := degree_reduction_und (un_dseq g) in List.length r
  else if among model ["ecm"; "ecm_exp"]%string then (2 * un_n g)%nat
  else un_n g.
Definition u_start (g : unet) (model : string) (rnd : nat -> R) (s : guess) : option (nat -> R) :=
  start_of (u_length g model)
    (if among model ["cm"; "cm_exp"]%string then set_initial_guess_cm (String.eqb model "cm_exp") (un_dseq g) rnd s
     else if among model ["ecm"; "ecm_exp"]%string then
       set_initial_guess_ecm (String.eqb model "ecm_exp") (un_n g) (at_list (un_dseq g)) (un_str g) rnd s
     else set_initial_guess_crema_undirected (un_n g) (un_str g) rnd s).
(** graph_classes.py:301-338 and 868-899: the solver of one problem; [adj] is the
    attribute [adjacency_crema]. *)
Definition u_args (g : unet) (model : string) (adj : option adjacency_crema) : option arguments :=
  us_args (fst (u_set_args g model (us_set_adj adj None false (u_fresh false)))).
Definition u_solver (e : environment) (g : unet) (t : settings) (model method : string) (rnd : nat -> R) (s : guess)
    (adj : option adjacency_crema) : result (nat -> R) R :=
  solve_with e (t_options t method (t_linsearch t)) (u_length g model) (u_dispatch model method None) (u_args g model adj)
    (u_start g model rnd s).
(** The solve of the adjacency (graph_classes.py:815-826). *)
Definition u_result_adjacency (e : environment) (g : unet) (t : settings) : result (nat -> R) R :=
  match t_adjacency t with
  | AdjName a => u_solver e g t a (t_method_adjacency t) (v_rnd_adjacency e) (t_guess_adjacency t) None
  | _ => Raised
  end.
Definition u_start_adjacency (e : environment) (g : unet) (t : settings) : option (nat -> R) :=
  match t_adjacency t with
  | AdjName a => u_start g a (v_rnd_adjacency e) (t_guess_adjacency t)
  | _ => None
  end.
Definition u_call_adjacency (e : environment) (g : unet) (t : settings) (out : option outcome_vec) : call :=
  {| c_model := t_model t; c_method := t_method t; c_full := t_full t;
     c_adjacency := t_adjacency t; c_method_adjacency := t_method_adjacency t;
     c_guess := u_start g (t_model t) (v_rnd e) (t_guess t); c_out := out;
     c_guess_adjacency := u_start_adjacency e g t; c_out_adjacency := solved_of (u_result_adjacency e g t) |}.
(** The last solve of a call (graph_classes.py:988-1029). *)
Definition u_result (e : environment) (g : unet) (t : settings) (o : ustate) : result (nat -> R) R :=
  if among (t_model t) ["crema"; "crema-sparse"]%string then
    let o := fst (u_set_adjacency g (u_call_adjacency e g t None) o) in
    u_solver e g t (if us_sparse o then "crema-sparse"%string else t_model t) (t_method t) (v_rnd e) (t_guess t) (us_adj o)
  else u_solver e g t (t_model t) (t_method t) (v_rnd e) (t_guess t) None.
(** graph_classes.py:932-1031: the object afterwards (the printed value is [us_err]), and
    the attributes of [full_return] ([*_crema] for CReMa). *)
Definition u_call (e : environment) (g : unet) (t : settings) (o : ustate) : call :=
  u_call_adjacency e g t (solved_of (u_result e g t o)).
Definition u_tool (e : environment) (g : unet) (t : settings) (o : ustate) : ran ustate :=
  u_solve_tool g (u_call e g t o) o.
Definition u_report (e : environment) (g : unet) (t : settings) (o : ustate) : option report :=
  report_of (u_result e g t o).
(** After a CReMa call, [n_steps], [norm_seq], ... are those of the solve of the adjacency. *)
Definition u_report_adjacency (e : environment) (g : unet) (t : settings) : option report :=
  report_of (u_result_adjacency e g t).

(** * DirectedGraph *)
(** graph_classes.py:1606-1889. *)
Definition d_length (g : dnet) (model : string) : nat :=
  if among model ["dcm"; "dcm_exp"]%string then (2 * rnz_n_out (degree_reduction_dir (dn_out g) (dn_in g)))%nat
  else if among model ["decm"; "decm_exp"]%string then (4 * dn_n g)%nat
  else (2 * dn_n g)%nat.
Definition d_start (g : dnet) (model : string) (rnd : nat -> R) (s : guess) : option (nat -> R) :=
  let n := dn_n g in
  start_of (d_length g model)
    (if String.eqb model "dcm" then set_initial_guess_dcm (dn_out g) (dn_in g) rnd s
     else if String.eqb model "dcm_exp" then set_initial_guess_dcm_exp (dn_out g) (dn_in g) rnd s
     else if String.eqb model "decm" then
       set_initial_guess_decm n (at_list (dn_out g)) (at_list (dn_in g)) (dn_sout g) (dn_sin g) rnd s
     else if String.eqb model "decm_exp" then
       set_initial_guess_decm_exp n (at_list (dn_out g)) (at_list (dn_in g)) (dn_sout g) (dn_sin g) rnd s
     else set_initial_guess_crema_directed n (dn_sout g) (dn_sin g) rnd s).
(** graph_classes.py:1451-1491, 2347-2378. *)
Definition d_args (g : dnet) (model : string) (adj : option adjacency_crema) : option arguments :=
  ds_args (fst (d_set_args g model (ds_set_adj adj None false (d_fresh false)))).
Definition d_solver (e : environment) (g : dnet) (t : settings) (model method : string) (linsearch : bool) (rnd : nat -> R) (s : guess)
    (adj : option adjacency_crema) : result (nat -> R) R :=
  solve_with e (t_options t method linsearch) (d_length g model) (d_dispatch model method None) (d_args g model adj)
    (d_start g model rnd s).
(** The solve of the adjacency (graph_classes.py:2300-2309): [linsearch] is not passed on. *)
Definition d_result_adjacency (e : environment) (g : dnet) (t : settings) : result (nat -> R) R :=
  match t_adjacency t with
  | AdjName a => d_solver e g t a (t_method_adjacency t) true (v_rnd_adjacency e) (t_guess_adjacency t) None
  | _ => Raised
  end.
Definition d_start_adjacency (e : environment) (g : dnet) (t : settings) : option (nat -> R) :=
  match t_adjacency t with
  | AdjName a => d_start g a (v_rnd_adjacency e) (t_guess_adjacency t)
  | _ => None
  end.
Definition d_call_adjacency (e : environment) (g : dnet) (t : settings) (out : option outcome_vec) : call :=
  {| c_model := t_model t; c_method := t_method t; c_full := t_full t;
     c_adjacency := t_adjacency t; c_method_adjacency := t_method_adjacency t;
     c_guess := d_start g (t_model t) (v_rnd e) (t_guess t); c_out := out;
     c_guess_adjacency := d_start_adjacency e g t; c_out_adjacency := solved_of (d_result_adjacency e g t) |}.
Definition d_result (e : environment) (g : dnet) (t : settings) (o : dstate) : result (nat -> R) R :=
  if among (t_model t) ["crema"; "crema-sparse"]%string then
    let o := fst (d_set_adjacency g (d_call_adjacency e g t None) o) in
    d_solver e g t (if ds_sparse o then "crema-sparse"%string else t_model t) (t_method t) (t_linsearch t) (v_rnd e) (t_guess t) (ds_adj o)
  else d_solver e g t (t_model t) (t_method t) (t_linsearch t) (v_rnd e) (t_guess t) None.
(** graph_classes.py:2395-2494. *)
Definition d_call (e : environment) (g : dnet) (t : settings) (o : dstate) : call :=
  d_call_adjacency e g t (solved_of (d_result e g t o)).
Definition d_tool (e : environment) (g : dnet) (t : settings) (o : dstate) : ran dstate :=
  d_solve_tool g (d_call e g t o) o.
Definition d_report (e : environment) (g : dnet) (t : settings) (o : dstate) : option report :=
  report_of (d_result e g t o).
Definition d_report_adjacency (e : environment) (g : dnet) (t : settings) : option report :=
  report_of (d_result_adjacency e g t).
