(** Calls of [solve_tool] and [model_loglikelihood] on one graph object: transcription
    of graph_classes.py:301-364, 512-587, 789-1031, 1131-1134 (UndirectedGraph) and
    1451-1574, 1891-2013, 2273-2494, 2599-2602 (DirectedGraph).

    The state is the part of the object that the error report and the likelihood read.
    A call carries what the starting-point method and [sof.solver] do in it: the arrays
    they produce, or [None] when they raise.  Quantifying over calls therefore covers every
    starting point and every solver.  Simplifications: arrays are finite real vectors,
    except that [dcm_exp] and [decm_exp] solutions may have entries [+inf] (marked by
    [o_inf]); degrees are integers; the graph is initialised with degrees and strengths;
    the attributes read by neither method ([comput_time], [n_steps], ...) are left out
    (relative errors and expected sequences: ModelReport).  The compiled expectations of the
    degree and enhanced models (models_functions.py:262-278, 840-868, 1936-1979, 2668-2727)
    raise ZeroDivisionError when a divisor is exactly zero; here they return the value of
    Coq's total division, so a call that completes here may raise there.  The divisors are
    never zero when the parameters are non-negative (binary models) or the pair rates are
    below one (enhanced models). *)
From Coq Require Import Reals List Arith Bool String.
From Verif Require Import Base ModelCM ModelECM ModelDCM ModelDECM ModelCReMa ModelNetwork ModelDispatch.
Import ListNotations.
Local Open Scope R_scope.

Inductive raised : Type := EAttribute | EValue | EKey | EType | EGuess | ESolver | EArith.
(** A statement sequence: the state it leaves and the exception, if any. *)
Definition ran (S : Type) : Type := (S * option raised)%type.
Definition andthen {S : Type} (r : ran S) (k : S -> ran S) : ran S :=
  match snd r with Some _ => r | None => k (fst r) end.
Definition ok {S : Type} (s : S) : ran S := (s, None).
Definition raising {S : Type} (s : S) (e : raised) : ran S := (s, Some e).

(** The [adjacency] argument: a model name, a matrix in any of the accepted formats,
    anything else. *)
Inductive adjacency_arg : Type := AdjName (s : string) | AdjMatrix (a : nat -> nat -> R) | AdjOther.
Record outcome_vec : Type := { o_x : nat -> R; o_inf : nat -> bool }.
(** One call of [solve_tool] with the behaviour of its starting points and solvers. *)
Record call : Type := {
  c_model : string; c_method : string; c_full : bool;
  c_adjacency : adjacency_arg; c_method_adjacency : string;
  c_guess : option (nat -> R); c_out : option outcome_vec;
  c_guess_adjacency : option (nat -> R); c_out_adjacency : option outcome_vec
}.

Definition among (m : string) (l : list string) : bool := existsb (String.eqb m) l.
(** [np.linalg.norm(ex - ob, ord=np.inf)] and [max(abs(ob - ex))] on arrays of length
    [m] > 0. *)
Definition inf_norm (m : nat) (ex ob : nat -> R) : R :=
  fold_right Rmax 0 (map (fun i => Rabs (ex i - ob i)) (seq 0 m)).
(** [np.concatenate] of blocks of length [n]. *)
Definition join2 (n : nat) (a b : nat -> R) : nat -> R :=
  fun r => if Nat.ltb r n then a r else b (r - n)%nat.
Definition join4 (n : nat) (a b c d : nat -> R) : nat -> R :=
  join2 (2 * n) (join2 n a b) (join2 n c d).
Definition drop (k : nat) (v : nat -> R) : nat -> R := fun i => v (i + k)%nat.
Definition at_list (l : list nat) (i : nat) : R := INR (nth i l O).

(** * UndirectedGraph *)
Record unet : Type := { un_dseq : list nat; un_str : nat -> R }.
Definition un_n (g : unet) : nat := List.length (un_dseq g).
(** Attributes [x], [y], [beta] (None initially), [adjacency_crema] and [adjacency_given]
    (not created by [__init__]), [is_sparse], [last_model], [args], [step_fun], whether
    [fun_pmatrix] exists, [solution_array], [error_degree], [error_strength], [error]. *)
Record ustate : Type := mk_ustate {
  us_x : option (nat -> R); us_y : option (nat -> R); us_beta : option (nat -> R); us_adj : option adjacency_crema; us_given : option bool; us_sparse : bool; us_last : option string; us_args : option arguments; us_step : option entry; us_pm : bool; us_sol : option (nat -> R); us_ek : option R; us_es : option R; us_err : option R
}.

Definition us_set_last (v_last : option string) (o : ustate) : ustate :=
  {| us_x := us_x o; us_y := us_y o; us_beta := us_beta o; us_adj := us_adj o; us_given := us_given o; us_sparse := us_sparse o; us_last := v_last; us_args := us_args o; us_step := us_step o; us_pm := us_pm o; us_sol := us_sol o; us_ek := us_ek o; us_es := us_es o; us_err := us_err o |}.
Definition us_set_sparse (v_sparse : bool) (o : ustate) : ustate :=
  {| us_x := us_x o; us_y := us_y o; us_beta := us_beta o; us_adj := us_adj o; us_given := us_given o; us_sparse := v_sparse; us_last := us_last o; us_args := us_args o; us_step := us_step o; us_pm := us_pm o; us_sol := us_sol o; us_ek := us_ek o; us_es := us_es o; us_err := us_err o |}.
Definition us_set_args (v_args : option arguments) (o : ustate) : ustate :=
  {| us_x := us_x o; us_y := us_y o; us_beta := us_beta o; us_adj := us_adj o; us_given := us_given o; us_sparse := us_sparse o; us_last := us_last o; us_args := v_args; us_step := us_step o; us_pm := us_pm o; us_sol := us_sol o; us_ek := us_ek o; us_es := us_es o; us_err := us_err o |}.
Definition us_set_step (v_step : option entry) (o : ustate) : ustate :=
  {| us_x := us_x o; us_y := us_y o; us_beta := us_beta o; us_adj := us_adj o; us_given := us_given o; us_sparse := us_sparse o; us_last := us_last o; us_args := us_args o; us_step := v_step; us_pm := us_pm o; us_sol := us_sol o; us_ek := us_ek o; us_es := us_es o; us_err := us_err o |}.
Definition us_set_pm (v_pm : bool) (o : ustate) : ustate :=
  {| us_x := us_x o; us_y := us_y o; us_beta := us_beta o; us_adj := us_adj o; us_given := us_given o; us_sparse := us_sparse o; us_last := us_last o; us_args := us_args o; us_step := us_step o; us_pm := v_pm; us_sol := us_sol o; us_ek := us_ek o; us_es := us_es o; us_err := us_err o |}.
Definition us_set_xy (v_x : option (nat -> R)) (v_y : option (nat -> R)) (o : ustate) : ustate :=
  {| us_x := v_x; us_y := v_y; us_beta := us_beta o; us_adj := us_adj o; us_given := us_given o; us_sparse := us_sparse o; us_last := us_last o; us_args := us_args o; us_step := us_step o; us_pm := us_pm o; us_sol := us_sol o; us_ek := us_ek o; us_es := us_es o; us_err := us_err o |}.
Definition us_set_x (v_x : option (nat -> R)) (o : ustate) : ustate :=
  {| us_x := v_x; us_y := us_y o; us_beta := us_beta o; us_adj := us_adj o; us_given := us_given o; us_sparse := us_sparse o; us_last := us_last o; us_args := us_args o; us_step := us_step o; us_pm := us_pm o; us_sol := us_sol o; us_ek := us_ek o; us_es := us_es o; us_err := us_err o |}.
Definition us_set_beta (v_beta : option (nat -> R)) (o : ustate) : ustate :=
  {| us_x := us_x o; us_y := us_y o; us_beta := v_beta; us_adj := us_adj o; us_given := us_given o; us_sparse := us_sparse o; us_last := us_last o; us_args := us_args o; us_step := us_step o; us_pm := us_pm o; us_sol := us_sol o; us_ek := us_ek o; us_es := us_es o; us_err := us_err o |}.
Definition us_set_sol (v_sol : option (nat -> R)) (o : ustate) : ustate :=
  {| us_x := us_x o; us_y := us_y o; us_beta := us_beta o; us_adj := us_adj o; us_given := us_given o; us_sparse := us_sparse o; us_last := us_last o; us_args := us_args o; us_step := us_step o; us_pm := us_pm o; us_sol := v_sol; us_ek := us_ek o; us_es := us_es o; us_err := us_err o |}.
Definition us_set_adj (v_adj : option adjacency_crema) (v_given : option bool) (v_sparse : bool) (o : ustate) : ustate :=
  {| us_x := us_x o; us_y := us_y o; us_beta := us_beta o; us_adj := v_adj; us_given := v_given; us_sparse := v_sparse; us_last := us_last o; us_args := us_args o; us_step := us_step o; us_pm := us_pm o; us_sol := us_sol o; us_ek := us_ek o; us_es := us_es o; us_err := us_err o |}.
Definition us_set_ek (v_ek : option R) (v_err : option R) (o : ustate) : ustate :=
  {| us_x := us_x o; us_y := us_y o; us_beta := us_beta o; us_adj := us_adj o; us_given := us_given o; us_sparse := us_sparse o; us_last := us_last o; us_args := us_args o; us_step := us_step o; us_pm := us_pm o; us_sol := us_sol o; us_ek := v_ek; us_es := us_es o; us_err := v_err |}.
Definition us_set_es (v_es : option R) (o : ustate) : ustate :=
  {| us_x := us_x o; us_y := us_y o; us_beta := us_beta o; us_adj := us_adj o; us_given := us_given o; us_sparse := us_sparse o; us_last := us_last o; us_args := us_args o; us_step := us_step o; us_pm := us_pm o; us_sol := us_sol o; us_ek := us_ek o; us_es := v_es; us_err := us_err o |}.
Definition us_set_err (v_err : option R) (o : ustate) : ustate :=
  {| us_x := us_x o; us_y := us_y o; us_beta := us_beta o; us_adj := us_adj o; us_given := us_given o; us_sparse := us_sparse o; us_last := us_last o; us_args := us_args o; us_step := us_step o; us_pm := us_pm o; us_sol := us_sol o; us_ek := us_ek o; us_es := us_es o; us_err := v_err |}.
Definition us_set_errs (v_ek : option R) (v_es : option R) (v_err : option R) (o : ustate) : ustate :=
  {| us_x := us_x o; us_y := us_y o; us_beta := us_beta o; us_adj := us_adj o; us_given := us_given o; us_sparse := us_sparse o; us_last := us_last o; us_args := us_args o; us_step := us_step o; us_pm := us_pm o; us_sol := us_sol o; us_ek := v_ek; us_es := v_es; us_err := v_err |}.

(** graph_classes.py:32-95, the attributes above. *)
Definition u_fresh (sparse : bool) : ustate :=
  mk_ustate None None None None None sparse None None None false None None None None.

(** graph_classes.py:577-587. *)
Definition u_set_args (g : unet) (model : string) (o : ustate) : ran ustate :=
  if among model ["crema"; "crema-sparse"]%string then
    match us_adj o with
    | Some adj => ok (us_set_args (Some (A3 (un_n g) (un_str g) adj)) o)
    | None => raising o EAttribute
    end
  else if among model ["cm"; "cm_exp"]%string then
    let '(r, _, _, mult) := degree_reduction_und (un_dseq g) in
    ok (us_set_args (Some (A2 (List.length r) (at_list r) (at_list mult))) o)
  else if among model ["ecm"; "ecm_exp"]%string then
    ok (us_set_args (Some (A2 (un_n g) (at_list (un_dseq g)) (un_str g))) o)
  else ok o.
(** graph_classes.py:383-509: the attributes written by the starting point.  [None]: it
    raises, before or after writing; the writes are then not modelled. *)
Definition u_set_guess (g : unet) (model : string) (v : option (nat -> R)) (o : ustate) : ran ustate :=
  match v with
  | None => raising o EGuess
  | Some v =>
      if among model ["ecm"; "ecm_exp"]%string then ok (us_set_xy (Some v) (Some (drop (un_n g) v)) o)
      else if among model ["crema"; "crema-sparse"]%string then ok (us_set_beta (Some v) o)
      else ok o
  end.
(** graph_classes.py:590-787.  The model and the method are joined by "-" and looked up
    in the dictionaries of ModelDispatch; a key missing from a later dictionary is found
    only after [step_fun] and [fun_pmatrix] have been assigned. *)
Definition u_initialize (g : unet) (model method : string) (guess : option (nat -> R)) (o : ustate) : ran ustate :=
  andthen (u_set_guess g model guess o) (fun o =>
  andthen (u_set_args g model o) (fun o =>
  let pm o := if among model ["cm"; "cm_exp"]%string then us_set_pm true o else o in
  match u_dispatch model method None with
  | inl d => ok (pm (us_set_step (Some (d_step d)) o))
  | inr RefValueError => raising o EValue
  | inr RefKeyError => raising (pm (us_set_step (lookup (model ++ "-" ++ method) u_fun_step) o)) EKey
  end)).
(** graph_classes.py:340-364, 901-930.  With [full_return] the array is the first
    component of what the solver returns. *)
Definition u_set_solved (g : unet) (v : outcome_vec) (o : ustate) : ustate :=
  let n := un_n g in
  let t := o_x v in
  let '(_, _, inv, _) := degree_reduction_und (un_dseq g) in
  let cls i := nth i inv O in
  match us_last o with
  | Some m =>
      if String.eqb m "cm" then us_set_x (Some (fun i => t (cls i))) (us_set_sol (Some t) o)
      else if String.eqb m "cm_exp" then us_set_x (Some (fun i => exp (- t (cls i)))) (us_set_sol (Some t) o)
      else if String.eqb m "ecm" then us_set_xy (Some t) (Some (drop n t)) (us_set_sol (Some t) o)
      else if String.eqb m "ecm_exp" then
        us_set_xy (Some (fun i => exp (- t i))) (Some (fun i => exp (- drop n t i))) (us_set_sol (Some t) o)
      else if among m ["crema"; "crema-sparse"]%string then us_set_sol (Some t) (us_set_beta (Some t) o)
      else o
  | None => o
  end.
Definition u_run_solver (g : unet) (out : option outcome_vec) (o : ustate) : ran ustate :=
  match out with
  | None => raising o ESolver
  | Some v => ok (u_set_solved g v o)
  end.
(** graph_classes.py:301-338. *)
Definition u_solve_problem (g : unet) (model method : string) (guess : option (nat -> R)) (out : option outcome_vec)
    (o : ustate) : ran ustate :=
  andthen (u_initialize g model method guess (us_set_last (Some model) o)) (u_run_solver g out).
(** graph_classes.py:789-899.  A missing [self.x] makes [fun_pmatrix] raise; in the sparse
    variant it would raise at the first use. *)
Definition u_set_adjacency (g : unet) (c : call) (o : ustate) : ran ustate :=
  let n := un_n g in
  let o := us_set_sparse (String.eqb (c_model c) "crema-sparse") o in
  match c_adjacency c with
  | AdjOther => raising o EValue
  | AdjName a =>
      andthen (u_solve_problem g a (c_method_adjacency c) (c_guess_adjacency c) (c_out_adjacency c) o) (fun o =>
      match us_x o with
      | None => raising o EType
      | Some x =>
          if us_sparse o then ok (us_set_adj (Some (Factors1 x)) (Some false) true o)
          else if us_pm o then ok (us_set_adj (Some (Triples (triu_edges n (pmatrix_cm x)))) (Some false) false o)
          else raising o EAttribute
      end)
  | AdjMatrix a => ok (us_set_adj (Some (Triples (triu_edges n a))) (Some true) false o)
  end.
Definition u_solve_crema (g : unet) (c : call) (o : ustate) : ran ustate :=
  andthen (u_set_adjacency g c o) (fun o =>
  let model := if us_sparse o then "crema-sparse"%string else c_model c in
  andthen (u_initialize g model (c_method c) (c_guess c) (us_set_last (Some model) o)) (u_run_solver g (c_out c))).
(** graph_classes.py:512-575. *)
Definition u_error_degree (g : unet) (o : ustate) : ustate :=
  match us_x o with
  | None => o
  | Some x =>
      let e := inf_norm (un_n g) (expected_degree_cm (un_n g) x) (at_list (un_dseq g)) in
      us_set_ek (Some e) (Some e) o
  end.
Definition u_error_strength (g : unet) (o : ustate) : ran ustate :=
  match us_beta o with
  | None => ok o
  | Some beta =>
      match us_adj o with
      | None => raising o EAttribute
      | Some adj =>
          let ex_s := if us_sparse o then expected_strength_crema_undirected_sparse (un_n g) (adj0 adj) beta
                      else obind (adj_edges adj) (fun es => expected_strength_crema_undirected es beta) in
          match ex_s with
          | None => raising o EArith
          | Some ex_s =>
              let e := inf_norm (un_n g) ex_s (un_str g) in
              let o := us_set_es (Some e) o in
              match us_given o with
              | None => raising o EAttribute
              | Some true => ok (us_set_err (Some e) o)
              | Some false =>
                  match us_ek o with
                  | None => raising o EType
                  | Some k => ok (us_set_err (Some (Rmax e k)) o)
                  end
              end
          end
      end
  end.
Definition u_solution_error (g : unet) (o : ustate) : ran ustate :=
  match us_last o with
  | None => ok o
  | Some m =>
      if among m ["cm"; "cm_exp"; "crema"; "crema-sparse"]%string then u_error_strength g (u_error_degree g o)
      else if among m ["ecm"; "ecm_exp"]%string then
        match us_x o, us_y o with
        | Some x, Some y =>
            let n := un_n g in
            let ex := expected_ecm n (join2 n x y) in
            let ek := inf_norm n ex (at_list (un_dseq g)) in
            let es := inf_norm n (drop n ex) (un_str g) in
            ok (us_set_errs (Some ek) (Some es) (Some (Rmax es ek)) o)
        | _, _ => raising o EValue
        end
      else ok o
  end.
(** graph_classes.py:932-1031: the printed value is [us_err] of the state reached. *)
Definition u_solve_tool (g : unet) (c : call) (o : ustate) : ran ustate :=
  andthen
    (if among (c_model c) ["cm"; "cm_exp"; "ecm"; "ecm_exp"]%string then
       u_solve_problem g (c_model c) (c_method c) (c_guess c) (c_out c) o
     else if among (c_model c) ["crema"; "crema-sparse"]%string then u_solve_crema g c o
     else ok o)
    (u_solution_error g).
(** A history of calls; a caller that survives an exception keeps the object. *)
Fixpoint u_history (g : unet) (h : list call) (o : ustate) : ustate :=
  match h with [] => o | c :: h => u_history g h (fst (u_solve_tool g c o)) end.
(** graph_classes.py:1131-1134: [self.step_fun(self.solution_array)]; [self.args] is read
    when the function runs. *)
Definition u_model_loglikelihood (o : ustate) : outcome :=
  match us_step o, us_args o, us_sol o with
  | Some e, Some a, Some x => run_entry e a x
  | _, _, _ => None
  end.

(** * DirectedGraph *)
Record dnet : Type := { dn_out : list nat; dn_in : list nat; dn_sout : nat -> R; dn_sin : nat -> R }.
Definition dn_n (g : dnet) : nat := List.length (dn_out g).
(** Indices of the nonzero strengths: graph_classes.py:1271-1272, 1366-1369, 1396-1397. *)
Definition nz_real (n : nat) (s : nat -> R) : list nat :=
  filter (fun i => if Req_EM_T (s i) 0 then false else true) (seq 0 n).
(** [solution_array]: an array, or the tuple returned by the solver with [full_return]. *)
Inductive solution : Type := SArray (v : nat -> R) | STuple (v : nat -> R).
Record dstate : Type := mk_dstate {
  ds_x : option (nat -> R); ds_y : option (nat -> R); ds_bo : option (nat -> R); ds_bi : option (nat -> R); ds_adj : option adjacency_crema; ds_given : option bool; ds_sparse : bool; ds_last : option string; ds_args : option arguments; ds_step : option entry; ds_pm : bool; ds_sol : option solution; ds_ek : option R; ds_es : option R; ds_err : option R
}.

Definition ds_set_last (v_last : option string) (o : dstate) : dstate :=
  {| ds_x := ds_x o; ds_y := ds_y o; ds_bo := ds_bo o; ds_bi := ds_bi o; ds_adj := ds_adj o; ds_given := ds_given o; ds_sparse := ds_sparse o; ds_last := v_last; ds_args := ds_args o; ds_step := ds_step o; ds_pm := ds_pm o; ds_sol := ds_sol o; ds_ek := ds_ek o; ds_es := ds_es o; ds_err := ds_err o |}.
Definition ds_set_sparse (v_sparse : bool) (o : dstate) : dstate :=
  {| ds_x := ds_x o; ds_y := ds_y o; ds_bo := ds_bo o; ds_bi := ds_bi o; ds_adj := ds_adj o; ds_given := ds_given o; ds_sparse := v_sparse; ds_last := ds_last o; ds_args := ds_args o; ds_step := ds_step o; ds_pm := ds_pm o; ds_sol := ds_sol o; ds_ek := ds_ek o; ds_es := ds_es o; ds_err := ds_err o |}.
Definition ds_set_args (v_args : option arguments) (o : dstate) : dstate :=
  {| ds_x := ds_x o; ds_y := ds_y o; ds_bo := ds_bo o; ds_bi := ds_bi o; ds_adj := ds_adj o; ds_given := ds_given o; ds_sparse := ds_sparse o; ds_last := ds_last o; ds_args := v_args; ds_step := ds_step o; ds_pm := ds_pm o; ds_sol := ds_sol o; ds_ek := ds_ek o; ds_es := ds_es o; ds_err := ds_err o |}.
Definition ds_set_step (v_step : option entry) (o : dstate) : dstate :=
  {| ds_x := ds_x o; ds_y := ds_y o; ds_bo := ds_bo o; ds_bi := ds_bi o; ds_adj := ds_adj o; ds_given := ds_given o; ds_sparse := ds_sparse o; ds_last := ds_last o; ds_args := ds_args o; ds_step := v_step; ds_pm := ds_pm o; ds_sol := ds_sol o; ds_ek := ds_ek o; ds_es := ds_es o; ds_err := ds_err o |}.
Definition ds_set_pm (v_pm : bool) (o : dstate) : dstate :=
  {| ds_x := ds_x o; ds_y := ds_y o; ds_bo := ds_bo o; ds_bi := ds_bi o; ds_adj := ds_adj o; ds_given := ds_given o; ds_sparse := ds_sparse o; ds_last := ds_last o; ds_args := ds_args o; ds_step := ds_step o; ds_pm := v_pm; ds_sol := ds_sol o; ds_ek := ds_ek o; ds_es := ds_es o; ds_err := ds_err o |}.
Definition ds_set_xy (v_x : option (nat -> R)) (v_y : option (nat -> R)) (o : dstate) : dstate :=
  {| ds_x := v_x; ds_y := v_y; ds_bo := ds_bo o; ds_bi := ds_bi o; ds_adj := ds_adj o; ds_given := ds_given o; ds_sparse := ds_sparse o; ds_last := ds_last o; ds_args := ds_args o; ds_step := ds_step o; ds_pm := ds_pm o; ds_sol := ds_sol o; ds_ek := ds_ek o; ds_es := ds_es o; ds_err := ds_err o |}.
Definition ds_set_b (v_bo : option (nat -> R)) (v_bi : option (nat -> R)) (o : dstate) : dstate :=
  {| ds_x := ds_x o; ds_y := ds_y o; ds_bo := v_bo; ds_bi := v_bi; ds_adj := ds_adj o; ds_given := ds_given o; ds_sparse := ds_sparse o; ds_last := ds_last o; ds_args := ds_args o; ds_step := ds_step o; ds_pm := ds_pm o; ds_sol := ds_sol o; ds_ek := ds_ek o; ds_es := ds_es o; ds_err := ds_err o |}.
Definition ds_set_all (v_x : option (nat -> R)) (v_y : option (nat -> R)) (v_bo : option (nat -> R)) (v_bi : option (nat -> R)) (o : dstate) : dstate :=
  {| ds_x := v_x; ds_y := v_y; ds_bo := v_bo; ds_bi := v_bi; ds_adj := ds_adj o; ds_given := ds_given o; ds_sparse := ds_sparse o; ds_last := ds_last o; ds_args := ds_args o; ds_step := ds_step o; ds_pm := ds_pm o; ds_sol := ds_sol o; ds_ek := ds_ek o; ds_es := ds_es o; ds_err := ds_err o |}.
Definition ds_set_sol (v_sol : option solution) (o : dstate) : dstate :=
  {| ds_x := ds_x o; ds_y := ds_y o; ds_bo := ds_bo o; ds_bi := ds_bi o; ds_adj := ds_adj o; ds_given := ds_given o; ds_sparse := ds_sparse o; ds_last := ds_last o; ds_args := ds_args o; ds_step := ds_step o; ds_pm := ds_pm o; ds_sol := v_sol; ds_ek := ds_ek o; ds_es := ds_es o; ds_err := ds_err o |}.
Definition ds_set_adj (v_adj : option adjacency_crema) (v_given : option bool) (v_sparse : bool) (o : dstate) : dstate :=
  {| ds_x := ds_x o; ds_y := ds_y o; ds_bo := ds_bo o; ds_bi := ds_bi o; ds_adj := v_adj; ds_given := v_given; ds_sparse := v_sparse; ds_last := ds_last o; ds_args := ds_args o; ds_step := ds_step o; ds_pm := ds_pm o; ds_sol := ds_sol o; ds_ek := ds_ek o; ds_es := ds_es o; ds_err := ds_err o |}.
Definition ds_set_ek (v_ek : option R) (v_err : option R) (o : dstate) : dstate :=
  {| ds_x := ds_x o; ds_y := ds_y o; ds_bo := ds_bo o; ds_bi := ds_bi o; ds_adj := ds_adj o; ds_given := ds_given o; ds_sparse := ds_sparse o; ds_last := ds_last o; ds_args := ds_args o; ds_step := ds_step o; ds_pm := ds_pm o; ds_sol := ds_sol o; ds_ek := v_ek; ds_es := ds_es o; ds_err := v_err |}.
Definition ds_set_es (v_es : option R) (o : dstate) : dstate :=
  {| ds_x := ds_x o; ds_y := ds_y o; ds_bo := ds_bo o; ds_bi := ds_bi o; ds_adj := ds_adj o; ds_given := ds_given o; ds_sparse := ds_sparse o; ds_last := ds_last o; ds_args := ds_args o; ds_step := ds_step o; ds_pm := ds_pm o; ds_sol := ds_sol o; ds_ek := ds_ek o; ds_es := v_es; ds_err := ds_err o |}.
Definition ds_set_err (v_err : option R) (o : dstate) : dstate :=
  {| ds_x := ds_x o; ds_y := ds_y o; ds_bo := ds_bo o; ds_bi := ds_bi o; ds_adj := ds_adj o; ds_given := ds_given o; ds_sparse := ds_sparse o; ds_last := ds_last o; ds_args := ds_args o; ds_step := ds_step o; ds_pm := ds_pm o; ds_sol := ds_sol o; ds_ek := ds_ek o; ds_es := ds_es o; ds_err := v_err |}.
Definition ds_set_errs (v_ek : option R) (v_es : option R) (v_err : option R) (o : dstate) : dstate :=
  {| ds_x := ds_x o; ds_y := ds_y o; ds_bo := ds_bo o; ds_bi := ds_bi o; ds_adj := ds_adj o; ds_given := ds_given o; ds_sparse := ds_sparse o; ds_last := ds_last o; ds_args := ds_args o; ds_step := ds_step o; ds_pm := ds_pm o; ds_sol := ds_sol o; ds_ek := v_ek; ds_es := v_es; ds_err := v_err |}.

(** graph_classes.py:1151-1225, the attributes above. *)
Definition d_fresh (sparse : bool) : dstate :=
  mk_dstate None None None None None None sparse None None None false None None None None.
(** graph_classes.py:1990-2013. *)
Definition d_set_args (g : dnet) (model : string) (o : dstate) : ran dstate :=
  let n := dn_n g in
  if among model ["crema"; "crema-sparse"]%string then
    match ds_adj o with
    | Some adj => ok (ds_set_args (Some (A5c n (dn_sout g) (dn_sin g) adj (nz_real n (dn_sout g)) (nz_real n (dn_sin g)))) o)
    | None => raising o EAttribute
    end
  else if among model ["dcm"; "dcm_exp"]%string then
    let r := degree_reduction_dir (dn_out g) (dn_in g) in
    ok (ds_set_args (Some (A5d (rnz_n_out r) (at_list (rnz_dseq_out r)) (at_list (rnz_dseq_in r))
          (nz_index_out r) (nz_index_in r) (at_list (r_multiplicity r)))) o)
  else if among model ["decm"; "decm_exp"]%string then
    ok (ds_set_args (Some (A4 n (at_list (dn_out g)) (at_list (dn_in g)) (dn_sout g) (dn_sin g))) o)
  else ok o.
(** graph_classes.py:1606-1889: the attributes written by the starting point. *)
Definition d_set_guess (g : dnet) (model : string) (v : option (nat -> R)) (o : dstate) : ran dstate :=
  let n := dn_n g in
  match v with
  | None => raising o EGuess
  | Some v =>
      if among model ["decm"; "decm_exp"]%string then
        ok (ds_set_all (Some v) (Some (drop n v)) (Some (drop (2 * n) v)) (Some (drop (3 * n) v)) o)
      else if among model ["crema"; "crema-sparse"]%string then ok (ds_set_b (Some v) (Some (drop n v)) o)
      else ok o
  end.
(** graph_classes.py:2015-2271. *)
Definition d_initialize (g : dnet) (model method : string) (guess : option (nat -> R)) (o : dstate) : ran dstate :=
  andthen (d_set_guess g model guess o) (fun o =>
  andthen (d_set_args g model o) (fun o =>
  let pm o := if among model ["dcm"; "dcm_exp"]%string then ds_set_pm true o else o in
  match d_dispatch model method None with
  | inl d => ok (pm (ds_set_step (Some (d_step d)) o))
  | inr RefValueError => raising o EValue
  | inr RefKeyError => raising (pm (ds_set_step (lookup (model ++ "-" ++ method) d_fun_step) o)) EKey
  end)).
(** [np.exp(-theta)]. *)
Definition exp_neg (v : outcome_vec) : nat -> R := fun i => if o_inf v i then 0 else exp (- o_x v i).
(** graph_classes.py:2380-2393. *)
Definition d_set_solved_crema (g : dnet) (full : bool) (v : outcome_vec) (o : dstate) : dstate :=
  let t := o_x v in
  ds_set_sol (Some (if full then STuple t else SArray t)) (ds_set_b (Some t) (Some (drop (dn_n g) t)) o).
(** graph_classes.py:1493-1574. *)
Definition d_set_solved_dcm (g : dnet) (s : nat -> R) (o : dstate) : dstate :=
  let r := degree_reduction_dir (dn_out g) (dn_in g) in
  let cls i := nth i (r_invert_dseq r) O in
  ds_set_xy (Some (fun i => s (cls i))) (Some (fun i => drop (rnz_n_out r) s (cls i))) (ds_set_sol (Some (SArray s)) o).
Definition d_set_solved_decm (g : dnet) (s : nat -> R) (o : dstate) : dstate :=
  let n := dn_n g in
  ds_set_all (Some s) (Some (drop n s)) (Some (drop (2 * n) s)) (Some (drop (3 * n) s)) (ds_set_sol (Some (SArray s)) o).
Definition d_set_solved (g : dnet) (full : bool) (v : outcome_vec) (o : dstate) : dstate :=
  match ds_last o with
  | Some m =>
      if String.eqb m "dcm" then d_set_solved_dcm g (o_x v) o
      else if String.eqb m "dcm_exp" then d_set_solved_dcm g (exp_neg v) o
      else if String.eqb m "decm" then d_set_solved_decm g (o_x v) o
      else if String.eqb m "decm_exp" then d_set_solved_decm g (exp_neg v) o
      else if among m ["crema"; "crema-sparse"]%string then d_set_solved_crema g full v o
      else o
  | None => o
  end.
Definition d_run_solver (g : dnet) (full : bool) (out : option outcome_vec) (o : dstate) : ran dstate :=
  match out with
  | None => raising o ESolver
  | Some v => ok (d_set_solved g full v o)
  end.
(** graph_classes.py:1451-1491. *)
Definition d_solve_problem (g : dnet) (full : bool) (model method : string) (guess : option (nat -> R)) (out : option outcome_vec)
    (o : dstate) : ran dstate :=
  andthen (d_initialize g model method guess (ds_set_last (Some model) o)) (d_run_solver g full out).
(** graph_classes.py:2273-2378.  [self.fun_pmatrix] is [mof.pmatrix_dcm] with the
    nodes of nonzero degree (graph_classes.py:2195-2200). *)
Definition d_set_adjacency (g : dnet) (c : call) (o : dstate) : ran dstate :=
  let n := dn_n g in
  let o := ds_set_sparse (String.eqb (c_model c) "crema-sparse") o in
  match c_adjacency c with
  | AdjOther => raising o EValue
  | AdjName a =>
      andthen (d_solve_problem g (c_full c) a (c_method_adjacency c) (c_guess_adjacency c) (c_out_adjacency c) o) (fun o =>
      match ds_x o, ds_y o with
      | Some x, Some y =>
          if ds_sparse o then ok (ds_set_adj (Some (Factors2 x y)) (Some false) true o)
          else if ds_pm o then ok (ds_set_adj (Some (Triples (all_edges n (pmatrix_dcm n (np_nonzero (dn_out g)) (np_nonzero (dn_in g)) (join2 n x y))))) (Some false) false o)
          else raising o EAttribute
      | _, _ => raising o EType
      end)
  | AdjMatrix a => ok (ds_set_adj (Some (Triples (all_edges n a))) (Some true) false o)
  end.
Definition d_solve_crema (g : dnet) (c : call) (o : dstate) : ran dstate :=
  andthen (d_set_adjacency g c o) (fun o =>
  let model := if ds_sparse o then "crema-sparse"%string else c_model c in
  andthen (d_initialize g model (c_method c) (c_guess c) (ds_set_last (Some model) o)) (fun o =>
  match c_out c with
  | None => raising o ESolver
  | Some v => ok (d_set_solved_crema g (c_full c) v o)
  end)).
(** graph_classes.py:1891-1988. *)
Definition d_error_degree (g : dnet) (o : dstate) : dstate :=
  let n := dn_n g in
  match ds_x o, ds_y o with
  | Some x, Some y =>
      let sol := join2 n x y in
      let e := inf_norm (n + n) (join2 n (expected_out_degree_dcm n sol) (expected_in_degree_dcm n sol))
                        (join2 n (at_list (dn_out g)) (at_list (dn_in g))) in
      ds_set_ek (Some e) (Some e) o
  | _, _ => o
  end.
Definition d_error_strength (g : dnet) (o : dstate) : ran dstate :=
  let n := dn_n g in
  match ds_bo o, ds_bi o with
  | Some bo, Some bi =>
      match ds_adj o with
      | None => raising o EAttribute
      | Some adj =>
          let sol := join2 n bo bi in
          let ex :=
            if ds_sparse o then
              obind (adj1 adj) (fun y =>
              obind (expected_out_strength_crema_directed_sparse n (adj0 adj) y sol) (fun eo =>
              obind (expected_in_stregth_crema_directed_sparse n (adj0 adj) y sol) (fun ei => Some (join2 n eo ei))))
            else
              obind (adj_edges adj) (fun es =>
              obind (expected_out_strength_crema_directed n es sol) (fun eo =>
              obind (expected_in_strength_crema_directed n es sol) (fun ei => Some (join2 n eo ei)))) in
          match ex with
          | None => raising o EArith
          | Some ex_s =>
              let e := inf_norm (n + n) ex_s (join2 n (dn_sout g) (dn_sin g)) in
              let o := ds_set_es (Some e) o in
              match ds_given o with
              | None => raising o EAttribute
              | Some true => ok (ds_set_err (Some e) o)
              | Some false =>
                  match ds_ek o with
                  | None => raising o EType
                  | Some k => ok (ds_set_err (Some (Rmax e k)) o)
                  end
              end
          end
      end
  | _, _ => ok o
  end.
Definition d_solution_error (g : dnet) (o : dstate) : ran dstate :=
  let n := dn_n g in
  match ds_last o with
  | None => ok o
  | Some m =>
      if among m ["dcm_exp"; "dcm"; "crema"; "crema-sparse"]%string then d_error_strength g (d_error_degree g o)
      else if among m ["decm"; "decm_exp"]%string then
        match ds_x o, ds_y o, ds_bo o, ds_bi o with
        | Some x, Some y, Some bo, Some bi =>
            let ex := expected_decm n (join4 n x y bo bi) in
            let k := join4 n (at_list (dn_out g)) (at_list (dn_in g)) (dn_sout g) (dn_sin g) in
            let ek := inf_norm (2 * n) ex k in
            let es := inf_norm (2 * n) (drop (2 * n) ex) (drop (2 * n) k) in
            ok (ds_set_errs (Some ek) (Some es) (Some (inf_norm (4 * n) ex k)) o)
        | _, _, _, _ => raising o EValue
        end
      else ok o
  end.
(** graph_classes.py:2395-2494. *)
Definition d_solve_tool (g : dnet) (c : call) (o : dstate) : ran dstate :=
  andthen
    (if among (c_model c) ["dcm"; "dcm_exp"; "decm"; "decm_exp"]%string then
       d_solve_problem g (c_full c) (c_model c) (c_method c) (c_guess c) (c_out c) o
     else if among (c_model c) ["crema"; "crema-sparse"]%string then d_solve_crema g c o
     else ok o)
    (d_solution_error g).
Fixpoint d_history (g : dnet) (h : list call) (o : dstate) : dstate :=
  match h with [] => o | c :: h => d_history g h (fst (d_solve_tool g c o)) end.
(** graph_classes.py:2599-2602; the functions of models_functions.py raise on a tuple. *)
Definition d_model_loglikelihood (o : dstate) : outcome :=
  match ds_step o, ds_args o, ds_sol o with
  | Some e, Some a, Some (SArray x) => run_entry e a x
  | _, _, _ => None
  end.
