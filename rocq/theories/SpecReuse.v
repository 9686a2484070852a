(** Specification: a call on one object gives what a call on another gives, as far as the
    model solved is concerned. *)
From Coq Require Import Reals List Arith Bool String.
From Verif Require Import Base ModelDispatch ModelSolve ModelTool ModelObject.
Import ListNotations.
Local Open Scope R_scope.

(** The attributes a solve of [model] is asked for. *)
Definition u_parameters (model : string) (o : ustate) : list (option (nat -> R)) :=
  if String.eqb model "cm" || String.eqb model "cm_exp" then [us_x o]
  else if String.eqb model "ecm" || String.eqb model "ecm_exp" then [us_x o; us_y o]
  else [us_beta o].
Definition d_parameters (model : string) (o : dstate) : list (option (nat -> R)) :=
  if String.eqb model "dcm" || String.eqb model "dcm_exp" then [ds_x o; ds_y o]
  else if String.eqb model "decm" || String.eqb model "decm_exp" then [ds_x o; ds_y o; ds_bo o; ds_bi o]
  else [ds_bo o; ds_bi o].
(** Both raise the same exception, or both return with the same parameters, the same error,
    the same model, solution, objective and report, and for CReMa the same adjacency. *)
Definition u_same_outcome (model : string) (a b : object_run ustate) : Prop :=
  match a, b with
  | Run (o1, e1) r1, Run (o2, e2) r2 =>
      e1 = e2 /\
      (e1 = None ->
         r1 = r2 /\ u_parameters model o1 = u_parameters model o2 /\ us_err o1 = us_err o2 /\ us_last o1 = us_last o2 /\
         us_sol o1 = us_sol o2 /\ us_step o1 = us_step o2 /\
         (model = "crema"%string \/ model = "crema-sparse"%string -> us_adj o1 = us_adj o2 /\ us_given o1 = us_given o2 /\ us_sparse o1 = us_sparse o2))
  | Missing, Missing | NotModelled, NotModelled => True
  | _, _ => False
  end.
Definition d_same_outcome (model : string) (a b : object_run dstate) : Prop :=
  match a, b with
  | Run (o1, e1) r1, Run (o2, e2) r2 =>
      e1 = e2 /\
      (e1 = None ->
         r1 = r2 /\ d_parameters model o1 = d_parameters model o2 /\ ds_err o1 = ds_err o2 /\ ds_last o1 = ds_last o2 /\
         ds_sol o1 = ds_sol o2 /\ ds_step o1 = ds_step o2 /\
         (model = "crema"%string \/ model = "crema-sparse"%string -> ds_adj o1 = ds_adj o2 /\ ds_given o1 = ds_given o2 /\ ds_sparse o1 = ds_sparse o2))
  | Missing, Missing | NotModelled, NotModelled => True
  | _, _ => False
  end.

(** What is left of earlier solves and could be read by the call. *)
Definition u_untouched (t : settings) (o : ustate) : Prop :=
  (In (t_model t) ["cm"; "cm_exp"]%string -> us_beta o = None) /\
  (In (t_model t) ["crema"; "crema-sparse"]%string -> match t_adjacency t with AdjName a => In a ["cm"; "cm_exp"]%string | AdjMatrix _ => us_x o = None | AdjOther => True end).
Definition d_untouched (t : settings) (o : dstate) : Prop :=
  (In (t_model t) ["dcm"; "dcm_exp"]%string -> ds_bo o = None) /\
  (In (t_model t) ["crema"; "crema-sparse"]%string -> match t_adjacency t with AdjName a => In a ["dcm"; "dcm_exp"]%string | AdjMatrix _ => ds_x o = None | AdjOther => True end).
