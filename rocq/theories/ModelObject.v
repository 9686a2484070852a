(** [solve_tool] called on a graph object as its constructor leaves it: the attributes of
    ModelLife become the arguments of the calls of ModelTool (graph_classes.py:577-587,
    1990-2013 and the starting points).

    Simplifications: degrees must be natural numbers; where a sequence that the model
    needs was never set (the attribute is [None]) the call raises and the attributes
    written before are not modelled; the attribute [args] left by a directed CReMa call
    keeps the index arrays of the strengths (nothing stated here reads it).

    The functions of "decm" and "decm_exp" are compiled by numba in nopython mode and get
    the degrees as they are: arrays of Python objects, which the degrees of an object built
    from directed edges are, have no type there and the first call raises.  (With
    "strengths_minor" and "decm_exp" [np.log] of objects raises before that; not
    distinguished.)  The other models see the degrees through [np.array(list(zip(...)))] of
    [degree_reduction], which turns them into numbers.  Lists given to these functions, as
    degrees or as strengths, are not modelled. *)
From Coq Require Import Reals List Arith Bool ZArith String.
From Verif Require Import Base ModelNetwork ModelLife ModelDispatch ModelGuess ModelRun ModelSolver ModelSolve ModelTool.
Import ListNotations.
Local Open Scope R_scope.

(** A call on an object: a needed attribute is [None] and the call raises; degrees that are
    not natural numbers (not modelled); the state and exception, with the report. *)
Inductive object_run (S : Type) : Type :=
  | Missing
  | NotModelled
  | Run (r : ran S) (rep : option report).
Arguments Missing {S}. Arguments NotModelled {S}. Arguments Run {S}.

(** A sequence of degrees as natural numbers. *)
Definition naturals (d : list R) : option (list nat) :=
  let k := map (fun r => Z.to_nat (Int_part r)) d in
  if list_eq_dec Req_EM_T (map INR k) d then Some k else None.
Definition at_reals (s : list R) (i : nat) : R := nth i s 0.
Definition is_crema (model : string) : bool := among model ["crema"; "crema-sparse"]%string.
(** The models whose starting point and functions read the strengths. *)
Definition reads_strengths (model : string) : bool :=
  among model ["ecm"; "ecm_exp"; "decm"; "decm_exp"; "crema"; "crema-sparse"]%string.
(** The models whose functions get the degrees as they are (graph_classes.py:2007-2013). *)
Definition reads_degrees (model : string) : bool := among model ["decm"; "decm_exp"]%string.
Definition given_matrix (t : settings) : bool := match t_adjacency t with AdjMatrix _ => true | _ => false end.
Definition listed (k : storage) : bool := match k with PyList => true | _ => false end.

Section Object.
  Context {L : Type}.

  (** * UndirectedGraph *)
  (** The network a call reads.  CReMa with a given matrix reads no degrees
      (graph_classes.py:837-866, 581-585). *)
  Definition u_object_tool (e : environment) (g : @ugraph L) (t : settings) (o : ustate) : object_run ustate :=
    let run net := Run (u_tool e net t o) (u_report e net t o) in
    match u_dseq g with
    | Some d =>
        match naturals d with
        | None => NotModelled
        | Some k =>
            match u_strength g with
            | Some s => if listed (u_str_kind g) && reads_strengths (t_model t) then NotModelled
                        else run {| un_dseq := k; un_str := at_reals s |}
            | None => if reads_strengths (t_model t) then Missing else run {| un_dseq := k; un_str := fun _ => 0 |}
            end
        end
    | None =>
        match u_strength g with
        | Some s => if is_crema (t_model t) && given_matrix t
                    then if listed (u_str_kind g) then NotModelled else run {| un_dseq := repeat O (List.length s); un_str := at_reals s |} else Missing
        | None => Missing
        end
    end.
  (** A new object: no solve has been made. *)
  Definition u_new_tool (e : environment) (g : @ugraph L) (t : settings) : object_run ustate :=
    u_object_tool e g t (u_fresh (u_is_sparse g)).

  (** * DirectedGraph *)
  (** [self.args] of CReMa (graph_classes.py:1992-1999) with the attributes
      [nz_index_sout], [nz_index_sin].  When they are [None], every function that loops over
      them raises: [fun] for all methods of "crema" and for the descent methods of
      "crema-sparse" (models_functions.py:3838, 4077, 4121), [step_fun], printed with
      [verbose], in the remaining case (4031; modelled as raising even without a step). *)
  Definition d_args_index (g : dnet) (nz : option (list nat * list nat)) (model method : string) (verbose : bool)
      (adj : option adjacency_crema) : option arguments :=
    match adj with
    | None => None
    | Some adj =>
        let n := dn_n g in
        match nz with
        | Some (o, i) => Some (A5c n (dn_sout g) (dn_sin g) adj o i)
        | None =>
            if String.eqb model "crema-sparse" && String.eqb method "fixed-point" && negb verbose
            then Some (A5c n (dn_sout g) (dn_sin g) adj [] []) else None
        end
    end.
  Definition d_result_index (e : environment) (g : dnet) (nz : option (list nat * list nat)) (t : settings) (o : dstate) : result (nat -> R) R :=
    if is_crema (t_model t) then
      let o := fst (d_set_adjacency g (d_call_adjacency e g t None) o) in
      let model := if ds_sparse o then "crema-sparse"%string else t_model t in
      solve_with e (t_options t (t_method t) (t_linsearch t)) (d_length g model) (d_dispatch model (t_method t) None)
        (d_args_index g nz model (t_method t) (t_verbose t) (ds_adj o)) (d_start g model (v_rnd e) (t_guess t))
    else d_result e g t o.
  Definition d_tool_index (e : environment) (g : dnet) (nz : option (list nat * list nat)) (t : settings) (o : dstate) : ran dstate :=
    d_solve_tool g (d_call_adjacency e g t (solved_of (d_result_index e g nz t o))) o.
  Definition d_index (g : @dgraph L) : option (list nat * list nat) :=
    match d_nz_sout g, d_nz_sin g with Some o, Some i => Some (o, i) | _, _ => None end.
  Definition d_object_tool (e : environment) (g : @dgraph L) (t : settings) (o : dstate) : object_run dstate :=
    let run net :=
      if listed (d_str_kind g) && reads_strengths (t_model t) then NotModelled
      else if reads_degrees (t_model t) then
        match d_deg_kind g with
        | Numbers => Run (d_tool_index e net (d_index g) t o) (report_of (d_result_index e net (d_index g) t o))
        | Objects => Run (d_solve_tool net (d_call_adjacency e net t None) o) None
        | PyList => NotModelled
        end
      else Run (d_tool_index e net (d_index g) t o) (report_of (d_result_index e net (d_index g) t o)) in
    match d_dseq_out g, d_dseq_in g with
    | Some ko, Some ki =>
        match naturals ko, naturals ki with
        | Some ko, Some ki =>
            match d_out_strength g, d_in_strength g with
            | Some so, Some si => run {| dn_out := ko; dn_in := ki; dn_sout := at_reals so; dn_sin := at_reals si |}
            | _, _ => if reads_strengths (t_model t) then Missing
                      else run {| dn_out := ko; dn_in := ki; dn_sout := fun _ => 0; dn_sin := fun _ => 0 |}
            end
        | _, _ => NotModelled
        end
    | _, _ =>
        match d_out_strength g, d_in_strength g with
        | Some so, Some si =>
            if is_crema (t_model t) && given_matrix t
            then run {| dn_out := repeat O (List.length so); dn_in := repeat O (List.length so); dn_sout := at_reals so; dn_sin := at_reals si |}
            else Missing
        | _, _ => Missing
        end
    end.
  Definition d_new_tool (e : environment) (g : @dgraph L) (t : settings) : object_run dstate :=
    d_object_tool e g t (d_fresh (d_is_sparse g)).
End Object.
