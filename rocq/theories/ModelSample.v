(** [ensemble_sampler] of a graph object after calls of [solve_tool]: transcription of
    graph_classes.py:1033-1129 (UndirectedGraph) and 2497-2597 (DirectedGraph), reading the
    state of ModelSolve.  ModelSampler has the branches; this file says which attributes they
    are given. *)
From Coq Require Import Reals List Arith Bool ZArith String.
From Verif Require Import Base ModelCM ModelECM ModelDCM ModelDECM ModelCReMa ModelNetwork ModelDispatch ModelSolve ModelSampler.
Import ListNotations.
Local Open Scope R_scope.

(** An array of length [n]. *)
Definition array (n : nat) (v : nat -> R) : list R := map v (seq 0 n).
(** [self.adjacency_crema] as the samplers unpack it. *)
Definition unpacked (n : nat) (a : adjacency_crema) : crema_adjacency :=
  match a with
  | Triples es => Edges (map (fun e => fst (fst e)) es, map (fun e => snd (fst e)) es, map snd es)
  | Factors1 x => OneArray (array n x)
  | Factors2 x y => TwoArrays (array n x) (array n y)
  end.
Definition attributes (m : string) (x y bo bi : list R) (given : bool) (a : crema_adjacency) : solved :=
  {| v_last_model := m; v_x := x; v_y := y; v_b_out := bo; v_b_in := bi; v_adjacency_given := given; v_adjacency_crema := a |}.
(** A binary or enhanced branch does not read the CReMa attributes. *)
Definition unread : crema_adjacency := OneArray [].

Section Calls.
Variable G : generator.
Variable N cpu : nat.
Variable out : string.
Variable seed : option Z.
Variable entropy : gstate G.
Variable choice : nat -> pool_choice G.
(** An attribute is [None]: the first file raises, so only a call for no file returns. *)
Definition no_attribute : option (list (string * content)) :=
  match N with O => option_map (fun _ => []) (top_seed G seed entropy) | S _ => None end.

(** graph_classes.py:1060-1129. *)
Definition u_ensemble_sampler (g : unet) (o : ustate) : option (list (string * content)) :=
  let n := un_n g in
  let run v := ensemble_sampler G false v N cpu out seed entropy choice in
  match us_last o with
  | None => None
  | Some m =>
      if among m ["cm"; "cm_exp"]%string then
        match us_x o with
        | Some x => run (attributes m (array n x) [] [] [] false unread)
        | None => no_attribute
        end
      else if among m ["ecm"; "ecm_exp"]%string then
        match us_x o, us_y o with
        | Some x, Some y => run (attributes m (array n x) (array n y) [] [] false unread)
        | _, _ => no_attribute
        end
      else if among m ["crema"; "crema-sparse"]%string then
        match us_given o with
        | None => None
        | Some given =>
            if String.eqb m "crema-sparse" && given then run (attributes m [] [] [] [] given unread)
            else
              match us_beta o, us_adj o with
              | Some b, Some a => run (attributes m [] [] (array n b) (array n b) given (unpacked n a))
              | _, _ => no_attribute
              end
        end
      else None
  end.
(** graph_classes.py:2524-2597. *)
Definition d_ensemble_sampler (g : dnet) (o : dstate) : option (list (string * content)) :=
  let n := dn_n g in
  let run v := ensemble_sampler G true v N cpu out seed entropy choice in
  match ds_last o with
  | None => None
  | Some m =>
      if among m ["dcm"; "dcm_exp"]%string then
        match ds_x o, ds_y o with
        | Some x, Some y => run (attributes m (array n x) (array n y) [] [] false unread)
        | _, _ => no_attribute
        end
      else if among m ["decm"; "decm_exp"]%string then
        match ds_x o, ds_y o, ds_bo o, ds_bi o with
        | Some x, Some y, Some bo, Some bi => run (attributes m (array n x) (array n y) (array n bo) (array n bi) false unread)
        | _, _, _, _ => no_attribute
        end
      else if among m ["crema"; "crema-sparse"]%string then
        match ds_given o with
        | None => None
        | Some given =>
            if String.eqb m "crema-sparse" && given then run (attributes m [] [] [] [] given unread)
            else
              match ds_bo o, ds_bi o, ds_adj o with
              | Some bo, Some bi, Some a => run (attributes m [] [] (array n bo) (array n bi) given (unpacked n a))
              | _, _, _ => no_attribute
              end
        end
      else None
  end.
End Calls.
