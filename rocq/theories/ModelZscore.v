(** [DirectedGraph.zscore_2motifs] and [zscore_3motifs] called on a graph object
    (graph_classes.py:2604-2674): the attributes [adjacency] as the constructor left it
    (ModelLife) and [x], [y] as [solve_tool] left them (ModelSolve).

    With an [np.ndarray] the count is a Python number, and so are the values of the compiled
    functions, so that a standard deviation equal to zero raises ZeroDivisionError.  With a
    scipy matrix on at least three nodes the count is a numpy number and the quotient is
    infinite or not a number ([None]).  [d_is_sparse] says which of the two [adjacency] is;
    this is so for an object whose matrix was given to the constructor. *)
From Coq Require Import Reals List Arith Bool String.
From Verif Require Import Base ModelNetwork ModelLife ModelSolve ModelMotifs.
Import ListNotations.
Local Open Scope R_scope.

(** The dictionary, when every quotient is a number. *)
Definition quotients (d : list (nat * option R)) : raised + list (nat * option R) :=
  if forallb (fun e => match snd e with Some _ => true | None => false end) d then inr d else inl EArith.

Section Zscore.
  Context {L : Type}.
  (** graph_classes.py:2619-2628.  [np.concatenate((None, None))] raises ValueError;
      [None.shape] AttributeError; [count_2motif_0] of a scipy matrix is [None], and
      [None - exp] raises TypeError. *)
  Definition d_zscore_2motifs (g : @dgraph L) (model : string) (o : dstate) : raised + list (nat * option R) :=
    if String.eqb model "dcm" then
      match ds_x o, ds_y o with
      | Some x, Some y =>
          match d_adjacency g with
          | None => inl EAttribute
          | Some (n, a) => if d_is_sparse g then inl EType else quotients (zscore_2motifs model n x y a)
          end
      | _, _ => inl EValue
      end
    else inr [].
  (** graph_classes.py:2655-2674; [count_3motif_1(None)] raises TypeError. *)
  Definition d_zscore_3motifs (g : @dgraph L) (model : string) (o : dstate) : raised + list (nat * option R) :=
    if String.eqb model "dcm" then
      match ds_x o, ds_y o with
      | Some x, Some y =>
          match d_adjacency g with
          | None => inl EType
          | Some (n, a) =>
              if d_is_sparse g then
                let d := zscore_3motifs model KSpmatrix n x y a in
                if Nat.ltb n 3 then quotients d else inr d
              else quotients (zscore_3motifs model KNdarray n x y a)
          end
      | _, _ => inl EValue
      end
    else inr [].
End Zscore.
