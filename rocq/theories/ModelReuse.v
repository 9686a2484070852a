(** One object used for a second network: [clean_edges], a [set_*] method, then
    [solve_tool].

    [clean_edges] (graph_classes.py:293-299, 1443-1449) and the [set_*] methods leave every
    attribute that a solve has written; the attribute [is_sparse] is one attribute, written
    by the methods (graph_classes.py:129, 1258) and by CReMa solves (805-866,
    2290-2346), so the second network starts from the value the last solve left.

    Simplification: arrays left by a solve of a network of another size are not told apart
    from arrays of the right size (the subtraction of arrays of different sizes raises). *)
From Coq Require Import Reals List Arith Bool.
From Verif Require Import Base ModelNetwork ModelSolve ModelLife.
Import ListNotations.

Section Reuse.
  Context {L : Type}.
  Variables (leb eqb : L -> L -> bool).

  Definition u_flagged (g : @ugraph L) (b : bool) : @ugraph L :=
    {| u_n_nodes := u_n_nodes g; u_n_edges := u_n_edges g; u_adjacency := u_adjacency g; u_is_sparse := b; u_edgelist := u_edgelist g;
       u_dseq := u_dseq g; u_strength := u_strength g; u_nodes_dict := u_nodes_dict g; u_nz_index := u_nz_index g;
       u_is_initialized := u_is_initialized g; u_is_weighted := u_is_weighted g; u_str_kind := u_str_kind g |}.
  (** The object with data [g] and solver attributes [o], cleaned and given the argument of
      [c]. *)
  Definition u_reuse (g : @ugraph L) (o : ustate) (c : @call L) : (@ugraph L * ustate) + pyexn :=
    match u_call leb eqb (fst (u_call leb eqb (u_flagged g (us_sparse o)) CleanEdges)) c with
    | (g', None) => inl (g', us_set_sparse (u_is_sparse g') o)
    | (_, Some ex) => inr ex
    end.
  Definition d_flagged (g : @dgraph L) (b : bool) : @dgraph L :=
    {| d_n_nodes := d_n_nodes g; d_n_edges := d_n_edges g; d_adjacency := d_adjacency g; d_is_sparse := b; d_edgelist := d_edgelist g;
       d_dseq_out := d_dseq_out g; d_dseq_in := d_dseq_in g; d_out_strength := d_out_strength g; d_in_strength := d_in_strength g;
       d_nz_sout := d_nz_sout g; d_nz_sin := d_nz_sin g; d_nodes_dict := d_nodes_dict g; d_is_initialized := d_is_initialized g;
       d_is_weighted := d_is_weighted g; d_deg_kind := d_deg_kind g; d_str_kind := d_str_kind g |}.
  Definition d_reuse (g : @dgraph L) (o : dstate) (c : @call L) : (@dgraph L * dstate) + pyexn :=
    match d_call leb eqb (fst (d_call leb eqb (d_flagged g (ds_sparse o)) CleanEdges)) c with
    | (g', None) => inl (g', ds_set_sparse (d_is_sparse g') o)
    | (_, Some ex) => inr ex
    end.
End Reuse.
