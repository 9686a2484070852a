(** Life cycle of the two graph objects: constructor, [_initialize_graph], the [set_*]
    methods and [clean_edges] of graph_classes.py.  Entries are reals (no NaN); matrices
    are square; rows of an edge list all have the same length, which is not 0 or 1.
    Attributes that only the solvers write are not part of these records. *)
From Coq Require Import Reals List Arith Bool.
From Verif Require Import Base ModelNetwork.
Import ListNotations.
Local Open Scope R_scope.

(** Exceptions. *)
Inductive pyexn : Type := TypeError | ValueError | AttributeError | KeyError.

(** The [adjacency] argument.  A sparse matrix has a number of stored entries, which is
    what its [.size] returns; its kind decides the functions of network_functions.py. *)
Inductive adj_arg : Type :=
  | NoAdj
  | ArrayAdj (n : nat) (a : matrix)
  | SparseAdj (k : matkind) (stored n : nat) (a : matrix)
  | ListAdj (n : nat) (a : matrix)
  | OtherAdj.
(** The [edgelist] argument, a list or an array: couples, triples, longer rows. *)
Inductive edge_arg (L : Type) : Type :=
  | NoEdges
  | PairEdges (es : list (L * L))
  | TripleEdges (es : list (L * L * R))
  | WideEdges
  | OtherEdges.
Arguments NoEdges {L}. Arguments PairEdges {L}. Arguments TripleEdges {L}.
Arguments WideEdges {L}. Arguments OtherEdges {L}.
(** A sequence argument: numpy array, Python list, a non-empty array or list whose first
    element is not numeric, any other object. *)
Inductive seq_arg : Type :=
  | NoSeq
  | SeqArray (v : list R)
  | SeqList (v : list R)
  | SeqText
  | SeqOther.
(** What holds a sequence: an array of numbers, an array of Python objects
    ([np.zeros_like] of an array of labels, network_functions.py:376-377), a list. *)
Inductive storage : Type := Numbers | Objects | PyList.

(** [np.sum(adjacency)] and [np.sum(adjacency > 0)]. *)
Definition total_sum (n : nat) (a : matrix) : R := np_sum n (fun i => np_sum n (a i)).
Definition total_positive (n : nat) (a : matrix) : nat := loop n 0%nat (fun i s => (s + count_positive n (a i))%nat).
(** [np.sum(adjacency < 0)] as a truth value. *)
Definition negb_entry (r : R) : bool := if Rlt_dec r 0 then true else false.
Definition has_negative (n : nat) (a : matrix) : bool :=
  existsb (fun i => existsb (fun j => negb_entry (a i j)) (seq 0 n)) (seq 0 n).
Definition list_has_negative (v : list R) : bool := existsb negb_entry v.
(** [np.nonzero(v)[0]] on real vectors. *)
Definition nonzero_reals (v : list R) : list nat :=
  map fst (filter (fun iv => if Req_EM_T (snd iv) 0 then false else true) (combine (seq 0 (length v)) v)).
(** [np.sum] of a sequence. *)
Definition list_total (v : list R) : R := fold_right Rplus 0 v.
(** A function on nodes as an array. *)
Definition to_array (n : nat) (f : nat -> R) : list R := map f (seq 0 n).

(** Whether the argument is a list. *)
Definition kind_of (s : seq_arg) : storage := match s with SeqList _ => PyList | _ => Numbers end.

Section Life.
  Context {L : Type}.
  Variables (leb eqb : L -> L -> bool).

  (** * UndirectedGraph *)
  Record ugraph : Type := {
    u_n_nodes : option nat; u_n_edges : option R; u_adjacency : option (nat * matrix); u_is_sparse : bool;
    u_edgelist : option (list (nat * nat * option R)); u_dseq : option (list R); u_strength : option (list R);
    u_nodes_dict : option (list L); u_nz_index : option (list nat); u_is_initialized : bool; u_is_weighted : bool;
    u_str_kind : storage
  }.
  (** graph_classes.py:39-49: before [_initialize_graph] (nz_index is not set yet). *)
  Definition u_blank : ugraph :=
    {| u_n_nodes := None; u_n_edges := None; u_adjacency := None; u_is_sparse := false; u_edgelist := None;
       u_dseq := None; u_strength := None; u_nodes_dict := None; u_nz_index := None;
       u_is_initialized := false; u_is_weighted := false; u_str_kind := Numbers |}.

  (** Assignments. *)
  Definition u_put_adjacency (g : ugraph) (n : nat) (a : matrix) (sparse : bool) : ugraph :=
    {| u_n_nodes := u_n_nodes g; u_n_edges := u_n_edges g; u_adjacency := Some (n, a);
       u_is_sparse := if sparse then true else u_is_sparse g; u_edgelist := u_edgelist g;
       u_dseq := u_dseq g; u_strength := u_strength g; u_nodes_dict := u_nodes_dict g; u_nz_index := u_nz_index g;
       u_is_initialized := u_is_initialized g; u_is_weighted := u_is_weighted g; u_str_kind := u_str_kind g |}.
  Definition u_put_edgelist (g : ugraph) (es : list (nat * nat * option R)) (nodes : list L) : ugraph :=
    {| u_n_nodes := u_n_nodes g; u_n_edges := u_n_edges g; u_adjacency := u_adjacency g; u_is_sparse := u_is_sparse g;
       u_edgelist := Some es; u_dseq := u_dseq g; u_strength := u_strength g; u_nodes_dict := Some nodes;
       u_nz_index := u_nz_index g; u_is_initialized := u_is_initialized g; u_is_weighted := u_is_weighted g; u_str_kind := u_str_kind g |}.
  (** [dseq = d; n_nodes = len(dseq); n_edges = np.sum(dseq)/2; is_initialized = True]. *)
  Definition u_put_degrees (g : ugraph) (d : list R) : ugraph :=
    {| u_n_nodes := Some (length d); u_n_edges := Some (list_total d / 2); u_adjacency := u_adjacency g;
       u_is_sparse := u_is_sparse g; u_edgelist := u_edgelist g; u_dseq := Some d; u_strength := u_strength g;
       u_nodes_dict := u_nodes_dict g; u_nz_index := u_nz_index g; u_is_initialized := true; u_is_weighted := u_is_weighted g; u_str_kind := u_str_kind g |}.
  (** [strength_sequence = s; is_weighted = True], with or without [nz_index]. *)
  Definition u_put_strengths (g : ugraph) (s : list R) (with_index : bool) (k : storage) : ugraph :=
    {| u_n_nodes := u_n_nodes g; u_n_edges := u_n_edges g; u_adjacency := u_adjacency g; u_is_sparse := u_is_sparse g;
       u_edgelist := u_edgelist g; u_dseq := u_dseq g; u_strength := Some s; u_nodes_dict := u_nodes_dict g;
       u_nz_index := if with_index then Some (nonzero_reals s) else u_nz_index g;
       u_is_initialized := u_is_initialized g; u_is_weighted := true; u_str_kind := k |}.
  Definition u_put_n_nodes (g : ugraph) (n : nat) : ugraph :=
    {| u_n_nodes := Some n; u_n_edges := u_n_edges g; u_adjacency := u_adjacency g; u_is_sparse := u_is_sparse g;
       u_edgelist := u_edgelist g; u_dseq := u_dseq g; u_strength := u_strength g; u_nodes_dict := u_nodes_dict g;
       u_nz_index := u_nz_index g; u_is_initialized := u_is_initialized g; u_is_weighted := u_is_weighted g; u_str_kind := u_str_kind g |}.
  Definition u_put_init (g : ugraph) (b : bool) : ugraph :=
    {| u_n_nodes := u_n_nodes g; u_n_edges := u_n_edges g; u_adjacency := u_adjacency g; u_is_sparse := u_is_sparse g;
       u_edgelist := u_edgelist g; u_dseq := u_dseq g; u_strength := u_strength g; u_nodes_dict := u_nodes_dict g;
       u_nz_index := u_nz_index g; u_is_initialized := b; u_is_weighted := u_is_weighted g; u_str_kind := u_str_kind g |}.

  (** graph_classes.py:117-142: matrix with positive [.size]. *)
  Definition u_from_matrix (g : ugraph) (k : matkind) (sparse : bool) (n : nat) (a : matrix) : ugraph * option pyexn :=
    if has_negative n a then (g, Some TypeError)
    else
      let g := u_put_adjacency g n a sparse in
      match degree k n a with
      | None => (g, Some AttributeError)
      | Some d =>
          if Req_EM_T (total_sum n a) (INR (total_positive n a)) then
            (u_put_degrees g (to_array n (fun i => INR (d i))), None)
          else
            match strength k n a with
            | None => (g, Some AttributeError)
            | Some s => (u_put_degrees (u_put_strengths g (to_array n s) true Numbers) (to_array n (fun i => INR (d i))), None)
            end
      end.
  (** graph_classes.py:108-142; a list has no attribute [size]. *)
  Definition u_init_adjacency (g : ugraph) (adj : adj_arg) : ugraph * option pyexn :=
    match adj with
    | NoAdj => (g, None)
    | OtherAdj => (g, Some TypeError)
    | ListAdj _ _ => (g, Some AttributeError)
    | ArrayAdj n a => if Nat.ltb 0 (n * n) then u_from_matrix g Ndarray false n a else (g, None)
    | SparseAdj k stored n a => if Nat.ltb 0 stored then u_from_matrix g k true n a else (g, None)
    end.

  (** graph_classes.py:144-173. *)
  Definition u_init_edges (g : ugraph) (e : edge_arg L) : ugraph * option pyexn :=
    match e with
    | NoEdges => (g, None)
    | OtherEdges => (g, Some TypeError)
    | WideEdges => (g, Some ValueError)
    | PairEdges [] | TripleEdges [] => (g, None)
    | PairEdges es =>
        match edgelist_from_edgelist_undirected leb eqb es with
        | None => (g, Some KeyError)
        | Some (es, deg, nodes) =>
            (u_put_degrees (u_put_edgelist g (map (fun e => (e, None)) es) nodes) (map INR deg), None)
        end
    | TripleEdges es =>
        match edgelist_from_edgelist_undirected_w leb eqb es with
        | None => (g, Some KeyError)
        | Some (es, deg, st, nodes) =>
            (u_put_degrees (u_put_strengths (u_put_edgelist g (map (fun e => (fst e, Some (snd e))) es) nodes) st false Numbers)
              (map INR deg), None)
        end
    end.

  (** graph_classes.py:197-227: the strengths that come with degrees. *)
  Definition u_init_strengths_with (g : ugraph) (nd : nat) (s : seq_arg) : ugraph * option pyexn :=
    match s with
    | NoSeq => (g, None)
    | SeqOther => (g, Some TypeError)
    | SeqText => (g, Some TypeError)
    | SeqArray [] | SeqList [] => (g, None)
    | SeqArray v =>
        if list_has_negative v then (g, Some ValueError)
        else if negb (Nat.eqb (length v) nd) then (g, Some ValueError)
        else (u_put_init (u_put_strengths (u_put_n_nodes g (length v)) v true Numbers) true, None)
    | SeqList v =>
        if list_has_negative v then (g, Some ValueError)
        else if negb (Nat.eqb (length v) nd) then (g, Some ValueError)
        else (u_put_n_nodes g (length v), Some AttributeError)
    end.
  (** graph_classes.py:176-227; [.astype] on a list raises after n_nodes is set. *)
  Definition u_init_degrees (g : ugraph) (d s : seq_arg) : ugraph * option pyexn :=
    match d with
    | NoSeq => (g, None)
    | SeqOther => (g, Some TypeError)
    | SeqText => (g, Some TypeError)
    | SeqArray [] | SeqList [] => (g, None)
    | SeqArray v =>
        if list_has_negative v then (g, Some ValueError)
        else u_init_strengths_with (u_put_degrees g v) (length v) s
    | SeqList v =>
        if list_has_negative v then (g, Some ValueError)
        else (u_put_n_nodes g (length v), Some AttributeError)
    end.
  (** graph_classes.py:229-249: strengths alone; a list is kept as it is. *)
  Definition u_init_strengths (g : ugraph) (s : seq_arg) : ugraph * option pyexn :=
    match s with
    | NoSeq => (g, None)
    | SeqOther => (g, Some TypeError)
    | SeqText => (g, Some TypeError)
    | SeqArray [] | SeqList [] => (g, None)
    | SeqArray v | SeqList v =>
        if list_has_negative v then (g, Some ValueError)
        else (u_put_init (u_put_strengths (u_put_n_nodes g (length v)) v true (kind_of s)) true, None)
    end.

  (** graph_classes.py:97-249 [_initialize_graph]. *)
  Definition u_initialize (g : ugraph) (adj : adj_arg) (e : edge_arg L) (d s : seq_arg) : ugraph * option pyexn :=
    match adj, e, d with
    | NoAdj, NoEdges, NoSeq => u_init_strengths g s
    | NoAdj, NoEdges, _ => u_init_degrees g d s
    | NoAdj, _, _ => u_init_edges g e
    | _, _, _ => u_init_adjacency g adj
    end.
  (** graph_classes.py:32-95 [__init__]: nz_index is reset at the end.  An exception
      leaves no object. *)
  Definition u_construct (adj : adj_arg) (e : edge_arg L) (d s : seq_arg) : ugraph + pyexn :=
    match u_initialize u_blank adj e d s with
    | (_, Some ex) => inr ex
    | (g, None) => inl {| u_n_nodes := u_n_nodes g; u_n_edges := u_n_edges g; u_adjacency := u_adjacency g;
        u_is_sparse := u_is_sparse g; u_edgelist := u_edgelist g; u_dseq := u_dseq g; u_strength := u_strength g;
        u_nodes_dict := u_nodes_dict g; u_nz_index := None; u_is_initialized := u_is_initialized g;
        u_is_weighted := u_is_weighted g; u_str_kind := u_str_kind g |}
    end.

  (** Calls a user can make on an object. *)
  Inductive call : Type := SetAdjacency (a : adj_arg) | SetEdgelist (e : edge_arg L) | SetDegrees (d : seq_arg) | CleanEdges.

  (** graph_classes.py:251-299; with [None] the call of [_initialize_graph] does nothing. *)
  Definition u_call (g : ugraph) (c : call) : ugraph * option pyexn :=
    match c with
    | SetAdjacency a => if u_is_initialized g then (g, None) else u_initialize g a NoEdges NoSeq NoSeq
    | SetEdgelist e => if u_is_initialized g then (g, None) else u_initialize g NoAdj e NoSeq NoSeq
    | SetDegrees d => if u_is_initialized g then (g, None) else u_initialize g NoAdj NoEdges d NoSeq
    | CleanEdges =>
        ({| u_n_nodes := u_n_nodes g; u_n_edges := u_n_edges g; u_adjacency := None; u_is_sparse := u_is_sparse g;
            u_edgelist := None; u_dseq := u_dseq g; u_strength := u_strength g; u_nodes_dict := u_nodes_dict g;
            u_nz_index := u_nz_index g; u_is_initialized := false; u_is_weighted := u_is_weighted g; u_str_kind := u_str_kind g |}, None)
    end.
  (** A sequence of calls, exceptions caught by the caller. *)
  Definition u_calls (g : ugraph) (cs : list call) : ugraph := fold_left (fun g c => fst (u_call g c)) cs g.

  (** * DirectedGraph *)
  Record dgraph : Type := {
    d_n_nodes : option nat; d_n_edges : option R; d_adjacency : option (nat * matrix); d_is_sparse : bool;
    d_edgelist : option (list (nat * nat * option R)); d_dseq_out : option (list R); d_dseq_in : option (list R);
    d_out_strength : option (list R); d_in_strength : option (list R); d_nz_sout : option (list nat);
    d_nz_sin : option (list nat); d_nodes_dict : option (list L); d_is_initialized : bool; d_is_weighted : bool;
    d_deg_kind : storage; d_str_kind : storage
  }.
  (** graph_classes.py:1159-1174. *)
  Definition d_blank : dgraph :=
    {| d_n_nodes := None; d_n_edges := None; d_adjacency := None; d_is_sparse := false; d_edgelist := None;
       d_dseq_out := None; d_dseq_in := None; d_out_strength := None; d_in_strength := None; d_nz_sout := None;
       d_nz_sin := None; d_nodes_dict := None; d_is_initialized := false; d_is_weighted := false;
       d_deg_kind := Numbers; d_str_kind := Numbers |}.
  Definition d_put_adjacency (g : dgraph) (n : nat) (a : matrix) (sparse : bool) : dgraph :=
    {| d_n_nodes := d_n_nodes g; d_n_edges := d_n_edges g; d_adjacency := Some (n, a);
       d_is_sparse := if sparse then true else d_is_sparse g; d_edgelist := d_edgelist g;
       d_dseq_out := d_dseq_out g; d_dseq_in := d_dseq_in g; d_out_strength := d_out_strength g;
       d_in_strength := d_in_strength g; d_nz_sout := d_nz_sout g; d_nz_sin := d_nz_sin g; d_nodes_dict := d_nodes_dict g;
       d_is_initialized := d_is_initialized g; d_is_weighted := d_is_weighted g;
       d_deg_kind := d_deg_kind g; d_str_kind := d_str_kind g |}.
  Definition d_put_edgelist (g : dgraph) (es : list (nat * nat * option R)) (nodes : list L) : dgraph :=
    {| d_n_nodes := d_n_nodes g; d_n_edges := d_n_edges g; d_adjacency := d_adjacency g; d_is_sparse := d_is_sparse g;
       d_edgelist := Some es; d_dseq_out := d_dseq_out g; d_dseq_in := d_dseq_in g; d_out_strength := d_out_strength g;
       d_in_strength := d_in_strength g; d_nz_sout := d_nz_sout g; d_nz_sin := d_nz_sin g; d_nodes_dict := Some nodes;
       d_is_initialized := d_is_initialized g; d_is_weighted := d_is_weighted g;
       d_deg_kind := d_deg_kind g; d_str_kind := d_str_kind g |}.
  (** Degrees; [set_n] when n_nodes, n_edges and is_initialized are set as well. *)
  Definition d_put_degrees (g : dgraph) (o i : option (list R)) (k : storage) : dgraph :=
    {| d_n_nodes := d_n_nodes g; d_n_edges := d_n_edges g; d_adjacency := d_adjacency g; d_is_sparse := d_is_sparse g;
       d_edgelist := d_edgelist g; d_dseq_out := o; d_dseq_in := i; d_out_strength := d_out_strength g;
       d_in_strength := d_in_strength g; d_nz_sout := d_nz_sout g; d_nz_sin := d_nz_sin g; d_nodes_dict := d_nodes_dict g;
       d_is_initialized := d_is_initialized g; d_is_weighted := d_is_weighted g;
       d_deg_kind := k; d_str_kind := d_str_kind g |}.
  (** [n_nodes = ...; n_edges = np.sum(dseq_out); is_initialized = True]. *)
  Definition d_finish (g : dgraph) (o : list R) : dgraph :=
    {| d_n_nodes := Some (length o); d_n_edges := Some (list_total o); d_adjacency := d_adjacency g;
       d_is_sparse := d_is_sparse g; d_edgelist := d_edgelist g; d_dseq_out := d_dseq_out g; d_dseq_in := d_dseq_in g;
       d_out_strength := d_out_strength g; d_in_strength := d_in_strength g; d_nz_sout := d_nz_sout g;
       d_nz_sin := d_nz_sin g; d_nodes_dict := d_nodes_dict g; d_is_initialized := true; d_is_weighted := d_is_weighted g;
       d_deg_kind := d_deg_kind g; d_str_kind := d_str_kind g |}.
  (** Strengths without the index arrays and without is_weighted. *)
  Definition d_put_strengths (g : dgraph) (o i : list R) (k : storage) : dgraph :=
    {| d_n_nodes := d_n_nodes g; d_n_edges := d_n_edges g; d_adjacency := d_adjacency g; d_is_sparse := d_is_sparse g;
       d_edgelist := d_edgelist g; d_dseq_out := d_dseq_out g; d_dseq_in := d_dseq_in g; d_out_strength := Some o;
       d_in_strength := Some i; d_nz_sout := d_nz_sout g; d_nz_sin := d_nz_sin g; d_nodes_dict := d_nodes_dict g;
       d_is_initialized := d_is_initialized g; d_is_weighted := d_is_weighted g;
       d_deg_kind := d_deg_kind g; d_str_kind := k |}.
  (** The index arrays and [is_weighted = True]. *)
  Definition d_put_index (g : dgraph) (o i : list R) : dgraph :=
    {| d_n_nodes := d_n_nodes g; d_n_edges := d_n_edges g; d_adjacency := d_adjacency g; d_is_sparse := d_is_sparse g;
       d_edgelist := d_edgelist g; d_dseq_out := d_dseq_out g; d_dseq_in := d_dseq_in g; d_out_strength := d_out_strength g;
       d_in_strength := d_in_strength g; d_nz_sout := Some (nonzero_reals o); d_nz_sin := Some (nonzero_reals i);
       d_nodes_dict := d_nodes_dict g; d_is_initialized := d_is_initialized g; d_is_weighted := true;
       d_deg_kind := d_deg_kind g; d_str_kind := d_str_kind g |}.
  Definition d_put_n_nodes (g : dgraph) (n : nat) : dgraph :=
    {| d_n_nodes := Some n; d_n_edges := d_n_edges g; d_adjacency := d_adjacency g; d_is_sparse := d_is_sparse g;
       d_edgelist := d_edgelist g; d_dseq_out := d_dseq_out g; d_dseq_in := d_dseq_in g; d_out_strength := d_out_strength g;
       d_in_strength := d_in_strength g; d_nz_sout := d_nz_sout g; d_nz_sin := d_nz_sin g; d_nodes_dict := d_nodes_dict g;
       d_is_initialized := d_is_initialized g; d_is_weighted := d_is_weighted g;
       d_deg_kind := d_deg_kind g; d_str_kind := d_str_kind g |}.
  Definition d_put_init (g : dgraph) (b : bool) : dgraph :=
    {| d_n_nodes := d_n_nodes g; d_n_edges := d_n_edges g; d_adjacency := d_adjacency g; d_is_sparse := d_is_sparse g;
       d_edgelist := d_edgelist g; d_dseq_out := d_dseq_out g; d_dseq_in := d_dseq_in g; d_out_strength := d_out_strength g;
       d_in_strength := d_in_strength g; d_nz_sout := d_nz_sout g; d_nz_sin := d_nz_sin g; d_nodes_dict := d_nodes_dict g;
       d_is_initialized := b; d_is_weighted := d_is_weighted g;
       d_deg_kind := d_deg_kind g; d_str_kind := d_str_kind g |}.

  (** graph_classes.py:1244-1277.  For other kinds of sparse matrix the degrees are
      [None]: [len(None)] raises TypeError, [None.astype] AttributeError. *)
  Definition d_from_matrix (g : dgraph) (k : matkind) (sparse : bool) (n : nat) (a : matrix) : dgraph * option pyexn :=
    if has_negative n a then (g, Some TypeError)
    else
      let g := d_put_adjacency g n a sparse in
      let unweighted := if Req_EM_T (total_sum n a) (INR (total_positive n a)) then true else false in
      match in_degree k n a, out_degree k n a with
      | Some ki, Some ko =>
          let i := to_array n (fun v => INR (ki v)) in
          let o := to_array n (fun v => INR (ko v)) in
          let g := d_put_degrees g (Some o) (Some i) Numbers in
          if unweighted then (d_finish g o, None)
          else
            match in_strength k n a, out_strength k n a with
            | Some si, Some so =>
                (d_finish (d_put_index (d_put_strengths g (to_array n so) (to_array n si) Numbers) (to_array n so) (to_array n si)) o, None)
            | _, _ => (g, Some AttributeError)
            end
      | _, _ => (d_put_degrees g None None Numbers, Some (if unweighted then TypeError else AttributeError))
      end.
  (** graph_classes.py:1235-1277. *)
  Definition d_init_adjacency (g : dgraph) (adj : adj_arg) : dgraph * option pyexn :=
    match adj with
    | NoAdj => (g, None)
    | OtherAdj => (g, Some TypeError)
    | ListAdj _ _ => (g, Some AttributeError)
    | ArrayAdj n a => if Nat.ltb 0 (n * n) then d_from_matrix g Ndarray false n a else (g, None)
    | SparseAdj k stored n a => if Nat.ltb 0 stored then d_from_matrix g k true n a else (g, None)
    end.
  (** graph_classes.py:1279-1309: a weighted list sets neither is_weighted nor the index
      arrays; the degrees are arrays of objects (network_functions.py:372-377, 405-406). *)
  Definition d_init_edges (g : dgraph) (e : edge_arg L) : dgraph * option pyexn :=
    match e with
    | NoEdges => (g, None)
    | OtherEdges => (g, Some TypeError)
    | WideEdges => (g, Some ValueError)
    | PairEdges [] | TripleEdges [] => (g, None)
    | PairEdges es =>
        match edgelist_from_edgelist_directed leb eqb es with
        | None => (g, Some KeyError)
        | Some (es, dout, din, nodes) =>
            (d_finish (d_put_degrees (d_put_edgelist g (map (fun e => (e, None)) es) nodes)
              (Some (map INR dout)) (Some (map INR din)) Objects) (map INR dout), None)
        end
    | TripleEdges es =>
        match edgelist_from_edgelist_directed_w leb eqb es with
        | None => (g, Some KeyError)
        | Some (es, dout, din, sout, sin, nodes) =>
            (d_finish (d_put_strengths (d_put_degrees (d_put_edgelist g (map (fun e => (fst e, Some (snd e))) es) nodes)
              (Some (map INR dout)) (Some (map INR din)) Objects) sout sin Numbers) (map INR dout), None)
        end
    end.
  (** graph_classes.py:1337-1371 and 1373-1399: the same statements. *)
  Definition d_init_strengths (g : dgraph) (s : seq_arg) : dgraph * option pyexn :=
    match s with
    | NoSeq => (g, None)
    | SeqOther => (g, Some TypeError)
    | SeqText => (g, Some TypeError)
    | SeqArray [] | SeqList [] => (g, None)
    | SeqArray v | SeqList v =>
        if list_has_negative v then (g, Some ValueError)
        else if negb (Nat.eqb (length v mod 2) 0) then (g, Some ValueError)
        else
          let n := (length v / 2)%nat in
          let o := firstn n v in let i := skipn n v in
          (d_put_init (d_put_index (d_put_strengths (d_put_n_nodes g n) o i (kind_of s)) o i) true, None)
    end.
  (** graph_classes.py:1311-1371. *)
  Definition d_init_degrees (g : dgraph) (d s : seq_arg) : dgraph * option pyexn :=
    match d with
    | NoSeq => (g, None)
    | SeqOther => (g, Some TypeError)
    | SeqText => (g, Some TypeError)
    | SeqArray [] | SeqList [] => (g, None)
    | SeqArray v | SeqList v =>
        if list_has_negative v then (g, Some ValueError)
        else if negb (Nat.eqb (length v mod 2) 0) then (g, Some ValueError)
        else
          let n := (length v / 2)%nat in
          let o := firstn n v in
          d_init_strengths (d_put_n_nodes (d_finish (d_put_degrees g (Some o) (Some (skipn n v)) (kind_of d)) o) n) s
    end.
  (** graph_classes.py:1227-1399 [_initialize_graph]. *)
  Definition d_initialize (g : dgraph) (adj : adj_arg) (e : edge_arg L) (d s : seq_arg) : dgraph * option pyexn :=
    match adj, e, d with
    | NoAdj, NoEdges, NoSeq => d_init_strengths g s
    | NoAdj, NoEdges, _ => d_init_degrees g d s
    | NoAdj, _, _ => d_init_edges g e
    | _, _, _ => d_init_adjacency g adj
    end.
  (** graph_classes.py:1151-1225 [__init__]. *)
  Definition d_construct (adj : adj_arg) (e : edge_arg L) (d s : seq_arg) : dgraph + pyexn :=
    match d_initialize d_blank adj e d s with
    | (_, Some ex) => inr ex
    | (g, None) => inl g
    end.
  (** graph_classes.py:1401-1449. *)
  Definition d_call (g : dgraph) (c : call) : dgraph * option pyexn :=
    match c with
    | SetAdjacency a => if d_is_initialized g then (g, None) else d_initialize g a NoEdges NoSeq NoSeq
    | SetEdgelist e => if d_is_initialized g then (g, None) else d_initialize g NoAdj e NoSeq NoSeq
    | SetDegrees d => if d_is_initialized g then (g, None) else d_initialize g NoAdj NoEdges d NoSeq
    | CleanEdges =>
        ({| d_n_nodes := d_n_nodes g; d_n_edges := d_n_edges g; d_adjacency := None; d_is_sparse := d_is_sparse g;
            d_edgelist := None; d_dseq_out := d_dseq_out g; d_dseq_in := d_dseq_in g; d_out_strength := d_out_strength g;
            d_in_strength := d_in_strength g; d_nz_sout := d_nz_sout g; d_nz_sin := d_nz_sin g;
            d_nodes_dict := d_nodes_dict g; d_is_initialized := false; d_is_weighted := d_is_weighted g;
       d_deg_kind := d_deg_kind g; d_str_kind := d_str_kind g |}, None)
    end.
  Definition d_calls (g : dgraph) (cs : list call) : dgraph := fold_left (fun g c => fst (d_call g c)) cs g.
End Life.
