(** Matrices, edge lists and degree classes: transcription of network_functions.py
    (first part) and of the two [degree_reduction] methods. *)
From Coq Require Import Reals List Arith Bool.
From Verif Require Import Base.
Import ListNotations.

(** * numpy.unique (an external function, given here by an executable definition) *)
Section Unique.
  Context {K : Type}.
  Variables (leb eqb : K -> K -> bool).
  Fixpoint insert (v : K) (l : list K) : list K :=
    match l with
    | [] => [v]
    | u :: t => if leb v u then v :: l else u :: insert v t
    end.
  Fixpoint isort (l : list K) : list K :=
    match l with [] => [] | v :: t => insert v (isort t) end.
  (** Runs of equal neighbours with their lengths. *)
  Fixpoint runs (l : list K) : list (K * nat) :=
    match l with
    | [] => []
    | v :: t =>
        match runs t with
        | (u, c) :: r => if eqb v u then (u, S c) :: r else (v, 1) :: (u, c) :: r
        | [] => [(v, 1)]
        end
    end.
  Definition np_unique (l : list K) : list K := map fst (runs (isort l)).
  (** [return_counts=True]. *)
  Definition np_counts (l : list K) : list nat := map snd (runs (isort l)).
  (** First position of [v]; the length of the list when absent. *)
  Fixpoint position (v : K) (l : list K) : nat :=
    match l with [] => 0 | u :: t => if eqb u v then 0 else S (position v t) end.
  (** [return_inverse=True]. *)
  Definition np_inverse (l : list K) : list nat := map (fun v => position v (np_unique l)) l.
  (** [return_index=True]. *)
  Definition np_first (l : list K) : list nat := map (fun v => position v l) (np_unique l).
End Unique.

(** * Degrees and strengths *)
(** The type test of the functions below. *)
Inductive matkind : Type := Ndarray | Csr | Coo | OtherKind.
Definition matrix : Type := nat -> nat -> R.

(** Number of positive entries of a vector: [np.sum(v > 0)]. *)
Definition count_positive (n : nat) (v : nat -> R) : nat :=
  loop n 0 (fun j s => if Rlt_dec 0 (v j) then S s else s).
(** [np.sum(v)]. *)
Definition np_sum (n : nat) (v : nat -> R) : R := loop n 0%R (fun j s => (s + v j)%R).

(** Functions returning [None] when no branch of the type test applies (Python's
    implicit [return None]). *)
Definition on_kind {A : Type} (k : matkind) (a : A) : option A :=
  match k with Ndarray | Csr | Coo => Some a | OtherKind => None end.

(** network_functions.py:158-172 [out_degree]. *)
Definition out_degree (k : matkind) (n : nat) (a : matrix) : option (nat -> nat) :=
  on_kind k (fun i => count_positive n (fun j => a i j)).
(** network_functions.py:175-189 [in_degree]. *)
Definition in_degree (k : matkind) (n : nat) (a : matrix) : option (nat -> nat) :=
  on_kind k (fun j => count_positive n (fun i => a i j)).
(** network_functions.py:192-206 [out_strength]. *)
Definition out_strength (k : matkind) (n : nat) (a : matrix) : option (nat -> R) :=
  on_kind k (fun i => np_sum n (fun j => a i j)).
(** network_functions.py:209-223 [in_strength]. *)
Definition in_strength (k : matkind) (n : nat) (a : matrix) : option (nat -> R) :=
  on_kind k (fun j => np_sum n (fun i => a i j)).
(** network_functions.py:226-239 [degree]. *)
Definition degree (k : matkind) (n : nat) (a : matrix) : option (nat -> nat) :=
  on_kind k (fun i => count_positive n (fun j => a i j)).
(** network_functions.py:242-255 [strength]. *)
Definition strength (k : matkind) (n : nat) (a : matrix) : option (nat -> R) :=
  on_kind k (fun i => np_sum n (fun j => a i j)).

(** * Edge lists *)
Fixpoint omap {A B : Type} (f : A -> option B) (l : list A) : option (list B) :=
  match l with
  | [] => Some []
  | a :: t => match f a with
              | None => None
              | Some b => match omap f t with None => None | Some t => Some (b :: t) end
              end
  end.
Definition sum_list (l : list R) : R := fold_right Rplus 0%R l.
(** [arr[indices] = values] on an integer array. *)
Definition scatter {A : Type} (indices : list nat) (values : list A) (arr : nat -> A) : nat -> A :=
  fold_left (fun arr iv => upd arr (fst iv) (snd iv)) (combine indices values) arr.

Section Edgelist.
  Context {L : Type}.
  Variables (leb eqb : L -> L -> bool).

  (** network_functions.py:296, 379 [{v: k for k, v in nodes_dict.items()}] and its lookup;
      [None] is a KeyError. *)
  Definition inv_nodes_dict (nodes : list L) (v : L) : option nat :=
    fold_left (fun acc kv => if eqb (snd kv) v then Some (fst kv) else acc)
      (combine (seq 0 (length nodes)) nodes) None.
  (** network_functions.py:298-301, 381-384: new labels of one edge. *)
  Definition new_edge (nodes : list L) (e : L * L) : option (nat * nat) :=
    match inv_nodes_dict nodes (fst e), inv_nodes_dict nodes (snd e) with
    | Some s, Some t => Some (s, t)
    | _, _ => None
    end.
  (** network_functions.py:306-309, 389-392: weighted version. *)
  Definition new_wedge (nodes : list L) (e : L * L * R) : option (nat * nat * R) :=
    match new_edge nodes (fst e) with Some st => Some (st, snd e) | None => None end.

  (** network_functions.py:258-327 [edgelist_from_edgelist_undirected] on pairs.
      [edgelist[0]] raises on an empty list; nodes_dict is the array of labels. *)
  Definition edgelist_from_edgelist_undirected (es : list (L * L))
      : option (list (nat * nat) * list nat * list L) :=
    match es with
    | [] => None
    | _ =>
        let ends := map fst es ++ map snd es in
        let unique_nodes := np_unique leb eqb ends in
        let degree_seq := np_counts leb eqb ends in
        match omap (new_edge unique_nodes) es with
        | None => None
        | Some edgelist_new => Some (edgelist_new, degree_seq, unique_nodes)
        end
    end.
  (** ... and on triples, with the strengths. *)
  Definition edgelist_from_edgelist_undirected_w (es : list (L * L * R))
      : option (list (nat * nat * R) * list nat * list R * list L) :=
    match es with
    | [] => None
    | _ =>
        let ends := map (fun e => fst (fst e)) es ++ map (fun e => snd (fst e)) es in
        let unique_nodes := np_unique leb eqb ends in
        let degree_seq := np_counts leb eqb ends in
        match omap (new_wedge unique_nodes) es with
        | None => None
        | Some edgelist_new =>
            let aux_edgelist := map (fun e => fst (fst e)) edgelist_new ++ map (fun e => snd (fst e)) edgelist_new in
            let aux_weights := map snd edgelist_new ++ map snd edgelist_new in
            let strength_seq := map (fun i =>
              sum_list (map snd (filter (fun aw => Nat.eqb (fst aw) i) (combine aux_edgelist aux_weights))))
              (seq 0 (length unique_nodes)) in
            Some (edgelist_new, degree_seq, strength_seq, unique_nodes)
        end
    end.

  (** network_functions.py:376-377, 399-406: an array of zeros of length [n], then
      [arr[indices] = counts]. *)
  Definition degrees_at (n : nat) (ends : list nat) : list nat :=
    let indices := np_unique Nat.leb Nat.eqb ends in
    let counts := np_counts Nat.leb Nat.eqb ends in
    map (scatter indices counts (fun _ => 0)) (seq 0 n).
  (** network_functions.py:408-423: the same for weights. *)
  Definition strengths_at (n : nat) (ends : list nat) (weights : list R) : list R :=
    let indices := np_unique Nat.leb Nat.eqb ends in
    let counts := map (fun i => sum_list (map snd (filter (fun ew => Nat.eqb (fst ew) i) (combine ends weights)))) indices in
    map (scatter indices counts (fun _ => 0%R)) (seq 0 n).

  (** network_functions.py:330-432 [edgelist_from_edgelist_directed] on pairs. *)
  Definition edgelist_from_edgelist_directed (es : list (L * L))
      : option (list (nat * nat) * list nat * list nat * list L) :=
    match es with
    | [] => None
    | _ =>
        let unique_nodes := np_unique leb eqb (map fst es ++ map snd es) in
        match omap (new_edge unique_nodes) es with
        | None => None
        | Some edgelist_new =>
            let n := length unique_nodes in
            Some (edgelist_new, degrees_at n (map fst edgelist_new), degrees_at n (map snd edgelist_new), unique_nodes)
        end
    end.
  (** ... and on triples. *)
  Definition edgelist_from_edgelist_directed_w (es : list (L * L * R))
      : option (list (nat * nat * R) * list nat * list nat * list R * list R * list L) :=
    match es with
    | [] => None
    | _ =>
        let unique_nodes := np_unique leb eqb (map (fun e => fst (fst e)) es ++ map (fun e => snd (fst e)) es) in
        match omap (new_wedge unique_nodes) es with
        | None => None
        | Some edgelist_new =>
            let n := length unique_nodes in
            let sources := map (fun e => fst (fst e)) edgelist_new in
            let targets := map (fun e => snd (fst e)) edgelist_new in
            let weights := map snd edgelist_new in
            Some (edgelist_new, degrees_at n sources, degrees_at n targets,
                  strengths_at n sources weights, strengths_at n targets weights, unique_nodes)
        end
    end.
End Edgelist.

(** * Adjacency matrix of an edge list with labels that are nonnegative integers *)
(** Results: a matrix with its size; an exception; or an access outside the array
    (undefined behaviour of compiled code, which does not check bounds). *)
Inductive adj_result : Type := Adj (n : nat) (a : matrix) | OutOfBounds | AdjRaised.

Definition in_range (n : nat) (e : nat * nat) : bool := Nat.ltb (fst e) n && Nat.ltb (snd e) n.
Definition mset (a : matrix) (i j : nat) (v : R) : matrix := upd a i (upd (a i) j v).
(** network_functions.py:55, 63, 112, 121: [len(set(..) | set(..))]. *)
Definition n_labels (es : list (nat * nat)) : nat := length (nodup Nat.eq_dec (map fst es ++ map snd es)).

(** network_functions.py:43-71 [build_adjacency_fast]. *)
Definition build_adjacency_fast (es : list (nat * nat)) (is_directed : bool) : adj_result :=
  let n_nodes := n_labels es in
  if forallb (in_range n_nodes) es then
    Adj n_nodes (fold_left (fun adj e =>
      let i := fst e in let j := snd e in
      if is_directed then mset adj i j 1%R else mset (mset adj i j 1%R) j i 1%R) es (fun _ _ => 0%R))
  else OutOfBounds.

(** network_functions.py:100-131 [build_adjacency_fast_weighted]. *)
Definition build_adjacency_fast_weighted (es : list (nat * nat * R)) (is_directed : bool) : adj_result :=
  let n_nodes := n_labels (map fst es) in
  if forallb (in_range n_nodes) (map fst es) then
    Adj n_nodes (fold_left (fun adj e =>
      let i := fst (fst e) in let j := snd (fst e) in let w := snd e in
      if is_directed then mset adj i j w else mset (mset adj i j w) j i w) es (fun _ _ => 0%R))
  else OutOfBounds.

(** Python values met by the sparse versions, where [n_nodes] is a set. *)
Inductive pyval : Type := PyInt (n : nat) | PySet (l : list nat).
(** [np.ones(v)] and a [shape] component must be integers. *)
Definition as_int (v : pyval) : option nat := match v with PyInt n => Some n | PySet _ => None end.

(** scipy's [csr_matrix((data, (row, col)), shape=(n, n))]: duplicates are added; an
    index outside the shape or a length mismatch raises. *)
Definition csr_matrix (data : list R) (row col : list nat) (n : nat) : adj_result :=
  if Nat.eqb (length data) (length row) && Nat.eqb (length data) (length col)
     && forallb (in_range n) (combine row col) then
    Adj n (fold_left (fun a e => mset a (fst (fst e)) (snd (fst e)) (a (fst (fst e)) (snd (fst e)) + snd e)%R)
      (combine (combine row col) data) (fun _ _ => 0%R))
  else AdjRaised.

(** network_functions.py:74-97 [build_adjacency_sparse]. *)
Definition build_adjacency_sparse (es : list (nat * nat)) (is_directed : bool) : adj_result :=
  let n_nodes := PySet (nodup Nat.eq_dec (map fst es ++ map snd es)) in
  match as_int n_nodes with
  | None => AdjRaised
  | Some n =>
      if is_directed then csr_matrix (repeat 1%R n) (map fst es) (map snd es) n
      else csr_matrix (repeat 1%R (2 * n)) (map fst es ++ map snd es) (map snd es ++ map fst es) n
  end.
(** network_functions.py:134-155 [build_adjacency_sparse_weighted]. *)
Definition build_adjacency_sparse_weighted (es : list (nat * nat * R)) (is_directed : bool) : adj_result :=
  let n_nodes := PySet (nodup Nat.eq_dec (map (fun e => fst (fst e)) es ++ map (fun e => snd (fst e)) es)) in
  let src := map (fun e => fst (fst e)) es in let tgt := map (fun e => snd (fst e)) es in
  match as_int n_nodes with
  | None => AdjRaised
  | Some n =>
      if is_directed then csr_matrix (map snd es) src tgt n
      else csr_matrix (map snd es ++ map snd es) (src ++ tgt) (tgt ++ src) n
  end.

(** network_functions.py:9-40 [build_adjacency_from_edgelist]; the weighted call of an
    unweighted list is not modelled. *)
Definition build_adjacency_from_edgelist (is_ndarray : bool) (es : list (nat * nat * R)) (is_directed is_sparse is_weighted : bool)
    : adj_result :=
  if negb is_ndarray then AdjRaised
  else if is_sparse then
    if is_weighted then build_adjacency_sparse_weighted es is_directed else build_adjacency_sparse (map fst es) is_directed
  else if is_weighted then build_adjacency_fast_weighted es is_directed else build_adjacency_fast (map fst es) is_directed.

(** * Degree classes *)
(** graph_classes.py:366-381 [UndirectedGraph.degree_reduction]:
    (r_dseq, r_index_dseq, r_invert_dseq, r_multiplicity). *)
Definition degree_reduction_und (dseq : list nat) : list nat * list nat * list nat * list nat :=
  (np_unique Nat.leb Nat.eqb dseq, np_first Nat.leb Nat.eqb dseq,
   np_inverse Nat.leb Nat.eqb dseq, np_counts Nat.leb Nat.eqb dseq).

(** Rows are compared lexicographically. *)
Definition pair_leb (a b : nat * nat) : bool :=
  Nat.ltb (fst a) (fst b) || (Nat.eqb (fst a) (fst b) && Nat.leb (snd a) (snd b)).
Definition pair_eqb (a b : nat * nat) : bool := Nat.eqb (fst a) (fst b) && Nat.eqb (snd a) (snd b).
(** [np.nonzero(v)[0]]. *)
Definition np_nonzero (v : list nat) : list nat :=
  map fst (filter (fun iv => negb (Nat.eqb (snd iv) 0)) (combine (seq 0 (length v)) v)).

Record reduction : Type := {
  r_dseq : list (nat * nat); r_index_dseq : list nat; r_invert_dseq : list nat; r_multiplicity : list nat;
  rnz_dseq_out : list nat; rnz_dseq_in : list nat; nz_index_out : list nat; nz_index_in : list nat;
  rnz_n_out : nat; rnz_n_in : nat; rnz_dim : nat
}.
(** graph_classes.py:1576-1604 [DirectedGraph.degree_reduction]. *)
Definition degree_reduction_dir (dseq_out dseq_in : list nat) : reduction :=
  let dseq := combine dseq_out dseq_in in
  let u := np_unique pair_leb pair_eqb dseq in
  {| r_dseq := u; r_index_dseq := np_first pair_leb pair_eqb dseq; r_invert_dseq := np_inverse pair_leb pair_eqb dseq;
     r_multiplicity := np_counts pair_leb pair_eqb dseq;
     rnz_dseq_out := map fst u; rnz_dseq_in := map snd u;
     nz_index_out := np_nonzero (map fst u); nz_index_in := np_nonzero (map snd u);
     rnz_n_out := length (map fst u); rnz_n_in := length (map snd u);
     rnz_dim := length (map fst u) + length (map snd u) |}.
