(** Matrices, edge lists and degree classes: the properties.  Each proof is one [exact]
    of a lemma. *)
From Coq Require Import Reals List Arith Bool Lia Lra.
From Verif Require Import Base SpecGraph SpecDirected ModelNetwork SpecNetwork ProofsUnique ProofsNetwork ProofsAdjacency WitnessNetwork.
Import ListNotations.

(** C41 *)
Theorem C41_sequences_meaning :
  forall k n a,
  k <> OtherKind ->
  (exists f, out_degree k n a = Some f /\ forall i, f i = count (fun j => positiveb (a i j)) (seq 0 n)) /\
  (exists f, in_degree k n a = Some f /\ forall j, f j = count (fun i => positiveb (a i j)) (seq 0 n)) /\
  (exists f, degree k n a = Some f /\ forall i, f i = count (fun j => positiveb (a i j)) (seq 0 n)) /\
  (exists f, out_strength k n a = Some f /\ forall i, f i = rsum n (fun j => a i j)) /\
  (exists f, in_strength k n a = Some f /\ forall j, f j = rsum n (fun i => a i j)) /\
  (exists f, strength k n a = Some f /\ forall i, f i = rsum n (fun j => a i j)).
Proof. exact sequences_meaning. Qed.
Print Assumptions C41_sequences_meaning.

Theorem C41_degree_totals :
  forall k n a ko ki,
  out_degree k n a = Some ko -> in_degree k n a = Some ki ->
  nsum n ko = nsum n ki /\ nsum n ko = count (fun ij => positiveb (a (fst ij) (snd ij))) (node_pairs n).
Proof. exact degree_totals. Qed.
Print Assumptions C41_degree_totals.

Theorem C41_strength_totals :
  forall k n a so si,
  out_strength k n a = Some so -> in_strength k n a = Some si -> rsum n so = rsum n si.
Proof. exact strength_totals. Qed.
Print Assumptions C41_strength_totals.

Theorem C41_symmetric :
  forall k n a ko ki d so si s,
  (forall i j, i < n -> j < n -> a i j = a j i) ->
  out_degree k n a = Some ko -> in_degree k n a = Some ki -> degree k n a = Some d ->
  out_strength k n a = Some so -> in_strength k n a = Some si -> strength k n a = Some s ->
  forall i, i < n -> ko i = ki i /\ d i = ko i /\ so i = si i /\ s i = so i.
Proof. exact symmetric_sequences. Qed.
Print Assumptions C41_symmetric.

Theorem C41_hollow :
  forall k n a ko ki,
  (forall i, i < n -> a i i = 0%R) ->
  out_degree k n a = Some ko -> in_degree k n a = Some ki -> forall i, i < n -> ko i <= n - 1 /\ ki i <= n - 1.
Proof. exact hollow_degrees. Qed.
Print Assumptions C41_hollow.

Theorem C41_relabelling :
  forall k n a p ko ki so si ko' ki' so' si',
  relabelling n p ->
  out_degree k n a = Some ko -> in_degree k n a = Some ki -> out_strength k n a = Some so -> in_strength k n a = Some si ->
  out_degree k n (fun i j => a (p i) (p j)) = Some ko' -> in_degree k n (fun i j => a (p i) (p j)) = Some ki' ->
  out_strength k n (fun i j => a (p i) (p j)) = Some so' -> in_strength k n (fun i j => a (p i) (p j)) = Some si' ->
  forall i, i < n -> ko' i = ko (p i) /\ ki' i = ki (p i) /\ so' i = so (p i) /\ si' i = si (p i).
Proof. exact relabel_sequences. Qed.
Print Assumptions C41_relabelling.

Theorem C41_other_kinds_raise :
  forall n a,
  out_degree OtherKind n a = None /\ in_degree OtherKind n a = None /\ degree OtherKind n a = None /\
  out_strength OtherKind n a = None /\ in_strength OtherKind n a = None /\ strength OtherKind n a = None.
Proof. exact sequences_other. Qed.
Print Assumptions C41_other_kinds_raise.

Example C41_nonvacuous :
  exists ko ki so, out_degree Csr 3 sample_matrix = Some ko /\ in_degree Csr 3 sample_matrix = Some ki /\
  out_strength Csr 3 sample_matrix = Some so /\ map ko [0; 1; 2] = [2; 0; 1] /\ map ki [0; 1; 2] = [0; 1; 2] /\ so 0 = 4%R.
Proof. exact sample_sequences. Qed.

Example C41_relabelling_nonvacuous :
  relabelling 3 (fun i => 2 - i).
Proof. exact sample_relabelling. Qed.

(** C42 *)
Theorem C42_undirected :
  forall (K : Type) (leb eqb : K -> K -> bool) (es : list (K * K)),
  total_order leb eqb -> es <> [] -> exists es' deg nodes,
  edgelist_from_edgelist_undirected leb eqb es = Some (es', deg, nodes) /\
  increasing leb nodes /\ (forall v, In v nodes <-> is_end v es) /\
  map (relabel nodes) es' = map Some es /\ gapless (length nodes) es' /\
  length deg = length nodes /\
  (forall i v, nth_error nodes i = Some v -> nth_error deg i = Some (incidences eqb v es)) /\
  list_sum deg = 2 * length es.
Proof. exact edgelist_undirected_closed. Qed.
Print Assumptions C42_undirected.

Theorem C42_undirected_weighted :
  forall (K : Type) (leb eqb : K -> K -> bool) (es : list (K * K * R)),
  total_order leb eqb -> es <> [] -> exists es' deg st nodes,
  edgelist_from_edgelist_undirected_w leb eqb es = Some (es', deg, st, nodes) /\
  increasing leb nodes /\ (forall v, In v nodes <-> is_end v (map fst es)) /\
  map (fun e => relabel nodes (fst e)) es' = map (fun e => Some (fst e)) es /\ map snd es' = map snd es /\
  gapless (length nodes) (map fst es') /\
  length deg = length nodes /\ length st = length nodes /\
  (forall i v, nth_error nodes i = Some v ->
     nth_error deg i = Some (incidences eqb v (map fst es)) /\ nth_error st i = Some (incident_weight eqb v es)) /\
  list_sum deg = 2 * length es /\ total st = (2 * total (map snd es))%R.
Proof. exact edgelist_undirected_w_closed. Qed.
Print Assumptions C42_undirected_weighted.

Theorem C42_directed :
  forall (K : Type) (leb eqb : K -> K -> bool) (es : list (K * K)),
  total_order leb eqb -> es <> [] -> exists es' dout din nodes,
  edgelist_from_edgelist_directed leb eqb es = Some (es', dout, din, nodes) /\
  increasing leb nodes /\ (forall v, In v nodes <-> is_end v es) /\
  map (relabel nodes) es' = map Some es /\ gapless (length nodes) es' /\
  length dout = length nodes /\ length din = length nodes /\
  (forall i v, nth_error nodes i = Some v ->
     nth_error dout i = Some (count (fun e => eqb (fst e) v) es) /\ nth_error din i = Some (count (fun e => eqb (snd e) v) es)) /\
  list_sum dout = length es /\ list_sum din = length es.
Proof. exact edgelist_directed_closed. Qed.
Print Assumptions C42_directed.

Theorem C42_directed_weighted :
  forall (K : Type) (leb eqb : K -> K -> bool) (es : list (K * K * R)),
  total_order leb eqb -> es <> [] -> exists es' dout din sout sin nodes,
  edgelist_from_edgelist_directed_w leb eqb es = Some (es', dout, din, sout, sin, nodes) /\
  increasing leb nodes /\ (forall v, In v nodes <-> is_end v (map fst es)) /\
  map (fun e => relabel nodes (fst e)) es' = map (fun e => Some (fst e)) es /\ map snd es' = map snd es /\
  gapless (length nodes) (map fst es') /\
  length dout = length nodes /\ length din = length nodes /\ length sout = length nodes /\ length sin = length nodes /\
  (forall i v, nth_error nodes i = Some v ->
     nth_error dout i = Some (count (fun e => eqb (fst (fst e)) v) es) /\ nth_error din i = Some (count (fun e => eqb (snd (fst e)) v) es) /\
     nth_error sout i = Some (weight_of (fun e => eqb (fst (fst e)) v) snd es) /\
     nth_error sin i = Some (weight_of (fun e => eqb (snd (fst e)) v) snd es)) /\
  list_sum dout = length es /\ list_sum din = length es /\ total sout = total (map snd es) /\ total sin = total (map snd es).
Proof. exact edgelist_directed_w_closed. Qed.
Print Assumptions C42_directed_weighted.

Theorem C42_empty_raises :
  forall (K : Type) (leb eqb : K -> K -> bool),
  edgelist_from_edgelist_undirected leb eqb [] = None /\ edgelist_from_edgelist_undirected_w leb eqb [] = None /\
  edgelist_from_edgelist_directed leb eqb [] = None /\ edgelist_from_edgelist_directed_w leb eqb [] = None.
Proof. exact edgelist_empty. Qed.
Print Assumptions C42_empty_raises.

Example C42_nonvacuous_order :
  total_order Nat.leb Nat.eqb /\ sample_edges <> [].
Proof. exact sample_order. Qed.

Example C42_nonvacuous :
  edgelist_from_edgelist_undirected Nat.leb Nat.eqb sample_edges =
  Some ([(1, 0); (0, 2); (1, 2); (0, 0)], [4; 2; 2], [3; 7; 9]).
Proof. exact sample_edges_und. Qed.

Example C42_nonvacuous_directed :
  edgelist_from_edgelist_directed Nat.leb Nat.eqb sample_edges =
  Some ([(1, 0); (0, 2); (1, 2); (0, 0)], [2; 2; 0], [2; 0; 2], [3; 7; 9]).
Proof. exact sample_edges_dir. Qed.

(** C43.  The matrix has the right entries whenever the call succeeds, and it succeeds
    exactly when the labels are [0 .. n-1]; otherwise memory outside the array is written. *)
Theorem C43_adjacency :
  forall es d,
  match build_adjacency_fast es d with
  | Adj n a => gapless n es /\ (forall i j, a i j = if existsb (covers d i j) es then 1%R else 0%R) /\
      (d = false -> forall i j, a i j = a j i)
  | OutOfBounds => forall n, ~ gapless n es
  | AdjRaised => False
  end.
Proof. exact adjacency_binary. Qed.
Print Assumptions C43_adjacency.

Theorem C43_adjacency_weighted :
  forall es d,
  match build_adjacency_fast_weighted es d with
  | Adj n a => gapless n (map fst es) /\
      (forall i j l1 e l2, es = l1 ++ e :: l2 -> covers d i j (fst e) = true ->
         (forall f, In f l2 -> covers d i j (fst f) = false) -> a i j = snd e) /\
      (forall i j, (forall e, In e es -> covers d i j (fst e) = false) -> a i j = 0%R) /\
      (d = false -> forall i j, a i j = a j i)
  | OutOfBounds => forall n, ~ gapless n (map fst es)
  | AdjRaised => False
  end.
Proof. exact adjacency_weighted. Qed.
Print Assumptions C43_adjacency_weighted.

Theorem C43_adjacency_succeeds :
  forall es d n,
  gapless n es -> exists a, build_adjacency_fast es d = Adj n a.
Proof. exact adjacency_gapless. Qed.
Print Assumptions C43_adjacency_succeeds.

Theorem C43_degrees_undirected :
  forall es n a deg,
  simple_edges false es -> build_adjacency_fast es false = Adj n a ->
  degree Ndarray n a = Some deg -> forall i, i < n -> deg i = incidences Nat.eqb i es.
Proof. exact adjacency_degrees_und. Qed.
Print Assumptions C43_degrees_undirected.

Theorem C43_degrees_directed :
  forall es n a ko ki,
  simple_edges true es -> build_adjacency_fast es true = Adj n a ->
  out_degree Ndarray n a = Some ko -> in_degree Ndarray n a = Some ki ->
  forall i, i < n -> ko i = count (fun e => Nat.eqb (fst e) i) es /\ ki i = count (fun e => Nat.eqb (snd e) i) es.
Proof. exact adjacency_degrees_dir. Qed.
Print Assumptions C43_degrees_directed.

Theorem C43_after_relabelling :
  forall (K : Type) (leb eqb : K -> K -> bool) (es : list (K * K)) es' deg nodes,
  total_order leb eqb -> edgelist_from_edgelist_undirected leb eqb es = Some (es', deg, nodes) ->
  exists a, build_adjacency_fast es' false = Adj (length nodes) a /\
  (simple_edges false es -> exists k, degree Ndarray (length nodes) a = Some k /\
     forall i, i < length nodes -> nth_error deg i = Some (k i)).
Proof. exact relabelled_adjacency. Qed.
Print Assumptions C43_after_relabelling.

Theorem C43_gap_refuted :
  exists es, es <> [] /\ build_adjacency_fast es false = OutOfBounds /\ build_adjacency_fast es true = OutOfBounds.
Proof. exact adjacency_gap_refuted. Qed.
Print Assumptions C43_gap_refuted.

Theorem C43_degrees_refuted :
  exists es1 es2 n1 n2 a1 a2 d1 d2,
  build_adjacency_fast es1 false = Adj n1 a1 /\ degree Ndarray n1 a1 = Some d1 /\ d1 0 <> incidences Nat.eqb 0 es1 /\
  NoDup es1 /\
  build_adjacency_fast es2 false = Adj n2 a2 /\ degree Ndarray n2 a2 = Some d2 /\ d2 0 <> incidences Nat.eqb 0 es2 /\
  (forall i, ~ In (i, i) es2).
Proof. exact adjacency_degrees_refuted. Qed.
Print Assumptions C43_degrees_refuted.

Theorem C43_sparse_refuted :
  forall es wes d,
  build_adjacency_sparse es d = AdjRaised /\ build_adjacency_sparse_weighted wes d = AdjRaised /\
  forall b w, build_adjacency_from_edgelist b wes d true w = AdjRaised.
Proof. exact sparse_raises. Qed.
Print Assumptions C43_sparse_refuted.

Example C43_nonvacuous :
  gapless 3 [(0, 1); (1, 2)] /\ simple_edges false [(0, 1); (1, 2)] /\ simple_edges true [(0, 1); (1, 2); (1, 0)] /\
  gapless 3 [(0, 1); (1, 2); (1, 0)].
Proof. exact sample_gapless. Qed.

(** C44 *)
Theorem C44_classes_undirected :
  forall dseq,
  exists r first inv mult, degree_reduction_und dseq = (r, first, inv, mult) /\
  reduction_ok Nat.leb dseq r first inv mult.
Proof. exact reduction_undirected. Qed.
Print Assumptions C44_classes_undirected.

Theorem C44_classes_directed :
  forall dseq_out dseq_in,
  length dseq_out = length dseq_in ->
  let R := degree_reduction_dir dseq_out dseq_in in let m := length (r_dseq R) in
  reduction_ok pair_leb (combine dseq_out dseq_in) (r_dseq R) (r_index_dseq R) (r_invert_dseq R) (r_multiplicity R) /\
  rnz_n_out R = m /\ rnz_n_in R = m /\ rnz_dim R = 2 * m /\
  (forall i ko ki, nth_error dseq_out i = Some ko -> nth_error dseq_in i = Some ki ->
     exists q, nth_error (r_invert_dseq R) i = Some q /\ nth_error (rnz_dseq_out R) q = Some ko /\ nth_error (rnz_dseq_in R) q = Some ki) /\
  nonzero_list m (fun q => INR (nth q (rnz_dseq_out R) 0)) (nz_index_out R) /\
  nonzero_list m (fun q => INR (nth q (rnz_dseq_in R) 0)) (nz_index_in R).
Proof. exact reduction_directed. Qed.
Print Assumptions C44_classes_directed.

Example C44_nonvacuous :
  degree_reduction_und [2; 0; 2; 1; 2] = ([0; 1; 2], [1; 3; 0], [2; 0; 2; 1; 2], [1; 1; 3]).
Proof. exact sample_reduction. Qed.

Example C44_nonvacuous_directed :
  let R := degree_reduction_dir [1; 0; 1; 1] [1; 2; 1; 0] in
  r_dseq R = [(0, 2); (1, 0); (1, 1)] /\ r_invert_dseq R = [2; 0; 2; 1] /\ r_multiplicity R = [1; 1; 2] /\
  nz_index_out R = [1; 2] /\ nz_index_in R = [0; 2].
Proof. exact sample_reduction_dir. Qed.
