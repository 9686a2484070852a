(** Graph objects: the properties.  Each proof is one [exact] of a lemma. *)
From Coq Require Import Reals List Arith Bool Lia Lra.
From Verif Require Import Base SpecGraph SpecNetwork ModelNetwork ModelLife SpecLife ProofsLife ProofsLifeDir ProofsLifeForms WitnessLife WitnessNetwork.
Import ListNotations.
Local Open Scope R_scope.

(** C57.  [set_*] on an initialised object. *)
Theorem C57_set_on_initialised :
  forall (L : Type) (leb eqb : L -> L -> bool) (g : @ugraph L) (c : @call L),
  u_is_initialized g = true -> c <> CleanEdges -> u_call leb eqb g c = (g, None).
Proof. exact u_noop. Qed.
Print Assumptions C57_set_on_initialised.

Theorem C57_set_on_initialised_directed :
  forall (L : Type) (leb eqb : L -> L -> bool) (g : @dgraph L) (c : @call L),
  d_is_initialized g = true -> c <> CleanEdges -> d_call leb eqb g c = (g, None).
Proof. exact d_noop. Qed.
Print Assumptions C57_set_on_initialised_directed.

(** Whatever the calls, the object holds the nodes, degrees and edge count of the first
    accepted argument since the last [clean_edges]; every history has exactly one. *)
Theorem C57_histories :
  forall (L : Type) (leb eqb : L -> L -> bool) (g : @ugraph L) (cs : list (@call L)) (o : option call),
  total_order leb eqb -> u_is_initialized g = false -> current u_accepted cs o ->
  match o with
  | None => u_is_initialized (u_calls leb eqb g cs) = false
  | Some c => u_is_initialized (u_calls leb eqb g cs) = true /\ exists d, u_describes leb eqb c d /\
      u_n_nodes (u_calls leb eqb g cs) = Some (length d) /\ u_dseq (u_calls leb eqb g cs) = Some d /\
      u_n_edges (u_calls leb eqb g cs) = Some (total d / 2)
  end.
Proof. exact u_histories. Qed.
Print Assumptions C57_histories.

Theorem C57_histories_directed :
  forall (L : Type) (leb eqb : L -> L -> bool) (g : @dgraph L) (cs : list (@call L)) (o : option call),
  total_order leb eqb -> d_is_initialized g = false -> current d_accepted cs o ->
  match o with
  | None => d_is_initialized (d_calls leb eqb g cs) = false
  | Some c => d_is_initialized (d_calls leb eqb g cs) = true /\ exists do di, d_describes leb eqb c do di /\
      d_n_nodes (d_calls leb eqb g cs) = Some (length do) /\ d_dseq_out (d_calls leb eqb g cs) = Some do /\
      d_dseq_in (d_calls leb eqb g cs) = Some di /\ d_n_edges (d_calls leb eqb g cs) = Some (total do)
  end.
Proof. exact d_histories. Qed.
Print Assumptions C57_histories_directed.

Theorem C57_history_defined :
  forall (L : Type) (cs : list (@call L)),
  (exists o, current u_accepted cs o) /\ (exists o, current d_accepted cs o).
Proof. exact history_defined. Qed.
Print Assumptions C57_history_defined.

Theorem C57_history_unique :
  forall (L : Type) (acc : @call L -> Prop) (cs : list call),
  ~ acc CleanEdges ->
  forall o o', current acc cs o -> current acc cs o' -> o = o'.
Proof. exact current_function. Qed.
Print Assumptions C57_history_unique.

(** Invalid arguments. *)
Theorem C57_raise_uninitialised :
  forall (L : Type) (leb eqb : L -> L -> bool) (g g' : @ugraph L) (c : @call L) (ex : pyexn),
  u_call leb eqb g c = (g', Some ex) -> u_is_initialized g' = false.
Proof. exact u_raising. Qed.
Print Assumptions C57_raise_uninitialised.

Theorem C57_raise_uninitialised_directed :
  forall (L : Type) (leb eqb : L -> L -> bool) (g g' : @dgraph L) (c : @call L) (ex : pyexn),
  d_call leb eqb g c = (g', Some ex) -> d_is_initialized g' = false.
Proof. exact d_raising. Qed.
Print Assumptions C57_raise_uninitialised_directed.

Theorem C57_invalid_raises :
  forall (L : Type) (leb eqb : L -> L -> bool) (c : @call L) (ex : pyexn),
  invalid c (Some ex) ->
  u_new leb eqb c = inr ex /\ forall g, u_is_initialized g = false -> snd (u_call leb eqb g c) = Some ex.
Proof. exact u_invalid_raises. Qed.
Print Assumptions C57_invalid_raises.

Theorem C57_invalid_raises_directed :
  forall (L : Type) (leb eqb : L -> L -> bool) (c : @call L) (ex : pyexn),
  invalid c (Some ex) ->
  d_new leb eqb c = inr ex /\ forall g, d_is_initialized g = false -> snd (d_call leb eqb g c) = Some ex.
Proof. exact d_invalid_raises. Qed.
Print Assumptions C57_invalid_raises_directed.

Theorem C57_odd_degrees_raise :
  forall (L : Type) (leb eqb : L -> L -> bool) (g : @dgraph L) (v : list R),
  d_is_initialized g = false -> v <> [] -> ~ Nat.Even (length v) ->
  snd (d_call leb eqb g (SetDegrees (SeqArray v))) = Some ValueError.
Proof. exact d_odd_raises. Qed.
Print Assumptions C57_odd_degrees_raise.

(** Order of precedence of the arguments. *)
Theorem C57_precedence :
  forall (L : Type) (leb eqb : L -> L -> bool) adj e d s e' d' s',
  (adj <> NoAdj -> u_construct leb eqb adj e d s = u_construct leb eqb adj e' d' s') /\
  (e <> NoEdges -> u_construct leb eqb NoAdj e d s = u_construct leb eqb NoAdj e d' s').
Proof. exact u_priority. Qed.
Print Assumptions C57_precedence.

Theorem C57_precedence_directed :
  forall (L : Type) (leb eqb : L -> L -> bool) adj e d s e' d' s',
  (adj <> NoAdj -> d_construct leb eqb adj e d s = d_construct leb eqb adj e' d' s') /\
  (e <> NoEdges -> d_construct leb eqb NoAdj e d s = d_construct leb eqb NoAdj e d' s').
Proof. exact d_priority. Qed.
Print Assumptions C57_precedence_directed.

Theorem C57_both_sequences :
  forall (L : Type) (leb eqb : L -> L -> bool) (v w : list R),
  v <> [] -> w <> [] -> nonneg_list v -> nonneg_list w ->
  if Nat.eqb (length v) (length w) then
    exists g, u_construct leb eqb NoAdj NoEdges (SeqArray v) (SeqArray w) = inl g /\ u_is_initialized g = true /\
      u_is_weighted g = true /\ u_n_nodes g = Some (length v) /\ u_n_edges g = Some (total v / 2) /\
      u_dseq g = Some v /\ u_strength g = Some w
  else u_construct leb eqb NoAdj NoEdges (SeqArray v) (SeqArray w) = inr ValueError.
Proof. exact u_both_sequences. Qed.
Print Assumptions C57_both_sequences.

(** After [clean_edges] the new data are those of a new object, apart from strengths,
    is_weighted, nodes_dict and is_sparse, which may be those of the old network. *)
Theorem C57_clean_partial :
  forall (L : Type) (leb eqb : L -> L -> bool) (g f : @ugraph L) (c : @call L),
  u_accepted c -> u_new leb eqb c = inl f ->
  exists g', u_call leb eqb (fst (u_call leb eqb g CleanEdges)) c = (g', None) /\
    u_is_initialized g' = u_is_initialized f /\ u_n_nodes g' = u_n_nodes f /\ u_n_edges g' = u_n_edges f /\
    u_dseq g' = u_dseq f /\ u_adjacency g' = u_adjacency f /\ u_edgelist g' = u_edgelist f /\
    (u_is_weighted f = true -> u_is_weighted g' = true /\ u_strength g' = u_strength f).
Proof. exact u_reset_partial. Qed.
Print Assumptions C57_clean_partial.

Theorem C57_clean_directed_partial :
  forall (L : Type) (leb eqb : L -> L -> bool) (g f : @dgraph L) (c : @call L),
  d_accepted c -> d_new leb eqb c = inl f ->
  exists g', d_call leb eqb (fst (d_call leb eqb g CleanEdges)) c = (g', None) /\
    d_is_initialized g' = d_is_initialized f /\ d_n_nodes g' = d_n_nodes f /\ d_n_edges g' = d_n_edges f /\
    d_dseq_out g' = d_dseq_out f /\ d_dseq_in g' = d_dseq_in f /\ d_adjacency g' = d_adjacency f /\ d_edgelist g' = d_edgelist f /\
    (d_is_weighted f = true -> d_is_weighted g' = true /\ d_out_strength g' = d_out_strength f /\ d_in_strength g' = d_in_strength f).
Proof. exact d_reset_partial. Qed.
Print Assumptions C57_clean_directed_partial.

Theorem C57_clean_refuted :
  exists (g f : @ugraph nat) c g', u_construct Nat.leb Nat.eqb (ArrayAdj 2 link2) NoEdges NoSeq NoSeq = inl g /\
  u_accepted c /\ u_new Nat.leb Nat.eqb c = inl f /\ u_call Nat.leb Nat.eqb (fst (u_call Nat.leb Nat.eqb g CleanEdges)) c = (g', None) /\
  u_is_weighted f = false /\ u_strength f = None /\ u_is_weighted g' = true /\ u_strength g' = Some [2; 2] /\ u_dseq g' = Some [1; 1; 2].
Proof. exact u_clean_refuted. Qed.
Print Assumptions C57_clean_refuted.

Theorem C57_clean_directed_refuted :
  exists (g f : @dgraph nat) c g', d_construct Nat.leb Nat.eqb (ArrayAdj 2 link2) NoEdges NoSeq NoSeq = inl g /\
  d_accepted c /\ d_new Nat.leb Nat.eqb c = inl f /\ d_call Nat.leb Nat.eqb (fst (d_call Nat.leb Nat.eqb g CleanEdges)) c = (g', None) /\
  d_is_weighted f = false /\ d_out_strength f = None /\ d_is_weighted g' = true /\ d_out_strength g' = Some [2; 2] /\ d_dseq_out g' = Some [1; 0; 1].
Proof. exact d_clean_refuted. Qed.
Print Assumptions C57_clean_directed_refuted.

Theorem C57_documented_lists_raise :
  forall (L : Type) (leb eqb : L -> L -> bool) n a v d s,
  v <> [] -> nonneg_list v ->
  u_construct leb eqb (ListAdj n a) NoEdges d s = inr AttributeError /\
  d_construct leb eqb (ListAdj n a) NoEdges d s = inr AttributeError /\
  u_construct leb eqb NoAdj NoEdges (SeqList v) s = inr AttributeError.
Proof. exact lists_raise. Qed.
Print Assumptions C57_documented_lists_raise.

Theorem C57_other_sparse_refuted :
  exists (g : @ugraph nat) c1 c2 g1 g2, u_construct Nat.leb Nat.eqb NoAdj NoEdges NoSeq NoSeq = inl g /\
  u_call Nat.leb Nat.eqb g c1 = (g1, Some AttributeError) /\ u_call Nat.leb Nat.eqb g1 c2 = (g2, None) /\
  u_adjacency g2 = Some (2%nat, link2) /\ u_edgelist g2 <> None /\ u_n_nodes g2 = Some 3%nat /\ u_is_sparse g2 = true.
Proof. exact other_sparse_refuted. Qed.
Print Assumptions C57_other_sparse_refuted.

Theorem C57_directed_lengths_refuted :
  exists v w (g : @dgraph nat), nonneg_list v /\ nonneg_list w /\
  d_construct Nat.leb Nat.eqb NoAdj NoEdges (SeqArray v) (SeqArray w) = inl g /\ d_is_initialized g = true /\
  d_n_nodes g = Some 1%nat /\ d_dseq_out g = Some [1; 1] /\ d_dseq_in g = Some [1; 1] /\ d_out_strength g = Some [3] /\ d_in_strength g = Some [3].
Proof. exact d_lengths_refuted. Qed.
Print Assumptions C57_directed_lengths_refuted.

Example C57_nonvacuous_history :
  current u_accepted
  [SetDegrees (SeqArray [-1]); SetAdjacency (ArrayAdj 2 link2); SetDegrees (SeqArray [1; 1]); CleanEdges; SetEdgelist (PairEdges [(5, 9); (9, 7)]%nat)]
  (Some (SetEdgelist (PairEdges [(5, 9); (9, 7)]%nat))).
Proof. exact sample_history. Qed.

Example C57_nonvacuous_history_directed :
  current d_accepted
  [SetDegrees (SeqArray [1; 0; 1]); SetDegrees (SeqArray [1; 0; 0; 1])] (Some (@SetDegrees nat (SeqArray [1; 0; 0; 1]))).
Proof. exact sample_history_d. Qed.

Example C57_nonvacuous_invalid :
  @invalid nat (SetDegrees (SeqArray [1; -2])) (Some ValueError) /\ @invalid nat (SetAdjacency (ArrayAdj 1 (fun _ _ => -1))) (Some TypeError).
Proof. exact sample_invalid. Qed.

(** C58.  The test of the code is that the excess over one of the positive entries is not
    zero. *)
Theorem C58_test :
  forall (L : Type) (leb eqb : L -> L -> bool) n a e d s,
  (0 < n)%nat -> nonneg_matrix n a ->
  exists g : @ugraph L, u_construct leb eqb (ArrayAdj n a) e d s = inl g /\ u_is_initialized g = true /\
    (u_is_weighted g = true <-> excess n a <> 0) /\
    (u_strength g = if Req_EM_T (excess n a) 0 then None else Some (row_strengths n a)).
Proof. exact u_weighted_test. Qed.
Print Assumptions C58_test.

Theorem C58_test_directed :
  forall (L : Type) (leb eqb : L -> L -> bool) n a e d s,
  (0 < n)%nat -> nonneg_matrix n a ->
  exists g : @dgraph L, d_construct leb eqb (ArrayAdj n a) e d s = inl g /\ d_is_initialized g = true /\
    (d_is_weighted g = true <-> excess n a <> 0) /\
    (d_out_strength g = if Req_EM_T (excess n a) 0 then None else Some (row_strengths n a)) /\
    (d_in_strength g = if Req_EM_T (excess n a) 0 then None else Some (col_strengths n a)).
Proof. exact d_weighted_test. Qed.
Print Assumptions C58_test_directed.

Theorem C58_counts_and_fractions_partial :
  forall (L : Type) (leb eqb : L -> L -> bool) n a e d s,
  (0 < n)%nat -> nonneg_matrix n a ->
  (forall i j, (i < n)%nat -> (j < n)%nat -> a i j = 0 \/ 1 <= a i j) \/ (forall i j, (i < n)%nat -> (j < n)%nat -> a i j <= 1) ->
  (exists g : @ugraph L, u_construct leb eqb (ArrayAdj n a) e d s = inl g /\ (u_is_weighted g = true <-> weighted_matrix n a)) /\
  (exists g : @dgraph L, d_construct leb eqb (ArrayAdj n a) e d s = inl g /\ (d_is_weighted g = true <-> weighted_matrix n a)).
Proof. exact weighted_recognised. Qed.
Print Assumptions C58_counts_and_fractions_partial.

Theorem C58_binary :
  forall (L : Type) (leb eqb : L -> L -> bool) n a e d s,
  (0 < n)%nat -> binary_matrix n a ->
  (exists g : @ugraph L, u_construct leb eqb (ArrayAdj n a) e d s = inl g /\ u_is_weighted g = false /\ u_strength g = None) /\
  (exists g : @dgraph L, d_construct leb eqb (ArrayAdj n a) e d s = inl g /\ d_is_weighted g = false /\ d_out_strength g = None /\ d_in_strength g = None).
Proof. exact binary_not_weighted. Qed.
Print Assumptions C58_binary.

Theorem C58_weighted_refuted :
  exists n a, (0 < n)%nat /\ nonneg_matrix n a /\ (forall i j, a i j = a j i) /\ weighted_matrix n a /\
  (exists g : @ugraph nat, u_construct Nat.leb Nat.eqb (ArrayAdj n a) NoEdges NoSeq NoSeq = inl g /\ u_is_weighted g = false /\ u_strength g = None) /\
  (exists g : @dgraph nat, d_construct Nat.leb Nat.eqb (ArrayAdj n a) NoEdges NoSeq NoSeq = inl g /\ d_is_weighted g = false /\ d_out_strength g = None).
Proof. exact weighted_refuted. Qed.
Print Assumptions C58_weighted_refuted.

Example C58_nonvacuous :
  (0 < 2)%nat /\ nonneg_matrix 2 link2 /\ (forall i j, (i < 2)%nat -> (j < 2)%nat -> link2 i j = 0 \/ 1 <= link2 i j) /\ weighted_matrix 2 link2.
Proof. exact sample_weighted. Qed.

(** C71.  The form in which the network is given. *)
Theorem C71_matrix_kinds :
  forall (L : Type) (leb eqb : L -> L -> bool) k stored n a,
  k <> OtherKind -> (0 < stored)%nat -> (0 < n)%nat -> nonneg_matrix n a ->
  exists g g', u_construct leb eqb (ArrayAdj n a) NoEdges NoSeq NoSeq = inl g /\ u_construct leb eqb (SparseAdj k stored n a) NoEdges NoSeq NoSeq = inl g' /\
    u_n_nodes g' = u_n_nodes g /\ u_n_edges g' = u_n_edges g /\ u_dseq g' = u_dseq g /\ u_strength g' = u_strength g /\
    u_is_weighted g' = u_is_weighted g /\ u_adjacency g' = u_adjacency g /\ u_is_sparse g = false /\ u_is_sparse g' = true.
Proof. exact u_matrix_forms. Qed.
Print Assumptions C71_matrix_kinds.

Theorem C71_matrix_kinds_directed :
  forall (L : Type) (leb eqb : L -> L -> bool) k stored n a,
  k <> OtherKind -> (0 < stored)%nat -> (0 < n)%nat -> nonneg_matrix n a ->
  exists g g', d_construct leb eqb (ArrayAdj n a) NoEdges NoSeq NoSeq = inl g /\ d_construct leb eqb (SparseAdj k stored n a) NoEdges NoSeq NoSeq = inl g' /\
    d_n_nodes g' = d_n_nodes g /\ d_n_edges g' = d_n_edges g /\ d_dseq_out g' = d_dseq_out g /\ d_dseq_in g' = d_dseq_in g /\
    d_out_strength g' = d_out_strength g /\ d_in_strength g' = d_in_strength g /\
    d_is_weighted g' = d_is_weighted g /\ d_adjacency g' = d_adjacency g.
Proof. exact d_matrix_forms. Qed.
Print Assumptions C71_matrix_kinds_directed.

Theorem C71_edge_list :
  forall (L : Type) (leb eqb : L -> L -> bool) (es : list (L * L)),
  total_order leb eqb -> es <> [] -> simple_edges false es ->
  exists g es' n a g', u_construct leb eqb NoAdj (PairEdges es) NoSeq NoSeq = inl g /\
    u_edgelist g = Some (map (fun e => (e, None)) es') /\ build_adjacency_fast es' false = Adj n a /\
    u_construct leb eqb (ArrayAdj n a) NoEdges NoSeq NoSeq = inl g' /\
    u_n_nodes g = u_n_nodes g' /\ u_n_edges g = u_n_edges g' /\ u_dseq g = u_dseq g' /\
    u_is_weighted g = false /\ u_is_weighted g' = false /\ u_strength g = None /\ u_strength g' = None.
Proof. exact u_edges_form. Qed.
Print Assumptions C71_edge_list.

Theorem C71_weighted_edge_list :
  forall (L : Type) (leb eqb : L -> L -> bool) (es : list (L * L * R)),
  total_order leb eqb -> es <> [] ->
  simple_edges false (map fst es) -> (forall e, In e es -> 0 < snd e) ->
  exists g es' n a g', u_construct leb eqb NoAdj (TripleEdges es) NoSeq NoSeq = inl g /\
    u_edgelist g = Some (map (fun e => (fst e, Some (snd e))) es') /\ build_adjacency_fast_weighted es' false = Adj n a /\
    u_construct leb eqb (ArrayAdj n a) NoEdges NoSeq NoSeq = inl g' /\
    u_n_nodes g = u_n_nodes g' /\ u_n_edges g = u_n_edges g' /\ u_dseq g = u_dseq g' /\
    u_strength g = Some (row_strengths n a) /\ u_is_weighted g = true /\
    (excess n a <> 0 -> u_strength g' = u_strength g /\ u_is_weighted g' = true).
Proof. exact u_weighted_edges_form. Qed.
Print Assumptions C71_weighted_edge_list.

Theorem C71_edge_list_directed :
  forall (L : Type) (leb eqb : L -> L -> bool) (es : list (L * L)),
  total_order leb eqb -> es <> [] -> simple_edges true es ->
  exists g es' n a g', d_construct leb eqb NoAdj (PairEdges es) NoSeq NoSeq = inl g /\
    d_edgelist g = Some (map (fun e => (e, None)) es') /\ build_adjacency_fast es' true = Adj n a /\
    d_construct leb eqb (ArrayAdj n a) NoEdges NoSeq NoSeq = inl g' /\
    d_n_nodes g = d_n_nodes g' /\ d_n_edges g = d_n_edges g' /\ d_dseq_out g = d_dseq_out g' /\ d_dseq_in g = d_dseq_in g' /\
    d_is_weighted g = false /\ d_is_weighted g' = false.
Proof. exact d_edges_form. Qed.
Print Assumptions C71_edge_list_directed.

(** The object of a weighted directed edge list is not marked as weighted and lacks the
    index arrays. *)
Theorem C71_weighted_edge_list_directed_refuted :
  forall (L : Type) (leb eqb : L -> L -> bool) (es : list (L * L * R)),
  total_order leb eqb -> es <> [] ->
  simple_edges true (map fst es) -> (forall e, In e es -> 0 < snd e) ->
  exists g es' n a g', d_construct leb eqb NoAdj (TripleEdges es) NoSeq NoSeq = inl g /\
    d_edgelist g = Some (map (fun e => (fst e, Some (snd e))) es') /\ build_adjacency_fast_weighted es' true = Adj n a /\
    d_construct leb eqb (ArrayAdj n a) NoEdges NoSeq NoSeq = inl g' /\
    d_n_nodes g = d_n_nodes g' /\ d_n_edges g = d_n_edges g' /\ d_dseq_out g = d_dseq_out g' /\ d_dseq_in g = d_dseq_in g' /\
    d_out_strength g = Some (row_strengths n a) /\ d_in_strength g = Some (col_strengths n a) /\
    d_is_weighted g = false /\ d_nz_sout g = None /\ d_nz_sin g = None /\
    (excess n a <> 0 -> d_out_strength g' = d_out_strength g /\ d_in_strength g' = d_in_strength g /\
       d_is_weighted g' = true /\ d_nz_sout g' <> None /\ d_nz_sin g' <> None).
Proof. exact d_weighted_edges_form. Qed.
Print Assumptions C71_weighted_edge_list_directed_refuted.

Theorem C71_sequences :
  forall (L : Type) (leb eqb : L -> L -> bool) n a,
  (0 < n)%nat -> nonneg_matrix n a ->
  exists g g', u_construct leb eqb (ArrayAdj n a) NoEdges NoSeq NoSeq = inl g /\
    u_construct leb eqb NoAdj NoEdges (SeqArray (row_degrees n a)) (if Req_EM_T (excess n a) 0 then NoSeq else SeqArray (row_strengths n a)) = inl g' /\
    u_n_nodes g' = u_n_nodes g /\ u_n_edges g' = u_n_edges g /\ u_dseq g' = u_dseq g /\ u_strength g' = u_strength g /\ u_is_weighted g' = u_is_weighted g.
Proof. exact u_sequence_form. Qed.
Print Assumptions C71_sequences.

Example C71_nonvacuous :
  sample_list <> [] /\ simple_edges false (map fst sample_list) /\ simple_edges true (map fst sample_list) /\ forall e, In e sample_list -> 0 < snd e.
Proof. exact sample_triples. Qed.

Example C71_nonvacuous_order :
  total_order Nat.leb Nat.eqb /\ sample_edges <> [].
Proof. exact sample_order. Qed.
