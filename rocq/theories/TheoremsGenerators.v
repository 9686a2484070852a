(** Generators: the properties.  Each proof is one [exact] of a lemma. *)
From Coq Require Import Reals List Arith Bool ZArith Lia Lra.
From Verif Require Import Base ModelGenerators SpecGenerators ProofsGenerators ProofsMainGenerators ProofsGeneratorsTerm ProofsGeneratorsSeed WitnessGenerators.
Import ListNotations.
Local Open Scope R_scope.

(** C55 *)
Theorem C55_binary_dense :
  forall (G : source) fuel n sym seed entropy A,
  source_contract G ->
  random_binary_matrix_generator_dense G fuel n sym seed entropy = Returned A -> valid_adjacency n sym is_binary A.
Proof. exact valid_binary_dense. Qed.
Print Assumptions C55_binary_dense.

Theorem C55_binary_custom_density :
  forall (G : source) fuel n p sym seed entropy A,
  source_contract G ->
  random_binary_matrix_generator_custom_density G fuel n p sym seed entropy = Returned A -> valid_adjacency n sym is_binary A.
Proof. exact valid_binary_custom. Qed.
Print Assumptions C55_binary_custom_density.

Theorem C55_weighted_dense :
  forall (G : source) fuel n sup_ext sym seed iw entropy A,
  source_contract G -> 0 <= sup_ext ->
  random_weighted_matrix_generator_dense G fuel n sup_ext sym seed iw entropy = Returned A -> valid_adjacency n sym (uniform_entry sup_ext iw) A.
Proof. exact valid_weighted_dense. Qed.
Print Assumptions C55_weighted_dense.

Theorem C55_weighted_uniform :
  forall (G : source) fuel n p sup_ext sym seed iw entropy A,
  source_contract G -> 0 <= sup_ext ->
  random_weighted_matrix_generator_uniform_custom_density G fuel n p sup_ext sym seed iw entropy = Returned A -> valid_adjacency n sym (uniform_entry sup_ext iw) A.
Proof. exact valid_weighted_uniform. Qed.
Print Assumptions C55_weighted_uniform.

Theorem C55_weighted_gaussian_partial :
  forall (G : source) fuel n mean sigma p sym seed entropy A,
  source_contract G -> normal_nonzero G mean sigma ->
  random_weighted_matrix_generator_gaussian_custom_density G fuel n mean sigma p sym seed false entropy = Returned A -> valid_adjacency n sym (fun _ => True) A.
Proof. exact valid_weighted_gaussian. Qed.
Print Assumptions C55_weighted_gaussian_partial.

Theorem C55_gaussian_negative_refuted :
  exists G fuel n mean sigma p sym seed entropy A, source_contract G /\ normal_nonzero G mean sigma /\
  random_weighted_matrix_generator_gaussian_custom_density G fuel n mean sigma p sym seed false entropy = Returned A /\ exists i j, (i < n)%nat /\ (j < n)%nat /\ A i j < 0.
Proof. exact gaussian_negative. Qed.
Print Assumptions C55_gaussian_negative_refuted.

Theorem C55_gaussian_integer_isolated_refuted :
  exists G fuel n mean sigma p sym seed entropy A, source_contract G /\ normal_nonzero G mean sigma /\
  random_weighted_matrix_generator_gaussian_custom_density G fuel n mean sigma p sym seed true entropy = Returned A /\ ~ no_isolated n A.
Proof. exact gaussian_int_isolated. Qed.
Print Assumptions C55_gaussian_integer_isolated_refuted.

Example C55_nonvacuous :
  forall n p sup_ext sym iw,
  (2 <= n)%nat -> 0 < sup_ext -> source_contract W /\
  (exists fuel A, random_binary_matrix_generator_dense W fuel n sym (Some 42%Z) 0%nat = Returned A) /\
  (exists fuel A, random_binary_matrix_generator_custom_density W fuel n p sym (Some 42%Z) 0%nat = Returned A) /\
  (exists fuel A, random_weighted_matrix_generator_dense W fuel n sup_ext sym (Some 42%Z) iw 0%nat = Returned A) /\
  (exists fuel A, random_weighted_matrix_generator_uniform_custom_density W fuel n p sup_ext sym (Some 42%Z) iw 0%nat = Returned A).
Proof. exact W_returns. Qed.

Example C55_gaussian_nonvacuous :
  forall iw,
  exists A,
  random_weighted_matrix_generator_gaussian_custom_density W 0 2 0 1 1 false (Some 42%Z) iw 0%nat = Returned A /\
  A 0%nat 1%nat = (if iw then 0 else - / 2) /\ A 1%nat 0%nat = (if iw then 0 else - / 2) /\ A 0%nat 0%nat = 0 /\ A 1%nat 1%nat = 0.
Proof. exact W_gaussian. Qed.

(** C56 *)
Theorem C56_directed_loop :
  forall (G : source) draw n ind A s,
  source_contract G -> (forall s, 0 <= fst (draw s)) -> (ind < n)%nat -> zero_diagonal n A -> entries n (fun v => 0 <= v) A ->
  (exists fuel r, repair_dir G draw n ind fuel A s = Some r) <-> touched n A ind \/ dir_proposes G draw n ind s.
Proof. exact dir_loop_iff. Qed.
Print Assumptions C56_directed_loop.

Theorem C56_symmetric_loop :
  forall (G : source) draw diag n ind A s,
  source_contract G -> (forall s, 0 <= fst (draw s)) -> (ind < n)%nat -> zero_diagonal n A -> symmetric n A -> entries n (fun v => 0 <= v) A ->
  (exists fuel r, repair_sym G draw diag n ind fuel A s = Some r) <-> touched n A ind \/ sym_proposes G draw n ind s.
Proof. exact sym_loop_iff. Qed.
Print Assumptions C56_symmetric_loop.

Theorem C56_symmetric_dense_loop :
  forall (G : source) n ind A s,
  source_contract G -> (ind < n)%nat -> zero_diagonal n A -> symmetric n A -> entries n (fun v => 0 <= v) A ->
  (exists fuel r, repair_sym_dense G n ind fuel A s = Some r) <-> touched n A ind \/ sym_proposes G (const_draw G 1) n ind s.
Proof. exact sym_dense_loop_iff. Qed.
Print Assumptions C56_symmetric_dense_loop.

Theorem C56_binary_dense_returns :
  forall (G : source) n sym seed entropy,
  source_contract G -> valid_seed seed -> fair G sym (const_draw G 1) n ->
  exists fuel A, random_binary_matrix_generator_dense G fuel n sym seed entropy = Returned A.
Proof. exact binary_dense_returns. Qed.
Print Assumptions C56_binary_dense_returns.

Theorem C56_binary_custom_returns :
  forall (G : source) n p sym seed entropy,
  source_contract G -> valid_seed seed -> fair G sym (const_draw G 1) n ->
  exists fuel A, random_binary_matrix_generator_custom_density G fuel n p sym seed entropy = Returned A.
Proof. exact binary_custom_returns. Qed.
Print Assumptions C56_binary_custom_returns.

Theorem C56_weighted_dense_returns :
  forall (G : source) n sup_ext sym seed iw entropy,
  source_contract G -> 0 <= sup_ext -> valid_seed seed -> fair G sym (scaled_draw G sup_ext) n ->
  exists fuel A, random_weighted_matrix_generator_dense G fuel n sup_ext sym seed iw entropy = Returned A.
Proof. exact weighted_dense_returns. Qed.
Print Assumptions C56_weighted_dense_returns.

Theorem C56_weighted_uniform_returns :
  forall (G : source) n p sup_ext sym seed iw entropy,
  source_contract G -> 0 <= sup_ext -> valid_seed seed -> fair G sym (scaled_draw G sup_ext) n ->
  exists fuel A, random_weighted_matrix_generator_uniform_custom_density G fuel n p sup_ext sym seed iw entropy = Returned A.
Proof. exact weighted_uniform_returns. Qed.
Print Assumptions C56_weighted_uniform_returns.

Theorem C56_single_node :
  forall (G : source) fuel mean sigma p sup_ext sym seed iw entropy,
  source_contract G -> valid_seed seed ->
  random_binary_matrix_generator_dense G fuel 1 sym seed entropy = Running /\
  random_binary_matrix_generator_custom_density G fuel 1 p sym seed entropy = Running /\
  random_weighted_matrix_generator_dense G fuel 1 sup_ext sym seed iw entropy = Running /\
  random_weighted_matrix_generator_uniform_custom_density G fuel 1 p sup_ext sym seed iw entropy = Running /\
  random_weighted_matrix_generator_gaussian_custom_density G fuel 1 mean sigma p sym seed iw entropy = Running.
Proof. exact one_node. Qed.
Print Assumptions C56_single_node.

Theorem C56_no_weight :
  forall (G : source) fuel n p sym seed iw entropy,
  source_contract G -> valid_seed seed -> (0 < n)%nat ->
  random_weighted_matrix_generator_dense G fuel n 0 sym seed iw entropy = Running /\
  random_weighted_matrix_generator_uniform_custom_density G fuel n p 0 sym seed iw entropy = Running.
Proof. exact no_weight. Qed.
Print Assumptions C56_no_weight.

Example C56_nonvacuous :
  zero_diagonal 3 zeros /\ symmetric 3 zeros /\ entries 3 (fun v => 0 <= v) zeros /\ ~ touched 3 zeros 1 /\ dir_proposes W (const_draw W 1) 3 1 1%nat /\ sym_proposes W (const_draw W 1) 3 1 1%nat.
Proof. exact loop_example. Qed.

Example C56_fair_nonvacuous :
  forall sym n,
  (2 <= n)%nat -> fair W sym (const_draw W 1) n.
Proof. exact W_const. Qed.

Example C56_fair_scaled_nonvacuous :
  forall sym n sup_ext,
  (2 <= n)%nat -> 0 < sup_ext -> fair W sym (scaled_draw W sup_ext) n.
Proof. exact W_scaled. Qed.

(** C69 *)
Theorem C69_dense :
  forall (G : source) fuel n p mean sigma sup_ext sym k iw e1 e2,
  random_binary_matrix_generator_dense G fuel n sym (Some k) e1 = random_binary_matrix_generator_dense G fuel n sym (Some k) e2 /\
  random_binary_matrix_generator_custom_density G fuel n p sym (Some k) e1 = random_binary_matrix_generator_custom_density G fuel n p sym (Some k) e2 /\
  random_weighted_matrix_generator_dense G fuel n sup_ext sym (Some k) iw e1 = random_weighted_matrix_generator_dense G fuel n sup_ext sym (Some k) iw e2 /\
  random_weighted_matrix_generator_uniform_custom_density G fuel n p sup_ext sym (Some k) iw e1 = random_weighted_matrix_generator_uniform_custom_density G fuel n p sup_ext sym (Some k) iw e2 /\
  random_weighted_matrix_generator_gaussian_custom_density G fuel n mean sigma p sym (Some k) iw e1 = random_weighted_matrix_generator_gaussian_custom_density G fuel n mean sigma p sym (Some k) iw e2.
Proof. exact dense_seeded. Qed.
Print Assumptions C69_dense.

Theorem C69_sparse_weights_refuted :
  exists G topology seed s1 s2 a b, source_contract G /\ simple_links 2 (topology seed) /\
  fst (weighted_sparse G (m_normal G 5 1) topology false seed false s1) a b <> fst (weighted_sparse G (m_normal G 5 1) topology false seed false s2) a b.
Proof. exact sparse_not_seeded. Qed.
Print Assumptions C69_sparse_weights_refuted.

(** C70 *)
Theorem C70_uniform_sparse :
  forall (G : source) sup_ext topology sym seed iw s a b,
  source_contract G -> (forall t, fst (m_random G t) <> 0) -> 0 < sup_ext ->
  let A := fst (weighted_sparse G (scaled_draw G sup_ext) topology sym seed iw s) in
  (A a b <> 0 <-> linked sym (topology seed) a b) /\ uniform_entry sup_ext iw (A a b) /\ (sym = true -> A a b = A b a).
Proof. exact uniform_sparse_support. Qed.
Print Assumptions C70_uniform_sparse.

Theorem C70_gaussian_nx :
  forall (G : source) mean sigma topology seed A s a b,
  normal_nonzero G mean sigma ->
  weighted_nx G (m_normal G mean sigma) topology seed = Some (A, s) -> (A a b <> 0 <-> linked true (topology (Some seed)) a b) /\ A a b = A b a.
Proof. exact gaussian_nx_support. Qed.
Print Assumptions C70_gaussian_nx.

Theorem C70_uniform_nx_refuted :
  exists G topology seed A s, source_contract G /\ simple_links 3 (topology (Some seed)) /\
  weighted_nx G (int_draw G 10) topology seed = Some (A, s) /\ linked true (topology (Some seed)) 0 1 /\ ~ touched 3 A 0.
Proof. exact uniform_nx_lost. Qed.
Print Assumptions C70_uniform_nx_refuted.

Theorem C70_uniform_nx_no_link_refuted :
  forall (G : source) topology seed A s a b,
  source_contract G -> weighted_nx G (int_draw G 1) topology seed = Some (A, s) -> A a b = 0.
Proof. exact uniform_nx_no_link. Qed.
Print Assumptions C70_uniform_nx_no_link_refuted.

Example C70_nonvacuous :
  (forall t, fst (m_random W t) <> 0) /\ normal_nonzero W 10 (10 / (11 / 2)) /\ exists A s, weighted_nx W (m_normal W 10 (10 / (11 / 2))) (fun _ => [(0%nat, 1%nat)]) 42 = Some (A, s) /\ A 0%nat 1%nat <> 0.
Proof. exact nx_example. Qed.
