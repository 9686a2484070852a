(** Weighted networkx graphs: the properties. *)
From Coq Require Import Reals List Arith Bool ZArith Lia Lra String.
From Verif Require Import Base ModelGenerators SpecGenerators ModelGraphNx SpecGraphNx WitnessGenerators ProofsGraphNx.
Import ListNotations.
Local Open Scope R_scope.

(** C69 *)
Theorem C69_nx :
  forall (G : source) power topology n sup_ext alpha k is_weighted s1 s2,
  graph_nx G power topology n sup_ext alpha (Some k) is_weighted s1 = graph_nx G power topology n sup_ext alpha (Some k) is_weighted s2.
Proof. exact nx_seeded. Qed.
Print Assumptions C69_nx.
Theorem C69_nx_unseeded :
  forall (G : source) power topology n sup_ext alpha is_weighted s s',
  (0 < n)%nat ->
  graph_nx G power topology n sup_ext alpha None is_weighted s = graph_nx G power topology n sup_ext alpha (Some (Z.of_nat (fst (m_randint G (n * n) s)))) is_weighted s'.
Proof. exact nx_unseeded. Qed.
Print Assumptions C69_nx_unseeded.
Theorem C69_nx_drawn_seed :
  forall (G : source) n s,
  source_contract G -> (0 < n)%nat -> (Z.of_nat n <= 65536)%Z -> valid_seed (Some (Z.of_nat (fst (m_randint G (n * n) s)))).
Proof. exact drawn_seed_valid. Qed.
Print Assumptions C69_nx_drawn_seed.
Theorem C69_nx_large_refuted :
  exists G power (topology : Z -> option (list (nat * nat))) n sup_ext alpha s, source_contract G /\ (0 < n)%nat /\ (0 < sup_ext)%nat /\ (forall k, exists links, topology k = Some links) /\
  forall is_weighted, graph_nx G power topology n sup_ext alpha None is_weighted s = None.
Proof. exact nx_large_refuted. Qed.
Print Assumptions C69_nx_large_refuted.

(** C70 *)
Theorem C70_nx_weights :
  forall (G : source) power topology n sup_ext alpha k s A t links,
  topology k = Some links -> undirected_links links ->
  (graph_nx G power topology n sup_ext alpha (Some k) (Some "uniform"%string) s = Some (A, t) -> weighted_by links (stream (int_draw G sup_ext) (m_seed G k)) A) /\
  (graph_nx G power topology n sup_ext alpha (Some k) (Some "gaussian"%string) s = Some (A, t) -> weighted_by links (stream (m_normal G (INR sup_ext) (INR sup_ext / (11 / 2))) (m_seed G k)) A) /\
  (graph_nx G power topology n sup_ext alpha (Some k) (Some "powerlaw"%string) s = Some (A, t) -> weighted_by links (stream (power sup_ext alpha) (m_seed G k)) A) /\
  (graph_nx G power topology n sup_ext alpha (Some k) None s = Some (A, t) -> weighted_by links (fun _ => 1) A).
Proof. exact nx_weights. Qed.
Print Assumptions C70_nx_weights.
Theorem C70_nx_returns :
  forall (G : source) power topology n sup_ext alpha k is_weighted s links,
  topology k = Some links -> valid_seed (Some k) -> (0 < sup_ext)%nat ->
  exists A t, graph_nx G power topology n sup_ext alpha (Some k) is_weighted s = Some (A, t).
Proof. exact nx_returns. Qed.
Print Assumptions C70_nx_returns.
Theorem C70_sparse_weights :
  forall (G : source) draw topology seed (iw : bool) s,
  (undirected_links (topology seed) -> weighted_by (topology seed) (fun m => if iw then ceil (stream draw s m) else stream draw s m) (fst (weighted_sparse G draw topology true seed iw s))) /\
  (NoDup (topology seed) -> directed_by (topology seed) (fun m => if iw then ceil (stream draw s m) else stream draw s m) (fst (weighted_sparse G draw topology false seed iw s))).
Proof. exact sparse_weights. Qed.
Print Assumptions C70_sparse_weights.
Example C70_nx_case :
  undirected_links [(0%nat, 1%nat); (1%nat, 2%nat)] /\ valid_seed (Some 42%Z) /\ source_contract W /\
  exists A t, graph_nx W (fun _ _ => const_draw W 3) (fun _ => Some [(0%nat, 1%nat); (1%nat, 2%nat)]) 3 10 2 (Some 42%Z) (Some "uniform"%string) 0%nat = Some (A, t) /\ A 0%nat 1%nat = 2 /\ A 2%nat 1%nat = 3 /\ A 0%nat 2%nat = 0.
Proof. exact nx_case. Qed.
