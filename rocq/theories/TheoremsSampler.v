(** Samplers: the properties.  Each proof is one [exact] of a lemma. *)
From Coq Require Import Reals List Arith Bool ZArith Permutation Lia Lra String.
From Coquelicot Require Import Coquelicot.
From Verif Require Import Base SpecGraph SpecWeighted ModelDCM ModelLinsearch ModelSampler SpecSampler ProofsSampler ProofsMainSampler ProofsSamplerLaw ProofsSamplerFiles WitnessSampler.
Import ListNotations.
Local Open Scope R_scope.

(** C50 *)
Theorem C50_cm :
  forall G x cpu seed s c l s',
  numpy_contract G -> let n := List.length x in
  valid_choice G cpu (n * (n - 1) / 2) c -> ensemble_sampler_cm_graph G x cpu seed s c = Some (l, s') -> und_pairs n l.
Proof. exact cm_form. Qed.
Print Assumptions C50_cm.

Theorem C50_ecm :
  forall G x y cpu seed s c l s',
  numpy_contract G -> let n := List.length x in List.length y = n ->
  valid_choice G cpu (n * (n - 1) / 2) c -> ensemble_sampler_ecm_graph G x y cpu seed s c = Some (l, s') ->
  und_pairs n (map fst l) /\ forall e w, In (e, w) l -> (1 <= w)%nat.
Proof. exact ecm_form. Qed.
Print Assumptions C50_ecm.

Theorem C50_dcm :
  forall G x y cpu seed s c l s',
  numpy_contract G -> let n := List.length x in List.length y = n ->
  valid_choice G cpu (n * (n - 1)) c -> ensemble_sampler_dcm_graph G x y cpu seed s c = Some (l, s') -> dir_pairs n l.
Proof. exact dcm_form. Qed.
Print Assumptions C50_dcm.

Theorem C50_decm :
  forall G x y z w cpu seed s c l s',
  numpy_contract G -> let n := List.length x in List.length y = n -> List.length z = n -> List.length w = n ->
  valid_choice G cpu (n * (n - 1)) c -> ensemble_sampler_decm_graph G x y z w cpu seed s c = Some (l, s') ->
  dir_pairs n (map fst l) /\ forall e w, In (e, w) l -> (1 <= w)%nat.
Proof. exact decm_form. Qed.
Print Assumptions C50_decm.

Theorem C50_crema_sparse_directed :
  forall G bo bi x y cpu seed s c l s',
  numpy_contract G -> let n := List.length x in
  (forall i j bi' bj, (i < n)%nat -> (j < n)%nat -> nth_error bo i = Some bi' -> nth_error bi j = Some bj -> 0 < bi' + bj) ->
  valid_choice G cpu (n * (n - 1)) c ->
  ensemble_sampler_crema_sparse_prob_graph G bo bi x y cpu seed s c = Some (l, s') ->
  dir_pairs n (map fst l) /\ forall e v, In (e, v) l -> exists r, v = Fin r /\ 0 <= r.
Proof. exact crema_sparse_form. Qed.
Print Assumptions C50_crema_sparse_directed.

Theorem C50_crema_sparse_undirected_refuted :
  exists (G : generator) (beta x : list R) cpu seed s c l s', numpy_contract G /\ valid_choice G cpu (List.length x * (List.length x - 1)) c /\
  (forall b, In b beta -> 0 < b) /\ (forall v, In v x -> 0 < v) /\ List.length beta = List.length x /\
  ensemble_sampler_crema_sparse_prob_graph G beta beta x x cpu seed s c = Some (l, s') /\ ~ und_pairs (List.length x) (map fst l) /\
  exists w w', In ((0, 1)%nat, w) l /\ In ((1, 0)%nat, w') l.
Proof. exact sparse_both_orders. Qed.
Print Assumptions C50_crema_sparse_undirected_refuted.

Example C50_nonvacuous :
  exists l s', ensemble_sampler_cm_graph (inv_gen (0, 0)) [1; 2; 3] 2 (Some 5%Z) (0, 0) (reverse_choice (0, 0)) = Some (l, s') /\
  l = [(0, 1); (0, 2); (1, 2)]%nat.
Proof. exact cm_case. Qed.

(** C51 *)
Theorem C51_cm :
  forall G x k cpu cpu' s s' c c',
  numpy_contract G -> let n := List.length x in
  valid_choice G cpu (n * (n - 1) / 2) c -> valid_choice G cpu' (n * (n - 1) / 2) c' ->
  ensemble_sampler_cm_graph G x cpu (Some k) s c = ensemble_sampler_cm_graph G x cpu' (Some k) s' c'.
Proof. exact cm_same. Qed.
Print Assumptions C51_cm.

Theorem C51_ecm :
  forall G x y k cpu cpu' s s' c c',
  numpy_contract G -> let n := List.length x in List.length y = n ->
  valid_choice G cpu (n * (n - 1) / 2) c -> valid_choice G cpu' (n * (n - 1) / 2) c' ->
  ensemble_sampler_ecm_graph G x y cpu (Some k) s c = ensemble_sampler_ecm_graph G x y cpu' (Some k) s' c'.
Proof. exact ecm_same. Qed.
Print Assumptions C51_ecm.

Theorem C51_dcm :
  forall G x y k cpu cpu' s s' c c',
  numpy_contract G -> let n := List.length x in List.length y = n ->
  valid_choice G cpu (n * (n - 1)) c -> valid_choice G cpu' (n * (n - 1)) c' ->
  ensemble_sampler_dcm_graph G x y cpu (Some k) s c = ensemble_sampler_dcm_graph G x y cpu' (Some k) s' c'.
Proof. exact dcm_same. Qed.
Print Assumptions C51_dcm.

Theorem C51_decm :
  forall G x y z w k cpu cpu' s s' c c',
  numpy_contract G -> let n := List.length x in
  List.length y = n -> List.length z = n -> List.length w = n ->
  valid_choice G cpu (n * (n - 1)) c -> valid_choice G cpu' (n * (n - 1)) c' ->
  ensemble_sampler_decm_graph G x y z w cpu (Some k) s c = ensemble_sampler_decm_graph G x y z w cpu' (Some k) s' c'.
Proof. exact decm_same. Qed.
Print Assumptions C51_decm.

Theorem C51_crema_given :
  forall G b b' row col w k cpu cpu' s s' c c',
  numpy_contract G -> List.length col = List.length row ->
  valid_choice G cpu (List.length row) c -> valid_choice G cpu' (List.length row) c' ->
  ensemble_sampler_crema_det_graph G b b' (row, col, w) cpu (Some k) s c = ensemble_sampler_crema_det_graph G b b' (row, col, w) cpu' (Some k) s' c'.
Proof. exact crema_det_same. Qed.
Print Assumptions C51_crema_given.

Theorem C51_crema_prob :
  forall G b b' row col w k cpu cpu' s s' c c',
  numpy_contract G -> List.length row = List.length w -> List.length col = List.length w ->
  valid_choice G cpu (List.length w) c -> valid_choice G cpu' (List.length w) c' ->
  ensemble_sampler_crema_prob_graph G b b' (row, col, w) cpu (Some k) s c = ensemble_sampler_crema_prob_graph G b b' (row, col, w) cpu' (Some k) s' c'.
Proof. exact crema_prob_same. Qed.
Print Assumptions C51_crema_prob.

Theorem C51_crema_sparse :
  forall G bo bi x y k cpu cpu' s s' c c',
  numpy_contract G -> let n := List.length x in
  valid_choice G cpu (n * (n - 1)) c -> valid_choice G cpu' (n * (n - 1)) c' ->
  ensemble_sampler_crema_sparse_prob_graph G bo bi x y cpu (Some k) s c = ensemble_sampler_crema_sparse_prob_graph G bo bi x y cpu' (Some k) s' c'.
Proof. exact crema_sparse_same. Qed.
Print Assumptions C51_crema_sparse.

Example C51_contract_nonvacuous :
  forall start,
  numpy_contract (inv_gen start).
Proof. exact inv_gen_contract. Qed.

Example C51_schedule_nonvacuous :
  forall start,
  valid_choice (inv_gen start) 2 3 (reverse_choice start).
Proof. exact reverse_choice_valid. Qed.

(** C52 *)
Theorem C52_cm_graph :
  forall G x cpu seed s c s0,
  numpy_contract G -> let n := List.length x in (forall v, In v x -> 0 <= v) ->
  valid_choice G cpu (n * (n - 1) / 2) c -> maybe_seed G seed s = Some s0 ->
  exists s1, ensemble_sampler_cm_graph G x cpu seed s c =
    Some (kept (p_ubcm (fun i => nth i x 0)) (lt_pairs n) (draws_from G (n * (n - 1) / 2) s0), s1).
Proof. exact cm_kept. Qed.
Print Assumptions C52_cm_graph.

Theorem C52_dcm_graph :
  forall G x y cpu seed s c s0,
  numpy_contract G -> let n := List.length x in List.length y = n -> (forall v, In v x -> 0 <= v) -> (forall v, In v y -> 0 <= v) ->
  valid_choice G cpu (n * (n - 1)) c -> maybe_seed G seed s = Some s0 ->
  exists s1, ensemble_sampler_dcm_graph G x y cpu seed s c =
    Some (kept (p_dbcm (fun i => nth i x 0) (fun i => nth i y 0)) (neq_pairs n) (draws_from G (n * (n - 1)) s0), s1).
Proof. exact dcm_kept. Qed.
Print Assumptions C52_dcm_graph.

Theorem C52_cm_ensemble :
  forall n x a,
  (forall v, In v x -> 0 <= v) -> List.length x = n ->
  probn (n * (n - 1) / 2) (fun us => same_links (kept (p_ubcm (fun i => nth i x 0)) (lt_pairs n) us) (filter (fun e => a (fst e) (snd e)) (lt_pairs n)))
    (prob_undirected n (p_ubcm (fun i => nth i x 0)) a).
Proof. exact und_pairs_ensemble. Qed.
Print Assumptions C52_cm_ensemble.

Theorem C52_dcm_ensemble :
  forall n x y a,
  (forall v, In v x -> 0 <= v) -> (forall v, In v y -> 0 <= v) -> List.length x = n -> List.length y = n ->
  probn (n * (n - 1)) (fun us => same_links (kept (p_dbcm (fun i => nth i x 0) (fun i => nth i y 0)) (neq_pairs n) us) (filter (fun e => a (fst e) (snd e)) (neq_pairs n)))
    (prob_directed n (p_dbcm (fun i => nth i x 0) (fun i => nth i y 0)) a).
Proof. exact dir_pairs_ensemble. Qed.
Print Assumptions C52_dcm_ensemble.

Theorem C52_cm_link :
  forall G (draw : R -> gstate G) i j xi xj,
  (forall u, 0 <= u < 1 -> fst (random_sample G (draw u)) = u) -> 0 <= xi -> 0 <= xj ->
  prob1 (fun u => is_link (is_a_link_cm G (i, xi) (j, xj) None (draw u))) (xi * xj / (1 + xi * xj)).
Proof. exact link_cm_prob. Qed.
Print Assumptions C52_cm_link.

Theorem C52_dcm_link :
  forall G (draw : R -> gstate G) i j xi yj,
  (forall u, 0 <= u < 1 -> fst (random_sample G (draw u)) = u) -> 0 <= xi -> 0 <= yj ->
  prob1 (fun u => is_link (is_a_link_dcm G (i, xi) (j, yj) None (draw u))) (xi * yj / (1 + xi * yj)).
Proof. exact link_dcm_prob. Qed.
Print Assumptions C52_dcm_link.

Theorem C52_ecm_weight :
  forall G (draw : R -> R -> gstate G) i j xi xj yi yj k,
  numpy_contract G -> uniform_then_geometric G draw ->
  0 <= xi * xj -> 0 <= yi * yj < 1 ->
  prob2 (fun u v => has_weight k (is_a_link_ecm G (i, xi, yi) (j, xj, yj) None (draw u v))) (q_enh (xi * xj) (yi * yj) k).
Proof. exact link_ecm_prob. Qed.
Print Assumptions C52_ecm_weight.

Theorem C52_decm_weight :
  forall G (draw : R -> R -> gstate G) i j ai aj bi bj k,
  numpy_contract G -> uniform_then_geometric G draw ->
  0 <= ai * aj -> 0 <= bi * bj < 1 ->
  prob2 (fun u v => has_weight k (is_a_link_decm G (i, ai, bi) (j, aj, bj) None (draw u v))) (q_enh (ai * aj) (bi * bj) k).
Proof. exact link_decm_prob. Qed.
Print Assumptions C52_decm_weight.

Theorem C52_crema_given :
  forall G (draw : R -> gstate G) i j bi bj t,
  exponential_draws G draw -> 0 < bi + bj -> 0 <= t ->
  prob1 (fun v => heavier t (is_a_link_crema_det G (i, bi) (j, bj) None (draw v))) (exp (- (bi + bj) * t)).
Proof. exact link_det_prob. Qed.
Print Assumptions C52_crema_given.

Theorem C52_crema_prob :
  forall G (draw : R -> R -> gstate G) i j bi bj p t,
  uniform_then_exponential G draw -> 0 <= p <= 1 -> 0 < bi + bj -> 0 <= t ->
  prob2 (fun u v => heavier t (is_a_link_crema_prob G (i, bi) (j, bj) p None (draw u v))) (p * exp (- (bi + bj) * t)) /\
  prob2 (fun u v => is_link (is_a_link_crema_prob G (i, bi) (j, bj) p None (draw u v))) p.
Proof. exact link_crema_prob_prob. Qed.
Print Assumptions C52_crema_prob.

Theorem C52_crema_sparse :
  forall G (draw : R -> R -> gstate G) i j bi bj xi xj t,
  uniform_then_exponential G draw -> 0 <= xi -> 0 <= xj -> 0 < bi + bj -> 0 <= t ->
  prob2 (fun u v => heavier t (is_a_link_crema_sparse G (i, bi, xi) (j, bj, xj) None (draw u v))) (xi * xj / (1 + xi * xj) * exp (- (bi + bj) * t)) /\
  prob2 (fun u v => is_link (is_a_link_crema_sparse G (i, bi, xi) (j, bj, xj) None (draw u v))) (xi * xj / (1 + xi * xj)).
Proof. exact link_crema_sparse_prob. Qed.
Print Assumptions C52_crema_sparse.

Theorem C52_crema_sparse_undirected_twice :
  forall G (draw : R -> gstate G) i j xi xj bi bj,
  (forall u, 0 <= u < 1 -> fst (random_sample G (draw u)) = u) ->
  (forall q s, 0 < q -> exists w s', exponential G (Fin q) s = Some (Fin w, s')) -> 0 <= xi -> 0 <= xj -> 0 < bi + bj ->
  let p := xi * xj / (1 + xi * xj) in
  prob2 (fun u v => is_link (is_a_link_crema_sparse G (i, bi, xi) (j, bj, xj) None (draw u)) || is_link (is_a_link_crema_sparse G (j, bj, xj) (i, bi, xi) None (draw v)))
    (1 - (1 - p) ^ 2).
Proof. exact sparse_twice. Qed.
Print Assumptions C52_crema_sparse_undirected_twice.

Theorem C52_crema_sparse_undirected_refuted :
  exists p : R, 0 < p < 1 /\ 1 - (1 - p) ^ 2 <> p /\
  prob2 (fun u v => is_link (is_a_link_crema_sparse (inv_gen (0, 0)) (0%nat, 1, 1) (1%nat, 1, 1) None (two_draws (0, 0) u 0)) ||
                    is_link (is_a_link_crema_sparse (inv_gen (0, 0)) (1%nat, 1, 1) (0%nat, 1, 1) None (two_draws (0, 0) v 0))) (1 - (1 - p) ^ 2) /\
  p = 1 * 1 / (1 + 1 * 1).
Proof. exact sparse_twice_wrong. Qed.
Print Assumptions C52_crema_sparse_undirected_refuted.

Example C52_nonvacuous :
  let G := inv_gen (0, 0) in
  numpy_contract G /\ uniform_then_geometric G (two_draws (0, 0)) /\ uniform_then_exponential G (two_draws (0, 0)) /\ exponential_draws G (fun v => two_draws (0, 0) v 0) /\
  (forall u, 0 <= u < 1 -> fst (random_sample G (two_draws (0, 0) u 0)) = u).
Proof. exact law_cases. Qed.

Example C52_weight_nonvacuous :
  prob2 (fun u v => has_weight 3 (is_a_link_ecm (inv_gen (0, 0)) (0%nat, 1, 1) (1%nat, 2, 1 / 2) None (two_draws (0, 0) u v))) (1 / 12).
Proof. exact ecm_case. Qed.

Example C52_ensemble_nonvacuous :
  probn 1 (fun us => same_links (kept (p_ubcm (fun i => nth i [1; 2] 0)) (lt_pairs 2) us) [(0, 1)%nat]) (2 / 3).
Proof. exact pair_case. Qed.

(** C53 *)
Theorem C53_given :
  forall G b b' row col w cpu seed s c l s',
  numpy_contract G -> List.length col = List.length row ->
  positive_rates b b' (combine row col) -> valid_choice G cpu (List.length row) c ->
  ensemble_sampler_crema_det_graph G b b' (row, col, w) cpu seed s c = Some (l, s') ->
  map fst l = combine row col /\ forall e v, In (e, v) l -> exists r, v = Fin r /\ 0 <= r.
Proof. exact crema_det_form. Qed.
Print Assumptions C53_given.

Theorem C53_probabilities :
  forall G b b' row col w cpu seed s c l s',
  numpy_contract G -> List.length row = List.length w -> List.length col = List.length w ->
  positive_rates b b' (combine row col) -> valid_choice G cpu (List.length w) c ->
  ensemble_sampler_crema_prob_graph G b b' (row, col, w) cpu seed s c = Some (l, s') ->
  sublist (map fst l) (combine row col) /\ forall e v, In (e, v) l -> exists r, v = Fin r /\ 0 <= r.
Proof. exact crema_prob_form. Qed.
Print Assumptions C53_probabilities.

Example C53_nonvacuous :
  numpy_contract (inv_gen (1 / 2, 1 / 2)) /\ positive_rates [1; 2; 3] [1; 2; 3] (combine [0; 0; 1] [1; 2; 2])%nat /\
  valid_choice (inv_gen (1 / 2, 1 / 2)) 2 (List.length [0; 0; 1]%nat) (reverse_choice (1 / 2, 1 / 2)).
Proof. exact det_case. Qed.

(** C54 *)
Theorem C54_prefix :
  forall G directed v m n n' cpu cpu' out k entropy entropy' choice choice' fs fs',
  numpy_contract G -> complete_solution directed v m ->
  (forall i, valid_choice G cpu m (choice i)) -> (forall i, valid_choice G cpu' m (choice' i)) -> (n <= n')%nat ->
  ensemble_sampler G directed v n cpu out (Some k) entropy choice = Some fs ->
  ensemble_sampler G directed v n' cpu' out (Some k) entropy' choice' = Some fs' ->
  fs = firstn n fs'.
Proof. exact sampler_prefix. Qed.
Print Assumptions C54_prefix.

Theorem C54_names :
  forall G directed v m n cpu out seed entropy choice fs,
  complete_solution directed v m ->
  ensemble_sampler G directed v n cpu out seed entropy choice = Some fs -> map fst fs = map (file_name out) (seq 0 n).
Proof. exact sampler_names. Qed.
Print Assumptions C54_names.

Theorem C54_names_distinct :
  forall out n,
  NoDup (map (file_name out) (seq 0 n)).
Proof. exact file_names_distinct. Qed.
Print Assumptions C54_names_distinct.

Theorem C54_unknown_model :
  forall G (directed : bool) v n cpu out seed entropy choice,
  ~ is_model v (if directed then ["dcm"; "dcm_exp"; "decm"; "decm_exp"; "crema"; "crema-sparse"] else ["cm"; "cm_exp"; "ecm"; "ecm_exp"; "crema"; "crema-sparse"])%string ->
  ensemble_sampler G directed v n cpu out seed entropy choice = None.
Proof. exact unknown_model_refused. Qed.
Print Assumptions C54_unknown_model.

Theorem C54_cm_total :
  forall G v n cpu out seed entropy choice s0,
  numpy_contract G -> is_model v ["cm"; "cm_exp"]%string -> (forall a, In a (v_x v) -> 0 <= a) ->
  (forall i, valid_choice G cpu (List.length (v_x v) * (List.length (v_x v) - 1) / 2) (choice i)) -> top_seed G seed entropy = Some s0 ->
  exists fs, ensemble_sampler G false v n cpu out seed entropy choice = Some fs.
Proof. exact sampler_cm_total. Qed.
Print Assumptions C54_cm_total.

Theorem C54_dcm_total :
  forall G v n cpu out seed entropy choice s0,
  numpy_contract G -> is_model v ["dcm"; "dcm_exp"]%string -> List.length (v_y v) = List.length (v_x v) ->
  (forall a, In a (v_x v) -> 0 <= a) -> (forall a, In a (v_y v) -> 0 <= a) ->
  (forall i, valid_choice G cpu (List.length (v_x v) * (List.length (v_x v) - 1)) (choice i)) -> top_seed G seed entropy = Some s0 ->
  exists fs, ensemble_sampler G true v n cpu out seed entropy choice = Some fs.
Proof. exact sampler_dcm_total. Qed.
Print Assumptions C54_dcm_total.

Theorem C54_sparse_given_refuted :
  exists v : solved, v_last_model v = "crema-sparse"%string /\ v_adjacency_given v = true /\
  forall G directed n cpu out k entropy choice, (0 <= k < 4294967296)%Z -> ensemble_sampler G directed v n cpu out (Some k) entropy choice = Some [].
Proof. exact sparse_given_case. Qed.
Print Assumptions C54_sparse_given_refuted.

Example C54_nonvacuous :
  complete_solution false solved_cm 3.
Proof. exact solved_cm_complete. Qed.

Example C54_nonvacuous_crema :
  complete_solution true solved_crema 3.
Proof. exact solved_crema_complete. Qed.

Example C54_files_nonvacuous :
  exists fs, ensemble_sampler (inv_gen (0, 0)) false solved_cm 2 2 "sample/" (Some 7%Z) (0, 0) (fun _ => reverse_choice (0, 0)) = Some fs /\
  map fst fs = ["sample/0.txt"; "sample/1.txt"]%string.
Proof. exact files_case. Qed.

(** C67 *)
Theorem C67_draws_refuted :
  forall G n s,
  numpy_contract G -> (1415 <= Z.of_nat n)%Z -> let m := (n * (n - 1) / 2)%nat in
  exists t t', (t < t' < m)%nat /\ nth t (draws_from G m s) 0 = nth t' (draws_from G m s) 0.
Proof. exact draws_collide. Qed.
Print Assumptions C67_draws_refuted.

Theorem C67_files_refuted :
  forall G directed v m n cpu out seed entropy choice fs,
  numpy_contract G -> complete_solution directed v m -> (forall i, valid_choice G cpu m (choice i)) ->
  (1000000 < Z.of_nat n)%Z -> ensemble_sampler G directed v n cpu out seed entropy choice = Some fs ->
  exists t t' txt, (t < t' < n)%nat /\ nth_error fs t = Some (file_name out t, txt) /\ nth_error fs t' = Some (file_name out t', txt).
Proof. exact sampler_repeats. Qed.
Print Assumptions C67_files_refuted.

(** C68 *)
Theorem C68_refuted :
  forall G,
  numpy_contract G -> (forall k, (0 <= k < 1000000)%Z -> 0 < first_draw G k) ->
  exists x0 x1, 0 < x0 /\ 0 < x1 /\ 0 < p_ubcm (fun i => nth i [x0; x1] 0) 0 1 < 1 /\
    forall cpu seed s c l s1, valid_choice G cpu 1 c -> ensemble_sampler_cm_graph G [x0; x1] cpu seed s c = Some (l, s1) -> l = [].
Proof. exact link_never_sampled. Qed.
Print Assumptions C68_refuted.

Example C68_nonvacuous :
  forall k,
  0 < first_draw (inv_gen (1 / 2, 1 / 2)) k.
Proof. exact inv_gen_positive. Qed.
