(** Whole calls of [ensemble_sampler]: the files, pair by pair, and their law.  Nothing else
    in this file; proofs are in ProofsSamples and WitnessSamples. *)
From Coq Require Import Reals List Arith Bool ZArith Permutation Lia Lra String.
From Coquelicot Require Import Coquelicot.
From Verif Require Import Base SpecGraph SpecWeighted ModelDCM ModelSampler SpecSampler SpecSamples ProofsSampler ProofsMainSampler ProofsSamplerLaw ProofsSamplerFiles WitnessSampler ProofsSamples WitnessSamples.
Import ListNotations.
Local Open Scope R_scope.

(** C89: the files of a call, model by model. *)
Theorem C89_cm :
  forall G v N cpu out seed entropy choice s0,
  numpy_contract G -> is_model v ["cm"; "cm_exp"]%string -> let n := List.length (v_x v) in
  (forall i j, (i < j < n)%nat -> 0 <= mul2 (v_x v) (v_x v) i j) ->
  (forall t, valid_choice G cpu (n * (n - 1) / 2) (choice t)) -> top_seed G seed entropy = Some s0 ->
  ensemble_sampler G false v N cpu out seed entropy choice =
  Some (files_of G out N s0 Unweighted (bare_outcome G (p_binary (v_x v) (v_x v))) (lt_pairs n)).
Proof. exact sampler_cm. Qed.
Print Assumptions C89_cm.
Example C89_cm_example :
  ensemble_sampler gen0 false (made "cm" [1; 2; 1] [] [] [] false no_adj) 2 2 "s/" (Some 7%Z) start0 three0 =
  Some [("s/0.txt"%string, Unweighted [(0, 1); (0, 2); (1, 2)]%nat); ("s/1.txt"%string, Unweighted [(0, 1); (0, 2); (1, 2)]%nat)].
Proof. exact files_cm_case. Qed.

Theorem C89_ecm :
  forall G v N cpu out seed entropy choice s0,
  numpy_contract G -> is_model v ["ecm"; "ecm_exp"]%string -> let n := List.length (v_x v) in
  List.length (v_y v) = n -> (forall i j, (i < j < n)%nat -> 0 <= mul2 (v_x v) (v_x v) i j /\ 0 <= mul2 (v_y v) (v_y v) i j < 1) ->
  (forall t, valid_choice G cpu (n * (n - 1) / 2) (choice t)) -> top_seed G seed entropy = Some s0 ->
  ensemble_sampler G false v N cpu out seed entropy choice =
  Some (files_of G out N s0 IntWeighted (int_outcome G (p_enh (mul2 (v_x v) (v_x v)) (mul2 (v_y v) (v_y v))) (mul2 (v_y v) (v_y v))) (lt_pairs n)).
Proof. exact sampler_ecm. Qed.
Print Assumptions C89_ecm.
Example C89_ecm_example :
  ensemble_sampler gen0 false (made "ecm" [1; 2; 1] [1 / 2; 1 / 2; 1 / 3] [] [] false no_adj) 2 2 "s/" (Some 7%Z) start0 three0 =
  Some (files_of gen0 "s/" 2 start0 IntWeighted
    (int_outcome gen0 (p_enh (mul2 [1; 2; 1] [1; 2; 1]) (mul2 [1 / 2; 1 / 2; 1 / 3] [1 / 2; 1 / 2; 1 / 3])) (mul2 [1 / 2; 1 / 2; 1 / 3] [1 / 2; 1 / 2; 1 / 3])) (lt_pairs 3)).
Proof. exact files_ecm_case. Qed.

Theorem C89_dcm :
  forall G v N cpu out seed entropy choice s0,
  numpy_contract G -> is_model v ["dcm"; "dcm_exp"]%string -> let n := List.length (v_x v) in
  List.length (v_y v) = n -> (forall i j, (i < n)%nat -> (j < n)%nat -> i <> j -> 0 <= mul2 (v_x v) (v_y v) i j) ->
  (forall t, valid_choice G cpu (n * (n - 1)) (choice t)) -> top_seed G seed entropy = Some s0 ->
  ensemble_sampler G true v N cpu out seed entropy choice =
  Some (files_of G out N s0 Unweighted (bare_outcome G (p_binary (v_x v) (v_y v))) (neq_pairs n)).
Proof. exact sampler_dcm. Qed.
Print Assumptions C89_dcm.
Example C89_dcm_example :
  ensemble_sampler gen0 true (made "dcm" [1; 1 / 4] [1; 2] [] [] false no_adj) 1 1 "s/" (Some 7%Z) start0 two0 =
  Some [("s/0.txt"%string, Unweighted [(0, 1)]%nat)].
Proof. exact files_dcm_case. Qed.

Theorem C89_decm :
  forall G v N cpu out seed entropy choice s0,
  numpy_contract G -> is_model v ["decm"; "decm_exp"]%string -> let n := List.length (v_x v) in
  List.length (v_y v) = n -> List.length (v_b_out v) = n -> List.length (v_b_in v) = n ->
  (forall i j, (i < n)%nat -> (j < n)%nat -> i <> j -> 0 <= mul2 (v_x v) (v_y v) i j /\ 0 <= mul2 (v_b_out v) (v_b_in v) i j < 1) ->
  (forall t, valid_choice G cpu (n * (n - 1)) (choice t)) -> top_seed G seed entropy = Some s0 ->
  ensemble_sampler G true v N cpu out seed entropy choice =
  Some (files_of G out N s0 IntWeighted
    (int_outcome G (p_enh (mul2 (v_x v) (v_y v)) (mul2 (v_b_out v) (v_b_in v))) (mul2 (v_b_out v) (v_b_in v))) (neq_pairs n)).
Proof. exact sampler_decm. Qed.
Print Assumptions C89_decm.
Example C89_decm_example :
  ensemble_sampler gen0 true (made "decm" [1; 3] [1; 2] [1 / 2; 1 / 3] [1 / 4; 1 / 5] false no_adj) 1 1 "s/" (Some 7%Z) start0 two0 =
  Some (files_of gen0 "s/" 1 start0 IntWeighted
    (int_outcome gen0 (p_enh (mul2 [1; 3] [1; 2]) (mul2 [1 / 2; 1 / 3] [1 / 4; 1 / 5])) (mul2 [1 / 2; 1 / 3] [1 / 4; 1 / 5])) (neq_pairs 2)).
Proof. exact files_decm_case. Qed.

Theorem C89_crema_given :
  forall G (directed : bool) v N cpu out seed entropy choice s0 row col w,
  numpy_contract G -> v_last_model v = "crema"%string ->
  v_adjacency_given v = true -> v_adjacency_crema v = Edges (row, col, w) -> List.length col = List.length row ->
  (forall i j, In (i, j) (combine row col) ->
     (i < List.length (v_b_out v))%nat /\ (j < List.length (rates_in directed v))%nat /\ 0 < sum2 (v_b_out v) (rates_in directed v) i j) ->
  (forall t, valid_choice G cpu (List.length row) (choice t)) -> top_seed G seed entropy = Some s0 ->
  ensemble_sampler G directed v N cpu out seed entropy choice =
  Some (files_of G out N s0 RealWeighted (sure_outcome G (sum2 (v_b_out v) (rates_in directed v))) (combine row col)).
Proof. exact sampler_crema_given. Qed.
Print Assumptions C89_crema_given.
Example C89_crema_given_example :
  ensemble_sampler gen0 true (made "crema" [] [] [1; 2; 3] [1; 1; 0] true (Edges ([0; 0; 1]%nat, [1; 2; 2]%nat, [1; 1; 1]))) 1 2 "s/" (Some 7%Z) start0 three0 =
  Some [("s/0.txt"%string, RealWeighted [((0, 1)%nat, Fin (- (1 / 2) * ln (3 / 4))); ((0, 2)%nat, Fin (- (1 / 1) * ln (3 / 4))); ((1, 2)%nat, Fin (- (1 / 2) * ln (3 / 4)))])].
Proof. exact files_crema_given_case. Qed.

Theorem C89_crema_prob :
  forall G (directed : bool) v N cpu out seed entropy choice s0 row col w,
  numpy_contract G -> v_last_model v = "crema"%string ->
  v_adjacency_given v = false -> v_adjacency_crema v = Edges (row, col, w) -> List.length row = List.length w -> List.length col = List.length w ->
  (forall i j, In (i, j) (combine row col) ->
     (i < List.length (v_b_out v))%nat /\ (j < List.length (rates_in directed v))%nat /\ 0 < sum2 (v_b_out v) (rates_in directed v) i j) ->
  (forall t, valid_choice G cpu (List.length w) (choice t)) -> top_seed G seed entropy = Some s0 ->
  ensemble_sampler G directed v N cpu out seed entropy choice =
  Some (files_of G out N s0 RealWeighted (listed_outcome G (sum2 (v_b_out v) (rates_in directed v))) (combine (combine row col) w)).
Proof. exact sampler_crema_prob. Qed.
Print Assumptions C89_crema_prob.
Example C89_crema_prob_example :
  ensemble_sampler gen0 false (made "crema" [] [] [1; 2; 3] [1; 2; 3] false (Edges ([0; 0; 1]%nat, [1; 2; 2]%nat, [1 / 8; 1 / 3; 1 / 5]))) 1 2 "s/" (Some 7%Z) start0 three0 =
  Some [("s/0.txt"%string, RealWeighted [((0, 2)%nat, Fin (- (1 / 4) * ln (1 / 2)))])].
Proof. exact files_crema_prob_case. Qed.

Theorem C89_sparse_undirected :
  forall G v N cpu out seed entropy choice s0 x,
  numpy_contract G -> v_last_model v = "crema-sparse"%string ->
  v_adjacency_given v = false -> v_adjacency_crema v = OneArray x -> let n := List.length x in List.length (v_b_out v) = n ->
  (forall i j, (i < n)%nat -> (j < n)%nat -> i <> j -> 0 <= mul2 x x i j /\ 0 < sum2 (v_b_out v) (v_b_out v) i j) ->
  (forall t, valid_choice G cpu (n * (n - 1)) (choice t)) -> top_seed G seed entropy = Some s0 ->
  ensemble_sampler G false v N cpu out seed entropy choice =
  Some (files_of G out N s0 RealWeighted (real_outcome G (p_binary x x) (sum2 (v_b_out v) (v_b_out v))) (neq_pairs n)).
Proof. exact sampler_sparse_und. Qed.
Print Assumptions C89_sparse_undirected.
Example C89_sparse_undirected_example :
  ensemble_sampler gen0 false (made "crema-sparse" [] [] [1; 3] [1; 3] false (OneArray [1; 2])) 1 1 "s/" (Some 7%Z) start0 two0 =
  Some [("s/0.txt"%string, RealWeighted [((0, 1)%nat, Fin (- (1 / 4) * ln (1 / 2))); ((1, 0)%nat, Fin (- (1 / 4) * ln (1 / 2)))])].
Proof. exact files_sparse_und_case. Qed.

Theorem C89_sparse_directed :
  forall G v N cpu out seed entropy choice s0 x y,
  numpy_contract G -> v_last_model v = "crema-sparse"%string ->
  v_adjacency_given v = false -> v_adjacency_crema v = TwoArrays x y -> let n := List.length x in List.length y = n ->
  List.length (v_b_out v) = n -> List.length (v_b_in v) = n ->
  (forall i j, (i < n)%nat -> (j < n)%nat -> i <> j -> 0 <= mul2 x y i j /\ 0 < sum2 (v_b_out v) (v_b_in v) i j) ->
  (forall t, valid_choice G cpu (n * (n - 1)) (choice t)) -> top_seed G seed entropy = Some s0 ->
  ensemble_sampler G true v N cpu out seed entropy choice =
  Some (files_of G out N s0 RealWeighted (real_outcome G (p_binary x y) (sum2 (v_b_out v) (v_b_in v))) (neq_pairs n)).
Proof. exact sampler_sparse_dir. Qed.
Print Assumptions C89_sparse_directed.
Example C89_sparse_directed_example :
  ensemble_sampler gen0 true (made "crema-sparse" [] [] [1; 3] [2; 3] false (TwoArrays [1; 1 / 4] [1; 1])) 1 1 "s/" (Some 7%Z) start0 two0 =
  Some [("s/0.txt"%string, RealWeighted [((0, 1)%nat, Fin (- (1 / 4) * ln (1 / 2)))])].
Proof. exact files_sparse_dir_case. Qed.

(** The probability of a whole graph when the pairs are examined with independent draws. *)
Theorem C89_ecm_law :
  forall G (draw : R -> R -> gstate G) (x y : list R) (w : nat -> nat -> nat),
  numpy_contract G -> uniform_then_geometric G draw ->
  let n := List.length x in (forall i j, (i < j < n)%nat -> 0 <= mul2 x x i j /\ 0 <= mul2 y y i j < 1) ->
  probn (2 * List.length (lt_pairs n)) (fun us => same_lines
      (outcomes G (int_outcome G (p_enh (mul2 x x) (mul2 y y)) (mul2 y y)) (lt_pairs n) (states_of draw us)) (weight_lines w (lt_pairs n)))
    (prob_wundirected n (fun i j => q_enh (mul2 x x i j) (mul2 y y i j)) w).
Proof. exact ecm_files_law. Qed.
Print Assumptions C89_ecm_law.
Example C89_ecm_law_example :
  probn (2 * 1) (fun us => same_lines
    (outcomes gen0 (int_outcome gen0 (p_enh (mul2 [1; 2] [1; 2]) (mul2 [1; 1 / 2] [1; 1 / 2])) (mul2 [1; 1 / 2] [1; 1 / 2])) [(0, 1)%nat] (states_of (two_draws (1 / 4, 1 / 2)) us))
    [((0, 1)%nat, 3%nat)]) (1 / 12).
Proof. exact ecm_law_case. Qed.

Theorem C89_decm_law :
  forall G (draw : R -> R -> gstate G) (x y b c : list R) (w : nat -> nat -> nat),
  numpy_contract G -> uniform_then_geometric G draw ->
  let n := List.length x in (forall i j, (i < n)%nat -> (j < n)%nat -> i <> j -> 0 <= mul2 x y i j /\ 0 <= mul2 b c i j < 1) ->
  probn (2 * List.length (neq_pairs n)) (fun us => same_lines
      (outcomes G (int_outcome G (p_enh (mul2 x y) (mul2 b c)) (mul2 b c)) (neq_pairs n) (states_of draw us)) (weight_lines w (neq_pairs n)))
    (prob_wdirected n (fun i j => q_enh (mul2 x y i j) (mul2 b c i j)) w).
Proof. exact decm_files_law. Qed.
Print Assumptions C89_decm_law.

Theorem C89_crema_law :
  forall G (draw : R -> R -> gstate G) (p b : nat -> nat -> R) (t : nat -> nat -> option R) pairs,
  uniform_then_exponential G draw -> NoDup pairs ->
  (forall i j, In (i, j) pairs -> 0 <= p i j <= 1 /\ 0 < b i j /\ forall a, t i j = Some a -> 0 <= a) ->
  probn (2 * List.length pairs) (fun us => threshold_lines t pairs (outcomes G (real_outcome G p b) pairs (states_of draw us)))
    (over_pairs pairs (fun i j => match t i j with Some a => p i j * exp (- b i j * a) | None => 1 - p i j end)).
Proof. exact real_law. Qed.
Print Assumptions C89_crema_law.
Example C89_crema_law_example :
  probn (2 * 2) (fun us => threshold_lines (fun i _ => if Nat.eqb i 0 then Some 1 else None) [(0, 1); (1, 2)]%nat
    (outcomes gen0 (real_outcome gen0 (fun _ _ => 1 / 2) (fun _ _ => 2)) [(0, 1); (1, 2)]%nat (states_of (two_draws (1 / 4, 1 / 2)) us))) (1 / 4 * exp (- 2)).
Proof. exact crema_law_case. Qed.

Theorem C89_listed :
  forall G (b p : nat -> nat -> R) pairs states,
  outcomes G (listed_outcome G b) (map (fun e => (e, p (fst e) (snd e))) pairs) states = outcomes G (real_outcome G p b) pairs states.
Proof. exact listed_outcomes. Qed.
Print Assumptions C89_listed.
