(** Specification vocabulary for the samplers. *)
From Coq Require Import Reals List Arith Bool ZArith Permutation String.
From Coquelicot Require Import Coquelicot.
From Verif Require Import Base ModelDCM ModelSampler.
Import ListNotations.
Local Open Scope R_scope.

(** What numpy documents about its generator. *)
Definition numpy_contract (G : generator) : Prop :=
  (forall s, 0 <= fst (random_sample G s) < 1) /\
  (forall s, (0 <= fst (randint G s) < 1000000)%Z) /\
  (forall p s, 0 < p <= 1 -> exists w s', geometric G p s = Some (w, s') /\ (1 <= w)%nat) /\
  (forall p s, ~ 0 < p <= 1 -> geometric G p s = None) /\
  (forall q s, 0 < q -> exists w s', exponential G (Fin q) s = Some (Fin w, s') /\ 0 <= w).

(** Every task is run exactly once, on one of the [cpu_n] workers. *)
Definition valid_schedule (cpu_n m : nat) (sched : schedule) : Prop :=
  Permutation (map fst sched) (seq 0 m) /\ forall t w, In (t, w) sched -> (w < cpu_n)%nat.
Definition valid_choice (G : generator) (cpu_n m : nat) (c : pool_choice G) : Prop :=
  (0 < cpu_n)%nat /\ valid_schedule cpu_n m (the_schedule G c).

(** Sampled graphs. *)
Definition und_pairs (n : nat) (l : list (nat * nat)) : Prop :=
  NoDup l /\ forall i j, In (i, j) l -> (i < j)%nat /\ (j < n)%nat.
Definition dir_pairs (n : nat) (l : list (nat * nat)) : Prop :=
  NoDup l /\ forall i j, In (i, j) l -> i <> j /\ (i < n)%nat /\ (j < n)%nat.
(** [l] is obtained from [l'] by deleting elements. *)
Inductive sublist {A : Type} : list A -> list A -> Prop :=
| sub_nil : sublist [] []
| sub_keep a l l' : sublist l l' -> sublist (a :: l) (a :: l')
| sub_drop a l l' : sublist l l' -> sublist l (a :: l').

(** Probability of an event that depends on one, or two independent, uniform draws. *)
Definition prob1 (E : R -> bool) (p : R) : Prop := is_RInt (fun u => if E u then 1 else 0) 0 1 p.
Definition prob2 (E : R -> R -> bool) (p : R) : Prop :=
  exists g : R -> R, (forall u, 0 <= u < 1 -> prob1 (E u) (g u)) /\ is_RInt g 0 1 p.
(** [K v], for a uniform draw [v], has the geometric law with parameter [p]; [W v] the
    exponential law with the given scale. *)
Definition geometric_law (p : R) (K : R -> nat) : Prop :=
  forall k, (1 <= k)%nat -> prob1 (fun v => Nat.eqb (K v) k) ((1 - p) ^ (k - 1) * p).
Definition exponential_law (q : R) (W : R -> R) : Prop :=
  forall t, 0 <= t -> prob1 (fun v => if Rlt_dec t (W v) then true else false) (exp (- t / q)).

(** Probability of an event that depends on [m] independent uniform draws. *)
Fixpoint probn (m : nat) (E : list R -> bool) (p : R) : Prop :=
  match m with
  | O => p = if E [] then 1 else 0
  | S m => exists g : R -> R, (forall u, 0 <= u < 1 -> probn m (fun us => E (u :: us)) (g u)) /\ is_RInt g 0 1 p
  end.

(** Pairs [i < j], and ordered pairs of distinct nodes, below [n]. *)
Definition lt_pairs (n : nat) : list (nat * nat) := flat_map (fun i => map (fun j => (i, j)) (seq (S i) (n - S i))) (seq 0 n).
Definition neq_pairs (n : nat) : list (nat * nat) := filter (fun e => negb (Nat.eqb (fst e) (snd e))) (list_prod (seq 0 n) (seq 0 n)).
(** The pairs whose draw is below their probability; one draw for each pair. *)
Definition kept (p : nat -> nat -> R) (pairs : list (nat * nat)) (us : list R) : list (nat * nat) :=
  map fst (filter (fun t => if Rlt_dec (snd t) (p (fst (fst t)) (snd (fst t))) then true else false) (combine pairs us)).
(** Equality of lists of pairs. *)
Definition pair_eq_dec (a b : nat * nat) : {a = b} + {a <> b}.
Proof. decide equality; apply Nat.eq_dec. Defined.
Definition same_links (l l' : list (nat * nat)) : bool := if list_eq_dec pair_eq_dec l l' then true else false.

(** Result of one task: whether it is a link, and its weight. *)
Definition is_link {L S : Type} (r : option (option L * S)) : bool :=
  match r with Some (Some _, _) => true | _ => false end.
(** Weight of the pair; absence of a link is weight zero. *)
Definition has_weight {S : Type} (k : nat) (r : option (option (nat * nat * nat) * S)) : bool :=
  match r with Some (Some (_, w), _) => Nat.eqb w k | Some (None, _) => Nat.eqb 0 k | None => false end.
Definition heavier {S : Type} (t : R) (r : option (option (nat * nat * fval) * S)) : bool :=
  match r with Some (Some (_, Fin w), _) => if Rlt_dec t w then true else false | _ => false end.

(** The numbers drawn by one call of [random_sample] and then one of [geometric] or
    [exponential], as functions of independent uniforms [u] and [v]. *)
Definition uniform_then_geometric (G : generator) (draw : R -> R -> gstate G) : Prop :=
  forall u, 0 <= u < 1 -> forall p, 0 < p <= 1 -> exists K, geometric_law p K /\
    forall v, 0 <= v < 1 -> exists s1 s2, random_sample G (draw u v) = (u, s1) /\ geometric G p s1 = Some (K v, s2).
Definition uniform_then_exponential (G : generator) (draw : R -> R -> gstate G) : Prop :=
  forall u, 0 <= u < 1 -> forall q, 0 < q -> exists W, exponential_law q W /\
    forall v, 0 <= v < 1 -> exists s1 s2, random_sample G (draw u v) = (u, s1) /\ exponential G (Fin q) s1 = Some (Fin (W v), s2).
Definition exponential_draws (G : generator) (draw : R -> gstate G) : Prop :=
  forall q, 0 < q -> exists W, exponential_law q W /\ forall v, 0 <= v < 1 -> exists s2, exponential G (Fin q) (draw v) = Some (Fin (W v), s2).

(** The first uniform number after seeding with each of the [m] seeds drawn from state [s]. *)
Fixpoint seeds_from (G : generator) (m : nat) (s : gstate G) : list Z :=
  match m with O => [] | S m => fst (randint G s) :: seeds_from G m (snd (randint G s)) end.
Definition first_draw (G : generator) (k : Z) : R := fst (random_sample G (seeded G k)).
Definition draws_from (G : generator) (m : nat) (s : gstate G) : list R := map (first_draw G) (seeds_from G m s).

(** Number of pairs examined by [ensemble_sampler] for one graph, and the shape of the
    attributes left by a solved model. *)
Definition is_model (v : solved) (l : list string) : Prop := In (v_last_model v) l.
Definition complete_solution (directed : bool) (v : solved) (m : nat) : Prop :=
  let n := List.length (v_x v) in
  if directed then
    (is_model v ["dcm"; "dcm_exp"]%string /\ List.length (v_y v) = n /\ m = (n * (n - 1))%nat) \/
    (is_model v ["decm"; "decm_exp"]%string /\ List.length (v_y v) = n /\ List.length (v_b_out v) = n /\ List.length (v_b_in v) = n /\ m = (n * (n - 1))%nat) \/
    (is_model v ["crema"]%string /\ exists r c w, v_adjacency_crema v = Edges (r, c, w) /\ List.length r = m /\ List.length c = m /\ List.length w = m) \/
    (is_model v ["crema-sparse"]%string /\ v_adjacency_given v = false /\ exists x y, v_adjacency_crema v = TwoArrays x y /\ m = (List.length x * (List.length x - 1))%nat)
  else
    (is_model v ["cm"; "cm_exp"]%string /\ m = (n * (n - 1) / 2)%nat) \/
    (is_model v ["ecm"; "ecm_exp"]%string /\ List.length (v_y v) = n /\ m = (n * (n - 1) / 2)%nat) \/
    (is_model v ["crema"]%string /\ exists r c w, v_adjacency_crema v = Edges (r, c, w) /\ List.length r = m /\ List.length c = m /\ List.length w = m) \/
    (is_model v ["crema-sparse"]%string /\ v_adjacency_given v = false /\ exists x, v_adjacency_crema v = OneArray x /\ m = (List.length x * (List.length x - 1))%nat).
