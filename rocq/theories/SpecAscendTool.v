(** Whole fixed-point calls of [solve_tool] for CReMa with a given adjacency matrix. *)
From Coq Require Import Reals List Arith Bool String.
From Verif Require Import Base SpecSolve SpecTool SpecConverge ModelGuess ModelSolve ModelTool.
Import ListNotations.
Local Open Scope R_scope.

Definition crema_call (a : nat -> nat -> R) (s : guess) (ls : bool) (t : settings) : Prop :=
  fixed_point_call "crema" s ls t /\ t_adjacency t = AdjMatrix a.
(** Parameters that are positive on the linked nodes, and those with the requested strengths. *)
Definition positive_linked (n : nat) (a : nat -> nat -> R) (b : nat -> R) : Prop :=
  forall i j, (i < j < n)%nat -> a i j <> 0 -> 0 < b i /\ 0 < b j.
Definition solves_strengths (n : nat) (a : nat -> nat -> R) (s b : nat -> R) : Prop :=
  forall i, (i < n)%nat -> crema_mean n a b i = s i.
Definition positive_linked_dir (n : nat) (a : nat -> nat -> R) (b : (nat -> R) * (nat -> R)) : Prop :=
  forall i j, (i < n)%nat -> (j < n)%nat -> a i j <> 0 -> 0 < fst b i /\ 0 < snd b j.
Definition solves_strengths_dir (n : nat) (a : nat -> nat -> R) (so si : nat -> R) (b : (nat -> R) * (nat -> R)) : Prop :=
  forall i, (i < n)%nat -> crema_mean_out n a (fst b) (snd b) i = so i /\ crema_mean_in n a (fst b) (snd b) i = si i.
Definition within (n : nat) (e : R) (b y : nat -> R) : Prop := forall i, (i < n)%nat -> Rabs (b i - y i) <= e.
Definition within_dir (n : nat) (e : R) (b y : (nat -> R) * (nat -> R)) : Prop := within n e (fst b) (fst y) /\ within n e (snd b) (snd y).

(** Every such call, on any object, completes with positive parameters; the square of the
    reported error is at most [K] divided by the number of steps; a call that stops neither on
    its tolerance nor after [max_steps] has an error of at most [B eps]; for any [eps] the
    number of steps is bounded; and the parameters get as near as wanted to one solution. *)
Definition calls_approach {S V : Type} (tool : settings -> S -> ran S) (reported : settings -> S -> option report) (error : S -> option R)
    (params : S -> V -> Prop) (positive solves : V -> Prop) (close : R -> V -> V -> Prop) (a : nat -> nat -> R) (s : guess) (ls : bool) : Prop :=
  (exists K B, 0 <= K /\ 0 <= B /\ forall t o, crema_call a s ls t -> exists o' rep err b,
     tool t o = (o', None) /\ reported t o = Some rep /\ error o' = Some err /\ params o' b /\ positive b /\
     (r_steps rep <= t_max_steps t)%nat /\ INR (r_steps rep) * err ^ 2 <= K /\
     (~ tolerance_reached (t_tol t) rep -> 0 < t_eps t < 1 -> r_steps rep = t_max_steps t \/ err <= B * t_eps t)) /\
  (forall eps, 0 < eps -> exists N, forall t o rep, crema_call a s ls t -> eps <= t_eps t -> reported t o = Some rep -> (r_steps rep <= N)%nat) /\
  (exists y, positive y /\ solves y /\ forall e, 0 < e -> exists T, forall t o o' rep b, crema_call a s ls t ->
     tool t o = (o', None) -> reported t o = Some rep -> params o' b -> (T <= r_steps rep)%nat -> close e b y).
