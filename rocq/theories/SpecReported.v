(** Specification: mean degrees and strengths of a node in a file whose lines come from a
    list of pairs, pair [(i,j)] contributing [q i j] on average. *)
From Coq Require Import Reals List Arith Bool String ZArith.
From Coquelicot Require Import Coquelicot.
From Verif Require Import Base SpecGraph SpecEnsemble ModelDCM ModelSolve ModelSampler SpecSampler SpecSamples ModelSample.
Import ListNotations.
Local Open Scope R_scope.

Definition touching (pairs : list (nat * nat)) (q : nat -> nat -> R) (i : nat) : R :=
  lsum pairs (fun e => if Nat.eqb (fst e) i || Nat.eqb (snd e) i then q (fst e) (snd e) else 0).
Definition leaving (pairs : list (nat * nat)) (q : nat -> nat -> R) (i : nat) : R :=
  lsum pairs (fun e => if Nat.eqb (fst e) i then q (fst e) (snd e) else 0).
Definition entering (pairs : list (nat * nat)) (q : nat -> nat -> R) (j : nat) : R :=
  lsum pairs (fun e => if Nat.eqb (snd e) j then q (fst e) (snd e) else 0).
(** Every undirected pair at most once; every directed pair at most once. *)
Definition once_und (n : nat) (pairs : list (nat * nat)) : Prop :=
  NoDup pairs /\ forall i j, In (i, j) pairs -> (i < j < n)%nat.
Definition once_dir (n : nat) (pairs : list (nat * nat)) : Prop :=
  NoDup pairs /\ forall i j, In (i, j) pairs -> (i < n /\ j < n)%nat.
(** Mean weight of a pair: link probability over the parameter of its geometric law, or
    times the mean of its exponential law. *)
Definition int_weight (p y : nat -> nat -> R) (i j : nat) : R := p i j / (1 - y i j).
Definition real_weight (p b : nat -> nat -> R) (i j : nat) : R := p i j / b i j.
Definition certain (_ _ : nat) : R := 1.

(** Whatever the generator, the number of files, the seed and the pool, the files of the
    object [o] are made of the contributions [f] of the pairs. *)
Definition u_draws {L : Type} (g : unet) (o : ustate) (text : list L -> content)
    (f : forall G : generator, nat * nat -> gstate G -> option L) (pairs : list (nat * nat)) : Prop :=
  forall G N cpu out seed entropy s0 choice, numpy_contract G -> top_seed G seed entropy = Some s0 ->
    (forall t, valid_choice G cpu (List.length pairs) (choice t)) ->
    u_ensemble_sampler G N cpu out seed entropy choice g o = Some (files_of G out N s0 text (f G) pairs).
Definition d_draws {L : Type} (g : dnet) (o : dstate) (text : list L -> content)
    (f : forall G : generator, nat * nat -> gstate G -> option L) (pairs : list (nat * nat)) : Prop :=
  forall G N cpu out seed entropy s0 choice, numpy_contract G -> top_seed G seed entropy = Some s0 ->
    (forall t, valid_choice G cpu (List.length pairs) (choice t)) ->
    d_ensemble_sampler G N cpu out seed entropy choice g o = Some (files_of G out N s0 text (f G) pairs).

(** Mean of a law on the naturals; mean of a non-negative law from its tail. *)
Definition mean_of_law (q : nat -> R) (m : R) : Prop := is_series (fun k => INR k * q k) m.
Definition mean_of_tail (T : R -> R) (m : R) : Prop := is_RInt_gen T (at_point 0) (Rbar_locally p_infty) m.
(** The weight a pair contributes to a file, zero when it contributes none. *)
Definition counts (k : nat) (r : option (nat * nat * nat)) : bool := match r with Some v => Nat.eqb (snd v) k | None => Nat.eqb 0 k end.
Definition exceeds (t : R) (r : option (nat * nat * fval)) : bool :=
  match r with Some (_, Fin w) => if Rlt_dec t w then true else false | _ => false end.
Definition joins {L : Type} (r : option L) : bool := match r with Some _ => true | None => false end.
