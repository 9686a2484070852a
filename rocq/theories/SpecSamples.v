(** Specification of the files written by [ensemble_sampler]: what one pair of nodes
    contributes, as a function of the state of the generator when the pair is examined. *)
From Coq Require Import Reals List Arith Bool ZArith String.
From Verif Require Import Base SpecGraph SpecWeighted ModelDCM ModelSampler SpecSampler.
Import ListNotations.
Local Open Scope R_scope.

Section Outcome.
Variable G : generator.
Local Notation pair := (nat * nat)%type.
(** A link with probability [p]. *)
Definition bare_outcome (p : nat -> nat -> R) (e : pair) (s : gstate G) : option pair :=
  if Rlt_dec (fst (random_sample G s)) (p (fst e) (snd e)) then Some e else None.
(** A link with probability [p], and then a geometric weight of parameter [1 - y]. *)
Definition int_outcome (p y : nat -> nat -> R) (e : pair) (s : gstate G) : option (pair * nat) :=
  let (u, s) := random_sample G s in
  if Rlt_dec u (p (fst e) (snd e)) then option_map (fun q => (e, fst q)) (geometric G (1 - y (fst e) (snd e)) s) else None.
(** A link with probability [p], and then an exponential weight of mean [1 / b]. *)
Definition real_outcome (p b : nat -> nat -> R) (e : pair) (s : gstate G) : option (pair * fval) :=
  let (u, s) := random_sample G s in
  if Rlt_dec u (p (fst e) (snd e)) then option_map (fun q => (e, fst q)) (exponential G (Fin (1 / b (fst e) (snd e))) s) else None.
(** The same when the probability is attached to the position of an edge list. *)
Definition listed_outcome (b : nat -> nat -> R) (t : pair * R) : gstate G -> option (pair * fval) :=
  real_outcome (fun _ _ => snd t) b (fst t).
(** An exponential weight of mean [1 / b]. *)
Definition sure_outcome (b : nat -> nat -> R) (e : pair) (s : gstate G) : option (pair * fval) :=
  option_map (fun q => (e, fst q)) (exponential G (Fin (1 / b (fst e) (snd e))) s).

(** The lines contributed by the pairs, in order. *)
Definition outcomes {A L : Type} (f : A -> gstate G -> option L) (pairs : list A) (states : list (gstate G)) : list L :=
  flat_map (fun t => match f (fst t) (snd t) with Some l => [l] | None => [] end) (combine pairs states).
(** The states of the generator when the pairs of one graph are examined: each is seeded with
    a number of its own, drawn after seeding with the number of the graph. *)
Definition pair_states (m : nat) (k : Z) : list (gstate G) := map (seeded G) (seeds_from G m (seeded G k)).
(** The [N] files of a call. *)
Definition files_of {A L : Type} (out : string) (N : nat) (s0 : gstate G) (text : list L -> content)
    (f : A -> gstate G -> option L) (pairs : list A) : list (string * content) :=
  map (fun t => (file_name out (fst t), text (outcomes f pairs (pair_states (List.length pairs) (snd t)))))
    (combine (seq 0 N) (seeds_from G N s0)).
End Outcome.

(** Link probability of the enhanced models: the weight is not zero. *)
Definition p_enh (z y : nat -> nat -> R) (i j : nat) : R := 1 - q_enh (z i j) (y i j) 0.
(** The parameter of a pair, from the parameters of its nodes. *)
Definition mul2 (a b : list R) (i j : nat) : R := nth i a 0 * nth j b 0.
Definition sum2 (a b : list R) (i j : nat) : R := nth i a 0 + nth j b 0.
(** The second array of rates: the same for an undirected network. *)
Definition rates_in (directed : bool) (v : solved) : list R := if directed then v_b_in v else v_b_out v.
(** Link probability from binary parameters. *)
Definition p_binary (x y : list R) (i j : nat) : R := mul2 x y i j / (1 + mul2 x y i j).

(** The lines of a weighted graph: the pairs of non-zero weight. *)
Definition weight_lines (w : nat -> nat -> nat) (pairs : list (nat * nat)) : list (nat * nat * nat) :=
  flat_map (fun e => if linked (w (fst e) (snd e)) then [(e, w (fst e) (snd e))] else []) pairs.
Definition line_eq_dec (a b : nat * nat * nat) : {a = b} + {a <> b}.
Proof. decide equality; [apply Nat.eq_dec|apply pair_eq_dec]. Defined.
Definition same_lines (l l' : list (nat * nat * nat)) : bool := if list_eq_dec line_eq_dec l l' then true else false.
(** States made of independent uniforms, two for each pair. *)
Fixpoint states_of {S : Type} (draw : R -> R -> S) (us : list R) : list S :=
  match us with
  | u :: v :: us => draw u v :: states_of draw us
  | _ => []
  end.
(** A real-weighted graph whose links are the pairs with a threshold, each heavier than it. *)
Definition threshold_lines (t : nat -> nat -> option R) (pairs : list (nat * nat)) (lines : list (nat * nat * fval)) : bool :=
  same_links (map fst lines) (filter (fun e => match t (fst e) (snd e) with Some _ => true | None => false end) pairs) &&
  forallb (fun l => match t (fst (fst l)) (snd (fst l)), snd l with
                    | Some a, Fin w => if Rlt_dec a w then true else false
                    | _, _ => false
                    end) lines.
(** The product of a function of the pairs. *)
Definition over_pairs (pairs : list (nat * nat)) (q : nat -> nat -> R) : R := fold_right (fun e a => q (fst e) (snd e) * a) 1 pairs.
