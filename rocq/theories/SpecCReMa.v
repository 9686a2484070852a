(** Specification vocabulary for CReMa: lists of weighted pairs. *)
From Coq Require Import Reals List Arith.
From Coquelicot Require Import Coquelicot.
From Verif Require Import Base SpecDeriv SpecGraph SpecEnsemble.
Local Open Scope R_scope.
Import ListNotations.

(** A topology: triples (node, node, probability or 0/1 entry). *)
Definition topology : Type := list (nat * nat * R).
Definition pairs_below (n : nat) (es : topology) : Prop :=
  forall i j w, In (i, j, w) es -> (i < n)%nat /\ (j < n)%nat.
Definition nonneg_weights (es : topology) : Prop := forall i j w, In (i, j, w) es -> 0 <= w.
(** No self-pair and no unordered pair listed twice. *)
Definition simple_pairs (es : topology) : Prop :=
  (forall i j w, In (i, j, w) es -> i <> j) /\
  NoDup (map (fun e => (Nat.min (fst (fst e)) (snd (fst e)), Nat.max (fst (fst e)) (snd (fst e)))) es).
(** No ordered pair listed twice. *)
Definition simple_arcs (es : topology) : Prop := NoDup (map fst es).

(** Points where every rate [beta_i + beta_j] (resp. [beta_out_i + beta_in_j]) of
    a listed pair is positive. *)
Definition crema_dom (es : topology) (beta : nat -> R) : Prop :=
  forall i j w, In (i, j, w) es -> 0 < beta i + beta j.
Definition crema_dir_dom (n : nat) (es : topology) (beta : nat -> R) : Prop :=
  forall i j w, In (i, j, w) es -> 0 < beta i + beta (j + n)%nat.

(** Partial derivative of a function that may fail: it is defined around the
    point (along the coordinate) and has the derivative [d] there. *)
Definition opartial (F : (nat -> R) -> option R) (x : nat -> R) (h : nat) (d : R) : Prop :=
  exists G, partial G x h d /\ locally (x h) (fun t => F (upd x h t) = Some (G (upd x h t))).

(** Entry of an array that may have failed. *)
Definition oentry (f : option (nat -> R)) (i : nat) : option R :=
  match f with None => None | Some f => Some (f i) end.
Definition oentry2 (f : option (nat -> nat -> R)) (i j : nat) : option R :=
  match f with None => None | Some f => Some (f i j) end.

(** No listed pair has a zero parameter at an end. *)
Definition ends_nonzero (es : topology) (beta : nat -> R) : Prop :=
  forall i j w, In (i, j, w) es -> beta i <> 0 /\ beta j <> 0.
Definition ends_nonzero_dir (n : nat) (es : topology) (beta : nat -> R) : Prop :=
  forall i j w, In (i, j, w) es -> beta i <> 0 /\ beta (j + n)%nat <> 0.

(** Link probability of the directed binary model with parameters [x], [y]. *)
Definition dcm_prob (x y : nat -> R) (i j : nat) : R :=
  if Nat.eqb i j then 0 else x i * y j / (1 + x i * y j).

(** Density of independent exponential weights, the rate of pair [(i,j)] being
    [beta_i + beta_j]. *)
Fixpoint crema_density (es : topology) (beta : nat -> R) (v : nat -> nat -> R) : R :=
  match es with
  | [] => 1
  | e :: es => let i := fst (fst e) in let j := snd (fst e) in
      (beta i + beta j) * exp (- ((beta i + beta j) * v i j)) * crema_density es beta v
  end.
(** Strength of node [k]. *)
Fixpoint crema_strength (es : topology) (v : nat -> nat -> R) (k : nat) : R :=
  match es with
  | [] => 0
  | e :: es => let i := fst (fst e) in let j := snd (fst e) in
      (if Nat.eqb i k then v i j else 0) + (if Nat.eqb j k then v i j else 0) + crema_strength es v k
  end.
Fixpoint crema_density_dir (n : nat) (es : topology) (beta : nat -> R) (v : nat -> nat -> R) : R :=
  match es with
  | [] => 1
  | e :: es => let i := fst (fst e) in let j := snd (fst e) in
      (beta i + beta (j + n)%nat) * exp (- ((beta i + beta (j + n)%nat) * v i j)) * crema_density_dir n es beta v
  end.
Fixpoint crema_out_strength (es : topology) (v : nat -> nat -> R) (k : nat) : R :=
  match es with
  | [] => 0
  | e :: es => (if Nat.eqb (fst (fst e)) k then v (fst (fst e)) (snd (fst e)) else 0) + crema_out_strength es v k
  end.
Fixpoint crema_in_strength (es : topology) (v : nat -> nat -> R) (k : nat) : R :=
  match es with
  | [] => 0
  | e :: es => (if Nat.eqb (snd (fst e)) k then v (fst (fst e)) (snd (fst e)) else 0) + crema_in_strength es v k
  end.
