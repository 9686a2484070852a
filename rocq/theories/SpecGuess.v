(** Specification vocabulary for starting points. *)
From Coq Require Import Reals List Arith String.
From Verif Require Import Base ModelDCM SpecWeighted.
Import ListNotations.
Local Open Scope R_scope.

(** The documented names. *)
Definition binary_names : list string := ["random"; "uniform"; "degrees"; "degrees_minor"; "chung_lu"]%string.
Definition weighted_names : list string := ["random"; "uniform"; "strengths"; "strengths_minor"]%string.

(** The first [m] entries of [a] are the finite numbers [v]. *)
Definition finite_array (m : nat) (a : nat -> fval) (v : nat -> R) : Prop := forall r, (r < m)%nat -> a r = Fin (v r).
(** A factor attached to the constraint [c]: positive, or 0 when the constraint is 0. *)
Definition starts_inside (c v : R) : Prop := (c <> 0 -> 0 < v) /\ (c = 0 -> v = 0).
(** Exponents whose factor [exp (-t)] is below half the smallest positive double. *)
Definition factor_vanishes (t : R) : Prop := exp (- t) < / 2 ^ 1075.

(** Nonnegative constraints. *)
Definition nonneg (n : nat) (v : nat -> R) : Prop := forall i, (i < n)%nat -> 0 <= v i.
(** Values of [np.random.rand] other than 0. *)
Definition draws (rnd : nat -> R) : Prop := forall i, 0 < rnd i < 1.
(** Some node has the whole out-strength and another one the whole in-strength. *)
Definition single_flow (n : nat) (s_out s_in : nat -> R) : Prop :=
  exists i j, (i < n)%nat /\ (j < n)%nat /\ i <> j /\ 0 < s_out i /\ 0 < s_in j /\
    (forall h, (h < n)%nat -> h <> i -> s_out h = 0) /\ (forall h, (h < n)%nat -> h <> j -> s_in h = 0).
(** Out- and in-degrees have the same sum. *)
Definition balanced (dout din : list nat) : Prop :=
  rsum (List.length dout) (fun i => INR (nth i dout O)) = rsum (List.length din) (fun i => INR (nth i din O)).
(** Number of links of a degree sequence, counted once per unit of degree. *)
Definition volume (dseq : list nat) : R := rsum (List.length dseq) (fun i => INR (nth i dseq O)).

(** What each name means for a node of degree [d], given the number of links and a draw. *)
Definition binary_start (links draw : R) (nm : string) (d v : R) : Prop :=
  (nm = "random"%string -> v = draw) /\ (nm = "uniform"%string -> v = / 2) /\ (nm = "degrees"%string -> v = d) /\ (nm = "degrees_minor"%string -> v * (sqrt links + 1) = d) /\ (nm = "chung_lu"%string -> v * (2 * links) = d).
(** ... and for a node of degree [d] and strength [w] out of a total strength [tot]. *)
Definition weighted_start (links tot u draw_d draw_w : R) (nm : string) (d w v_d v_w : R) : Prop :=
  (nm = "random"%string -> v_d = draw_d /\ v_w = draw_w) /\ (nm = "uniform"%string -> v_d = u /\ v_w = u) /\ (nm = "strengths"%string -> v_d * (links + 1) = d /\ v_w * tot = w) /\ (nm = "strengths_minor"%string -> v_d * (d + 1) = 1 /\ v_w * (w + 1) = 1).
