(** Derivatives of finite sums and of double sums along one coordinate. *)
From Coq Require Import Reals List Arith Lia Lra.
From Coquelicot Require Import Coquelicot.
From Verif Require Import Base SpecDeriv.
Local Open Scope R_scope.

Lemma is_derive_rsum n (f : nat -> R -> R) t (d : nat -> R) :
  (forall j, (j < n)%nat -> is_derive (f j) t (d j)) ->
  is_derive (fun u => rsum n (fun j => f j u)) t (rsum n d).
Proof.
  induction n as [|n IH]; intros H; simpl.
  - apply (is_derive_const 0 t).
  - apply (is_derive_plus (fun u => rsum n (fun j => f j u)) (f n)).
    + apply IH. intros; apply H; lia.
    + apply H; lia.
Qed.

Lemma is_derive_eq (f : R -> R) (t d d' : R) : is_derive f t d -> d = d' -> is_derive f t d'.
Proof. intros H <-; exact H. Qed.

Lemma is_derive_R0 t (a : R) : is_derive (fun _ : R => a) t 0.
Proof. apply (is_derive_const a t). Qed.

Lemma is_derive_Rplus (f g : R -> R) t df dg :
  is_derive f t df -> is_derive g t dg -> is_derive (fun u => f u + g u) t (df + dg).
Proof. intros; apply (is_derive_plus f g t df dg); assumption. Qed.

Lemma is_derive_Rminus (f g : R -> R) t df dg :
  is_derive f t df -> is_derive g t dg -> is_derive (fun u => f u - g u) t (df - dg).
Proof. intros; apply (is_derive_minus f g t df dg); assumption. Qed.

Lemma is_derive_fext (f g : R -> R) t d :
  (forall u, f u = g u) -> is_derive f t d -> is_derive g t d.
Proof. intros H. apply is_derive_ext. exact H. Qed.

Lemma partial_ext F G x h d :
  (forall y, F y = G y) -> partial F x h d -> partial G x h d.
Proof. intros H. unfold partial. apply is_derive_fext. intros; apply H. Qed.

Lemma partial_unique F x h d1 d2 : partial F x h d1 -> partial F x h d2 -> d1 = d2.
Proof.
  unfold partial. intros H1 H2.
  apply is_derive_unique in H1. apply is_derive_unique in H2. congruence.
Qed.

(** Derivative of a double sum along a coordinate [h]: only row [h] and
    column [h] contribute. *)
Lemma is_derive_cross n h (B : nat -> nat -> R -> R) t (P Q : nat -> R) :
  (h < n)%nat ->
  (forall i j, (i < n)%nat -> (j < n)%nat -> i <> h -> j <> h -> is_derive (B i j) t 0) ->
  (forall j, (j < n)%nat -> j <> h -> is_derive (B h j) t (P j)) ->
  (forall i, (i < n)%nat -> i <> h -> is_derive (B i h) t (Q i)) ->
  is_derive (B h h) t (P h + Q h) ->
  is_derive (fun u => rsum n (fun i => rsum n (fun j => B i j u))) t (rsum n P + rsum n Q).
Proof.
  intros Hh H0 HP HQ HPQ.
  apply (is_derive_eq _ _ (rsum n (fun i => rsum n (fun j =>
     (if Nat.eqb i h then P j else 0) + (if Nat.eqb j h then Q i else 0))))).
  2: { apply rsum_cross; exact Hh. }
  apply (is_derive_rsum n (fun i u => rsum n (fun j => B i j u))).
  intros i Hi.
  apply (is_derive_rsum n (fun j u => B i j u)).
  intros j Hj.
  destruct (Nat.eqb_spec i h) as [->|Hih]; destruct (Nat.eqb_spec j h) as [->|Hjh].
  - exact HPQ.
  - rewrite Rplus_0_r. apply HP; auto.
  - rewrite Rplus_0_l. apply HQ; auto.
  - rewrite Rplus_0_r. apply H0; auto.
Qed.

(** Derivative of a single sum in which only term [h] depends on the variable. *)
Lemma is_derive_rsum_one n h (f : nat -> R -> R) t d :
  (h < n)%nat ->
  (forall j, (j < n)%nat -> j <> h -> is_derive (f j) t 0) ->
  is_derive (f h) t d ->
  is_derive (fun u => rsum n (fun j => f j u)) t d.
Proof.
  intros Hh H0 H1.
  apply (is_derive_eq _ _ (rsum n (fun j => if Nat.eqb j h then d else 0))).
  2: { apply (rsum_single n h (fun _ => d) Hh). }
  apply is_derive_rsum. intros j Hj.
  destruct (Nat.eqb_spec j h) as [->|Hjh]; auto.
Qed.

(** Derivative of a sum over unordered pairs along a coordinate of node [h]. *)
Lemma is_derive_usum n h (B : nat -> nat -> R -> R) t (P : nat -> R) :
  (h < n)%nat ->
  (forall i j, (i < j)%nat -> (j < n)%nat -> i <> h -> j <> h -> is_derive (B i j) t 0) ->
  (forall j, (j < h)%nat -> is_derive (B j h) t (P j)) ->
  (forall j, (h < j)%nat -> (j < n)%nat -> is_derive (B h j) t (P j)) ->
  is_derive (fun u => usum n (fun i j => B i j u)) t
     (rsum n (fun j => if Nat.eqb h j then 0 else P j)).
Proof.
  intros Hh H0 H1 H2. unfold usum.
  apply (is_derive_eq _ _ (rsum n (fun i => rsum i (fun j =>
     (if Nat.eqb i h then P j else 0) + (if Nat.eqb j h then P i else 0))))).
  - apply (is_derive_rsum n (fun i u => rsum i (fun j => B j i u))). intros i Hi.
    apply (is_derive_rsum i (fun j u => B j i u)). intros j Hj.
    destruct (Nat.eqb_spec i h) as [->|Hih]; destruct (Nat.eqb_spec j h) as [->|Hjh].
    + lia.
    + apply (is_derive_eq _ _ (P j)); [|ring]. apply H1. exact Hj.
    + apply (is_derive_eq _ _ (P i)); [|ring]. apply H2; lia.
    + apply (is_derive_eq _ _ 0); [|ring]. apply H0; lia.
  - clear H0 H1 H2.
    rewrite (rsum_ext n _ (fun i => (if Nat.eqb i h then rsum h P else 0)
        + (if Nat.ltb h i then P i else 0))).
    + rewrite rsum_plus, (rsum_single n h (fun _ => rsum h P) Hh).
      clear - Hh. induction n as [|n IH]; [lia|].
      destruct (Nat.eq_dec h n) as [->|Hn].
      * simpl. rewrite Nat.eqb_refl, Nat.ltb_irrefl.
        rewrite (rsum_zero n (fun i => if Nat.ltb n i then P i else 0)).
        2: { intros j Hj. destruct (Nat.ltb_spec n j); [lia|reflexivity]. }
        rewrite (rsum_ext n (fun j => if Nat.eqb n j then 0 else P j) P); [ring|].
        intros j Hj. destruct (Nat.eqb_spec n j); [lia|reflexivity].
      * simpl. rewrite <- IH by lia.
        destruct (Nat.ltb_spec h n); [|lia]. destruct (Nat.eqb_spec h n); [lia|]. ring.
    + intros i Hi. rewrite rsum_plus.
      destruct (Nat.eqb_spec i h) as [->|Hih].
      * rewrite (rsum_single_out h h (fun _ => P h)) by lia.
        rewrite Nat.ltb_irrefl. reflexivity.
      * rewrite rsum_0. destruct (Nat.ltb_spec h i).
        -- rewrite (rsum_single i h (fun _ => P i)) by lia. reflexivity.
        -- rewrite (rsum_single_out i h (fun _ => P i)) by lia. reflexivity.
Qed.

(** Derivative of a row sum over [j <> i]. *)
Lemma is_derive_row n i (f : nat -> R -> R) t (d : nat -> R) :
  (forall j, (j < n)%nat -> j <> i -> is_derive (f j) t (d j)) ->
  is_derive (fun u => rsum n (fun j => if Nat.eqb i j then 0 else f j u)) t
    (rsum n (fun j => if Nat.eqb i j then 0 else d j)).
Proof.
  intros H. apply (is_derive_rsum n (fun j u => if Nat.eqb i j then 0 else f j u)).
  intros j Hj. destruct (Nat.eqb_spec i j) as [E|E].
  - apply is_derive_R0.
  - apply H; auto.
Qed.

Lemma is_derive_row_one n i h (f : nat -> R -> R) t d :
  (h < n)%nat -> h <> i ->
  (forall j, (j < n)%nat -> j <> i -> j <> h -> is_derive (f j) t 0) ->
  is_derive (f h) t d ->
  is_derive (fun u => rsum n (fun j => if Nat.eqb i j then 0 else f j u)) t d.
Proof.
  intros Hh Hhi H0 H1.
  apply (is_derive_rsum_one n h (fun j u => if Nat.eqb i j then 0 else f j u)); [exact Hh| |].
  - intros j Hj Hjh. destruct (Nat.eqb_spec i j) as [E|E]; [apply is_derive_R0|].
    apply H0; auto.
  - destruct (Nat.eqb_spec i h) as [E|E]; [congruence|exact H1].
Qed.

(** Evaluate updates under [is_derive], index disequalities by [lia]. *)
Ltac upd_eval :=
  try change (@upd (AbsRing.sort R_AbsRing)) with (@upd R);
  repeat match goal with
  | |- context [upd ?x ?h ?v ?j] =>
      first [ constr_eq h j; rewrite (upd_eq x h v) | rewrite (upd_neq x h j v) by lia ]
  end.
Ltac dsimp :=
  eapply is_derive_fext;
  [ let u := fresh "u" in intros u; cbv beta; upd_eval; reflexivity | ].

Lemma is_derive_Rplus_opp (f g : R -> R) (t df dg : R) :
  is_derive f t df -> is_derive g t (- dg) -> is_derive (fun u => f u + g u) t (df - dg).
Proof. intros H1 H2. exact (is_derive_Rplus f g t df (- dg) H1 H2). Qed.
