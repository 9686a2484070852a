(** Concrete graphs and parameters used to show that hypotheses are satisfiable. *)
From Coq Require Import Reals List Arith Lia Lra Bool.
From Verif Require Import Base SpecGraph ModelCM.
Local Open Scope R_scope.

(** Path 0 - 1 - 2: degrees 1, 2, 1; classes {0,2} and {1}. *)
Definition path3 (i j : nat) : bool := orb (Nat.eqb i (S j)) (Nat.eqb j (S i)).
Definition path3_cls (i : nat) : nat := if Nat.eqb i 1 then 1%nat else 0%nat.
Definition path3_c (q : nat) : R := if Nat.eqb q 0 then 2 else 1.
Definition path3_k (q : nat) : R := if Nat.eqb q 0 then 1 else 2.
Definition path3_x (q : nat) : R := if Nat.eqb q 0 then 1 else 2.

Ltac nat_cases i :=
  match goal with
  | H : (i < 0)%nat |- _ => lia
  | H : (i < S _)%nat |- _ => destruct i as [|i]; [clear H|apply Nat.succ_lt_mono in H; try nat_cases i]
  end.

Lemma path3_simple : simple_graph 3 path3.
Proof.
  split.
  - intros i j Hi Hj. nat_cases i; nat_cases j; reflexivity.
  - intros i Hi. nat_cases i; reflexivity.
Qed.

Lemma path3_classes : classes 3 2 path3_cls path3_c.
Proof.
  split.
  - intros i Hi. nat_cases i; unfold path3_cls; simpl; lia.
  - intros q Hq. nat_cases q; unfold path3_c, path3_cls, ind; simpl; lra.
Qed.

Lemma path3_deg i : (i < 3)%nat -> path3_k (path3_cls i) = deg 3 path3 i.
Proof.
  intros Hi. nat_cases i; unfold path3_k, path3_cls, deg, path3, ind; simpl; lra.
Qed.

Lemma path3_pos q : (q < 2)%nat -> 0 < path3_x q.
Proof. intros Hq. nat_cases q; unfold path3_x; simpl; lra. Qed.

(** Cycle on four nodes: all degrees 2, one class of four nodes; the solution
    is [x = sqrt 2]. *)
Definition ring4 (i j : nat) : bool :=
  negb (Nat.eqb (Nat.modulo (i + j) 2) 0).

Lemma ring4_simple : simple_graph 4 ring4.
Proof.
  split.
  - intros i j Hi Hj. nat_cases i; nat_cases j; reflexivity.
  - intros i Hi. nat_cases i; reflexivity.
Qed.

Lemma ring4_classes : classes 4 1 (fun _ => 0%nat) (fun _ => 4).
Proof.
  split.
  - intros; lia.
  - intros q Hq. nat_cases q. unfold ind; simpl; lra.
Qed.

Lemma ring4_deg i : (i < 4)%nat -> 2 = deg 4 ring4 i.
Proof.
  intros Hi. nat_cases i; unfold deg, ring4, ind; simpl; lra.
Qed.

Lemma ring4_solution i : (i < 4)%nat -> expected_degree_cm 4 (fun _ => sqrt 2) i = 2.
Proof.
  intros Hi. pose proof (sqrt_def 2 ltac:(lra)) as H.
  nat_cases i; unfold expected_degree_cm, loop; simpl; rewrite H; lra.
Qed.
