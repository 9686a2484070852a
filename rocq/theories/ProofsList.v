(** Loops, sums and derivatives over index lists. *)
From Coq Require Import Reals List Arith Lia Lra Bool.
From Coquelicot Require Import Coquelicot.
From Verif Require Import Base SpecDeriv ProofsDeriv SpecGraph SpecEnsemble ProofsEnsemble ModelDCM SpecDirected.
Local Open Scope R_scope.
Import ListNotations.

Lemma lloop_add (l : list nat) a0 body (g : nat -> R) :
  (forall j a, In j l -> body j a = a + g j) -> lloop l a0 body = a0 + lsum l g.
Proof.
  unfold lloop. revert a0. induction l as [|j l IH]; intros a0 H; simpl; [ring|].
  rewrite IH by (intros; apply H; right; assumption).
  rewrite H by (left; reflexivity). ring.
Qed.

Lemma lloop_sub (l : list nat) a0 body (g : nat -> R) :
  (forall j a, In j l -> body j a = a - g j) -> lloop l a0 body = a0 - lsum l g.
Proof.
  unfold lloop. revert a0. induction l as [|j l IH]; intros a0 H; simpl; [ring|].
  rewrite IH by (intros; apply H; right; assumption).
  rewrite H by (left; reflexivity). ring.
Qed.

Lemma memb_In i l : memb i l = true <-> In i l.
Proof.
  unfold memb. rewrite existsb_exists. split.
  - intros [j [Hj E]]. apply Nat.eqb_eq in E. subst. exact Hj.
  - intros H. exists i. split; [exact H|apply Nat.eqb_refl].
Qed.

Lemma memb_spec i l : reflect (In i l) (memb i l).
Proof. apply iff_reflect. symmetry. apply memb_In. Qed.

Lemma lsum_opp {A} (l : list A) f : lsum l (fun a => - f a) = - lsum l f.
Proof. induction l as [|a l IH]; simpl; [ring|]. rewrite IH; ring. Qed.

Lemma lsum_scal_r {A} (l : list A) c f : lsum l (fun a => f a * c) = lsum l f * c.
Proof. induction l as [|a l IH]; simpl; [ring|]. rewrite IH; ring. Qed.

Lemma lsum_nonneg {A} (l : list A) f : (forall a, In a l -> 0 <= f a) -> 0 <= lsum l f.
Proof.
  induction l as [|a l IH]; intros H; simpl; [lra|].
  pose proof (H a (or_introl eq_refl)). specialize (IH (fun b Hb => H b (or_intror Hb))). lra.
Qed.

(** A sum over a list of distinct indices is a masked sum. *)
Lemma lsum_mask n l f : index_list n l ->
  lsum l f = rsum n (fun j => if memb j l then f j else 0).
Proof.
  intros [Hnd Hb]. induction l as [|i l IH]; simpl.
  - symmetry. apply rsum_0.
  - inversion Hnd as [|? ? Hi Hl]; subst. rewrite IH; auto; [|intros; apply Hb; right; assumption].
    assert (Hin : (i < n)%nat) by (apply Hb; left; reflexivity).
    rewrite <- (rsum_single n i f Hin), <- rsum_plus. apply rsum_ext. intros j Hj.
    destruct (Nat.eqb_spec j i) as [->|Hji]; simpl.
    + destruct (memb_spec i l); [contradiction|ring].
    + ring.
Qed.

Lemma is_derive_lsum (l : list nat) (f : nat -> R -> R) t (d : nat -> R) :
  (forall j, In j l -> is_derive (f j) t (d j)) ->
  is_derive (fun u => lsum l (fun j => f j u)) t (lsum l d).
Proof.
  induction l as [|j l IH]; intros H; simpl.
  - apply is_derive_R0.
  - apply (is_derive_Rplus (f j) (fun u => lsum l (fun j => f j u))).
    + apply H. left; reflexivity.
    + apply IH. intros; apply H; right; assumption.
Qed.

Lemma is_derive_lsum_0 (l : list nat) (f : nat -> R -> R) t :
  (forall j, In j l -> is_derive (f j) t 0) ->
  is_derive (fun u => lsum l (fun j => f j u)) t 0.
Proof.
  intros H. apply (is_derive_eq _ _ (lsum l (fun _ => 0))); [|apply lsum_zero; reflexivity].
  apply is_derive_lsum. exact H.
Qed.

Lemma is_derive_lsum_one (l : list nat) h (f : nat -> R -> R) t d :
  NoDup l -> In h l ->
  (forall j, In j l -> j <> h -> is_derive (f j) t 0) ->
  is_derive (f h) t d ->
  is_derive (fun u => lsum l (fun j => f j u)) t d.
Proof.
  intros Hnd Hin H0 H1. induction l as [|j l IH]; [destruct Hin|].
  inversion Hnd as [|? ? Hj Hl]; subst. simpl.
  destruct (Nat.eq_dec j h) as [->|Hjh].
  - apply (is_derive_eq _ _ (d + 0)); [|ring].
    apply (is_derive_Rplus (f h) (fun u => lsum l (fun j => f j u))); [exact H1|].
    apply is_derive_lsum_0. intros j Hj'. apply H0; [right; exact Hj'|congruence].
  - apply (is_derive_eq _ _ (0 + d)); [|ring].
    apply (is_derive_Rplus (f j) (fun u => lsum l (fun j => f j u))).
    + apply H0; [left; reflexivity|exact Hjh].
    + apply IH; auto. 2: { intros; apply H0; [right|]; assumption. }
      destruct Hin; [congruence|assumption].
Qed.

Lemma nonzero_index n k l : nonzero_list n k l -> index_list n l.
Proof. intros [H1 H2]. split; [exact H1|]. intros i Hi. apply H2, Hi. Qed.
