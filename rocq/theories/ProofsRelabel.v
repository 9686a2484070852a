(** Loops and lists under a renaming of the nodes. *)
From Coq Require Import Reals List Arith Lia Lra Bool Permutation.
From Verif Require Import Base SpecDirected SpecNetwork SpecSymmetry.
From Verif Require Import SpecEnsemble ModelDCM ModelDECM ProofsUnique ProofsList ProofsDECM.
Local Open Scope R_scope.

Section Lift.
Variables (n : nat) (p : nat -> nat).
Lemma lift_block i q : (i < n)%nat -> lift n p (i + q * n) = (p i + q * n)%nat.
Proof.
  intros H. unfold lift. rewrite Nat.mod_add by lia. rewrite Nat.mod_small by exact H.
  rewrite Nat.div_add by lia. rewrite Nat.div_small by exact H. lia.
Qed.
Lemma lift0 i : (i < n)%nat -> lift n p i = p i.
Proof. intros H. pose proof (lift_block i 0 H) as L. rewrite !Nat.add_0_r in L. exact L. Qed.
Lemma lift1 i : (i < n)%nat -> lift n p (i + n) = (p i + n)%nat.
Proof. intros H. pose proof (lift_block i 1 H) as L. rewrite !Nat.mul_1_l in L. exact L. Qed.
Lemma lift1' i : (i < n)%nat -> lift n p (n + i) = (n + p i)%nat.
Proof. intros H. rewrite (Nat.add_comm n i), lift1 by exact H. apply Nat.add_comm. Qed.
Lemma lift2 i : (i < n)%nat -> lift n p (i + 2 * n) = (p i + 2 * n)%nat.
Proof. apply lift_block. Qed.
Lemma lift3 i : (i < n)%nat -> lift n p (i + 3 * n) = (p i + 3 * n)%nat.
Proof. apply lift_block. Qed.
End Lift.

Lemma eqb_relabel n p i j : relabelling n p -> (i < n)%nat -> (j < n)%nat ->
  Nat.eqb (p i) (p j) = Nat.eqb i j.
Proof.
  intros [_ HI] Hi Hj. destruct (Nat.eqb_spec i j) as [->|N]; [apply Nat.eqb_refl|].
  apply Nat.eqb_neq. intros E. apply N. apply HI; assumption.
Qed.
Lemma relabelling_lt n p i : relabelling n p -> (i < n)%nat -> (p i < n)%nat.
Proof. intros [H _]. apply H. Qed.

(** * Sums accumulated by a loop *)

Definition additive (b : nat -> R -> R) : Prop := forall j acc, b j acc = acc + b j 0.

Lemma loop_shift n a b : additive b -> loop n a b = a + loop n 0 b.
Proof.
  intros H. induction n as [|n IH]; [rewrite !loop_0; ring|].
  rewrite !loop_S. rewrite H, (H n (loop n 0 b)), IH. ring.
Qed.
Lemma loop_rsum n a b : additive b -> loop n a b = a + rsum n (fun j => b j 0).
Proof.
  intros H. induction n as [|n IH]; [rewrite !loop_0; simpl; ring|].
  rewrite !loop_S. rewrite H, IH. simpl. ring.
Qed.

Lemma loop_relabel n p a a' b1 b2 : relabelling n p -> a = a' -> additive b2 ->
  (forall j acc, (j < n)%nat -> b1 j acc = b2 (p j) acc) ->
  loop n a b1 = loop n a' b2.
Proof.
  intros HP -> HA HE. rewrite (loop_ext n a' b1 (fun j => b2 (p j))).
  - rewrite !loop_rsum; [|exact HA|intros j acc; apply HA].
    f_equal. apply (rsum_relabel n p (fun j => b2 j 0) HP).
  - intros i acc Hi. apply HE. exact Hi.
Qed.

Lemma lloop_lsum l a b : additive b -> lloop l a b = a + lsum l (fun j => b j 0).
Proof.
  intros H. unfold lloop. revert a. induction l as [|i l IH]; intros a; simpl; [ring|].
  rewrite IH, H. ring.
Qed.
Lemma lloop_shift l a b : additive b -> lloop l a b = a + lloop l 0 b.
Proof. intros H. rewrite !(lloop_lsum l _ b H). ring. Qed.
Lemma lloop_ext_in {A : Type} l (a : A) b1 b2 :
  (forall j acc, In j l -> b1 j acc = b2 j acc) -> lloop l a b1 = lloop l a b2.
Proof.
  unfold lloop. revert a. induction l as [|i l IH]; intros a H; simpl; [reflexivity|].
  rewrite H by (left; reflexivity). apply IH. intros j acc Hj. apply H. right. exact Hj.
Qed.

Lemma lsum_perm (l l' : list nat) f : Permutation l l' -> lsum l f = lsum l' f.
Proof. induction 1; simpl; lra. Qed.

Lemma renamed_perm n p l' l : relabelling n p -> renamed_list n p l' l -> Permutation (map p l') l.
Proof.
  intros HP ([N' B'] & [N B] & E). apply NoDup_Permutation.
  - clear E. induction l' as [|i l' IH]; simpl; constructor.
    + inversion N'; subst. rewrite in_map_iff. intros (j & Ej & Hj).
      apply (proj2 HP) in Ej; [subst; contradiction| |]; apply B'; [right; exact Hj|left; reflexivity].
    + inversion N'; subst. apply IH; [assumption|]. intros; apply B'; right; assumption.
  - exact N.
  - intros v. rewrite in_map_iff. split.
    + intros (i & <- & Hi). apply E; [apply B'|]; exact Hi.
    + intros Hv. assert (Hn : In v (map p (seq 0 n))).
      { eapply Permutation_in; [apply Permutation_sym, relabelling_perm, HP|]. apply in_seq. specialize (B v Hv). lia. }
      apply in_map_iff in Hn. destruct Hn as (i & <- & Hi). apply in_seq in Hi.
      exists i. split; [reflexivity|]. apply E; [lia|exact Hv].
Qed.

Lemma lloop_relabel n p l' l a a' b1 b2 : relabelling n p -> renamed_list n p l' l ->
  a = a' -> additive b2 ->
  (forall j acc, (j < n)%nat -> In j l' -> b1 j acc = b2 (p j) acc) ->
  lloop l' a b1 = lloop l a' b2.
Proof.
  intros HP HL -> HA HE. rewrite (lloop_ext_in l' a' b1 (fun j => b2 (p j))).
  - rewrite !lloop_lsum; [|exact HA|intros j acc; apply HA].
    f_equal. rewrite <- (lsum_perm _ _ (fun j => b2 j 0) (renamed_perm n p l' l HP HL)).
    clear. induction l' as [|i l' IH]; simpl; [reflexivity|]. rewrite IH. reflexivity.
  - intros i acc Hi. apply HE; [|exact Hi]. apply (proj1 HL). exact Hi.
Qed.

Lemma memb_relabel n p l' l i : renamed_list n p l' l -> (i < n)%nat -> memb i l' = memb (p i) l.
Proof.
  intros (_ & _ & E) Hi. specialize (E i Hi).
  destruct (memb_spec i l'), (memb_spec (p i) l); tauto.
Qed.

(** * Automation *)

Ltac ifs := repeat match goal with
  | |- context [Req_EM_T ?a ?b] => destruct (Req_EM_T a b)
  | |- context [Nat.eqb ?a ?b] => destruct (Nat.eqb a b)
  | |- context [if ?b then _ else _] => destruct b
  end.
Ltac add_tac := let j := fresh in let acc := fresh in intros j acc; cbv beta zeta; cbn [negb];
  repeat match goal with
  | |- context [loop ?n ?a ?b] => lazymatch a with R0 => fail | 0 => fail | _ => rewrite (loop_shift n a b) by add_tac end
  | |- context [lloop ?n ?a ?b] => lazymatch a with R0 => fail | 0 => fail | _ => rewrite (lloop_shift n a b) by add_tac end
  end;
  ifs; cbn [negb]; try lra; try ring.
Ltac lifts HP := cbv beta;
  repeat match goal with
  | H : (?i < ?n)%nat |- context [lift ?n ?p ?i] => rewrite (lift0 n p i H)
  | H : (?i < ?n)%nat |- context [lift ?n ?p (?i + ?n)] => rewrite (lift1 n p i H)
  | H : (?i < ?n)%nat |- context [lift ?n ?p (?n + ?i)] => rewrite (lift1' n p i H)
  | H : (?i < ?n)%nat |- context [lift ?n ?p (?i + 2 * ?n)] => rewrite (lift2 n p i H)
  | H : (?i < ?n)%nat |- context [lift ?n ?p (?i + 3 * ?n)] => rewrite (lift3 n p i H)
  end;
  repeat match goal with
  | H : (?i < ?n)%nat, H' : (?j < ?n)%nat |- context [Nat.eqb (?p ?i) (?p ?j)] =>
      rewrite (eqb_relabel n p i j HP H H')
  end.
Ltac relab HP :=
  match goal with
  | |- ?x = ?x => reflexivity
  | |- loop _ _ _ = loop _ _ _ =>
      eapply (loop_relabel _ _ _ _ _ _ HP); [relab HP|add_tac|];
      let j := fresh "j" in let acc := fresh "acc" in let H := fresh "Hj" in
      intros j acc H; lifts HP; first [reflexivity|relab HP]
  | L : renamed_list _ _ ?l' ?l |- lloop ?l' _ _ = lloop ?l _ _ =>
      eapply (lloop_relabel _ _ _ _ _ _ _ _ HP L); [relab HP|add_tac|];
      let j := fresh "j" in let acc := fresh "acc" in let H := fresh "Hj" in let H1 := fresh "Hl" in
      intros j acc H H1; lifts HP; first [reflexivity|relab HP]
  | |- (if Req_EM_T ?a ?c then _ else _) = (if Req_EM_T ?b ?c then _ else _) =>
      let E := fresh in assert (E : a = b) by relab HP; rewrite E; clear E;
      destruct (Req_EM_T b c); relab HP
  | |- (if ?b then _ else _) = (if ?b then _ else _) => destruct b; relab HP
  | |- _ => progress f_equal; relab HP
  end.
