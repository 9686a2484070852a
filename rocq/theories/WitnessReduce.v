(** Concrete cases for the theorems on undirected networks seen as directed ones
    and on isolated nodes. *)
From Coq Require Import Reals List Arith Lia Lra Bool.
From Verif Require Import Base SpecGraph SpecEnsemble SpecWeighted SpecDirected SpecCReMa SpecReduce.
From Verif Require Import ModelCM ModelECM ModelDCM ModelDECM ModelCReMa.
From Verif Require Import ProofsReduce ProofsIsolated.
Local Open Scope R_scope.
Import ListNotations.

(** Three nodes, every probability 1/2, undirected and directed. *)
Lemma both_dcm_case : both 3 (fun _ => 1) (fun _ => 1) /\ nonzero_list 3 (fun _ => 1) [0; 1; 2]%nat /\
  dcm_full 3 [0; 1; 2]%nat [0; 1; 2]%nat (fun _ => 1) /\
  (forall i, (i < 3)%nat -> expected_degree_cm 3 (fun _ => 1) i = 1 /\
     expected_out_degree_dcm 3 (fun _ => 1) i = 1 /\ expected_in_degree_dcm 3 (fun _ => 1) i = 1).
Proof.
  assert (N : nonzero_list 3 (fun _ => 1) [0; 1; 2]%nat).
  { split; [repeat constructor; simpl; intuition lia|]. intros i. simpl. split.
    - intros H. split; [intuition lia|lra].
    - intros [H _]. lia. }
  assert (E : forall i, (i < 3)%nat -> expected_degree_cm 3 (fun _ => 1) i = 1).
  { intros i Hi. unfold expected_degree_cm. cbv zeta. destruct i as [|[|[|i]]]; [| | |lia]; rewrite ?loop_S, ?loop_0; cbn [Nat.eqb]; field. }
  split; [intros i Hi; split; reflexivity|]. split; [exact N|].
  split.
  - repeat split; try (intros; lra); intros; exfalso; match goal with H : ~ _ |- _ => apply H end; simpl; lia.
  - intros i Hi. split; [apply E; exact Hi|].
    destruct (expected_dcm_both 3 (fun _ => 1) (fun _ => 1) i ltac:(intros ? ?; split; reflexivity) Hi) as [-> ->].
    split; apply E; exact Hi.
Qed.

(** Three nodes, [x = 1] and [y = 1/2]: degrees 1/2 and strengths 2/3. *)
Definition enh (n r : nat) : R := if Nat.ltb r n then 1 else / 2.
Lemma both_decm_case : ecm_dom 3 (enh 3) /\ both2 3 (enh 3) (enh 6) /\
  (forall i, (i < 3)%nat -> expected_ecm 3 (enh 3) i = / 2 /\ expected_ecm 3 (enh 3) (i + 3) = 2 / 3) /\
  (forall i, (i < 3)%nat -> expected_decm 3 (enh 6) i = / 2 /\ expected_decm 3 (enh 6) (i + 2 * 3) = 2 / 3).
Proof.
  assert (D : ecm_dom 3 (enh 3)).
  { split.
    - intros i Hi. unfold enh. destruct (Nat.ltb i 3), (Nat.ltb (i + 3) 3); split; lra.
    - intros i j Hi Hj Hij. unfold enh. rewrite !(proj2 (Nat.ltb_ge _ _)) by lia. lra. }
  assert (B : both2 3 (enh 3) (enh 6)).
  { intros i Hi. unfold enh. destruct i as [|[|[|i]]]; [| | |lia]; repeat split; reflexivity. }
  assert (E : forall i, (i < 3)%nat -> expected_ecm 3 (enh 3) i = / 2 /\ expected_ecm 3 (enh 3) (i + 3) = 2 / 3).
  { intros i Hi. destruct i as [|[|[|i]]]; [| | |lia]; unfold expected_ecm; cbn [Nat.ltb Nat.leb Nat.add Nat.sub]; rewrite ?loop_S, ?loop_0; cbn [Nat.eqb negb Nat.add]; unfold enh; cbn [Nat.ltb Nat.leb]; split; field. }
  split; [exact D|]. split; [exact B|]. split; [exact E|]. intros i Hi.
  destruct (expected_decm_both 3 (enh 3) (enh 6) i B D Hi) as (-> & _ & -> & _). apply E; exact Hi.
Qed.

(** A path of two edges, parameters 1, 2, 3. *)
Definition path3 : list (nat * nat * R) := [(0%nat, 1%nat, 1); (1%nat, 2%nat, / 2)].
Definition up3 (r : nat) : R := match r with 0%nat | 3%nat => 1 | 1%nat | 4%nat => 2 | _ => 3 end.
Lemma both_crema_case : pairs_below 3 path3 /\ nonneg_weights path3 /\ crema_dom path3 up3 /\ both 3 up3 up3 /\
  length (both_ways path3) = 4%nat /\ crema_dir_dom 3 (both_ways path3) up3.
Proof.
  assert (B : pairs_below 3 path3) by (intros i j w [E|[E|[]]]; injection E as <- <- <-; lia).
  assert (D : crema_dom path3 up3) by (intros i j w [E|[E|[]]]; injection E as <- <- <-; simpl; lra).
  assert (Q : both 3 up3 up3) by (intros [|[|[|i]]] Hi; [| | |lia]; split; reflexivity).
  split; [exact B|]. split; [intros i j w [E|[E|[]]]; injection E as <- <- <-; lra|].
  split; [exact D|]. split; [exact Q|]. split; [reflexivity|]. exact (both_ways_dom 3 path3 up3 up3 B Q D).
Qed.

(** Two nodes and a third one with no links. *)
Definition two (b r : nat) : R := if Nat.ltb r (2 * b) then / INR (2 + r) else 0.
Definition two_and (b r : nat) : R := if Nat.eqb (r mod 3) 2 then 0 else two b (r - r / 3)%nat.
Lemma padded_case : padded 1 2 1 (two 1) (two_and 1) /\ padded 2 2 1 (two 2) (two_and 2) /\ padded 4 2 1 (two 4) (two_and 4) /\
  two_and 2 4 = / 5 /\ two_and 2 5 = 0.
Proof.
  split; [|split; [|split]].
  1, 2, 3: intros q i Hq Hi; destruct i as [|[|[|i]]]; try lia; destruct q as [|[|[|[|q]]]]; try lia; reflexivity.
  unfold two_and, two. simpl. split; [f_equal; lra|reflexivity].
Qed.

(** The index list leaves out the isolated node. *)
Lemma padded_lists_case : index_list 2 [0; 1]%nat /\ pairs_below 2 [(0%nat, 1%nat, 1)] /\
  crema_dom [(0%nat, 1%nat, 1)] (two 1).
Proof.
  split; [split; [repeat constructor; simpl; intuition lia|intros i [<-|[<-|[]]]; lia]|].
  split; [intros i j w [E|[]]; injection E as <- <- <-; lia|].
  intros i j w [E|[]]; injection E as <- <- <-. unfold two; simpl.
  assert (0 < / (1 + 1)) by (apply Rinv_0_lt_compat; lra). assert (0 < / (1 + 1 + 1)) by (apply Rinv_0_lt_compat; lra). lra.
Qed.
