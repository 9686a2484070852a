(** Concrete cases for the theorems on the existence of solutions. *)
From Coq Require Import Reals List Arith Lia Lra Bool.
From Verif Require Import Base SpecGraph SpecEnsemble SpecDirected SpecWeighted SpecCReMa SpecExist.
From Verif Require Import ModelCM ModelECM ModelDCM ModelDECM ModelCReMa.
From Verif Require Import ProofsExistCor.
Local Open Scope R_scope.
Import ListNotations.

(** Degree two on four nodes: every pair with probability 2/3. *)
Lemma inner_und_case : inner_und 4 (fun _ => 2) (fun _ _ => 2 / 3).
Proof.
  split; [|reflexivity]. split; [|split].
  - intros; lra.
  - intros i j _ _ _ [H|H]; lra.
  - intros i Hi. unfold row, col. destruct i as [|[|[|[|i]]]]; [| | | |lia]; cbn; split; lra.
Qed.
(** Two senders, three receivers. *)
Definition snd2 (i : nat) : R := match i with O | 1%nat => 1 | _ => 0 end.
Definition rcv3 (i : nat) : R := match i with 2%nat => 1 | _ => / 2 end.
Definition law23 (i j : nat) : R := match i with O | 1%nat => / 2 | _ => 0 end.
Lemma inner_dir_case : inner_dir 3 snd2 rcv3 law23 /\ nonzero_list 3 snd2 [0; 1]%nat /\ nonzero_list 3 rcv3 [0; 1; 2]%nat.
Proof.
  split; [split; [|split]|split].
  - intros i j Hi Hj Hij K1 K2. destruct i as [|[|i]]; cbn in *; lra.
  - intros i j Hi Hj Hij [K|K]; destruct i as [|[|[|i]]]; destruct j as [|[|[|j]]]; cbn in *; lra || lia.
  - intros i Hi. unfold row, col. destruct i as [|[|[|i]]]; [| | |lia]; cbn; split; lra.
  - split; [repeat constructor; simpl; intuition lia|]. intros i. split.
    + intros [<-|[<-|[]]]; cbn; split; lia || lra.
    + intros [Hi K]. destruct i as [|[|[|i]]]; cbn in *; auto; lia || lra.
  - split; [repeat constructor; simpl; intuition lia|]. intros i. split.
    + intros [<-|[<-|[<-|[]]]]; cbn; split; lia || lra.
    + intros [Hi K]. destruct i as [|[|[|i]]]; cbn in *; auto; lia.
Qed.
(** The same with mean weights twice the probabilities. *)
Lemma inner_dirw_case : inner_dirw 3 snd2 rcv3 (fun i => 2 * snd2 i) (fun i => 2 * rcv3 i) law23 (fun i j => 2 * law23 i j).
Proof.
  split; [|split].
  - intros i j Hi Hj Hij (K1 & K2 & _). destruct i as [|[|i]]; cbn in *; lra.
  - intros i j Hi Hj Hij K. destruct i as [|[|[|i]]]; [| | |lia]; cbn in *; try lra;
      exfalso; apply K; destruct j as [|[|[|j]]]; cbn; repeat split; lra.
  - intros i Hi. unfold row, col. destruct i as [|[|[|i]]]; [| | |lia]; cbn; repeat split; lra.
Qed.
(** Three nodes, degree one, strength two. *)
Lemma inner_undw_case : inner_undw 3 (fun _ => 1) (fun _ => 2) (fun _ _ => / 2) (fun _ _ => 1).
Proof.
  split; [|split].
  - intros; lra.
  - intros; split; reflexivity.
  - intros i Hi. unfold row. destruct i as [|[|[|i]]]; [| | |lia]; cbn; split; lra.
Qed.
(** A path on three nodes with weights two and three. *)
Definition path3 : topology := [((0, 1)%nat, 1); ((1, 2)%nat, 1)].
Definition path23 : topology := [((0, 1)%nat, 2); ((1, 2)%nat, 3)].
Lemma reweighted_case : pairs_below 3 path3 /\ positive_weights path3 /\ reweighted path3 path23 /\
  (forall k, (k < 3)%nat -> out_weight path23 k + in_weight path23 k = match k with O => 2 | 1%nat => 5 | _ => 3 end) /\
  (forall k, (k < 3)%nat -> out_weight path23 k = match k with O => 2 | 1%nat => 3 | _ => 0 end /\
     in_weight path23 k = match k with O => 0 | 1%nat => 2 | _ => 3 end).
Proof.
  unfold path3, path23. split; [|split; [|split; [|split]]].
  - intros i j w [E|[E|[]]]; injection E as <- <- <-; lia.
  - intros i j w [E|[E|[]]]; injection E as <- <- <-; lra.
  - split; [reflexivity|]. intros i j w [E|[E|[]]]; injection E as <- <- <-; lra.
  - intros k Hk. destruct k as [|[|[|k]]]; [| | |lia]; cbn; lra.
  - intros k Hk. destruct k as [|[|[|k]]]; [| | |lia]; cbn; split; lra.
Qed.

(** A ring of five nodes: degree two, [x = 1]; weight two on each link. *)
Definition ring5 (i j : nat) : bool :=
  match i, j with
  | 0, 1 | 1, 0 | 1, 2 | 2, 1 | 2, 3 | 3, 2 | 3, 4 | 4, 3 | 4, 0 | 0, 4 => true | _, _ => false end%nat.
Definition ring5w (i j : nat) : R := if ring5 i j then 2 else 0.
Ltac five i Hi := destruct i as [|[|[|[|[|i]]]]]; [| | | | |exfalso; lia].
Lemma ring5_case : simple_graph 5 ring5 /\ weights_on 5 ring5 ring5w /\
  (forall i j, (i < 5)%nat -> (j < 5)%nat -> ring5w i j = ring5w j i) /\
  (forall i j, (i < 5)%nat -> (j < 5)%nat -> ring5 i j = true -> 1 < ring5w i j) /\
  (forall i, (i < 5)%nat -> deg 5 ring5 i <> 0) /\
  cm_full 5 (deg 5 ring5) (fun _ => 1) /\
  (forall i, (i < 5)%nat -> expected_degree_cm 5 (fun _ => 1) i = deg 5 ring5 i) /\
  inner_und 5 (deg 5 ring5) (fun _ _ => / 2).
Proof.
  assert (S : forall i j, (i < 5)%nat -> (j < 5)%nat -> ring5 i j = ring5 j i).
  { intros i j Hi Hj. five i Hi; five j Hj; reflexivity. }
  assert (D : forall i, (i < 5)%nat -> deg 5 ring5 i = 2).
  { intros i Hi. unfold deg. five i Hi; cbn; lra. }
  split; [split; [exact S|intros i Hi; five i Hi; reflexivity]|].
  split. { intros i j _ _. unfold ring5w. destruct (ring5 i j); split; intros; try discriminate; lra. }
  split. { intros i j Hi Hj. unfold ring5w. rewrite S by assumption. reflexivity. }
  split. { intros i j _ _ H. unfold ring5w. rewrite H. lra. }
  split. { intros i Hi. rewrite D by exact Hi. lra. }
  split. { intros i Hi. rewrite D by exact Hi. split; intros; lra. }
  split.
  { intros i Hi. rewrite D by exact Hi. unfold expected_degree_cm. cbv zeta.
    five i Hi; rewrite ?loop_S, ?loop_0; cbn [Nat.eqb]; field. }
  split; [split; [|split]|reflexivity].
  - intros; lra.
  - intros i j Hi Hj _ [H|H]; rewrite D in H by assumption; lra.
  - intros i Hi. rewrite D by exact Hi. unfold row, col. five i Hi; cbn; split; lra.
Qed.

(** A directed ring of three nodes: degrees one, [x = y = 1]. *)
Definition ring3 (i j : nat) : bool := match i, j with 0, 1 | 1, 2 | 2, 0 => true | _, _ => false end%nat.
Definition ring3w (i j : nat) : R := if ring3 i j then 2 else 0.
Lemma ring3_case : loopless 3 ring3 /\ weights_on 3 ring3 ring3w /\
  (forall i j, (i < 3)%nat -> (j < 3)%nat -> ring3 i j = true -> 1 < ring3w i j) /\
  nonzero_list 3 (deg 3 ring3) [0; 1; 2]%nat /\ nonzero_list 3 (indeg 3 ring3) [0; 1; 2]%nat /\
  dcm_full 3 [0; 1; 2]%nat [0; 1; 2]%nat (fun _ => 1) /\
  (forall i, (i < 3)%nat -> expected_out_degree_dcm 3 (fun _ => 1) i = deg 3 ring3 i /\
     expected_in_degree_dcm 3 (fun _ => 1) i = indeg 3 ring3 i) /\
  inner_dir 3 (deg 3 ring3) (indeg 3 ring3) (fun _ _ => / 2).
Proof.
  assert (D : forall i, (i < 3)%nat -> deg 3 ring3 i = 1 /\ indeg 3 ring3 i = 1).
  { intros i Hi. unfold deg, indeg. destruct i as [|[|[|i]]]; [| | |lia]; cbn; split; lra. }
  assert (N : forall k, (forall i, (i < 3)%nat -> k i = 1) -> nonzero_list 3 k [0; 1; 2]%nat).
  { intros k K. split; [repeat constructor; simpl; intuition lia|]. intros i. split.
    - intros H. assert (Hi : (i < 3)%nat) by (simpl in H; lia). split; [exact Hi|]. rewrite K by exact Hi. lra.
    - intros [H _]. simpl. lia. }
  split; [intros i Hi; destruct i as [|[|[|i]]]; [| | |lia]; reflexivity|].
  split. { intros i j _ _. unfold ring3w. destruct (ring3 i j); split; intros; try discriminate; lra. }
  split. { intros i j _ _ H. unfold ring3w. rewrite H. lra. }
  split; [apply N; intros; apply D; assumption|]. split; [apply N; intros; apply D; assumption|].
  split.
  { repeat split; try (intros; lra); intros; exfalso; match goal with H : ~ _ |- _ => apply H end; simpl; lia. }
  split.
  { intros i Hi. destruct (D i Hi) as [-> ->]. unfold expected_out_degree_dcm, expected_in_degree_dcm. cbv zeta.
    destruct i as [|[|[|i]]]; [| | |lia]; destruct (Req_EM_T 1 0); try lra; rewrite ?loop_S, ?loop_0; cbn [Nat.eqb negb]; split; field. }
  split; [|split].
  - intros; lra.
  - intros i j Hi Hj _ [H|H]; [rewrite (proj1 (D i Hi)) in H|rewrite (proj2 (D j Hj)) in H]; lra.
  - intros i Hi. destruct (D i Hi) as [-> ->]. unfold row, col. destruct i as [|[|[|i]]]; [| | |lia]; cbn; split; lra.
Qed.

(** The three ways of pairing four nodes: degree one, each pair linked in exactly one. *)
Definition pairing (m i j : nat) : bool :=
  match i, j with
  | 0, 1 | 1, 0 | 2, 3 | 3, 2 => Nat.eqb m 0
  | 0, 2 | 2, 0 | 1, 3 | 3, 1 => Nat.eqb m 1
  | 0, 3 | 3, 0 | 1, 2 | 2, 1 => Nat.eqb m 2
  | _, _ => false end%nat.
Definition pairings : list (nat -> nat -> bool) := [pairing 0; pairing 1; pairing 2].
Ltac four i Hi := destruct i as [|[|[|[|i]]]]; [| | | |exfalso; lia].
Lemma sample_case : pairings <> [] /\
  (forall g, In g pairings -> simple_graph 4 g /\ forall i, (i < 4)%nat -> deg 4 g i = 1) /\
  (forall i j, (i < 4)%nat -> (j < 4)%nat -> i <> j ->
     (exists g, In g pairings /\ g i j = true) /\ exists g, In g pairings /\ g i j = false).
Proof.
  assert (I0 : In (pairing 0) pairings) by (left; reflexivity).
  assert (I1 : In (pairing 1) pairings) by (right; left; reflexivity).
  assert (I2 : In (pairing 2) pairings) by (right; right; left; reflexivity).
  split; [discriminate|]. split.
  - intros g Hg. assert (G : exists m, (m < 3)%nat /\ g = pairing m).
    { destruct Hg as [<-|[<-|[<-|[]]]]; eexists; (split; [|reflexivity]); lia. }
    destruct G as (m & Hm & ->). split; [split|].
    + intros i j Hi Hj. four i Hi; four j Hj; reflexivity.
    + intros i Hi. four i Hi; reflexivity.
    + intros i Hi. unfold deg. destruct m as [|[|[|m]]]; [| | |exfalso; lia]; four i Hi; cbn; lra.
  - intros i j Hi Hj Hij. four i Hi; four j Hj; try (exfalso; congruence);
      (split; [first [exists (pairing 0); split; [exact I0|reflexivity]|exists (pairing 1); split; [exact I1|reflexivity]|exists (pairing 2); split; [exact I2|reflexivity]]|
               first [exists (pairing 0); split; [exact I0|reflexivity]|exists (pairing 1); split; [exact I1|reflexivity]|exists (pairing 2); split; [exact I2|reflexivity]]]).
Qed.

(** A star on three nodes has no UBCM solution. *)
Definition star3 (i : nat) : R := match i with O => 2 | _ => 1 end.
Lemma star_none : ~ exists x, cm_full 3 star3 x /\ forall i, (i < 3)%nat -> expected_degree_cm 3 x i = star3 i.
Proof.
  intros (x & HF & HS). pose proof (cm_degree_bound 3 star3 x HF HS 0%nat ltac:(lia) ltac:(cbn; lra)) as [_ H].
  unfold others in H. cbn in H. destruct (Req_EM_T 1 0); lra.
Qed.
(** A ring of five nodes with unit weights has no UECM solution. *)
Lemma unit_ring_none : ~ exists sol, ecm_dom 5 sol /\
  forall i, (i < 5)%nat -> expected_ecm 5 sol i = deg 5 ring5 i /\ expected_ecm 5 sol (i + 5) = deg 5 ring5 i.
Proof.
  intros (sol & HD & HS). destruct (ecm_strength_bound 5 (deg 5 ring5) (deg 5 ring5) sol ltac:(lia) HD HS 0%nat ltac:(lia)) as [_ H]. lra.
Qed.
