(** Existence of solutions of the binary models. *)
From Coq Require Import Reals List Arith Lia Lra Bool.
From Verif Require Import Base SpecGraph SpecEnsemble SpecDirected SpecExist SpecReduce SpecSymmetry.
From Verif Require Import ModelCM ModelDCM.
From Verif Require Import ProofsGraph ProofsCM ProofsDCM ProofsMainDCM ProofsAlike ProofsFlip ProofsReduce ProofsBalance.
Local Open Scope R_scope.
Import ListNotations.

Definition possible_arc (ko ki : nat -> R) (i j : nat) : bool :=
  if Nat.eqb i j then false else if Req_EM_T (ko i) 0 then false else if Req_EM_T (ki j) 0 then false else true.
Lemma possible_arc_true ko ki i j : possible_arc ko ki i j = true -> i <> j /\ ko i <> 0 /\ ki j <> 0.
Proof.
  unfold possible_arc. destruct (Nat.eqb_spec i j); [discriminate|]. destruct (Req_EM_T (ko i) 0); [discriminate|].
  destruct (Req_EM_T (ki j) 0); [discriminate|]. auto.
Qed.

Definition from_exp (ko ki : nat -> R) (n : nat) (th : nat -> R) (r : nat) : R :=
  if Nat.ltb r n then if Req_EM_T (ko r) 0 then 0 else exp (- th r)
  else if Req_EM_T (ki (r - n)%nat) 0 then 0 else exp (- th r).
Lemma from_exp_full n ko ki nzo nzi th : nonzero_list n ko nzo -> nonzero_list n ki nzi ->
  dcm_full n nzo nzi (from_exp ko ki n th).
Proof.
  intros Ho Hi. unfold from_exp. split; [split|split]; intros i H.
  - apply Ho in H. rewrite (proj2 (Nat.ltb_lt i n)) by apply H. destruct (Req_EM_T (ko i) 0); [tauto|apply exp_pos].
  - apply Hi in H. rewrite ltb_plus_n, plus_n_minus. destruct (Req_EM_T (ki i) 0); [tauto|apply exp_pos].
  - intros Hn. rewrite (proj2 (Nat.ltb_lt i n) H). destruct (Req_EM_T (ko i) 0) as [E|E]; [reflexivity|].
    exfalso. apply Hn, Ho. split; assumption.
  - intros Hn. rewrite ltb_plus_n, plus_n_minus. destruct (Req_EM_T (ki i) 0) as [E|E]; [reflexivity|].
    exfalso. apply Hn, Hi. split; assumption.
Qed.

Lemma solution_dcm_exists n ko ki nzo nzi p :
  nonzero_list n ko nzo -> nonzero_list n ki nzi -> inner_dir n ko ki p ->
  exists x, dcm_full n nzo nzi x /\
    forall i, (i < n)%nat -> expected_out_degree_dcm n x i = ko i /\ expected_in_degree_dcm n x i = ki i.
Proof.
  intros Ho Hi (Hin & Hz & Hs).
  destruct (balance_bin n (possible_arc ko ki) p) as (th & Hb).
  { intros i j Hi' Hj He. apply possible_arc_true in He. apply Hin; tauto. }
  exists (from_exp ko ki n th). split; [apply from_exp_full; assumption|].
  assert (EP : forall i j, (i < n)%nat -> (j < n)%nat ->
    (if Nat.eqb i j then 0 else p_dbcm (from_exp ko ki n th) (fun j => from_exp ko ki n th (j + n)%nat) i j) =
    (if Nat.eqb i j then 0 else p i j) - (if possible_arc ko ki i j then p i j - exp (- (th i + th (j + n)%nat)) / (1 + exp (- (th i + th (j + n)%nat))) else 0)).
  { intros i j Hi' Hj. unfold possible_arc. destruct (Nat.eqb_spec i j) as [|Hne]; [ring|].
    unfold p_dbcm, from_exp. rewrite (proj2 (Nat.ltb_lt i n) Hi'), ltb_plus_n, plus_n_minus.
    destruct (Req_EM_T (ko i) 0) as [E|E]; [rewrite Hz by auto; field|].
    destruct (Req_EM_T (ki j) 0) as [E'|E']; [rewrite Hz by auto; field|].
    rewrite Ropp_plus_distr, exp_plus. ring. }
  intros i Hi'. destruct (Hb i Hi') as [B1 B2]. destruct (Hs i Hi') as [S1 S2].
  rewrite expected_out_degree_dcm_nf, expected_in_degree_dcm_nf by exact Hi'. split.
  - rewrite (rsum_ext n _ _ (fun j Hj => EP i j Hi' Hj)), rsum_minus, B1, Rminus_0_r. exact S1.
  - rewrite (rsum_ext n _ (fun j => (if Nat.eqb i j then 0 else p j i) - (if possible_arc ko ki j i then p j i - exp (- (th j + th (i + n)%nat)) / (1 + exp (- (th j + th (i + n)%nat))) else 0))).
    + rewrite rsum_minus, B2, Rminus_0_r. exact S2.
    + intros j Hj. specialize (EP j i Hj Hi'). rewrite (Nat.eqb_sym i j). exact EP.
Qed.

Lemma p_dbcm_range a b : 0 < a -> 0 < b -> 0 < a * b / (1 + a * b) < 1.
Proof.
  intros Ha Hb. assert (0 < a * b) by (apply Rmult_lt_0_compat; assumption). split; [apply Rdiv_lt_0_compat; lra|].
  apply Rmult_lt_reg_r with (1 + a * b); [lra|]. unfold Rdiv. rewrite Rmult_assoc, Rinv_l by lra. lra.
Qed.

Lemma solution_dcm_inner n ko ki nzo nzi x :
  nonzero_list n ko nzo -> nonzero_list n ki nzi -> dcm_full n nzo nzi x ->
  (forall i, (i < n)%nat -> expected_out_degree_dcm n x i = ko i /\ expected_in_degree_dcm n x i = ki i) ->
  inner_dir n ko ki (p_dbcm x (fun j => x (j + n)%nat)).
Proof.
  intros Ho Hi ((D1 & D2) & Z1 & Z2) HS. split; [|split].
  - intros i j Hi' Hj Hij Ki Kj. apply p_dbcm_range; [apply D1, Ho; auto|apply D2, Hi; auto].
  - intros i j Hi' Hj Hij [Ki|Kj]; unfold p_dbcm.
    + rewrite Z1 by (try assumption; intros H; apply Ho in H; tauto). field.
    + rewrite Z2 by (try assumption; intros H; apply Hi in H; tauto). field.
  - intros i Hi'. destruct (HS i Hi') as [<- <-].
    rewrite expected_out_degree_dcm_nf, expected_in_degree_dcm_nf by exact Hi'. split; reflexivity.
Qed.

Lemma solvable_dcm_iff n ko ki nzo nzi :
  nonzero_list n ko nzo -> nonzero_list n ki nzi ->
  ((exists x, dcm_full n nzo nzi x /\
     forall i, (i < n)%nat -> expected_out_degree_dcm n x i = ko i /\ expected_in_degree_dcm n x i = ki i) <->
   exists p, inner_dir n ko ki p).
Proof.
  intros Ho Hi. split.
  - intros (x & HF & HS). eexists. apply (solution_dcm_inner n ko ki nzo nzi x); assumption.
  - intros (p & Hp). exact (solution_dcm_exists n ko ki nzo nzi p Ho Hi Hp).
Qed.

(** * Undirected *)
Lemma nonzero_list_exists n k : exists l, nonzero_list n k l.
Proof.
  exists (filter (fun i => if Req_EM_T (k i) 0 then false else true) (seq 0 n)). split.
  - apply NoDup_filter, seq_NoDup.
  - intros i. rewrite filter_In, in_seq. destruct (Req_EM_T (k i) 0) as [E|E]; split; intros [H1 H2]; try discriminate; try tauto.
    all: split; [lia|assumption || reflexivity].
Qed.

Lemma solution_cm_exists n k p : inner_und n k p ->
  exists x, cm_full n k x /\ forall i, (i < n)%nat -> expected_degree_cm n x i = k i.
Proof.
  intros [Hp _]. destruct (nonzero_list_exists n k) as (nz & Hnz).
  destruct (solution_dcm_exists n k k nz nz p Hnz Hnz Hp) as (z & HF & HS).
  set (f := fun r => z (flip n r)).
  assert (Fo : forall i, (i < n)%nat -> f i = z (i + n)%nat) by (intros i Hi; unfold f; rewrite flip0 by exact Hi; reflexivity).
  assert (Fi : forall i, (i < n)%nat -> f (i + n)%nat = z i) by (intros i Hi; unfold f; rewrite flip1 by exact Hi; reflexivity).
  assert (FF : dcm_full n nz nz f).
  { destruct HF as ((D1 & D2) & Z1 & Z2). split; [split|split]; intros i H.
    - pose proof (proj1 (proj1 (proj2 Hnz i) H)). rewrite Fo by assumption. apply D2, H.
    - pose proof (proj1 (proj1 (proj2 Hnz i) H)). rewrite Fi by assumption. apply D1, H.
    - intros Hn. rewrite Fo by exact H. apply Z2; assumption.
    - intros Hn. rewrite Fi by exact H. apply Z1; assumption. }
  assert (FS : forall i, (i < n)%nat -> expected_out_degree_dcm n f i = k i /\ expected_in_degree_dcm n f i = k i).
  { intros i Hi. destruct (expected_dcm_flip n z i Hi) as [E1 E2]. unfold f. rewrite E1, E2. destruct (HS i Hi). auto. }
  assert (E : loglikelihood_dcm n k k nz nz (fun _ => 1) f = loglikelihood_dcm n k k nz nz (fun _ => 1) z).
  { apply Rle_antisym; apply (solution_dcm_max_full n n (fun i => i)); try assumption; try apply classes_id;
      rewrite expand_id; assumption. }
  pose proof (solution_dcm_strict n n (fun i => i) k k nz nz (fun _ => 1) z (classes_id n) Hnz Hnz HF f FF) as P.
  rewrite expand_id in P. specialize (P HS E). cbv beta in P.
  exists (fun i => sqrt (z i * z (i + n)%nat)).
  assert (Z : forall i, (i < n)%nat -> 0 <= z i /\ 0 <= z (i + n)%nat).
  { intros i Hi. destruct HF as ((D1 & D2) & Z1 & Z2). destruct (in_dec Nat.eq_dec i nz) as [H|H].
    - specialize (D1 i H). specialize (D2 i H). lra.
    - rewrite Z1, Z2 by assumption. lra. }
  split.
  - intros i Hi. destruct HF as ((D1 & D2) & Z1 & Z2). split; intros Hk.
    + assert (In i nz) by (apply Hnz; auto). apply sqrt_lt_R0. apply Rmult_lt_0_compat; auto.
    + rewrite Z1 by (try assumption; intros H; apply Hnz in H; tauto). rewrite Rmult_0_l. apply sqrt_0.
  - intros i Hi. rewrite <- (proj1 (HS i Hi)). rewrite expected_degree_cm_nf, expected_out_degree_dcm_nf by exact Hi.
    apply rsum_ext. intros j Hj. destruct (Nat.eqb_spec i j) as [|Hne]; [reflexivity|].
    unfold p_ubcm, p_dbcm. specialize (P i j Hi Hj Hne). destruct (Z i Hi), (Z j Hj).
    assert (EQ : z i * z (j + n)%nat = z j * z (i + n)%nat).
    { rewrite Fo, Fi in P by assumption. rewrite P. ring. }
    rewrite <- sqrt_mult by (apply Rmult_le_pos; assumption).
    replace (z i * z (i + n)%nat * (z j * z (j + n)%nat)) with ((z i * z (j + n)%nat) * (z j * z (i + n)%nat)) by ring.
    rewrite <- EQ, sqrt_square by (apply Rmult_le_pos; assumption). reflexivity.
Qed.

Lemma solution_cm_inner n k x : cm_full n k x -> (forall i, (i < n)%nat -> expected_degree_cm n x i = k i) ->
  inner_und n k (p_ubcm x).
Proof.
  intros HF HS. split; [split; [|split]|].
  - intros i j Hi Hj Hij Ki Kj. apply p_dbcm_range; [apply (HF i Hi), Ki|apply (HF j Hj), Kj].
  - intros i j Hi Hj Hij [Ki|Kj]; unfold p_ubcm.
    + rewrite (proj2 (HF i Hi) Ki). field.
    + rewrite (proj2 (HF j Hj) Kj). field.
  - intros i Hi. rewrite <- (HS i Hi), expected_degree_cm_nf. split; [reflexivity|].
    unfold col. apply rsum_ext. intros j Hj. unfold p_ubcm. rewrite (Rmult_comm (x j)). reflexivity.
  - intros i j Hi Hj. unfold p_ubcm. rewrite (Rmult_comm (x j)). reflexivity.
Qed.
Lemma solvable_cm_iff n k :
  (exists x, cm_full n k x /\ forall i, (i < n)%nat -> expected_degree_cm n x i = k i) <-> exists p, inner_und n k p.
Proof.
  split.
  - intros (x & HF & HS). exists (p_ubcm x). apply solution_cm_inner; assumption.
  - intros (p & Hp). exact (solution_cm_exists n k p Hp).
Qed.
