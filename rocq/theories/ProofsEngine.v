(** A sum over pairs of nodes of coercive functions of
    [theta_i + theta_(j+n)] and [theta_(i+2n) + theta_(j+3n)] has a minimum, and
    at the minimum the row and column sums of the derivatives are zero.
    Used for the existence of solutions; no model definition appears here. *)
From Coq Require Import Reals List Arith Lia Lra.
From Coquelicot Require Import Coquelicot.
From Verif Require Import Base SpecDeriv ProofsDeriv ProofsCompact.
Local Open Scope R_scope.

(** One bound for finitely many nodes or pairs. *)
Lemma bound1 n (P : nat -> R -> Prop) : (forall i (a b : R), P i a -> a <= b -> P i b) ->
  (forall i, (i < n)%nat -> exists C, P i C) -> exists C, 0 <= C /\ forall i, (i < n)%nat -> P i C.
Proof.
  intros Hm. induction n as [|n IH]; intros H; [exists 0; split; [lra|intros; lia]|].
  destruct IH as (C & H0 & HC); [intros; apply H; lia|]. destruct (H n ltac:(lia)) as (D & HD).
  exists (Rmax C D). split; [pose proof (Rmax_l C D); lra|]. intros i Hi.
  destruct (Nat.eq_dec i n) as [->|Hne]; [apply (Hm n D); [exact HD|apply Rmax_r]|].
  apply (Hm i C); [apply HC; lia|apply Rmax_l].
Qed.
Lemma bound2 n (P : nat -> nat -> R -> Prop) : (forall i j (a b : R), P i j a -> a <= b -> P i j b) ->
  (forall i j, (i < n)%nat -> (j < n)%nat -> exists C, P i j C) ->
  exists C, 0 <= C /\ forall i j, (i < n)%nat -> (j < n)%nat -> P i j C.
Proof.
  intros Hm H. destruct (bound1 n (fun i C => forall j, (j < n)%nat -> P i j C)) as (C & H0 & HC).
  - intros i a b Ha Hab j Hj. apply (Hm i j a); [apply Ha; exact Hj|exact Hab].
  - intros i Hi. destruct (bound1 n (P i)) as (C & _ & HC); [intros j; apply Hm|intros; apply H; assumption|].
    exists C. exact HC.
  - exists C. split; [exact H0|]. intros i j Hi Hj. apply HC; assumption.
Qed.

Definition coercive (f : R -> R) : Prop := forall M, exists C, forall t, f t <= M -> Rabs t <= C.
Definition on_bounded (f : R -> R) : Prop := forall C, exists K, forall t, Rabs t <= C -> Rabs (f t) <= K.

Section Engine.
Variables (n : nat) (E : nat -> nat -> bool) (A K B : nat -> nat -> R -> R).
Hypothesis Ac : forall i j, E i j = true -> forall t, continuous (A i j) t.
Hypothesis Kc : forall i j, E i j = true -> forall t, continuous (K i j) t.
Hypothesis Bc : forall i j, E i j = true -> forall t, continuous (B i j) t.
Hypothesis A0 : forall i j, E i j = true -> forall t, 0 <= A i j t.
Hypothesis B0 : forall i j, E i j = true -> forall t, 0 <= B i j t.
Hypothesis Ab : forall i j, E i j = true -> coercive (A i j).
Hypothesis Bb : forall i j, E i j = true -> coercive (B i j).
Hypothesis Kb : forall i j, E i j = true -> on_bounded (K i j).

Definition tt (th : nat -> R) (i j : nat) : R := th i + th (j + n)%nat.
Definition uu (th : nat -> R) (i j : nat) : R := th (i + 2 * n)%nat + th (j + 3 * n)%nat.
Definition eterm (th : nat -> R) (i j : nat) : R :=
  A i j (tt th i j + K i j (uu th i j)) + B i j (uu th i j).
Definition eF (th : nat -> R) : R :=
  rsum n (fun i => rsum n (fun j => if E i j then eterm th i j else 0)).

Lemma eF_cont : ncont (4 * n) eF.
Proof.
  unfold eF. apply (ncont_rsum (4 * n) n (fun i th => rsum n (fun j => if E i j then eterm th i j else 0))).
  intros i Hi. apply (ncont_rsum (4 * n) n (fun j th => if E i j then eterm th i j else 0)). intros j Hj.
  destruct (E i j) eqn:He; [|exact (ncont_const (4 * n) 0)].
  assert (Hu : ncont (4 * n) (fun th => uu th i j)).
  { apply (ncont_plus (4 * n) (fun th => th (i + 2 * n)%nat) (fun th => th (j + 3 * n)%nat)); apply ncont_coord; lia. }
  unfold eterm. apply (ncont_plus (4 * n) (fun th => A i j (tt th i j + K i j (uu th i j))) (fun th => B i j (uu th i j))).
  - apply (ncont_comp (4 * n) (fun th => tt th i j + K i j (uu th i j)) (A i j)); [|apply Ac; exact He].
    apply (ncont_plus (4 * n) (fun th => tt th i j) (fun th => K i j (uu th i j))).
    + apply (ncont_plus (4 * n) (fun th => th i) (fun th => th (j + n)%nat)); apply ncont_coord; lia.
    + apply (ncont_comp (4 * n) (fun th => uu th i j) (K i j)); [exact Hu|apply Kc; exact He].
  - apply (ncont_comp (4 * n) (fun th => uu th i j) (B i j)); [exact Hu|apply Bc; exact He].
Qed.

Lemma eterm_nonneg th i j : E i j = true -> 0 <= eterm th i j.
Proof. intros He. unfold eterm. pose proof (A0 i j He (tt th i j + K i j (uu th i j))). pose proof (B0 i j He (uu th i j)). lra. Qed.
Lemma eterm_le th i j : (i < n)%nat -> (j < n)%nat -> E i j = true -> eterm th i j <= eF th.
Proof.
  intros Hi Hj He. unfold eF. rewrite (rsum_pull n i) by exact Hi. cbv beta. rewrite (rsum_pull n j) by exact Hj. cbv beta. rewrite He.
  assert (P1 : 0 <= rsum n (fun j0 => if Nat.eqb j0 j then 0 else if E i j0 then eterm th i j0 else 0)).
  { apply rsum_nonneg. intros b Hb. destruct (Nat.eqb b j); [lra|]. destruct (E i b) eqn:Eb; [apply eterm_nonneg; exact Eb|lra]. }
  assert (P2 : 0 <= rsum n (fun j0 => if Nat.eqb j0 i then 0 else rsum n (fun j => if E j0 j then eterm th j0 j else 0))).
  { apply rsum_nonneg. intros a Ha. destruct (Nat.eqb a i); [lra|]. apply rsum_nonneg. intros b Hb.
    destruct (E a b) eqn:Eb; [apply eterm_nonneg; exact Eb|lra]. }
  lra.
Qed.

Lemma engine_bounds M : exists C, 0 <= C /\ forall th, eF th <= M ->
  forall i j, (i < n)%nat -> (j < n)%nat -> E i j = true -> Rabs (tt th i j) <= C /\ Rabs (uu th i j) <= C.
Proof.
  destruct (bound2 n (fun i j C => E i j = true -> forall t u, A i j (t + K i j u) + B i j u <= M -> Rabs t <= C /\ Rabs u <= C))
    as (C & H0 & HC).
  - intros i j a b H Hab He t u Hm. destruct (H He t u Hm). lra.
  - intros i j Hi Hj. destruct (E i j) eqn:He; [|exists 0; discriminate].
    destruct (Ab i j He M) as (C1 & H1). destruct (Bb i j He M) as (C2 & H2). destruct (Kb i j He C2) as (C3 & H3).
    exists (Rmax (C1 + C3) C2). intros _ t u Hm.
    pose proof (A0 i j He (t + K i j u)). pose proof (B0 i j He u).
    specialize (H1 (t + K i j u) ltac:(lra)). specialize (H2 u ltac:(lra)). specialize (H3 u H2).
    pose proof (Rmax_l (C1 + C3) C2). pose proof (Rmax_r (C1 + C3) C2). split; [|lra].
    replace t with ((t + K i j u) + - K i j u) by ring. eapply Rle_trans; [apply Rabs_triang|]. rewrite Rabs_Ropp. lra.
  - exists C. split; [exact H0|]. intros th Hm i j Hi Hj He. apply (HC i j Hi Hj He).
    pose proof (eterm_le th i j Hi Hj He). unfold eterm in H. lra.
Qed.

Lemma eF_ext th th' :
  (forall i j, (i < n)%nat -> (j < n)%nat -> E i j = true -> tt th' i j = tt th i j /\ uu th' i j = uu th i j) -> eF th' = eF th.
Proof.
  intros H. unfold eF. apply rsum_ext. intros i Hi. apply rsum_ext. intros j Hj. destruct (E i j) eqn:He; [|reflexivity].
  destruct (H i j Hi Hj He) as [E1 E2]. unfold eterm. rewrite E1, E2. reflexivity.
Qed.

Lemma engine_min : exists th, forall th', eF th <= eF th'.
Proof.
  destruct (engine_bounds (eF (fun _ => 0))) as (C & HC0 & HC).
  destruct (global_min (4 * n) eF (INR (2 * n) * C) (fun _ => 0)) as (th & _ & H).
  - apply eF_cont.
  - apply Rmult_le_pos; [apply pos_INR|exact HC0].
  - intros th Hle. set (EE := fun i j => (i < n)%nat /\ (j < n)%nat /\ E i j = true).
    destruct (gauge_dir n C EE th HC0) as (a & Ha & Ba).
    { intros i j (Hi & Hj & He). split; [exact Hi|]. split; [exact Hj|]. exact (proj1 (HC th Hle i j Hi Hj He)). }
    destruct (gauge_dir n C EE (fun r => th (r + 2 * n)%nat) HC0) as (b & Hb & Bb').
    { intros i j (Hi & Hj & He). split; [exact Hi|]. split; [exact Hj|].
      replace (j + n + 2 * n)%nat with (j + 3 * n)%nat by lia. exact (proj2 (HC th Hle i j Hi Hj He)). }
    exists (fun r => if Nat.ltb r (2 * n) then a r else b (r - 2 * n)%nat). split.
    + intros r Hr. destruct (Nat.ltb_spec r (2 * n)); [apply Ba; assumption|apply Bb'; lia].
    + apply eF_ext. intros i j Hi Hj He. unfold tt, uu.
      rewrite !(proj2 (Nat.ltb_lt _ (2 * n))) by lia. rewrite !(proj2 (Nat.ltb_ge _ (2 * n))) by lia.
      replace (i + 2 * n - 2 * n)%nat with i by lia. replace (j + 3 * n - 2 * n)%nat with (j + n)%nat by lia.
      rewrite (Ha i j), (Hb i j) by (repeat split; assumption).
      replace (j + n + 2 * n)%nat with (j + 3 * n)%nat by lia. split; reflexivity.
  - exists th. exact H.
Qed.

(** Stationarity. *)
Variables (th : nat -> R) (A' K' B' : nat -> nat -> R).
Hypothesis Hmin : forall th', eF th <= eF th'.
Hypothesis Ad : forall i j, (i < n)%nat -> (j < n)%nat -> E i j = true -> is_derive (A i j) (tt th i j + K i j (uu th i j)) (A' i j).
Hypothesis Kd : forall i j, (i < n)%nat -> (j < n)%nat -> E i j = true -> is_derive (K i j) (uu th i j) (K' i j).
Hypothesis Bd : forall i j, (i < n)%nat -> (j < n)%nat -> E i j = true -> is_derive (B i j) (uu th i j) (B' i j).

Definition dlt (i r : nat) : R := if Nat.eqb i r then 1 else 0.
Lemma derive_coord r i : is_derive (fun t : R => upd th r t i) (th r) (dlt i r).
Proof.
  unfold upd, dlt. destruct (Nat.eqb i r); [apply @is_derive_id|apply (is_derive_R0 (th r) (th i))].
Qed.
Lemma upd_self r : forall i, upd th r (th r) i = th i.
Proof. intros i. unfold upd. destruct (Nat.eqb_spec i r) as [->|]; reflexivity. Qed.

Lemma engine_partial r : partial eF th r (rsum n (fun i => rsum n (fun j => if E i j then
    A' i j * (dlt i r + dlt (j + n) r) +
    (A' i j * K' i j + B' i j) * (dlt (i + 2 * n) r + dlt (j + 3 * n) r) else 0))).
Proof.
  unfold partial, eF. apply (is_derive_rsum n (fun i t => rsum n (fun j => if E i j then eterm (upd th r t) i j else 0))).
  intros i Hi. apply (is_derive_rsum n (fun j t => if E i j then eterm (upd th r t) i j else 0)). intros j Hj.
  destruct (E i j) eqn:He; [|apply (is_derive_R0 (th r) 0)].
  assert (Dt : is_derive (fun t : R => tt (upd th r t) i j) (th r) (dlt i r + dlt (j + n) r)).
  { unfold tt. apply is_derive_Rplus; apply derive_coord. }
  assert (Du : is_derive (fun t : R => uu (upd th r t) i j) (th r) (dlt (i + 2 * n) r + dlt (j + 3 * n) r)).
  { unfold uu. apply is_derive_Rplus; apply derive_coord. }
  assert (Et : tt (upd th r (th r)) i j = tt th i j) by (unfold tt; rewrite !upd_self; reflexivity).
  assert (Eu : uu (upd th r (th r)) i j = uu th i j) by (unfold uu; rewrite !upd_self; reflexivity).
  set (d1 := dlt i r + dlt (j + n) r) in *. set (d2 := dlt (i + 2 * n) r + dlt (j + 3 * n) r) in *.
  assert (Dk : is_derive (fun t : R => K i j (uu (upd th r t) i j)) (th r) (d2 * K' i j)).
  { apply (is_derive_comp (K i j) (fun t : R => uu (upd th r t) i j)); [rewrite Eu; apply Kd; assumption|exact Du]. }
  assert (Db : is_derive (fun t : R => B i j (uu (upd th r t) i j)) (th r) (d2 * B' i j)).
  { apply (is_derive_comp (B i j) (fun t : R => uu (upd th r t) i j)); [rewrite Eu; apply Bd; assumption|exact Du]. }
  unfold eterm. apply (is_derive_eq _ _ ((d1 + d2 * K' i j) * A' i j + d2 * B' i j)); [|ring].
  apply is_derive_Rplus; [|exact Db].
  apply (is_derive_comp (A i j) (fun t : R => tt (upd th r t) i j + K i j (uu (upd th r t) i j))).
  - rewrite Et, Eu. apply Ad; assumption.
  - apply is_derive_Rplus; assumption.
Qed.

Lemma engine_zero r : rsum n (fun i => rsum n (fun j => if E i j then
    A' i j * (dlt i r + dlt (j + n) r) +
    (A' i j * K' i j + B' i j) * (dlt (i + 2 * n) r + dlt (j + 3 * n) r) else 0)) = 0.
Proof.
  apply (local_min_partial eF th r); [apply engine_partial|]. exists (mkposreal 1 Rlt_0_1). intros t _.
  replace (eF (upd th r (th r))) with (eF th); [apply Hmin|].
  symmetry. apply eF_ext. intros i j Hi Hj He. unfold tt, uu. rewrite !upd_self. split; reflexivity.
Qed.

Lemma dlt_neq i r : i <> r -> dlt i r = 0.
Proof. intros H. unfold dlt. rewrite (proj2 (Nat.eqb_neq i r) H). reflexivity. Qed.
Lemma rsum_dlt (f : nat -> R) h : (h < n)%nat -> rsum n (fun i => f i * dlt i h) = f h.
Proof.
  intros Hh. rewrite (rsum_ext n _ (fun i => if Nat.eqb i h then f i else 0)); [apply rsum_single; exact Hh|].
  intros i Hi. unfold dlt. destruct (Nat.eqb i h); ring.
Qed.
Lemma dlt_shift i m r : dlt (i + m) (r + m) = dlt i r.
Proof.
  unfold dlt. destruct (Nat.eqb_spec i r) as [->|H]; [rewrite Nat.eqb_refl; reflexivity|].
  rewrite (proj2 (Nat.eqb_neq _ _)) by lia. reflexivity.
Qed.

Lemma engine_stationary h : (h < n)%nat ->
  rsum n (fun j => if E h j then A' h j else 0) = 0 /\
  rsum n (fun i => if E i h then A' i h else 0) = 0 /\
  rsum n (fun j => if E h j then A' h j * K' h j + B' h j else 0) = 0 /\
  rsum n (fun i => if E i h then A' i h * K' i h + B' i h else 0) = 0.
Proof.
  intros Hh. split; [|split; [|split]].
  - refine (eq_trans _ (engine_zero h)). symmetry.
    rewrite (rsum_ext n _ (fun i => rsum n (fun j => if E i j then A' i j else 0) * dlt i h)); [apply (rsum_dlt (fun i => rsum n (fun j => if E i j then A' i j else 0))); exact Hh|].
    intros i Hi. rewrite <- rsum_scal_r. apply rsum_ext. intros j Hj.
    rewrite (dlt_neq (j + n)), (dlt_neq (i + 2 * n)), (dlt_neq (j + 3 * n)) by lia. destruct (E i j); ring.
  - refine (eq_trans _ (engine_zero (h + n))). symmetry. rewrite rsum_swap.
    rewrite (rsum_ext n _ (fun j => rsum n (fun i => if E i j then A' i j else 0) * dlt j h)); [apply (rsum_dlt (fun j => rsum n (fun i => if E i j then A' i j else 0))); exact Hh|].
    intros j Hj. rewrite <- rsum_scal_r. apply rsum_ext. intros i Hi.
    rewrite dlt_shift, (dlt_neq i), (dlt_neq (i + 2 * n)), (dlt_neq (j + 3 * n)) by lia. destruct (E i j); ring.
  - refine (eq_trans _ (engine_zero (h + 2 * n))). symmetry.
    rewrite (rsum_ext n _ (fun i => rsum n (fun j => if E i j then A' i j * K' i j + B' i j else 0) * dlt i h)); [apply (rsum_dlt (fun i => rsum n (fun j => if E i j then A' i j * K' i j + B' i j else 0))); exact Hh|].
    intros i Hi. rewrite <- rsum_scal_r. apply rsum_ext. intros j Hj.
    rewrite dlt_shift, (dlt_neq (j + n)), (dlt_neq i), (dlt_neq (j + 3 * n)) by lia. destruct (E i j); ring.
  - refine (eq_trans _ (engine_zero (h + 3 * n))). symmetry. rewrite rsum_swap.
    rewrite (rsum_ext n _ (fun j => rsum n (fun i => if E i j then A' i j * K' i j + B' i j else 0) * dlt j h)); [apply (rsum_dlt (fun j => rsum n (fun i => if E i j then A' i j * K' i j + B' i j else 0))); exact Hh|].
    intros j Hj. rewrite <- rsum_scal_r. apply rsum_ext. intros i Hi.
    rewrite dlt_shift, (dlt_neq i), (dlt_neq (i + 2 * n)), (dlt_neq (j + n)) by lia. destruct (E i j); ring.
Qed.
End Engine.
