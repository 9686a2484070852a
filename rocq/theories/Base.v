(** Loops, finite sums and functional update.
    These are the only building blocks shared by models and specifications. *)
From Coq Require Import Reals List Arith Lia Lra.
Import ListNotations.
Local Open Scope R_scope.

(** [loop n a0 body] models
    [acc = a0; for j in range(n): acc = body(j, acc)]. *)
Definition loop {A : Type} (n : nat) (a0 : A) (body : nat -> A -> A) : A :=
  fold_left (fun acc j => body j acc) (seq 0 n) a0.

(** [loop_from lo hi a0 body] models [for j in range(lo, hi)]. *)
Definition loop_from {A : Type} (lo hi : nat) (a0 : A) (body : nat -> A -> A) : A :=
  fold_left (fun acc j => body j acc) (seq lo (hi - lo)) a0.

(** Assignment [x[i] = v] to one component of a vector. *)
Definition upd {A : Type} (x : nat -> A) (i : nat) (v : A) : nat -> A :=
  fun j => if Nat.eqb j i then v else x j.

(** Finite sum of [f 0 .. f (n-1)]. *)
Fixpoint rsum (n : nat) (f : nat -> R) : R :=
  match n with
  | O => 0
  | S m => rsum m f + f m
  end.

(** Finite product of [f 0 .. f (n-1)]. *)
Fixpoint rprod (n : nat) (f : nat -> R) : R :=
  match n with
  | O => 1
  | S m => rprod m f * f m
  end.

(** * Lemmas on loops *)

Lemma loop_0 {A} (a0 : A) body : loop 0 a0 body = a0.
Proof. reflexivity. Qed.

Lemma loop_S {A} n (a0 : A) body :
  loop (S n) a0 body = body n (loop n a0 body).
Proof.
  unfold loop. rewrite seq_S, fold_left_app. reflexivity.
Qed.

Lemma loop_ext {A} n (a0 : A) b1 b2 :
  (forall j acc, (j < n)%nat -> b1 j acc = b2 j acc) ->
  loop n a0 b1 = loop n a0 b2.
Proof.
  induction n as [|n IH]; intros H; [reflexivity|].
  rewrite !loop_S, H by lia. f_equal. apply IH; intros; apply H; lia.
Qed.

Lemma loop_inv {A} (P : nat -> A -> Prop) n a0 body :
  P O a0 ->
  (forall j acc, (j < n)%nat -> P j acc -> P (S j) (body j acc)) ->
  P n (loop n a0 body).
Proof.
  intros H0 HS. induction n as [|n IH]; [exact H0|].
  rewrite loop_S. apply HS; [lia|]. apply IH. intros; apply HS; auto; lia.
Qed.

Lemma loop_add n a0 (body : nat -> R -> R) g :
  (forall j acc, (j < n)%nat -> body j acc = acc + g j) ->
  loop n a0 body = a0 + rsum n g.
Proof.
  induction n as [|n IH]; intros H; simpl; [rewrite loop_0; ring|].
  rewrite loop_S, H by lia. rewrite IH by (intros; apply H; lia). ring.
Qed.

Lemma loop_sub n a0 (body : nat -> R -> R) g :
  (forall j acc, (j < n)%nat -> body j acc = acc - g j) ->
  loop n a0 body = a0 - rsum n g.
Proof.
  induction n as [|n IH]; intros H; simpl; [rewrite loop_0; ring|].
  rewrite loop_S, H by lia. rewrite IH by (intros; apply H; lia). ring.
Qed.

(** * Functional update *)

Lemma upd_eq {A} (x : nat -> A) i v : upd x i v i = v.
Proof. unfold upd. now rewrite Nat.eqb_refl. Qed.

Lemma upd_neq {A} (x : nat -> A) i j v : j <> i -> upd x i v j = x j.
Proof. intros H. unfold upd. apply Nat.eqb_neq in H. now rewrite H. Qed.

Lemma upd_same {A} (x : nat -> A) i j : upd x i (x i) j = x j.
Proof. unfold upd. destruct (Nat.eqb_spec j i); congruence. Qed.

(** * Finite sums *)

Lemma rsum_ext n f g :
  (forall j, (j < n)%nat -> f j = g j) -> rsum n f = rsum n g.
Proof.
  induction n as [|n IH]; intros H; simpl; [reflexivity|].
  rewrite IH, H by (intros; try apply H; lia). reflexivity.
Qed.

Lemma rsum_plus n f g : rsum n (fun j => f j + g j) = rsum n f + rsum n g.
Proof. induction n as [|n IH]; simpl; [ring|rewrite IH; ring]. Qed.

Lemma rsum_minus n f g : rsum n (fun j => f j - g j) = rsum n f - rsum n g.
Proof. induction n as [|n IH]; simpl; [ring|rewrite IH; ring]. Qed.

Lemma rsum_opp n f : rsum n (fun j => - f j) = - rsum n f.
Proof. induction n as [|n IH]; simpl; [ring|rewrite IH; ring]. Qed.

Lemma rsum_scal_l n a f : rsum n (fun j => a * f j) = a * rsum n f.
Proof. induction n as [|n IH]; simpl; [ring|rewrite IH; ring]. Qed.

Lemma rsum_scal_r n a f : rsum n (fun j => f j * a) = rsum n f * a.
Proof. induction n as [|n IH]; simpl; [ring|rewrite IH; ring]. Qed.

Lemma rsum_0 n : rsum n (fun _ => 0) = 0.
Proof. induction n as [|n IH]; simpl; [ring|rewrite IH; ring]. Qed.

Lemma rsum_zero n f : (forall j, (j < n)%nat -> f j = 0) -> rsum n f = 0.
Proof. intros H. rewrite (rsum_ext n f (fun _ => 0)) by exact H. apply rsum_0. Qed.

Lemma rsum_const n a : rsum n (fun _ => a) = INR n * a.
Proof.
  induction n as [|n IH]; [simpl; ring|].
  change (rsum (S n) (fun _ => a)) with (rsum n (fun _ => a) + a).
  rewrite IH, S_INR. ring.
Qed.

Lemma rsum_swap n m f :
  rsum n (fun i => rsum m (fun j => f i j)) =
  rsum m (fun j => rsum n (fun i => f i j)).
Proof.
  induction n as [|n IH]; simpl.
  - symmetry. apply rsum_0.
  - rewrite IH, <- rsum_plus. reflexivity.
Qed.

Lemma rsum_single n h (P : nat -> R) :
  (h < n)%nat -> rsum n (fun j => if Nat.eqb j h then P j else 0) = P h.
Proof.
  induction n as [|n IH]; intros H; [lia|]. simpl.
  destruct (Nat.eqb_spec n h) as [->|Hn].
  - rewrite rsum_zero; [ring|]. intros j Hj.
    destruct (Nat.eqb_spec j h); [lia|reflexivity].
  - rewrite IH by lia. ring.
Qed.

Lemma rsum_single_out n h (P : nat -> R) :
  (n <= h)%nat -> rsum n (fun j => if Nat.eqb j h then P j else 0) = 0.
Proof.
  intros H. apply rsum_zero. intros j Hj.
  destruct (Nat.eqb_spec j h); [lia|reflexivity].
Qed.

(** Pulling one term out of a sum. *)
Lemma rsum_pull n h f :
  (h < n)%nat ->
  rsum n f = f h + rsum n (fun j => if Nat.eqb j h then 0 else f j).
Proof.
  intros H.
  rewrite <- (rsum_single n h f H), <- rsum_plus.
  apply rsum_ext. intros j _. destruct (Nat.eqb j h); ring.
Qed.

Lemma rsum_nonneg n f : (forall j, (j < n)%nat -> 0 <= f j) -> 0 <= rsum n f.
Proof.
  induction n as [|n IH]; intros H; simpl; [lra|].
  assert (0 <= rsum n f) by (apply IH; intros; apply H; lia).
  assert (0 <= f n) by (apply H; lia). lra.
Qed.

Lemma rsum_le n f g : (forall j, (j < n)%nat -> f j <= g j) -> rsum n f <= rsum n g.
Proof.
  intros H. assert (0 <= rsum n (fun j => g j - f j)).
  { apply rsum_nonneg. intros j Hj. specialize (H j Hj). lra. }
  rewrite rsum_minus in H0. lra.
Qed.

Lemma rsum_nonneg_zero n f :
  (forall j, (j < n)%nat -> 0 <= f j) -> rsum n f = 0 ->
  forall j, (j < n)%nat -> f j = 0.
Proof.
  intros Hp H0 j Hj.
  rewrite (rsum_pull n j f Hj) in H0.
  assert (0 <= rsum n (fun i => if Nat.eqb i j then 0 else f i)).
  { apply rsum_nonneg. intros i Hi. destruct (Nat.eqb i j); [lra|auto]. }
  specialize (Hp j Hj). lra.
Qed.

Lemma rsum_pos n f h :
  (forall j, (j < n)%nat -> 0 <= f j) -> (h < n)%nat -> 0 < f h -> 0 < rsum n f.
Proof.
  intros Hp Hh Hf. rewrite (rsum_pull n h f Hh).
  assert (0 <= rsum n (fun i => if Nat.eqb i h then 0 else f i)).
  { apply rsum_nonneg. intros i Hi. destruct (Nat.eqb i h); [lra|auto]. }
  lra.
Qed.

(** Collapse of a double sum supported on row [h] and column [h]. *)
Lemma rsum_cross n h (P Q : nat -> R) :
  (h < n)%nat ->
  rsum n (fun i => rsum n (fun j =>
     (if Nat.eqb i h then P j else 0) + (if Nat.eqb j h then Q i else 0)))
  = rsum n P + rsum n Q.
Proof.
  intros H.
  rewrite (rsum_ext n _ (fun i =>
     (if Nat.eqb i h then rsum n P else 0) + Q i)).
  - rewrite rsum_plus. f_equal. apply (rsum_single n h (fun _ => rsum n P) H).
  - intros i Hi. rewrite rsum_plus. f_equal.
    + destruct (Nat.eqb i h); [reflexivity|apply rsum_0].
    + apply (rsum_single n h (fun _ => Q i) H).
Qed.

(** Sum over unordered pairs [j < i < n]. *)
Definition usum (n : nat) (g : nat -> nat -> R) : R :=
  rsum n (fun i => rsum i (fun j => g j i)).

Lemma rsum_offdiag_sym n (g : nat -> nat -> R) :
  (forall i j, g i j = g j i) ->
  rsum n (fun i => rsum n (fun j => if Nat.eqb i j then 0 else g i j))
  = 2 * usum n g.
Proof.
  intros Hs. unfold usum. induction n as [|n IH]; [simpl; ring|].
  change (rsum (S n) (fun i => rsum i (fun j => g j i))) with
    (rsum n (fun i => rsum i (fun j => g j i)) + rsum n (fun j => g j n)).
  change (rsum (S n) (fun i => rsum (S n) (fun j => if Nat.eqb i j then 0 else g i j)))
    with (rsum n (fun i => rsum (S n) (fun j => if Nat.eqb i j then 0 else g i j))
          + (rsum n (fun j => if Nat.eqb n j then 0 else g n j)
             + (if Nat.eqb n n then 0 else g n n))).
  rewrite Nat.eqb_refl.
  rewrite (rsum_ext n (fun i => rsum (S n) _)
     (fun i => rsum n (fun j => if Nat.eqb i j then 0 else g i j) + g i n)).
  - rewrite rsum_plus, IH.
    rewrite (rsum_ext n (fun j => if Nat.eqb n j then 0 else g n j) (fun j => g j n)).
    + ring.
    + intros j Hj. destruct (Nat.eqb_spec n j); [lia|apply Hs].
  - intros i Hi. simpl. destruct (Nat.eqb_spec i n); [lia|]. reflexivity.
Qed.

Lemma usum_ext n f g :
  (forall i j, (i < j)%nat -> (j < n)%nat -> f i j = g i j) -> usum n f = usum n g.
Proof.
  intros H. unfold usum. apply rsum_ext. intros i Hi. apply rsum_ext. intros j Hj.
  apply H; lia.
Qed.

Lemma usum_plus n f g : usum n (fun i j => f i j + g i j) = usum n f + usum n g.
Proof.
  unfold usum. rewrite <- rsum_plus. apply rsum_ext. intros i _. apply rsum_plus.
Qed.

Lemma usum_minus n f g : usum n (fun i j => f i j - g i j) = usum n f - usum n g.
Proof.
  unfold usum. rewrite <- rsum_minus. apply rsum_ext. intros i _. apply rsum_minus.
Qed.

Lemma usum_nonneg n g :
  (forall i j, (i < j)%nat -> (j < n)%nat -> 0 <= g i j) -> 0 <= usum n g.
Proof.
  intros H. unfold usum. apply rsum_nonneg. intros i Hi. apply rsum_nonneg.
  intros j Hj. apply H; lia.
Qed.

Lemma usum_nonneg_zero n g :
  (forall i j, (i < j)%nat -> (j < n)%nat -> 0 <= g i j) -> usum n g = 0 ->
  forall i j, (i < j)%nat -> (j < n)%nat -> g i j = 0.
Proof.
  intros Hp H0 i j Hij Hj. unfold usum in H0.
  assert (rsum j (fun i0 => g i0 j) = 0).
  { apply (rsum_nonneg_zero n (fun i0 => rsum i0 (fun j0 => g j0 i0))); auto.
    intros. apply rsum_nonneg. intros. apply Hp; lia. }
  apply (rsum_nonneg_zero j (fun i0 => g i0 j)); auto.
Qed.

(** * Finite products *)

Lemma rprod_ext n f g :
  (forall j, (j < n)%nat -> f j = g j) -> rprod n f = rprod n g.
Proof.
  induction n as [|n IH]; intros H; simpl; [reflexivity|].
  rewrite IH, H by (intros; try apply H; lia). reflexivity.
Qed.

Lemma rprod_pos n f : (forall j, (j < n)%nat -> 0 < f j) -> 0 < rprod n f.
Proof.
  induction n as [|n IH]; intros H; simpl; [lra|].
  apply Rmult_lt_0_compat; [apply IH; intros; apply H; lia | apply H; lia].
Qed.

Lemma ln_rprod n f :
  (forall j, (j < n)%nat -> 0 < f j) -> ln (rprod n f) = rsum n (fun j => ln (f j)).
Proof.
  induction n as [|n IH]; intros H; simpl; [apply ln_1|].
  rewrite ln_mult.
  - rewrite IH; [reflexivity|intros; apply H; lia].
  - apply rprod_pos; intros; apply H; lia.
  - apply H; lia.
Qed.

(** Sum over unordered pairs of a symmetric weight times a node quantity. *)
Lemma rsum_offdiag_sym_lt n (g : nat -> nat -> R) :
  (forall i j, (i < n)%nat -> (j < n)%nat -> g i j = g j i) ->
  rsum n (fun i => rsum n (fun j => if Nat.eqb i j then 0 else g i j))
  = 2 * usum n g.
Proof.
  intros H.
  set (g' := fun i j => if andb (Nat.ltb i n) (Nat.ltb j n) then g i j else 0).
  assert (E : forall i j, (i < n)%nat -> (j < n)%nat -> g i j = g' i j).
  { intros i j Hi Hj. unfold g'. apply Nat.ltb_lt in Hi, Hj. rewrite Hi, Hj. reflexivity. }
  rewrite (usum_ext n g g') by (intros; apply E; lia).
  rewrite <- (rsum_offdiag_sym n g').
  - apply rsum_ext. intros i Hi. apply rsum_ext. intros j Hj. rewrite E by assumption. reflexivity.
  - intros i j. unfold g'.
    destruct (Nat.ltb_spec i n); destruct (Nat.ltb_spec j n); simpl; auto.
Qed.

Lemma usum_sym_group n (w : nat -> nat -> R) (L : nat -> R) :
  (forall i j, (i < n)%nat -> (j < n)%nat -> w i j = w j i) ->
  usum n (fun i j => w i j * (L i + L j))
  = rsum n (fun i => rsum n (fun j => if Nat.eqb i j then 0 else w i j) * L i).
Proof.
  intros H. apply (Rmult_eq_reg_l 2); [|lra].
  rewrite <- (rsum_offdiag_sym_lt n).
  2: { intros i j Hi Hj. rewrite (H i j) by assumption. ring. }
  rewrite (rsum_ext n _ (fun i =>
      rsum n (fun j => (if Nat.eqb i j then 0 else w i j) * L i)
    + rsum n (fun j => (if Nat.eqb i j then 0 else w i j) * L j))).
  2: { intros i Hi. rewrite <- rsum_plus. apply rsum_ext. intros j Hj.
       destruct (Nat.eqb i j); ring. }
  rewrite rsum_plus.
  rewrite (rsum_swap n n (fun i j => (if Nat.eqb i j then 0 else w i j) * L j)).
  rewrite <- rsum_plus, <- rsum_scal_l. apply rsum_ext. intros i Hi.
  rewrite !rsum_scal_r.
  rewrite (rsum_ext n (fun i0 => if Nat.eqb i0 i then 0 else w i0 i)
    (fun j => if Nat.eqb i j then 0 else w i j)).
  2: { intros j Hj. rewrite Nat.eqb_sym, H by assumption. reflexivity. }
  ring.
Qed.

Lemma usum_opp n f : usum n (fun i j => - f i j) = - usum n f.
Proof.
  unfold usum. rewrite <- rsum_opp. apply rsum_ext. intros i _. apply rsum_opp.
Qed.

(** Loops skipping one index. *)
Lemma loop_add_skip n i a0 (g : nat -> R) :
  loop n a0 (fun j f => if negb (Nat.eqb i j) then f + g j else f)
  = a0 + rsum n (fun j => if Nat.eqb i j then 0 else g j).
Proof.
  apply loop_add. intros j acc _. destruct (Nat.eqb i j); simpl; ring.
Qed.

Lemma loop_sub_skip n i a0 (g : nat -> R) :
  loop n a0 (fun j f => if negb (Nat.eqb i j) then f - g j else f)
  = a0 - rsum n (fun j => if Nat.eqb i j then 0 else g j).
Proof.
  apply loop_sub. intros j acc _. destruct (Nat.eqb i j); simpl; ring.
Qed.

Lemma loop_add_skip' n i a0 (g : nat -> R) :
  loop n a0 (fun j f => if negb (Nat.eqb j i) then f + g j else f)
  = a0 + rsum n (fun j => if Nat.eqb i j then 0 else g j).
Proof.
  apply loop_add. intros j acc _. rewrite Nat.eqb_sym. destruct (Nat.eqb i j); simpl; ring.
Qed.

Lemma loop_sub_skip' n i a0 (g : nat -> R) :
  loop n a0 (fun j f => if negb (Nat.eqb j i) then f - g j else f)
  = a0 - rsum n (fun j => if Nat.eqb i j then 0 else g j).
Proof.
  apply loop_sub. intros j acc _. rewrite Nat.eqb_sym. destruct (Nat.eqb i j); simpl; ring.
Qed.

Lemma ltb_plus_n i n : Nat.ltb (i + n) n = false.
Proof. apply Nat.ltb_ge. lia. Qed.

Lemma plus_n_minus i n : (i + n - n = i)%nat.
Proof. lia. Qed.

(** A row sum over the other nodes, off-diagonal difference. *)
Lemma rsum_skip_ext n i (f g : nat -> R) :
  (forall j, (j < n)%nat -> j <> i -> f j = g j) ->
  rsum n (fun j => if Nat.eqb i j then 0 else f j) = rsum n (fun j => if Nat.eqb i j then 0 else g j).
Proof.
  intros H. apply rsum_ext. intros j Hj. destruct (Nat.eqb_spec i j); [reflexivity|].
  apply H; auto.
Qed.

Lemma rsum_skip_scal n i a (f : nat -> R) :
  a * rsum n (fun j => if Nat.eqb i j then 0 else f j) =
  rsum n (fun j => if Nat.eqb i j then 0 else a * f j).
Proof.
  rewrite <- rsum_scal_l. apply rsum_ext. intros j _. destruct (Nat.eqb i j); ring.
Qed.

Lemma rsum_skip_opp n i (f : nat -> R) :
  - rsum n (fun j => if Nat.eqb i j then 0 else f j) =
  rsum n (fun j => if Nat.eqb i j then 0 else - f j).
Proof.
  rewrite <- rsum_opp. apply rsum_ext. intros j _. destruct (Nat.eqb i j); ring.
Qed.

Lemma rsum_skip_pos n i (f : nat -> R) :
  (2 <= n)%nat -> (i < n)%nat ->
  (forall j, (j < n)%nat -> j <> i -> 0 < f j) ->
  0 < rsum n (fun j => if Nat.eqb i j then 0 else f j).
Proof.
  intros Hn Hi H.
  assert (exists j, (j < n)%nat /\ j <> i) as [j [Hj Hji]].
  { destruct i; [exists 1%nat|exists 0%nat]; split; lia. }
  apply (rsum_pos n _ j); [|exact Hj|].
  - intros l Hl. destruct (Nat.eqb_spec i l); [lra|]. apply Rlt_le, H; auto.
  - destruct (Nat.eqb_spec i j); [congruence|]. apply H; assumption.
Qed.
