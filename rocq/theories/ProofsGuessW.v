From Coq Require Import Reals List Arith Bool String Lra Lia.
From Verif Require Import Base ModelDCM ModelNetwork ModelGuess SpecNetwork SpecWeighted SpecGuess ProofsNetwork ProofsGuess.
Import ListNotations.
Local Open Scope R_scope.

(** * CReMa *)
Definition crema_names : list string := ["random"; "strengths"; "strengths_minor"]%string.
Lemma crema_named_pos n s rnd nm : In nm crema_names -> nonneg n s -> (forall i, 0 < rnd i) ->
  exists f, crema_named n s rnd nm = inl f /\ forall i, (i < n)%nat -> 0 < s i -> exists v, f i = Fin v /\ 0 < v.
Proof.
  intros Hn Hs Hr. unfold crema_names in Hn. names Hn; unfold crema_named; cbn [String.eqb Ascii.eqb Bool.eqb]; eexists; (split; [reflexivity|]); intros i Hi Hk;
    unfold positive01; try (destruct (Rlt_dec 0 (s i)) as [_|N]; [|contradiction]).
  - exists (rnd i). split; [reflexivity|apply Hr].
  - pose proof (sum_dom n s i Hs Hi). exists (1 / np_sum n s). split; [apply fdiv_pos; lra|apply Rdiv_lt_0_compat; lra].
  - exists (1 / (s i + 1)). split; [apply fdiv_pos; lra|apply Rdiv_lt_0_compat; lra].
Qed.
Lemma crema_named_unknown n s rnd nm : ~ In nm crema_names -> crema_named n s rnd nm = inr ValueError.
Proof.
  intros Hn. unfold crema_named.
  repeat match goal with |- context [String.eqb nm ?x] =>
    destruct (String.eqb_spec nm x) as [->|_]; [exfalso; apply Hn; cbn; auto 10|] end.
  reflexivity.
Qed.
Lemma masked_inside k f i : 0 <= k i -> (0 < k i -> exists v, f i = Fin v /\ 0 < v) ->
  where_zero k 0 f i = Fin (fval_r (where_zero k 0 f i)) /\ starts_inside (k i) (fval_r (where_zero k 0 f i)).
Proof.
  intros H0 H. destruct (Req_EM_T (k i) 0) as [E|N].
  - rewrite where_zero_at by exact E. split; [reflexivity|]. split; [contradiction|reflexivity].
  - rewrite where_zero_off by exact N. destruct H as (v & -> & Hv); [lra|]. split; [reflexivity|].
    split; [intros _; exact Hv|contradiction].
Qed.

Lemma guess_crema_inside n s rnd nm : In nm ["random"; "strengths"; "strengths_minor"]%string -> nonneg n s -> draws rnd ->
  exists o x, set_initial_guess_crema_undirected n s rnd (GStr nm) = inl o /\ finite_array n (g_x0 o) x /\
  forall i, (i < n)%nat -> starts_inside (s i) (x i).
Proof.
  intros Hn Hs Hr. destruct (crema_named_pos n s rnd nm Hn Hs (fun i => proj1 (Hr i))) as (f & E & Hf).
  unfold set_initial_guess_crema_undirected. rewrite E. cbn [gbind].
  eexists. exists (fun i => fval_r (where_zero s 0 f i)). split; [reflexivity|]. cbn [g_x0]. split.
  - intros i Hi. apply (masked_inside s f i); [apply Hs, Hi|apply Hf, Hi].
  - intros i Hi. apply (masked_inside s f i); [apply Hs, Hi|apply Hf, Hi].
Qed.
Lemma guess_crema_directed_inside n s_out s_in rnd nm : In nm ["random"; "strengths"; "strengths_minor"]%string ->
  nonneg n s_out -> nonneg n s_in -> draws rnd ->
  exists o x, set_initial_guess_crema_directed n s_out s_in rnd (GStr nm) = inl o /\ finite_array (2 * n) (g_x0 o) x /\
  forall i, (i < n)%nat -> starts_inside (s_out i) (x i) /\ starts_inside (s_in i) (x (i + n)%nat).
Proof.
  intros Hn Ho Hi Hr.
  destruct (crema_named_pos n s_out rnd nm Hn Ho (fun i => proj1 (Hr i))) as (f & Ef & Hf).
  destruct (crema_named_pos n s_in (fun i => rnd (i + n)%nat) nm Hn Hi (fun i => proj1 (Hr _))) as (h & Eh & Hh).
  unfold set_initial_guess_crema_directed. rewrite Ef. cbn [gbind]. rewrite Eh. cbn [gbind fst snd].
  eexists. exists (fun r => fval_r (cat2 n (where_zero s_out 0 f) (where_zero s_in 0 h) r)). split; [reflexivity|]. cbn [g_x0]. split.
  - intros r Hr2. destruct (Nat.ltb_spec r n) as [L|L].
    + rewrite cat2_l by exact L. apply (masked_inside s_out f r); [apply Ho, L|apply Hf, L].
    + replace r with ((r - n) + n)%nat by lia. rewrite cat2_r. apply (masked_inside s_in h (r - n)); [apply Hi; lia|apply Hh; lia].
  - intros i L. rewrite cat2_l by exact L. rewrite cat2_r. split.
    + apply (masked_inside s_out f i); [apply Ho, L|apply Hf, L].
    + apply (masked_inside s_in h i); [apply Hi, L|apply Hh, L].
Qed.
(** The documented name "uniform" is not available for CReMa. *)
Lemma guess_crema_uniform_refuted : In "uniform"%string weighted_names /\
  (forall n s rnd, set_initial_guess_crema_undirected n s rnd (GStr "uniform") = inr ValueError) /\
  (forall n s_out s_in rnd, set_initial_guess_crema_directed n s_out s_in rnd (GStr "uniform") = inr ValueError).
Proof. split; [cbn; auto|]. split; reflexivity. Qed.

(** * UECM *)
Lemma degree_named_pos E u k rnd nm : In nm weighted_names -> 0 <= E -> 0 < u -> (forall i, 0 < rnd i) ->
  exists f, degree_named E u k rnd nm = inl f /\ forall i, 0 < k i -> exists v, f i = Fin v /\ 0 < v.
Proof.
  intros Hn HE Hu Hr. names Hn; unfold degree_named; cbn [String.eqb Ascii.eqb Bool.eqb]; eexists; (split; [reflexivity|]); intros i Hk.
  - exists (rnd i). split; [reflexivity|apply Hr].
  - exists u. split; [reflexivity|exact Hu].
  - exists (k i / (E + 1)). split; [apply fdiv_pos; lra|apply Rdiv_lt_0_compat; lra].
  - exists (1 / (k i + 1)). split; [apply fdiv_pos; lra|apply Rdiv_lt_0_compat; lra].
Qed.
Lemma strength_named_pos n u s rnd nm : In nm weighted_names -> nonneg n s -> 0 < u < 1 -> (forall i, 0 < rnd i < 1) ->
  exists f, strength_named n u s rnd nm = inl f /\ forall i, (i < n)%nat -> 0 < s i ->
    exists v, f i = Fin v /\ 0 < v <= 1 /\ (nm <> "strengths"%string -> v < 1) /\ (nm = "strengths"%string -> v = s i / np_sum n s).
Proof.
  intros Hn Hs Hu Hr. names Hn; unfold strength_named; cbn [String.eqb Ascii.eqb Bool.eqb]; eexists; (split; [reflexivity|]); intros i Hi Hk.
  - exists (rnd i). specialize (Hr i). split; [reflexivity|]. split; [lra|]. split; [lra|discriminate].
  - exists u. split; [reflexivity|]. split; [lra|]. split; [lra|discriminate].
  - pose proof (sum_dom n s i Hs Hi). exists (s i / np_sum n s). split; [apply fdiv_pos; lra|].
    split; [split; [apply Rdiv_lt_0_compat; lra|apply Rmult_le_reg_r with (np_sum n s); [lra|]; unfold Rdiv; rewrite Rmult_assoc, Rinv_l; lra]|].
    split; [intros H0; contradiction H0; reflexivity|reflexivity].
  - exists (1 / (s i + 1)). split; [apply fdiv_pos; lra|].
    assert (A : 1 / (s i + 1) < 1) by (apply Rmult_lt_reg_r with (s i + 1); [lra|]; unfold Rdiv; rewrite Rmult_assoc, Rinv_l; lra).
    assert (0 < 1 / (s i + 1)) by (apply Rdiv_lt_0_compat; lra).
    split; [lra|]. split; [lra|discriminate].
Qed.
Lemma degree_named_unknown E u k rnd nm : ~ In nm weighted_names -> degree_named E u k rnd nm = inr ValueError.
Proof.
  intros Hn. unfold degree_named.
  repeat match goal with |- context [String.eqb nm ?x] =>
    destruct (String.eqb_spec nm x) as [->|_]; [exfalso; apply Hn; cbn; auto 10|] end.
  reflexivity.
Qed.

Lemma half_sum_nonneg n k : nonneg n k -> 0 <= np_sum n k / 2.
Proof. intros H. rewrite np_sum_rsum. pose proof (rsum_nonneg n k H). lra. Qed.

Lemma quot_prod n s i j : nonneg n s -> (i < n)%nat -> (j < n)%nat -> i <> j -> 0 < s i -> 0 < s j ->
  s i / np_sum n s * (s j / np_sum n s) < 1.
Proof.
  intros Hs Hi Hj Hij Pi Pj. pose proof (sum_dom2 n s i j Hs Hi Hj Hij) as HS.
  set (S := np_sum n s) in *. clearbody S.
  assert (A : s i / S < 1) by (apply Rmult_lt_reg_r with S; [lra|]; unfold Rdiv; rewrite Rmult_assoc, Rinv_l; lra).
  assert (B : s j / S < 1) by (apply Rmult_lt_reg_r with S; [lra|]; unfold Rdiv; rewrite Rmult_assoc, Rinv_l; lra).
  assert (0 < s i / S) by (apply Rdiv_lt_0_compat; lra). assert (0 < s j / S) by (apply Rdiv_lt_0_compat; lra).
  apply Rlt_le_trans with (1 * 1); [apply Rmult_le_0_lt_compat; lra|lra].
Qed.

(** Product of two masked strength factors. *)
Lemma masked_prod n s nm f i j : nonneg n s ->
  (forall i, (i < n)%nat -> 0 < s i ->
    exists v, f i = Fin v /\ 0 < v <= 1 /\ (nm <> "strengths"%string -> v < 1) /\ (nm = "strengths"%string -> v = s i / np_sum n s)) ->
  (i < n)%nat -> (j < n)%nat -> i <> j ->
  fval_r (where_zero s 0 f i) * fval_r (where_zero s 0 f j) < 1.
Proof.
  intros Hs Hf Hi Hj Hij.
  destruct (Req_EM_T (s i) 0) as [Ei|Ni]; [rewrite (where_zero_at s 0 f i Ei); cbn [fval_r]; lra|].
  destruct (Req_EM_T (s j) 0) as [Ej|Nj]; [rewrite (where_zero_at s 0 f j Ej); cbn [fval_r]; lra|].
  pose proof (Hs i Hi). pose proof (Hs j Hj).
  rewrite !where_zero_off by assumption.
  destruct (Hf i Hi) as (v & -> & V & V1 & V2); [lra|]. destruct (Hf j Hj) as (w & -> & W & W1 & W2); [lra|].
  cbn [fval_r]. destruct (string_dec nm "strengths") as [E|N].
  - rewrite (V2 E), (W2 E). apply quot_prod; try assumption; lra.
  - specialize (V1 N). specialize (W1 N). apply Rlt_le_trans with (1 * 1); [apply Rmult_le_0_lt_compat; lra|lra].
Qed.

Lemma guess_ecm_inside n k s rnd nm : In nm weighted_names -> nonneg n k -> nonneg n s -> draws rnd ->
  exists o x, set_initial_guess_ecm false n k s rnd (GStr nm) = inl o /\ finite_array (2 * n) (g_x0 o) x /\
  (forall i, (i < n)%nat -> starts_inside (k i) (x i) /\ starts_inside (s i) (x (i + n)%nat)) /\
  (forall i j, (i < n)%nat -> (j < n)%nat -> i <> j -> x (i + n)%nat * x (j + n)%nat < 1).
Proof.
  intros Hn Hk Hs Hr.
  destruct (degree_named_pos (np_sum n k / 2) (/ 1000) k rnd nm Hn (half_sum_nonneg n k Hk) ltac:(lra) (fun i => proj1 (Hr i))) as (f & Ef & Hf).
  destruct (strength_named_pos n (/ 1000) s (fun i => rnd (i + n)%nat) nm Hn Hs ltac:(lra) (fun i => Hr _)) as (h & Eh & Hh).
  assert (Hh' : forall i, (i < n)%nat -> 0 < s i -> exists v, h i = Fin v /\ 0 < v)
    by (intros i Li Pi; destruct (Hh i Li Pi) as (v & E & [V _] & _); exists v; auto).
  unfold set_initial_guess_ecm. rewrite Ef. cbn [gbind]. rewrite Eh. cbn [gbind fst snd].
  eexists. exists (fun r => fval_r (cat2 n (where_zero k 0 f) (where_zero s 0 h) r)). split; [reflexivity|]. cbn [g_x0]. split; [|split].
  - intros r Hr2. destruct (Nat.ltb_spec r n) as [L|L].
    + rewrite cat2_l by exact L. apply (masked_inside k f r); [apply Hk, L|apply Hf].
    + replace r with ((r - n) + n)%nat by lia. rewrite cat2_r. apply (masked_inside s h (r - n)); [apply Hs; lia|apply Hh'; lia].
  - intros i L. rewrite cat2_l by exact L. rewrite cat2_r. split.
    + apply (masked_inside k f i); [apply Hk, L|apply Hf].
    + apply (masked_inside s h i); [apply Hs, L|apply Hh', L].
  - intros i j Li Lj Nij. rewrite !cat2_r. apply (masked_prod n s nm h i j Hs Hh Li Lj Nij).
Qed.

(** Exponents [-ln] of the factors; nodes with a zero constraint are at exponent 0. *)
Lemma masked_exponent k f i : 0 <= k i -> (0 < k i -> exists v, f i = Fin v /\ 0 < v) ->
  exists t, neglog_nonzero (where_zero k 0 f) i = Fin t /\ (k i <> 0 -> fval_r (where_zero k 0 f i) = exp (- t)) /\ (k i = 0 -> t = 0).
Proof.
  intros H0 H. destruct (Req_EM_T (k i) 0) as [E|N].
  - exists 0. unfold neglog_nonzero. rewrite where_zero_at by exact E. destruct (Req_EM_T 0 0); [|contradiction].
    split; [reflexivity|]. split; [contradiction|reflexivity].
  - destruct H as (v & E & Hv); [lra|]. exists (- ln v). split; [apply neglog_nonzero_pos; [rewrite where_zero_off by exact N; exact E|exact Hv]|].
    split; [|contradiction]. intros _. rewrite where_zero_off by exact N. rewrite E. cbn [fval_r]. rewrite Ropp_involutive, exp_ln by exact Hv. reflexivity.
Qed.

Lemma guess_ecm_exp_start n k s rnd nm : In nm weighted_names -> nonneg n k -> nonneg n s -> draws rnd ->
  exists o o' t x, set_initial_guess_ecm true n k s rnd (GStr nm) = inl o /\ set_initial_guess_ecm false n k s rnd (GStr nm) = inl o' /\
  finite_array (2 * n) (g_x0 o) t /\ finite_array (2 * n) (g_x0 o') x /\
  (forall i, (i < n)%nat -> (k i <> 0 -> x i = exp (- t i)) /\ (s i <> 0 -> x (i + n)%nat = exp (- t (i + n)%nat))) /\
  ((forall i, (i < n)%nat -> s i <> 0) -> ecm_exp_dom n t).
Proof.
  intros Hn Hk Hs Hr. destruct (guess_ecm_inside n k s rnd nm Hn Hk Hs Hr) as (o' & x & Eo' & Fx & Ix & Px).
  destruct (degree_named_pos (np_sum n k / 2) (/ 1000) k rnd nm Hn (half_sum_nonneg n k Hk) ltac:(lra) (fun i => proj1 (Hr i))) as (f & Ef & Hf).
  destruct (strength_named_pos n (/ 1000) s (fun i => rnd (i + n)%nat) nm Hn Hs ltac:(lra) (fun i => Hr _)) as (h & Eh & Hh).
  assert (Hh' : forall i, (i < n)%nat -> 0 < s i -> exists v, h i = Fin v /\ 0 < v)
    by (intros i Li Pi; destruct (Hh i Li Pi) as (v & E & [V _] & _); exists v; auto).
  unfold set_initial_guess_ecm in *. rewrite Ef in *. cbn [gbind] in *. rewrite Eh in *. cbn [gbind fst snd] in *.
  injection Eo' as <-. cbn [g_x0] in *.
  eexists _, _, (fun r => fval_r (cat2 n (neglog_nonzero (where_zero k 0 f)) (neglog_nonzero (where_zero s 0 h)) r)), x.
  do 2 (split; [reflexivity|]). cbn [g_x0].
  assert (Ax : forall i, (i < n)%nat -> exists t, neglog_nonzero (where_zero k 0 f) i = Fin t /\ (k i <> 0 -> x i = exp (- t))).
  { intros i L. destruct (masked_exponent k f i (Hk i L) (Hf i)) as (t & Et & Ht & _). exists t. split; [exact Et|]. intros N.
    specialize (Fx i ltac:(lia)). rewrite cat2_l in Fx by exact L. rewrite <- (Ht N), Fx. reflexivity. }
  assert (Ay : forall i, (i < n)%nat -> exists t, neglog_nonzero (where_zero s 0 h) i = Fin t /\ (s i <> 0 -> x (i + n)%nat = exp (- t))).
  { intros i L. destruct (masked_exponent s h i (Hs i L) (Hh' i L)) as (t & Et & Ht & _). exists t. split; [exact Et|]. intros N.
    specialize (Fx (i + n)%nat ltac:(lia)). rewrite cat2_r in Fx. rewrite <- (Ht N), Fx. reflexivity. }
  split; [|split; [exact Fx|]].
  - intros r Hr2. destruct (Nat.ltb_spec r n) as [L|L].
    + rewrite cat2_l by exact L. destruct (Ax r L) as (t & -> & _). reflexivity.
    + replace r with ((r - n) + n)%nat by lia. rewrite cat2_r. destruct (Ay (r - n)%nat ltac:(lia)) as (t & -> & _). reflexivity.
  - split.
    + intros i L. rewrite cat2_l by exact L. rewrite cat2_r. destruct (Ax i L) as (t & -> & Ht), (Ay i L) as (t' & -> & Ht'). cbn [fval_r]. auto.
    + intros Hpos i j Li Lj Nij. rewrite !cat2_r. specialize (Px i j Li Lj Nij).
      destruct (Ay i Li) as (t & -> & Ht), (Ay j Lj) as (t' & -> & Ht'). cbn [fval_r].
      rewrite (Ht (Hpos i Li)), (Ht' (Hpos j Lj)), <- exp_plus in Px. rewrite <- exp_0 in Px. apply exp_lt_inv in Px. lra.
Qed.
(** Two nodes without links make every start inadmissible, whatever the guess. *)
Lemma guess_ecm_exp_isolated_refuted n k s rnd g o i j :
  set_initial_guess_ecm true n k s rnd g = inl o ->
  (i < n)%nat -> (j < n)%nat -> i <> j -> s i = 0 -> s j = 0 ->
  g_x0 o (i + n)%nat = Fin 0 /\ g_x0 o (j + n)%nat = Fin 0 /\
  forall t, finite_array (2 * n) (g_x0 o) t -> ~ ecm_exp_dom n t.
Proof.
  intros Ho Li Lj Nij Si Sj.
  assert (A : forall l, (l < n)%nat -> s l = 0 -> g_x0 o (l + n)%nat = Fin 0).
  { intros l L E. unfold set_initial_guess_ecm in Ho.
    match type of Ho with gbind ?r _ = _ => destruct r as [[f h]|e] end; [|discriminate Ho].
    cbn [gbind fst snd] in Ho. injection Ho as <-. cbn [g_x0]. destruct g; rewrite cat2_r; [|apply where_zero_at, E|apply where_zero_at, E].
    unfold neglog_nonzero. rewrite where_zero_at by exact E. destruct (Req_EM_T 0 0); [reflexivity|contradiction]. }
  split; [apply A; assumption|]. split; [apply A; assumption|].
  intros t Ft H. specialize (H i j Li Lj Nij).
  pose proof (Ft (i + n)%nat ltac:(lia)) as E1. rewrite (A i Li Si) in E1. injection E1 as E1.
  pose proof (Ft (j + n)%nat ltac:(lia)) as E2. rewrite (A j Lj Sj) in E2. injection E2 as E2. unfold ecm_exp_dom in H. lra.
Qed.

(** * DECM *)
Lemma cat4_0 n a b c d i : (i < n)%nat -> cat4 n a b c d i = a i.
Proof. intros H. unfold cat4. destruct (Nat.ltb_spec i n); [reflexivity|lia]. Qed.
Lemma cat4_1 n a b c d i : (i < n)%nat -> cat4 n a b c d (i + n)%nat = b i.
Proof.
  intros H. unfold cat4. destruct (Nat.ltb_spec (i + n) n); [lia|]. destruct (Nat.ltb_spec (i + n) (2 * n)); [|lia].
  f_equal; lia.
Qed.
Lemma cat4_2 n a b c d i : (i < n)%nat -> cat4 n a b c d (i + 2 * n)%nat = c i.
Proof.
  intros H. unfold cat4. destruct (Nat.ltb_spec (i + 2 * n) n); [lia|]. destruct (Nat.ltb_spec (i + 2 * n) (2 * n)); [lia|].
  destruct (Nat.ltb_spec (i + 2 * n) (3 * n)); [|lia]. f_equal; lia.
Qed.
Lemma cat4_3 n a b c d i : (i < n)%nat -> cat4 n a b c d (i + 3 * n)%nat = d i.
Proof.
  intros H. unfold cat4. destruct (Nat.ltb_spec (i + 3 * n) n); [lia|]. destruct (Nat.ltb_spec (i + 3 * n) (2 * n)); [lia|].
  destruct (Nat.ltb_spec (i + 3 * n) (3 * n)); [lia|]. f_equal; lia.
Qed.
Lemma four_blocks n (P : nat -> Prop) :
  (forall i, (i < n)%nat -> P i) -> (forall i, (i < n)%nat -> P (i + n)%nat) ->
  (forall i, (i < n)%nat -> P (i + 2 * n)%nat) -> (forall i, (i < n)%nat -> P (i + 3 * n)%nat) ->
  forall r, (r < 4 * n)%nat -> P r.
Proof.
  intros A B C D r Hr. destruct (Nat.ltb_spec r n); [apply A; assumption|].
  destruct (Nat.ltb_spec r (2 * n)); [replace r with ((r - n) + n)%nat by lia; apply B; lia|].
  destruct (Nat.ltb_spec r (3 * n)); [replace r with ((r - 2 * n) + 2 * n)%nat by lia; apply C; lia|].
  replace r with ((r - 3 * n) + 3 * n)%nat by lia; apply D; lia.
Qed.
Lemma constraint_0 n a b c d i : (i < n)%nat -> decm_constraint n a b c d i = a i.
Proof. intros H. unfold decm_constraint. destruct (Nat.ltb_spec i n); [reflexivity|lia]. Qed.
Lemma constraint_1 n a b c d i : (i < n)%nat -> decm_constraint n a b c d (i + n)%nat = b i.
Proof.
  intros H. unfold decm_constraint. destruct (Nat.ltb_spec (i + n) n); [lia|]. destruct (Nat.ltb_spec (i + n) (2 * n)); [|lia].
  f_equal; lia.
Qed.
Lemma constraint_2 n a b c d i : (i < n)%nat -> decm_constraint n a b c d (i + 2 * n)%nat = c i.
Proof.
  intros H. unfold decm_constraint. destruct (Nat.ltb_spec (i + 2 * n) n); [lia|]. destruct (Nat.ltb_spec (i + 2 * n) (2 * n)); [lia|].
  destruct (Nat.ltb_spec (i + 2 * n) (3 * n)); [|lia]. f_equal; lia.
Qed.
Lemma constraint_3 n a b c d i : (i < n)%nat -> decm_constraint n a b c d (i + 3 * n)%nat = d i.
Proof.
  intros H. unfold decm_constraint. destruct (Nat.ltb_spec (i + 3 * n) n); [lia|]. destruct (Nat.ltb_spec (i + 3 * n) (2 * n)); [lia|].
  destruct (Nat.ltb_spec (i + 3 * n) (3 * n)); [lia|]. f_equal; lia.
Qed.

Lemma np_sum_nonneg n k : nonneg n k -> 0 <= np_sum n k.
Proof. intros H. rewrite np_sum_rsum. apply rsum_nonneg, H. Qed.

(** The four named blocks. *)
Lemma decm_values_named u n k_out k_in s_out s_in rnd nm : In nm weighted_names -> 0 < u < 1 ->
  nonneg n k_out -> nonneg n k_in -> nonneg n s_out -> nonneg n s_in -> draws rnd ->
  exists x y bo bi, decm_values u n k_out k_in s_out s_in rnd (GStr nm) = inl (x, y, bo, bi) /\
  (forall i, (i < n)%nat -> 0 < k_out i -> exists v, x i = Fin v /\ 0 < v) /\
  (forall i, (i < n)%nat -> 0 < k_in i -> exists v, y i = Fin v /\ 0 < v) /\
  (forall i, (i < n)%nat -> 0 < s_out i ->
    exists v, bo i = Fin v /\ 0 < v <= 1 /\ (nm <> "strengths"%string -> v < 1) /\ (nm = "strengths"%string -> v = s_out i / np_sum n s_out)) /\
  (forall i, (i < n)%nat -> 0 < s_in i ->
    exists v, bi i = Fin v /\ 0 < v <= 1 /\ (nm <> "strengths"%string -> v < 1) /\ (nm = "strengths"%string -> v = s_in i / np_sum n s_in)).
Proof.
  intros Hn Hu Ko Ki So Si Hr.
  destruct (degree_named_pos (np_sum n k_out) u k_out rnd nm Hn (np_sum_nonneg n k_out Ko) ltac:(lra) (fun i => proj1 (Hr i))) as (x & Ex & Hx).
  destruct (degree_named_pos (np_sum n k_out) u k_in (fun i => rnd (i + n)%nat) nm Hn (np_sum_nonneg n k_out Ko) ltac:(lra) (fun i => proj1 (Hr _))) as (y & Ey & Hy).
  destruct (strength_named_pos n u s_out (fun i => rnd (i + 2 * n)%nat) nm Hn So Hu (fun i => Hr _)) as (bo & Eo & Ho).
  destruct (strength_named_pos n u s_in (fun i => rnd (i + 3 * n)%nat) nm Hn Si Hu (fun i => Hr _)) as (bi & Ei & Hi).
  exists x, y, bo, bi. unfold decm_values. rewrite Ex. cbn [gbind]. rewrite Ey. cbn [gbind]. rewrite Eo. cbn [gbind]. rewrite Ei. cbn [gbind].
  split; [reflexivity|]. split; [auto|]. split; [auto|]. split; assumption.
Qed.

Lemma share_le n s i : nonneg n s -> (i < n)%nat -> 0 < s i -> s i / np_sum n s <= 1.
Proof.
  intros Hs Hi Hp. pose proof (sum_dom n s i Hs Hi). apply Rmult_le_reg_r with (np_sum n s); [lra|].
  unfold Rdiv; rewrite Rmult_assoc, Rinv_l; lra.
Qed.
Lemma share_one n s i : nonneg n s -> (i < n)%nat -> 0 < s i ->
  (s i / np_sum n s = 1 <-> forall h, (h < n)%nat -> h <> i -> s h = 0).
Proof.
  intros Hs Hi Hp. split.
  - intros H h Hh N. pose proof (sum_dom n s i Hs Hi). pose proof (sum_dom2 n s i h Hs Hi Hh (fun e => N (eq_sym e))).
    assert (s i = np_sum n s) by (apply Rmult_eq_reg_r with (/ np_sum n s); [unfold Rdiv in H; rewrite H, Rinv_r; lra|apply Rinv_neq_0_compat; lra]).
    pose proof (Hs h Hh). lra.
  - intros H. replace (np_sum n s) with (s i); [unfold Rdiv; apply Rinv_r; lra|]. rewrite np_sum_rsum.
    symmetry. transitivity (rsum n (fun h => if Nat.eqb h i then s h else 0)); [|apply (rsum_single n i s); exact Hi].
    apply rsum_ext. intros h Hh. destruct (Nat.eqb_spec h i) as [_|N]; [reflexivity|apply H; assumption].
Qed.

Lemma guess_decm_inside n k_out k_in s_out s_in rnd nm : In nm weighted_names ->
  nonneg n k_out -> nonneg n k_in -> nonneg n s_out -> nonneg n s_in -> draws rnd ->
  exists o x, set_initial_guess_decm n k_out k_in s_out s_in rnd (GStr nm) = inl o /\ finite_array (4 * n) (g_x0 o) x /\
  (forall r, (r < 4 * n)%nat -> starts_inside (decm_constraint n k_out k_in s_out s_in r) (x r)) /\
  (decm_dom n x <-> (nm <> "strengths"%string \/ ~ single_flow n s_out s_in)).
Proof.
  intros Hn Ko Ki So Si Hr.
  destruct (decm_values_named (9 / 10) n k_out k_in s_out s_in rnd nm Hn ltac:(lra) Ko Ki So Si Hr) as (x & y & bo & bi & E & Hx & Hy & Ho & Hi).
  assert (Ho' : forall i, (i < n)%nat -> 0 < s_out i -> exists v, bo i = Fin v /\ 0 < v)
    by (intros i Li Pi; destruct (Ho i Li Pi) as (v & Ev & [V _] & _); exists v; auto).
  assert (Hi' : forall i, (i < n)%nat -> 0 < s_in i -> exists v, bi i = Fin v /\ 0 < v)
    by (intros i Li Pi; destruct (Hi i Li Pi) as (v & Ev & [V _] & _); exists v; auto).
  unfold set_initial_guess_decm. rewrite E. cbn [gbind].
  eexists. exists (fun r => fval_r (cat4 n (where_zero k_out 0 x) (where_zero k_in 0 y) (where_zero s_out 0 bo) (where_zero s_in 0 bi) r)).
  split; [reflexivity|]. cbn [g_x0].
  assert (In1 : forall r, (r < 4 * n)%nat ->
     starts_inside (decm_constraint n k_out k_in s_out s_in r) (fval_r (cat4 n (where_zero k_out 0 x) (where_zero k_in 0 y) (where_zero s_out 0 bo) (where_zero s_in 0 bi) r))).
  { apply four_blocks; intros i L.
    - rewrite cat4_0, constraint_0 by exact L. apply (masked_inside k_out x i (Ko i L) (Hx i L)).
    - rewrite cat4_1, constraint_1 by exact L. apply (masked_inside k_in y i (Ki i L) (Hy i L)).
    - rewrite cat4_2, constraint_2 by exact L. apply (masked_inside s_out bo i (So i L) (Ho' i L)).
    - rewrite cat4_3, constraint_3 by exact L. apply (masked_inside s_in bi i (Si i L) (Hi' i L)). }
  split; [|split; [exact In1|]].
  - unfold finite_array. apply four_blocks; intros i L.
    + rewrite cat4_0 by exact L. apply (masked_inside k_out x i (Ko i L) (Hx i L)).
    + rewrite cat4_1 by exact L. apply (masked_inside k_in y i (Ki i L) (Hy i L)).
    + rewrite cat4_2 by exact L. apply (masked_inside s_out bo i (So i L) (Ho' i L)).
    + rewrite cat4_3 by exact L. apply (masked_inside s_in bi i (Si i L) (Hi' i L)).
  - split.
    + intros [_ Hd]. destruct (string_dec nm "strengths") as [En|Nn]; [right|left; exact Nn].
      intros (i & j & Li & Lj & Nij & Pi & Pj & Zi & Zj). specialize (Hd i j Li Lj Nij). revert Hd. rewrite cat4_2, cat4_3 by assumption.
      rewrite !where_zero_off by lra.
      destruct (Ho i Li Pi) as (v & -> & _ & _ & V), (Hi j Lj Pj) as (w & -> & _ & _ & W). cbn [fval_r].
      rewrite (V En), (W En). rewrite (proj2 (share_one n s_out i So Li Pi) Zi), (proj2 (share_one n s_in j Si Lj Pj) Zj). lra.
    + intros Hc. split.
      * intros r L. destruct (In1 r L) as [A B]. destruct (Req_EM_T (decm_constraint n k_out k_in s_out s_in r) 0) as [e|e]; [rewrite (B e); lra|specialize (A e); lra].
      * intros i j Li Lj Nij. rewrite cat4_2, cat4_3 by assumption.
        destruct (Req_EM_T (s_out i) 0) as [Ei|Ni]; [rewrite (where_zero_at s_out 0 bo i Ei); cbn [fval_r]; lra|].
        destruct (Req_EM_T (s_in j) 0) as [Ej|Nj]; [rewrite (where_zero_at s_in 0 bi j Ej); cbn [fval_r]; lra|].
        rewrite !where_zero_off by assumption.
        assert (Pi : 0 < s_out i) by (pose proof (So i Li); lra). assert (Pj : 0 < s_in j) by (pose proof (Si j Lj); lra).
        destruct (Ho i Li Pi) as (v & -> & V0 & V1 & V2), (Hi j Lj Pj) as (w & -> & W0 & W1 & W2). cbn [fval_r].
        destruct (string_dec nm "strengths") as [En|Nn].
        -- destruct Hc as [Hc|Hc]; [contradiction|]. destruct (Rlt_dec (v * w) 1) as [L|L]; [exact L|exfalso]. apply Hc.
           assert (v = 1 /\ w = 1) as [V W] by nra.
           exists i, j. do 5 (split; [assumption|]). split.
           ++ apply (share_one n s_out i So Li Pi). rewrite <- (V2 En). exact V.
           ++ apply (share_one n s_in j Si Lj Pj). rewrite <- (W2 En). exact W.
        -- specialize (V1 Nn). specialize (W1 Nn). apply Rlt_le_trans with (1 * 1); [apply Rmult_le_0_lt_compat; lra|lra].
Qed.

Lemma masked_exponent1000 k f i : 0 <= k i -> (0 < k i -> exists v, f i = Fin v /\ 0 < v) ->
  exists t, where_zero k 1000 (neglog_nonzero f) i = Fin t /\ (k i <> 0 -> f i = Fin (exp (- t))) /\ (k i = 0 -> factor_vanishes t /\ t = 1000).
Proof.
  intros H0 H. destruct (Req_EM_T (k i) 0) as [E|N].
  - exists 1000. rewrite where_zero_at by exact E. split; [reflexivity|]. split; [contradiction|]. intros _. split; [exact thousand_vanishes|reflexivity].
  - destruct H as (v & E & Hv); [lra|]. exists (- ln v). rewrite where_zero_off by exact N. split; [apply neglog_nonzero_pos; [exact E|exact Hv]|].
    split; [|contradiction]. intros _. rewrite E, Ropp_involutive, exp_ln by exact Hv. reflexivity.
Qed.

Lemma guess_decm_exp_start n k_out k_in s_out s_in rnd nm : In nm weighted_names ->
  nonneg n k_out -> nonneg n k_in -> nonneg n s_out -> nonneg n s_in -> draws rnd ->
  exists o t, set_initial_guess_decm_exp n k_out k_in s_out s_in rnd (GStr nm) = inl o /\ finite_array (4 * n) (g_x0 o) t /\
  (forall r, (r < 4 * n)%nat -> decm_constraint n k_out k_in s_out s_in r = 0 -> factor_vanishes (t r)) /\
  (nm = "uniform"%string -> forall r, (r < 4 * n)%nat -> decm_constraint n k_out k_in s_out s_in r <> 0 -> exp (- t r) = / 10) /\
  (nm <> "uniform"%string -> forall o' x, set_initial_guess_decm n k_out k_in s_out s_in rnd (GStr nm) = inl o' -> finite_array (4 * n) (g_x0 o') x ->
     forall r, (r < 4 * n)%nat -> decm_constraint n k_out k_in s_out s_in r <> 0 -> exp (- t r) = x r) /\
  (decm_exp_dom n t <-> (nm <> "strengths"%string \/ ~ single_flow n s_out s_in)).
Proof.
  intros Hn Ko Ki So Si Hr.
  destruct (decm_values_named (/ 10) n k_out k_in s_out s_in rnd nm Hn ltac:(lra) Ko Ki So Si Hr) as (x & y & bo & bi & E & Hx & Hy & Ho & Hi).
  assert (Ho' : forall i, (i < n)%nat -> 0 < s_out i -> exists v, bo i = Fin v /\ 0 < v)
    by (intros i Li Pi; destruct (Ho i Li Pi) as (v & Ev & [V _] & _); exists v; auto).
  assert (Hi' : forall i, (i < n)%nat -> 0 < s_in i -> exists v, bi i = Fin v /\ 0 < v)
    by (intros i Li Pi; destruct (Hi i Li Pi) as (v & Ev & [V _] & _); exists v; auto).
  set (X := cat4 n (where_zero k_out 1000 (neglog_nonzero x)) (where_zero k_in 1000 (neglog_nonzero y))
                   (where_zero s_out 1000 (neglog_nonzero bo)) (where_zero s_in 1000 (neglog_nonzero bi))).
  assert (A : forall r, (r < 4 * n)%nat -> exists t, X r = Fin t /\
     (decm_constraint n k_out k_in s_out s_in r <> 0 -> cat4 n x y bo bi r = Fin (exp (- t))) /\
     (decm_constraint n k_out k_in s_out s_in r = 0 -> factor_vanishes t /\ t = 1000)).
  { apply four_blocks; intros i L; unfold X.
    - rewrite !cat4_0, constraint_0 by exact L. apply (masked_exponent1000 k_out x i (Ko i L) (Hx i L)).
    - rewrite !cat4_1, constraint_1 by exact L. apply (masked_exponent1000 k_in y i (Ki i L) (Hy i L)).
    - rewrite !cat4_2, constraint_2 by exact L. apply (masked_exponent1000 s_out bo i (So i L) (Ho' i L)).
    - rewrite !cat4_3, constraint_3 by exact L. apply (masked_exponent1000 s_in bi i (Si i L) (Hi' i L)). }
  exists {| g_x0 := X; g_user := None |}, (fun r => fval_r (X r)).
  split; [unfold set_initial_guess_decm_exp; rewrite E; reflexivity|]. cbn [g_x0].
  split; [intros r L; destruct (A r L) as (t & -> & _); reflexivity|].
  split; [intros r L Z; destruct (A r L) as (t & -> & _ & B); apply B, Z|].
  split; [|split].
  - intros -> r L N. destruct (A r L) as (t & -> & B & _). cbn [fval_r]. specialize (B N).
    unfold decm_values, degree_named, strength_named in E. cbn [String.eqb Ascii.eqb Bool.eqb gbind] in E. injection E as <- <- <- <-.
    unfold cat4 in B. revert B. repeat match goal with |- context [Nat.ltb ?a ?b] => destruct (Nat.ltb a b) end; intros B; injection B as B; symmetry; exact B.
  - intros Nu o' x' Eo Fx r L N. destruct (A r L) as (t & -> & B & _). cbn [fval_r]. specialize (B N).
    assert (E' : decm_values (9 / 10) n k_out k_in s_out s_in rnd (GStr nm) = inl (x, y, bo, bi)).
    { rewrite <- E. unfold decm_values, degree_named, strength_named. destruct (String.eqb_spec nm "uniform"); [contradiction|].
      names Hn; try contradiction; reflexivity. }
    unfold set_initial_guess_decm in Eo. rewrite E' in Eo. cbn [gbind] in Eo. injection Eo as <-. cbn [g_x0] in Fx.
    specialize (Fx r L). revert L Fx N B. revert r.
    refine (four_blocks n _ _ _ _ _); intros i Li.
    + rewrite !cat4_0, constraint_0 by exact Li. intros F Nz. rewrite where_zero_off in F by exact Nz. rewrite F. intros q; injection q as q; symmetry; exact q.
    + rewrite !cat4_1, constraint_1 by exact Li. intros F Nz. rewrite where_zero_off in F by exact Nz. rewrite F. intros q; injection q as q; symmetry; exact q.
    + rewrite !cat4_2, constraint_2 by exact Li. intros F Nz. rewrite where_zero_off in F by exact Nz. rewrite F. intros q; injection q as q; symmetry; exact q.
    + rewrite !cat4_3, constraint_3 by exact Li. intros F Nz. rewrite where_zero_off in F by exact Nz. rewrite F. intros q; injection q as q; symmetry; exact q.
  - assert (Bo : forall i, (i < n)%nat -> exists t, X (i + 2 * n)%nat = Fin t /\ 0 <= t /\ (s_out i = 0 -> t = 1000) /\
      (0 < s_out i -> (nm <> "strengths"%string -> 0 < t) /\ (nm = "strengths"%string -> exp (- t) = s_out i / np_sum n s_out))).
    { intros i L. destruct (A (i + 2 * n)%nat ltac:(lia)) as (t & Et & B & C). exists t. split; [exact Et|].
      rewrite constraint_2 in B, C by exact L. rewrite cat4_2 in B by exact L.
      destruct (Req_EM_T (s_out i) 0) as [e|e].
      - rewrite (proj2 (C e)). split; [lra|]. split; [reflexivity|lra].
      - assert (P : 0 < s_out i) by (pose proof (So i L); lra). destruct (Ho i L P) as (v & Ev & V0 & V1 & V2).
        rewrite Ev in B. specialize (B e). injection B as B.
        split; [destruct (Rle_dec 0 t) as [q|q]; [exact q|exfalso]; pose proof (exp_increasing 0 (- t)); rewrite exp_0 in *; lra|].
        split; [contradiction|]. intros _. split; [|intros q; rewrite <- B; apply V2, q].
        intros q. specialize (V1 q). rewrite B in V1. rewrite <- exp_0 in V1. apply exp_lt_inv in V1. lra. }
    assert (Bi : forall i, (i < n)%nat -> exists t, X (i + 3 * n)%nat = Fin t /\ 0 <= t /\ (s_in i = 0 -> t = 1000) /\
      (0 < s_in i -> (nm <> "strengths"%string -> 0 < t) /\ (nm = "strengths"%string -> exp (- t) = s_in i / np_sum n s_in))).
    { intros i L. destruct (A (i + 3 * n)%nat ltac:(lia)) as (t & Et & B & C). exists t. split; [exact Et|].
      rewrite constraint_3 in B, C by exact L. rewrite cat4_3 in B by exact L.
      destruct (Req_EM_T (s_in i) 0) as [e|e].
      - rewrite (proj2 (C e)). split; [lra|]. split; [reflexivity|lra].
      - assert (P : 0 < s_in i) by (pose proof (Si i L); lra). destruct (Hi i L P) as (v & Ev & V0 & V1 & V2).
        rewrite Ev in B. specialize (B e). injection B as B.
        split; [destruct (Rle_dec 0 t) as [q|q]; [exact q|exfalso]; pose proof (exp_increasing 0 (- t)); rewrite exp_0 in *; lra|].
        split; [contradiction|]. intros _. split; [|intros q; rewrite <- B; apply V2, q].
        intros q. specialize (V1 q). rewrite B in V1. rewrite <- exp_0 in V1. apply exp_lt_inv in V1. lra. }
    split.
    + intros Hd. destruct (string_dec nm "strengths") as [En|Nn]; [right|left; exact Nn].
      intros (i & j & Li & Lj & Nij & Pi & Pj & Zi & Zj). specialize (Hd i j Li Lj Nij). revert Hd.
      destruct (Bo i Li) as (t & -> & _ & _ & T), (Bi j Lj) as (t' & -> & _ & _ & T'). cbn [fval_r].
      pose proof (proj2 (T Pi) En) as Q. pose proof (proj2 (T' Pj) En) as Q'.
      rewrite (proj2 (share_one n s_out i So Li Pi) Zi), <- exp_0 in Q. rewrite (proj2 (share_one n s_in j Si Lj Pj) Zj), <- exp_0 in Q'.
      apply exp_inv in Q. apply exp_inv in Q'. lra.
    + intros Hc i j Li Lj Nij. cbn beta.
      destruct (Bo i Li) as (t & -> & T0 & T1 & T), (Bi j Lj) as (t' & -> & T0' & T1' & T'). cbn [fval_r].
      destruct (Req_EM_T (s_out i) 0) as [e|e]; [rewrite (T1 e); lra|]. destruct (Req_EM_T (s_in j) 0) as [e'|e']; [rewrite (T1' e'); lra|].
      assert (Pi : 0 < s_out i) by (pose proof (So i Li); lra). assert (Pj : 0 < s_in j) by (pose proof (Si j Lj); lra).
      destruct (T Pi) as [U U'], (T' Pj) as [W W'].
      destruct (string_dec nm "strengths") as [En|Nn]; [|specialize (U Nn); lra].
      destruct Hc as [Hc|Hc]; [contradiction|]. destruct (Rlt_dec 0 (t + t')) as [L|L]; [exact L|exfalso]. apply Hc.
      assert (t = 0 /\ t' = 0) as [-> ->] by lra. rewrite Ropp_0, exp_0 in U', W'.
      exists i, j. do 5 (split; [assumption|]). split.
      * apply (share_one n s_out i So Li Pi). symmetry; apply U', En.
      * apply (share_one n s_in j Si Lj Pj). symmetry; apply W', En.
Qed.

(** * Refused guesses *)
Lemma guess_unknown_name nm rnd :
  (~ In nm binary_names -> forall e dseq dout din,
     set_initial_guess_cm e dseq rnd (GStr nm) = inr ValueError /\
     set_initial_guess_dcm dout din rnd (GStr nm) = inr ValueError /\
     set_initial_guess_dcm_exp dout din rnd (GStr nm) = inr ValueError) /\
  (~ In nm weighted_names -> forall e n k s k_out k_in s_out s_in,
     set_initial_guess_ecm e n k s rnd (GStr nm) = inr ValueError /\
     set_initial_guess_decm n k_out k_in s_out s_in rnd (GStr nm) = inr ValueError /\
     set_initial_guess_decm_exp n k_out k_in s_out s_in rnd (GStr nm) = inr ValueError /\
     set_initial_guess_crema_undirected n s rnd (GStr nm) = inr ValueError /\
     set_initial_guess_crema_directed n s_out s_in rnd (GStr nm) = inr ValueError).
Proof.
  split; intros Hn.
  - intros e dseq dout din. unfold set_initial_guess_cm, set_initial_guess_dcm, set_initial_guess_dcm_exp, dcm_values.
    destruct (degree_reduction_und dseq) as [[[? ?] ?] ?]. rewrite !binary_named_unknown by exact Hn. auto.
  - intros e n k s k_out k_in s_out s_in.
    assert (Hc : ~ In nm crema_names) by (intros H; apply Hn; unfold crema_names in H; cbn in *; intuition).
    unfold set_initial_guess_ecm, set_initial_guess_decm, set_initial_guess_decm_exp, decm_values, set_initial_guess_crema_undirected, set_initial_guess_crema_directed.
    rewrite !degree_named_unknown by exact Hn. rewrite !crema_named_unknown by exact Hc. cbn [gbind]. auto.
Qed.
Lemma guess_other_type rnd e dseq dout din n k s k_out k_in s_out s_in :
  set_initial_guess_cm e dseq rnd GOther = inr TypeError /\
  set_initial_guess_dcm dout din rnd GOther = inr TypeError /\
  set_initial_guess_dcm_exp dout din rnd GOther = inr TypeError /\
  set_initial_guess_ecm e n k s rnd GOther = inr TypeError /\
  set_initial_guess_decm n k_out k_in s_out s_in rnd GOther = inr TypeError /\
  set_initial_guess_decm_exp n k_out k_in s_out s_in rnd GOther = inr TypeError /\
  set_initial_guess_crema_undirected n s rnd GOther = inr TypeError /\
  set_initial_guess_crema_directed n s_out s_in rnd GOther = inr TypeError.
Proof.
  unfold set_initial_guess_cm. destruct (degree_reduction_und dseq) as [[[? ?] ?] ?]. repeat split; reflexivity.
Qed.

(** * Arrays given by the user *)
(** The binary models leave the array alone. *)
Lemma guess_binary_array_untouched rnd m a o :
  (forall e dseq, set_initial_guess_cm e dseq rnd (GArr m a) = inl o -> g_user o = Some (fun r => Fin (a r))) /\
  (forall dout din, set_initial_guess_dcm dout din rnd (GArr m a) = inl o -> g_user o = Some (fun r => Fin (a r))) /\
  (forall dout din, set_initial_guess_dcm_exp dout din rnd (GArr m a) = inl o -> g_user o = Some (fun r => Fin (a r))).
Proof.
  split; [|split].
  - intros e dseq. unfold set_initial_guess_cm. destruct (degree_reduction_und dseq) as [[[? ?] ?] ?].
    destruct (forallb _ _); cbn [gbind]; intros H; [injection H as <-; reflexivity|discriminate].
  - intros dout din. unfold set_initial_guess_dcm, dcm_values. destruct (forallb _ _); cbn [gbind]; intros H; [injection H as <-; reflexivity|discriminate].
  - intros dout din. unfold set_initial_guess_dcm_exp, dcm_values. destruct (forallb _ _); cbn [gbind]; intros H; [injection H as <-; reflexivity|discriminate].
Qed.

(** What an array of the right length becomes: entries of zero constraints are set to 0. *)
Lemma guess_ecm_array e n k s rnd a :
  exists o u, set_initial_guess_ecm e n k s rnd (GArr (2 * n) a) = inl o /\ g_user o = Some u /\
  (forall r, (r < 2 * n)%nat -> u r = g_x0 o r) /\
  forall i, (i < n)%nat ->
    g_x0 o i = Fin (if Req_EM_T (k i) 0 then 0 else a i) /\
    g_x0 o (i + n)%nat = Fin (if Req_EM_T (s i) 0 then 0 else a (i + n)%nat).
Proof.
  unfold set_initial_guess_ecm. rewrite Nat.eqb_refl. cbn [gbind fst snd]. eexists _, _. do 2 (split; [reflexivity|]). cbn [g_x0].
  split; [reflexivity|]. intros i L. rewrite cat2_l by exact L. rewrite cat2_r. unfold where_zero, fin.
  destruct (Req_EM_T (k i) 0), (Req_EM_T (s i) 0); split; reflexivity.
Qed.
Lemma guess_crema_array n s rnd a :
  exists o u, set_initial_guess_crema_undirected n s rnd (GArr n a) = inl o /\ g_user o = Some u /\
  forall i, u i = g_x0 o i /\ g_x0 o i = Fin (if Req_EM_T (s i) 0 then 0 else a i).
Proof.
  unfold set_initial_guess_crema_undirected. rewrite Nat.eqb_refl. cbn [gbind]. eexists _, _. do 2 (split; [reflexivity|]). cbn [g_x0].
  intros i. split; [reflexivity|]. unfold where_zero, fin. destruct (Req_EM_T (s i) 0); reflexivity.
Qed.
Lemma guess_crema_directed_array n s_out s_in rnd a :
  exists o u, set_initial_guess_crema_directed n s_out s_in rnd (GArr (2 * n) a) = inl o /\ g_user o = Some u /\
  (forall r, u r = g_x0 o r) /\
  forall i, (i < n)%nat ->
    g_x0 o i = Fin (if Req_EM_T (s_out i) 0 then 0 else a i) /\
    g_x0 o (i + n)%nat = Fin (if Req_EM_T (s_in i) 0 then 0 else a (i + n)%nat).
Proof.
  unfold set_initial_guess_crema_directed. rewrite Nat.eqb_refl. cbn [gbind fst snd]. eexists _, _. do 2 (split; [reflexivity|]). cbn [g_x0].
  split; [reflexivity|]. intros i L. rewrite cat2_l by exact L. rewrite cat2_r. unfold where_zero, fin.
  destruct (Req_EM_T (s_out i) 0), (Req_EM_T (s_in i) 0); split; reflexivity.
Qed.
Lemma fin_cat4 n a : forall r, (r < 4 * n)%nat ->
  cat4 n (fin a) (fun i => Fin (a (i + n)%nat)) (fun i => Fin (a (i + 2 * n)%nat)) (fun i => Fin (a (i + 3 * n)%nat)) r = Fin (a r).
Proof. apply four_blocks; intros i L; [rewrite cat4_0|rewrite cat4_1|rewrite cat4_2|rewrite cat4_3]; (exact L || reflexivity). Qed.
Lemma guess_decm_array n k_out k_in s_out s_in rnd a :
  exists o u, set_initial_guess_decm n k_out k_in s_out s_in rnd (GArr (4 * n) a) = inl o /\ g_user o = Some u /\
  forall r, (r < 4 * n)%nat -> u r = g_x0 o r /\
    g_x0 o r = Fin (if Req_EM_T (decm_constraint n k_out k_in s_out s_in r) 0 then 0 else a r).
Proof.
  unfold set_initial_guess_decm, decm_values. rewrite Nat.eqb_refl. cbn [gbind]. eexists _, _. do 2 (split; [reflexivity|]). cbn [g_x0].
  intros r L. split; [reflexivity|]. revert r L. apply four_blocks; intros i L.
  - rewrite cat4_0, constraint_0 by exact L. unfold where_zero, fin. destruct (Req_EM_T (k_out i) 0); reflexivity.
  - rewrite cat4_1, constraint_1 by exact L. unfold where_zero, fin. destruct (Req_EM_T (k_in i) 0); reflexivity.
  - rewrite cat4_2, constraint_2 by exact L. unfold where_zero, fin. destruct (Req_EM_T (s_out i) 0); reflexivity.
  - rewrite cat4_3, constraint_3 by exact L. unfold where_zero, fin. destruct (Req_EM_T (s_in i) 0); reflexivity.
Qed.
(** DECM in exponents: the array is replaced by minus its logarithm. *)
Lemma neglog_nonzero_fin a i : neglog_nonzero (fun i => Fin (a i)) i =
  if Req_EM_T (a i) 0 then Fin 0 else fneglog (Fin (a i)).
Proof. unfold neglog_nonzero. destruct (Req_EM_T (a i) 0) as [->|]; reflexivity. Qed.
Lemma guess_decm_exp_array n k_out k_in s_out s_in rnd a : (forall r, (r < 4 * n)%nat -> 0 < a r) ->
  exists o u, set_initial_guess_decm_exp n k_out k_in s_out s_in rnd (GArr (4 * n) a) = inl o /\ g_user o = Some u /\
  forall r, (r < 4 * n)%nat -> u r = g_x0 o r /\
    g_x0 o r = Fin (if Req_EM_T (decm_constraint n k_out k_in s_out s_in r) 0 then 1000 else - ln (a r)).
Proof.
  intros Ha. unfold set_initial_guess_decm_exp, decm_values. rewrite Nat.eqb_refl. cbn [gbind]. eexists _, _. do 2 (split; [reflexivity|]). cbn [g_x0].
  assert (A : forall f i x, f i = Fin x -> 0 < x -> forall k : nat -> R, where_zero k 1000 (neglog_nonzero f) i = Fin (if Req_EM_T (k i) 0 then 1000 else - ln x)).
  { intros f i x E P k. unfold where_zero. destruct (Req_EM_T (k i) 0); [reflexivity|]. apply neglog_nonzero_pos; assumption. }
  intros r L. split; [reflexivity|]. revert r L. apply four_blocks; intros i L.
  - rewrite cat4_0, constraint_0 by exact L. apply A; [reflexivity|apply Ha; lia].
  - rewrite cat4_1, constraint_1 by exact L. apply A; [reflexivity|apply Ha; lia].
  - rewrite cat4_2, constraint_2 by exact L. apply A; [reflexivity|apply Ha; lia].
  - rewrite cat4_3, constraint_3 by exact L. apply A; [reflexivity|apply Ha; lia].
Qed.
(** A second solve with the same array object does not start where the first one did. *)
Lemma guess_decm_exp_array_changed_refuted : exists n k_out k_in s_out s_in rnd a o u o' a',
  set_initial_guess_decm_exp n k_out k_in s_out s_in rnd (GArr (4 * n) a) = inl o /\
  g_user o = Some u /\ finite_array (4 * n) u a' /\
  (forall r, (r < 4 * n)%nat -> a' r <> a r) /\
  set_initial_guess_decm_exp n k_out k_in s_out s_in rnd (GArr (4 * n) a') = inl o' /\
  (forall r, (r < 4 * n)%nat -> g_x0 o' r <> g_x0 o r).
Proof.
  set (q := exp (- / 2)).
  assert (Q : 0 < q < 1) by (split; [apply exp_pos|unfold q; rewrite <- exp_0; apply exp_increasing; lra]).
  assert (Lq : - ln q = / 2) by (unfold q; rewrite ln_exp; lra).
  assert (Nq : q <> / 2).
  { intros E. assert (q = / (2 : R) -> False); [|auto]. intros _. assert (A : q * q = exp (-1)) by (unfold q; rewrite <- exp_plus; f_equal; lra).
    rewrite E in A. assert (exp 1 = 4) by (replace 1 with (- - 1) by lra; rewrite exp_Ropp, <- A; field).
    pose proof exp_le_3. lra. }
  destruct (guess_decm_exp_array 2 (fun _ => 1) (fun _ => 1) (fun _ => 1) (fun _ => 1) (fun _ => 1) (fun _ => q)) as (o & u & Eo & Eu & Hu); [intros; lra|].
  destruct (guess_decm_exp_array 2 (fun _ => 1) (fun _ => 1) (fun _ => 1) (fun _ => 1) (fun _ => 1) (fun _ => / 2)) as (o' & u' & Eo' & Eu' & Hu'); [intros; lra|].
  assert (C : forall r, decm_constraint 2 (fun _ => 1) (fun _ => 1) (fun _ => 1) (fun _ => 1) r = 1).
  { intros r. unfold decm_constraint. repeat match goal with |- context [Nat.ltb ?a ?b] => destruct (Nat.ltb a b) end; reflexivity. }
  exists 2%nat, (fun _ => 1), (fun _ => 1), (fun _ => 1), (fun _ => 1), (fun _ => 1), (fun _ => q), o, u, o', (fun _ => / 2).
  split; [exact Eo|]. split; [exact Eu|]. split.
  - intros r L. destruct (Hu r L) as [-> ->]. rewrite C. destruct (Req_EM_T 1 0); [lra|]. rewrite Lq. reflexivity.
  - split; [intros r _; auto|]. split; [exact Eo'|].
    intros r L. destruct (Hu r L) as [_ ->]. destruct (Hu' r L) as [_ ->]. rewrite C. destruct (Req_EM_T 1 0); [lra|]. rewrite Lq.
    rewrite ln_Rinv by lra. intros E. injection E as E.
    assert (A : q = / 2); [|contradiction]. replace (/ 2) with (exp (- ln 2)) by (rewrite exp_Ropp, exp_ln by lra; reflexivity).
    unfold q. f_equal. lra.
Qed.
(** The other weighted models overwrite the entries of nodes without weight. *)
Lemma guess_array_modified_refuted :
  (exists n k s rnd a o u, forall e, set_initial_guess_ecm e n k s rnd (GArr (2 * n) a) = inl o /\ g_user o = Some u /\ exists r, (r < 2 * n)%nat /\ u r <> Fin (a r)) /\
  (exists n s rnd a o u, set_initial_guess_crema_undirected n s rnd (GArr n a) = inl o /\ g_user o = Some u /\ exists r, (r < n)%nat /\ u r <> Fin (a r)) /\
  (exists n s_out s_in rnd a o u, set_initial_guess_crema_directed n s_out s_in rnd (GArr (2 * n) a) = inl o /\ g_user o = Some u /\ exists r, (r < 2 * n)%nat /\ u r <> Fin (a r)) /\
  (exists n k_out k_in s_out s_in rnd a o u, set_initial_guess_decm n k_out k_in s_out s_in rnd (GArr (4 * n) a) = inl o /\ g_user o = Some u /\ exists r, (r < 4 * n)%nat /\ u r <> Fin (a r)).
Proof.
  split; [|split; [|split]].
  - destruct (guess_ecm_array true 1 (fun _ => 0) (fun _ => 0) (fun _ => 1) (fun _ => 1)) as (o & u & Eo & Eu & H0 & H).
    exists 1%nat, (fun _ => 0), (fun _ => 0), (fun _ => 1), (fun _ => 1), o, u. intros e. split; [destruct e; exact Eo|]. split; [exact Eu|].
    exists O. split; [lia|]. rewrite H0 by lia. rewrite (proj1 (H O ltac:(lia))). destruct (Req_EM_T 0 0); [|lra]. intros E. injection E as E. lra.
  - destruct (guess_crema_array 1 (fun _ => 0) (fun _ => 1) (fun _ => 1)) as (o & u & Eo & Eu & H).
    exists 1%nat, (fun _ => 0), (fun _ => 1), (fun _ => 1), o, u. split; [exact Eo|]. split; [exact Eu|].
    exists O. split; [lia|]. destruct (H O) as [-> ->]. destruct (Req_EM_T 0 0); [|lra]. intros E. injection E as E. lra.
  - destruct (guess_crema_directed_array 1 (fun _ => 0) (fun _ => 0) (fun _ => 1) (fun _ => 1)) as (o & u & Eo & Eu & H0 & H).
    exists 1%nat, (fun _ => 0), (fun _ => 0), (fun _ => 1), (fun _ => 1), o, u. split; [exact Eo|]. split; [exact Eu|].
    exists O. split; [lia|]. rewrite H0. rewrite (proj1 (H O ltac:(lia))). destruct (Req_EM_T 0 0); [|lra]. intros E. injection E as E. lra.
  - destruct (guess_decm_array 1 (fun _ => 0) (fun _ => 0) (fun _ => 0) (fun _ => 0) (fun _ => 1) (fun _ => 1)) as (o & u & Eo & Eu & H).
    exists 1%nat, (fun _ => 0), (fun _ => 0), (fun _ => 0), (fun _ => 0), (fun _ => 1), (fun _ => 1), o, u. split; [exact Eo|]. split; [exact Eu|].
    exists O. split; [lia|]. destruct (H O ltac:(lia)) as [-> ->]. rewrite constraint_0 by lia. destruct (Req_EM_T 0 0); [|lra]. intros E. injection E as E. lra.
Qed.
(** ... and are untouched exactly when those entries are already 0. *)
Lemma guess_decm_array_untouched_iff n k_out k_in s_out s_in rnd a o u :
  set_initial_guess_decm n k_out k_in s_out s_in rnd (GArr (4 * n) a) = inl o -> g_user o = Some u ->
  ((forall r, (r < 4 * n)%nat -> u r = Fin (a r)) <->
   (forall r, (r < 4 * n)%nat -> decm_constraint n k_out k_in s_out s_in r = 0 -> a r = 0)).
Proof.
  intros Eo Eu. destruct (guess_decm_array n k_out k_in s_out s_in rnd a) as (o' & u' & Eo' & Eu' & H).
  rewrite Eo in Eo'. injection Eo' as <-. rewrite Eu in Eu'. injection Eu' as <-.
  split; intros A r L.
  - intros Z. specialize (A r L). destruct (H r L) as [E1 E2]. rewrite E1, E2 in A. destruct (Req_EM_T _ 0); [injection A as A; congruence|contradiction].
  - destruct (H r L) as [-> ->]. destruct (Req_EM_T _ 0) as [Z|_]; [|reflexivity]. rewrite (A r L Z). reflexivity.
Qed.

(** An array means factors for dcm_exp and exponents for cm_exp. *)
Lemma guess_array_meaning rnd m a :
  (forall dseq o v q, set_initial_guess_cm true dseq rnd (GArr m a) = inl o ->
     let '(r_dseq, r_index, r_invert, _) := degree_reduction_und dseq in
     nth_error r_index q = Some v -> nth q r_dseq O <> O -> g_x0 o q = Fin (a v)) /\
  (forall dout din o v q, set_initial_guess_dcm_exp dout din rnd (GArr m a) = inl o ->
     let r := degree_reduction_dir dout din in
     nth_error (r_index_dseq r) q = Some v -> (q < rnz_n_out r)%nat -> nth q (rnz_dseq_out r) O <> O -> 0 < a v -> g_x0 o q = Fin (- ln (a v))).
Proof.
  split.
  - intros dseq o v q. unfold set_initial_guess_cm. destruct (degree_reduction_und dseq) as [[[r_dseq r_index] r_invert] r_m].
    destruct (forallb _ _); cbn [gbind]; intros H; [injection H as <-|discriminate]. intros Hq Hd. cbn [g_x0].
    rewrite where_zero_off by (rewrite INR_zero_iff; exact Hd). rewrite (nth_error_nth _ _ _ Hq). reflexivity.
  - intros dout din o v q. unfold set_initial_guess_dcm_exp, dcm_values. destruct (forallb _ _); cbn [gbind]; intros H; [injection H as <-|discriminate].
    cbn zeta. intros Hq L Hd Ha. cbn [g_x0 fst snd]. rewrite cat2_l by exact L. rewrite where_zero_off by (rewrite INR_zero_iff; exact Hd).
    apply neglog_nonzero_pos; [rewrite (nth_error_nth _ _ _ Hq); reflexivity|exact Ha].
Qed.

(** The random generator may return 0, which is outside the domain. *)
Lemma guess_random_zero_refuted : exists dseq rnd o, (forall i, 0 <= rnd i < 1) /\
  set_initial_guess_cm false dseq rnd (GStr "random") = inl o /\
  exists v d q, nth_error dseq v = Some d /\ d <> O /\
    nth_error (snd (fst (degree_reduction_und dseq))) v = Some q /\ g_x0 o q = Fin 0.
Proof.
  exists [1%nat; 1%nat], (fun _ => 0). eexists. split; [intros; lra|]. split; [reflexivity|]. cbn [g_x0].
  exists O, 1%nat, O. split; [reflexivity|]. split; [discriminate|]. split; [reflexivity|].
  unfold where_zero, fin. destruct (Req_EM_T _ 0); reflexivity.
Qed.

(** "degrees_minor" and "strengths_minor": documented as inversely proportional. *)
Lemma guess_degrees_minor_increasing_refuted : exists dseq rnd o x y, 
  set_initial_guess_cm false dseq rnd (GStr "degrees_minor") = inl o /\
  fst (fst (fst (degree_reduction_und dseq))) = [1%nat; 2%nat] /\
  g_x0 o 0%nat = Fin x /\ g_x0 o 1%nat = Fin y /\ x < y.
Proof.
  exists [1%nat; 1%nat; 2%nat], (fun _ => 0).
  set (E := np_sum 3 (fun i => INR (nth i [1%nat; 1%nat; 2%nat] O)) / 2).
  assert (P : 0 < sqrt E + 1) by (pose proof (sqrt_pos E); lra).
  eexists. exists (1 / (sqrt E + 1)), (2 / (sqrt E + 1)). split; [reflexivity|]. split; [reflexivity|]. cbn [g_x0].
  split; [|split].
  - rewrite where_zero_off by (cbn; lra). cbn [nth INR List.length]. fold E. rewrite fdiv_pos by exact P. reflexivity.
  - rewrite where_zero_off by (cbn; lra). cbn [nth INR List.length]. fold E. rewrite fdiv_pos by exact P. f_equal. 
  - unfold Rdiv. apply Rmult_lt_compat_r; [apply Rinv_0_lt_compat, P|lra].
Qed.
