From Coq Require Import Reals List Arith Bool String Lra Lia.
From Verif Require Import Base ModelDCM ModelNetwork ModelGuess SpecNetwork SpecWeighted SpecGuess ProofsUnique ProofsNetwork ProofsAdjacency ProofsGraph.
Import ListNotations.
Local Open Scope R_scope.

Definition fval_r (v : fval) : R := match v with Fin r => r | _ => 0 end.

Ltac names H := cbn [In binary_names weighted_names] in H;
  repeat (destruct H as [H|H]); [subst..|contradiction H].

(** * Logarithms of starting factors *)
Lemma neglog_pos r : 0 < r -> fneglog (Fin r) = Fin (- ln r).
Proof. intros H. cbn. destruct (Rlt_dec 0 r); [reflexivity|contradiction]. Qed.
Lemma neglog_nonzero_pos f i r : f i = Fin r -> 0 < r -> neglog_nonzero f i = Fin (- ln r).
Proof. intros E H. unfold neglog_nonzero. rewrite E. destruct (Req_EM_T r 0); [lra|]. apply neglog_pos, H. Qed.
Lemma fdiv_pos a b : 0 < b -> fdiv a b = Fin (a / b).
Proof. intros H. unfold fdiv. destruct (Req_EM_T b 0); [lra|reflexivity]. Qed.

Lemma exp_pow (t : R) n : exp (INR n * t) = exp t ^ n.
Proof.
  induction n as [|n IH]; [simpl; rewrite Rmult_0_l; apply exp_0|].
  rewrite S_INR, Rmult_plus_distr_r, Rmult_1_l, exp_plus, IH. cbn [pow]. ring.
Qed.
Lemma exp6 : 2 ^ 7 < exp 6.
Proof.
  apply Rlt_trans with ((3 / 2) ^ 12); [lra|].
  replace 6 with (INR 12 * (1 / 2)) by (simpl; lra). rewrite exp_pow.
  assert (H : 1 + 1 / 2 < exp (1 / 2)) by (apply exp_ineq1; lra).
  assert (P : forall m a b, 0 < a -> a < b -> a ^ S m < b ^ S m).
  { intros m a b Ha Hb. induction m as [|m IH]; [lra|].
    cbn [pow] in *. apply Rmult_le_0_lt_compat; [lra| |exact Hb|exact IH].
    apply Rmult_le_pos; [lra|apply pow_le; lra]. }
  apply P; lra.
Qed.
Lemma thousand_vanishes : factor_vanishes 1000.
Proof.
  unfold factor_vanishes. rewrite exp_Ropp.
  apply Rinv_lt_contravar; [apply Rmult_lt_0_compat; [apply pow_lt; lra|apply exp_pos]|].
  apply Rlt_le_trans with (exp 6 ^ 166).
  - apply Rlt_le_trans with ((2 ^ 7) ^ 166).
    + rewrite <- pow_mult. apply Rlt_pow; [lra|]. apply Nat.ltb_lt. reflexivity.
    + apply pow_incr. split; [apply pow_le; lra|left; apply exp6].
  - rewrite <- exp_pow. left. apply exp_increasing. rewrite INR_IZR_INZ. simpl Z.of_nat. lra.
Qed.

(** * The named values are positive where the constraint is *)
Lemma sum_dom n v i : nonneg n v -> (i < n)%nat -> v i <= np_sum n v.
Proof.
  intros H Hi. rewrite np_sum_rsum, (rsum_pull n i v Hi).
  assert (0 <= rsum n (fun j => if Nat.eqb j i then 0 else v j)); [|lra].
  apply rsum_nonneg. intros j Hj. destruct (Nat.eqb j i); [lra|apply H, Hj].
Qed.
Lemma sum_dom2 n v i j : nonneg n v -> (i < n)%nat -> (j < n)%nat -> i <> j -> v i + v j <= np_sum n v.
Proof.
  intros H Hi Hj Hij. rewrite np_sum_rsum, (rsum_pull n i v Hi).
  rewrite (rsum_pull n j _ Hj). destruct (Nat.eqb_spec j i); [lia|].
  assert (0 <= rsum n (fun l => if Nat.eqb l j then 0 else if Nat.eqb l i then 0 else v l)); [|lra].
  apply rsum_nonneg. intros l Hl. destruct (Nat.eqb l j); [lra|]. destruct (Nat.eqb l i); [lra|apply H, Hl].
Qed.

Lemma binary_named_pos E k rnd nm : In nm binary_names -> (forall i, 0 < rnd i) ->
  exists f, binary_named E k rnd nm = inl f /\ forall i, 0 < k i -> 0 < E -> exists v, f i = Fin v /\ 0 < v.
Proof.
  intros Hn Hr. pose proof (sqrt_pos E) as Hq. names Hn; unfold binary_named; cbn [String.eqb Ascii.eqb Bool.eqb]; eexists; (split; [reflexivity|]); intros i Hk HE.
  - exists (rnd i). split; [reflexivity|apply Hr].
  - exists (/ 2). split; [reflexivity|lra].
  - exists (k i). split; [reflexivity|exact Hk].
  - exists (k i / (sqrt E + 1)). split; [apply fdiv_pos; lra|apply Rdiv_lt_0_compat; lra].
  - exists (k i / (2 * E)). split; [apply fdiv_pos; lra|apply Rdiv_lt_0_compat; lra].
Qed.
Lemma binary_named_unknown E k rnd nm : ~ In nm binary_names -> binary_named E k rnd nm = inr ValueError.
Proof.
  intros Hn. unfold binary_named.
  repeat match goal with |- context [String.eqb nm ?x] =>
    destruct (String.eqb_spec nm x) as [->|_]; [exfalso; apply Hn; cbn; auto 10|] end.
  reflexivity.
Qed.

(** * UBCM *)
Lemma reduction_und_index dseq v d q :
  nth_error dseq v = Some d -> nth_error (np_inverse Nat.leb Nat.eqb dseq) v = Some q ->
  nth q (np_unique Nat.leb Nat.eqb dseq) O = d /\ (q < List.length (np_unique Nat.leb Nat.eqb dseq))%nat.
Proof.
  intros Hd Hq. destruct (reduction_undirected dseq) as (r & fi & inv & mu & E & HR).
  unfold degree_reduction_und in E. injection E as <- <- <- <-.
  destruct HR as (_ & _ & _ & _ & _ & Hinv & _).
  destruct (Hinv v d Hd) as (q' & Hq' & Hr). rewrite Hq' in Hq. injection Hq as ->.
  split; [apply nth_error_nth, Hr|]. apply nth_error_Some. rewrite Hr. discriminate.
Qed.
Lemma nth_nonneg l i : 0 <= INR (nth i l O).
Proof. apply pos_INR. Qed.
Lemma edges_pos dseq v d : nth_error dseq v = Some d -> d <> O ->
  0 < np_sum (List.length dseq) (fun i => INR (nth i dseq O)).
Proof.
  intros Hv Hd. assert (L : (v < List.length dseq)%nat) by (apply nth_error_Some; rewrite Hv; discriminate).
  apply Rlt_le_trans with (INR (nth v dseq O)).
  - rewrite (nth_error_nth _ _ _ Hv). apply lt_0_INR. lia.
  - apply (sum_dom _ (fun i => INR (nth i dseq O)) v); [intros i _; apply pos_INR|exact L].
Qed.
Lemma INR_pos_neq d : d <> O -> 0 < INR d.
Proof. intros. apply lt_0_INR. lia. Qed.
Lemma INR_zero_iff d : INR d = 0 <-> d = O.
Proof. split; [intros H; apply INR_eq; exact H|intros ->; reflexivity]. Qed.

Lemma where_zero_at k c f i : k i = 0 -> where_zero k c f i = Fin c.
Proof. intros E. unfold where_zero. destruct (Req_EM_T (k i) 0); [reflexivity|contradiction]. Qed.
Lemma where_zero_off k c f i : k i <> 0 -> where_zero k c f i = f i.
Proof. intros E. unfold where_zero. destruct (Req_EM_T (k i) 0); [contradiction|reflexivity]. Qed.

Lemma guess_cm_inside dseq rnd nm : In nm binary_names -> draws rnd ->
  exists o, set_initial_guess_cm false dseq rnd (GStr nm) = inl o /\
  forall v d q, nth_error dseq v = Some d -> nth_error (snd (fst (degree_reduction_und dseq))) v = Some q ->
  exists x, g_x0 o q = Fin x /\ starts_inside (INR d) x.
Proof.
  intros Hn Hr.
  destruct (binary_named_pos (np_sum (List.length dseq) (fun i => INR (nth i dseq O)) / 2)
    (fun i => INR (nth i (np_unique Nat.leb Nat.eqb dseq) O)) rnd nm Hn (fun i => proj1 (Hr i))) as (f & Ef & Hf).
  unfold set_initial_guess_cm, degree_reduction_und. rewrite Ef. cbn [gbind].
  eexists. split; [reflexivity|]. cbn [g_x0 fst snd]. intros v d q Hd Hq.
  destruct (reduction_und_index dseq v d q Hd Hq) as [Ek _].
  destruct (Nat.eq_dec d 0) as [->|Hd0].
  - exists 0. rewrite where_zero_at by (rewrite Ek; reflexivity). split; [reflexivity|]. split; [intros H; contradiction H; reflexivity|reflexivity].
  - assert (Hk : INR (nth q (np_unique Nat.leb Nat.eqb dseq) 0%nat) <> 0) by (rewrite Ek, INR_zero_iff; exact Hd0).
    rewrite where_zero_off by exact Hk.
    destruct (Hf q) as (x & Ex & Hx).
    + rewrite Ek. apply INR_pos_neq, Hd0.
    + pose proof (edges_pos dseq v d Hd Hd0). lra.
    + exists x. split; [exact Ex|]. split; [intros _; exact Hx|]. intros E. apply INR_zero_iff in E. contradiction.
Qed.

(** In the exponential version the nodes with links start at a finite exponent, and a node without
    links always at exponent 0, whatever the guess. *)
Lemma guess_cm_exp_finite dseq rnd nm : In nm binary_names -> draws rnd ->
  exists o o', set_initial_guess_cm true dseq rnd (GStr nm) = inl o /\ set_initial_guess_cm false dseq rnd (GStr nm) = inl o' /\
  forall v d q, nth_error dseq v = Some d -> nth_error (snd (fst (degree_reduction_und dseq))) v = Some q ->
  exists t, g_x0 o q = Fin t /\ (d <> O -> g_x0 o' q = Fin (exp (- t))).
Proof.
  intros Hn Hr.
  destruct (binary_named_pos (np_sum (List.length dseq) (fun i => INR (nth i dseq O)) / 2)
    (fun i => INR (nth i (np_unique Nat.leb Nat.eqb dseq) O)) rnd nm Hn (fun i => proj1 (Hr i))) as (f & Ef & Hf).
  unfold set_initial_guess_cm, degree_reduction_und. rewrite Ef. cbn [gbind].
  eexists _, _. do 2 (split; [reflexivity|]). cbn [g_x0 fst snd]. intros v d q Hd Hq.
  destruct (reduction_und_index dseq v d q Hd Hq) as [Ek _].
  destruct (Nat.eq_dec d 0) as [->|Hd0].
  - exists 0. unfold neglog_nonzero. rewrite where_zero_at by (rewrite Ek; reflexivity).
    split; [|contradiction]. destruct (Req_EM_T 0 0); [reflexivity|contradiction].
  - assert (Hk : INR (nth q (np_unique Nat.leb Nat.eqb dseq) 0%nat) <> 0) by (rewrite Ek, INR_zero_iff; exact Hd0).
    destruct (Hf q) as (x & Ex & Hx).
    + rewrite Ek. apply INR_pos_neq, Hd0.
    + pose proof (edges_pos dseq v d Hd Hd0). lra.
    + exists (- ln x). split; [apply neglog_nonzero_pos; [|exact Hx]|intros _]; rewrite where_zero_off by exact Hk; [exact Ex|].
      rewrite Ropp_involutive, exp_ln by exact Hx. exact Ex.
Qed.
Lemma guess_cm_exp_isolated_refuted dseq rnd g o v q :
  set_initial_guess_cm true dseq rnd g = inl o ->
  nth_error dseq v = Some O -> nth_error (snd (fst (degree_reduction_und dseq))) v = Some q ->
  g_x0 o q = Fin 0 /\ ~ factor_vanishes 0.
Proof.
  intros Ho Hd Hq. split.
  2: { unfold factor_vanishes. rewrite Ropp_0, exp_0.
       assert (H1 : 1 < 2 ^ 1075). { rewrite <- (pow_O 2). apply Rlt_pow; [lra|]. apply Nat.ltb_lt. reflexivity. }
       assert (H2 : / 2 ^ 1075 < / 1) by (apply Rinv_lt_contravar; [rewrite Rmult_1_l; lra|exact H1]).
       rewrite Rinv_1 in H2. lra. }
  unfold set_initial_guess_cm, degree_reduction_und in Ho, Hq. cbn [fst snd] in Hq.
  destruct (reduction_und_index dseq v O q Hd Hq) as [Ek _].
  match type of Ho with gbind ?r _ = _ => destruct r as [f|e] end; [|discriminate Ho].
  cbn [gbind] in Ho. injection Ho as <-. cbn [g_x0].
  destruct g; try (rewrite where_zero_at by (rewrite Ek; reflexivity); reflexivity).
  unfold neglog_nonzero. rewrite where_zero_at by (rewrite Ek; reflexivity).
  destruct (Req_EM_T 0 0); [reflexivity|contradiction].
Qed.

(** * DBCM *)
Lemma reduction_dir_index dout din v ko ki q : List.length dout = List.length din ->
  nth_error dout v = Some ko -> nth_error din v = Some ki ->
  nth_error (r_invert_dseq (degree_reduction_dir dout din)) v = Some q ->
  nth q (rnz_dseq_out (degree_reduction_dir dout din)) O = ko /\ nth q (rnz_dseq_in (degree_reduction_dir dout din)) O = ki /\
  (q < rnz_n_out (degree_reduction_dir dout din))%nat.
Proof.
  intros HL Ho Hi Hq. pose proof (reduction_directed dout din HL) as HR. cbv zeta in HR.
  destruct HR as (_ & Hn & _ & _ & Hx & _).
  destruct (Hx v ko ki Ho Hi) as (q' & E' & Eo & Ei). rewrite E' in Hq. injection Hq as ->.
  split; [apply nth_error_nth, Eo|]. split; [apply nth_error_nth, Ei|].
  cbn [rnz_n_out degree_reduction_dir]. apply nth_error_Some. cbn [rnz_dseq_out degree_reduction_dir] in Eo. rewrite Eo. discriminate.
Qed.
Lemma dcm_values_named dout din rnd nm : In nm binary_names -> draws rnd -> List.length dout = List.length din -> balanced dout din ->
  exists f h, dcm_values dout din rnd (GStr nm) = inl (f, h) /\
  forall v ko ki q, nth_error dout v = Some ko -> nth_error din v = Some ki ->
    nth_error (r_invert_dseq (degree_reduction_dir dout din)) v = Some q ->
    (ko <> O -> exists x, f q = Fin x /\ 0 < x) /\ (ki <> O -> exists y, h q = Fin y /\ 0 < y).
Proof.
  intros Hn Hr HL HB. unfold dcm_values.
  set (r := degree_reduction_dir dout din).
  destruct (binary_named_pos (np_sum (List.length dout) (fun i => INR (nth i dout O)))
    (fun i => INR (nth i (rnz_dseq_out r) O)) rnd nm Hn (fun i => proj1 (Hr i))) as (f & Ef & Hf).
  destruct (binary_named_pos (np_sum (List.length dout) (fun i => INR (nth i dout O)))
    (fun i => INR (nth i (rnz_dseq_in r) O)) (fun i => rnd (i + rnz_n_out r)%nat) nm Hn (fun i => proj1 (Hr _))) as (h & Eh & Hh).
  exists f, h. rewrite Ef. cbn [gbind]. rewrite Eh. cbn [gbind]. split; [reflexivity|].
  intros v ko ki q Ho Hi Hq. destruct (reduction_dir_index dout din v ko ki q HL Ho Hi Hq) as (Eo & Ei & _).
  fold r in Eo, Ei. split; intros Hk.
  - apply Hf; [rewrite Eo; apply INR_pos_neq, Hk|apply (edges_pos dout v ko Ho Hk)].
  - apply Hh; [rewrite Ei; apply INR_pos_neq, Hk|]. unfold balanced in HB. rewrite <- !np_sum_rsum in HB. rewrite HB. apply (edges_pos din v ki Hi Hk).
Qed.

Lemma cat2_l n a b i : (i < n)%nat -> cat2 n a b i = a i.
Proof. intros H. unfold cat2. apply Nat.ltb_lt in H. rewrite H. reflexivity. Qed.
Lemma cat2_r n a b i : cat2 n a b (i + n) = b i.
Proof. unfold cat2. destruct (Nat.ltb_spec (i + n) n); [lia|]. f_equal. lia. Qed.

Lemma guess_dcm_inside dout din rnd nm : In nm binary_names -> draws rnd -> List.length dout = List.length din -> balanced dout din ->
  exists o, set_initial_guess_dcm dout din rnd (GStr nm) = inl o /\
  forall v ko ki q, nth_error dout v = Some ko -> nth_error din v = Some ki ->
    nth_error (r_invert_dseq (degree_reduction_dir dout din)) v = Some q ->
  exists x y, g_x0 o q = Fin x /\ g_x0 o (q + rnz_n_out (degree_reduction_dir dout din))%nat = Fin y /\
    starts_inside (INR ko) x /\ starts_inside (INR ki) y.
Proof.
  intros Hn Hr HL HB. destruct (dcm_values_named dout din rnd nm Hn Hr HL HB) as (f & h & E & Hv).
  unfold set_initial_guess_dcm. rewrite E. cbn [gbind fst snd]. eexists. split; [reflexivity|]. cbn [g_x0].
  intros v ko ki q Ho Hi Hq. destruct (reduction_dir_index dout din v ko ki q HL Ho Hi Hq) as (Eo & Ei & Lq).
  destruct (Hv v ko ki q Ho Hi Hq) as [Hx Hy].
  rewrite cat2_l by exact Lq. rewrite cat2_r.
  assert (A : exists x, where_zero (fun i => INR (nth i (rnz_dseq_out (degree_reduction_dir dout din)) 0%nat)) 0 f q = Fin x /\ starts_inside (INR ko) x).
  { destruct (Nat.eq_dec ko 0) as [E0|N0].
    - exists 0. rewrite where_zero_at by (rewrite Eo, E0; reflexivity). split; [reflexivity|].
      subst ko. split; [intros H; contradiction H; rewrite E0; reflexivity|reflexivity].
    - destruct (Hx N0) as (x & Ex & Px). exists x. rewrite where_zero_off by (rewrite Eo, INR_zero_iff; exact N0).
      split; [exact Ex|]. split; [intros _; exact Px|intros H; apply INR_zero_iff in H; contradiction]. }
  assert (B : exists y, where_zero (fun i => INR (nth i (rnz_dseq_in (degree_reduction_dir dout din)) 0%nat)) 0 h q = Fin y /\ starts_inside (INR ki) y).
  { destruct (Nat.eq_dec ki 0) as [E0|N0].
    - exists 0. rewrite where_zero_at by (rewrite Ei, E0; reflexivity). split; [reflexivity|].
      subst ki. split; [intros H; contradiction H; rewrite E0; reflexivity|reflexivity].
    - destruct (Hy N0) as (y & Ey & Py). exists y. rewrite where_zero_off by (rewrite Ei, INR_zero_iff; exact N0).
      split; [exact Ey|]. split; [intros _; exact Py|intros H; apply INR_zero_iff in H; contradiction]. }
  destruct A as (x & Ax & Sx), B as (y & By & Sy). exists x, y. auto.
Qed.

Lemma guess_dcm_exp_inside dout din rnd nm : In nm binary_names -> draws rnd -> List.length dout = List.length din -> balanced dout din ->
  exists o o', set_initial_guess_dcm_exp dout din rnd (GStr nm) = inl o /\ set_initial_guess_dcm dout din rnd (GStr nm) = inl o' /\
  forall v ko ki q, nth_error dout v = Some ko -> nth_error din v = Some ki ->
    nth_error (r_invert_dseq (degree_reduction_dir dout din)) v = Some q ->
  exists x y, g_x0 o q = Fin x /\ g_x0 o (q + rnz_n_out (degree_reduction_dir dout din))%nat = Fin y /\
    (ko = O -> factor_vanishes x) /\ (ki = O -> factor_vanishes y) /\
    (ko <> O -> g_x0 o' q = Fin (exp (- x))) /\
    (ki <> O -> g_x0 o' (q + rnz_n_out (degree_reduction_dir dout din))%nat = Fin (exp (- y))).
Proof.
  intros Hn Hr HL HB. destruct (dcm_values_named dout din rnd nm Hn Hr HL HB) as (f & h & E & Hv).
  unfold set_initial_guess_dcm_exp, set_initial_guess_dcm. rewrite E. cbn [gbind fst snd]. eexists _, _. do 2 (split; [reflexivity|]). cbn [g_x0].
  intros v ko ki q Ho Hi Hq. destruct (reduction_dir_index dout din v ko ki q HL Ho Hi Hq) as (Eo & Ei & Lq).
  destruct (Hv v ko ki q Ho Hi Hq) as [Hx Hy].
  rewrite !cat2_l by exact Lq. rewrite !cat2_r.
  assert (A : exists x, where_zero (fun i => INR (nth i (rnz_dseq_out (degree_reduction_dir dout din)) 0%nat)) 1000 (neglog_nonzero f) q = Fin x /\ (ko = O -> factor_vanishes x) /\ (ko <> O -> where_zero (fun i => INR (nth i (rnz_dseq_out (degree_reduction_dir dout din)) 0%nat)) 0 f q = Fin (exp (- x)))).
  { destruct (Nat.eq_dec ko 0) as [E0|N0].
    - exists 1000. rewrite where_zero_at by (rewrite Eo, E0; reflexivity). split; [reflexivity|]. split; [intros _; apply thousand_vanishes|contradiction].
    - destruct (Hx N0) as (x & Ex & Px). exists (- ln x). rewrite !where_zero_off by (rewrite Eo, INR_zero_iff; exact N0).
      split; [apply neglog_nonzero_pos; assumption|split; [contradiction|intros _]].
      rewrite Ropp_involutive, exp_ln by exact Px. exact Ex. }
  assert (B : exists y, where_zero (fun i => INR (nth i (rnz_dseq_in (degree_reduction_dir dout din)) 0%nat)) 1000 (neglog_nonzero h) q = Fin y /\ (ki = O -> factor_vanishes y) /\ (ki <> O -> where_zero (fun i => INR (nth i (rnz_dseq_in (degree_reduction_dir dout din)) 0%nat)) 0 h q = Fin (exp (- y)))).
  { destruct (Nat.eq_dec ki 0) as [E0|N0].
    - exists 1000. rewrite where_zero_at by (rewrite Ei, E0; reflexivity). split; [reflexivity|]. split; [intros _; apply thousand_vanishes|contradiction].
    - destruct (Hy N0) as (y & Ey & Py). exists (- ln y). rewrite !where_zero_off by (rewrite Ei, INR_zero_iff; exact N0).
      split; [apply neglog_nonzero_pos; assumption|split; [contradiction|intros _]].
      rewrite Ropp_involutive, exp_ln by exact Py. exact Ey. }
  destruct A as (x & Ax & Sx & Tx), B as (y & By & Sy & Ty). exists x, y. repeat split; auto; intros; rewrite ?cat2_r; rewrite ?cat2_l by exact Lq; auto.
Qed.
