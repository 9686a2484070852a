From Coq Require Import Reals List Arith Bool String Lra Lia.
From Verif Require Import Base ModelDCM ModelNetwork ModelGuess SpecNetwork SpecWeighted SpecGuess ProofsNetwork ProofsGuess ProofsGuessW.
Import ListNotations.
Local Open Scope R_scope.

(** * The values behind each name *)
Lemma binary_named_value E k rnd nm f i : binary_named E k rnd nm = inl f -> 0 < E ->
  exists v, f i = Fin v /\ binary_start E (rnd i) nm (k i) v.
Proof.
  intros H HE. pose proof (sqrt_pos E) as Hq. unfold binary_named in H.
  destruct (String.eqb_spec nm "degrees_minor") as [->|_].
  { injection H as <-. rewrite fdiv_pos by lra. eexists. split; [reflexivity|]. repeat split; try discriminate. intros _. field. lra. }
  destruct (String.eqb_spec nm "random") as [->|_].
  { injection H as <-. eexists. split; [reflexivity|]. repeat split; discriminate. }
  destruct (String.eqb_spec nm "uniform") as [->|_].
  { injection H as <-. eexists. split; [reflexivity|]. repeat split; discriminate. }
  destruct (String.eqb_spec nm "degrees") as [->|_].
  { injection H as <-. eexists. split; [reflexivity|]. repeat split; discriminate. }
  destruct (String.eqb_spec nm "chung_lu") as [->|_]; [|discriminate].
  injection H as <-. rewrite fdiv_pos by lra. eexists. split; [reflexivity|]. repeat split; try discriminate. intros _. field. lra.
Qed.

Lemma guess_cm_values dseq rnd nm o v d q : set_initial_guess_cm false dseq rnd (GStr nm) = inl o ->
  nth_error dseq v = Some d -> d <> O -> nth_error (snd (fst (degree_reduction_und dseq))) v = Some q ->
  exists x, g_x0 o q = Fin x /\ binary_start (volume dseq / 2) (rnd q) nm (INR d) x.
Proof.
  intros Ho Hd H0 Hq. unfold set_initial_guess_cm, degree_reduction_und in *. cbn [fst snd] in *.
  destruct (binary_named _ _ rnd nm) as [f|e] eqn:E; [|discriminate Ho]. cbn [gbind] in Ho. injection Ho as <-. cbn [g_x0].
  destruct (reduction_und_index dseq v d q Hd Hq) as [Ek _].
  rewrite where_zero_off by (rewrite Ek, INR_zero_iff; exact H0).
  pose proof (edges_pos dseq v d Hd H0) as HE.
  destruct (binary_named_value _ _ _ _ _ q E ltac:(lra)) as (x & Ex & Hx). exists x. split; [exact Ex|].
  rewrite Ek, np_sum_rsum in Hx. exact Hx.
Qed.
Lemma guess_dcm_values dout din rnd nm o v ko ki q : List.length dout = List.length din -> balanced dout din ->
  set_initial_guess_dcm dout din rnd (GStr nm) = inl o ->
  nth_error dout v = Some ko -> nth_error din v = Some ki ->
  nth_error (r_invert_dseq (degree_reduction_dir dout din)) v = Some q ->
  (ko <> O -> exists x, g_x0 o q = Fin x /\ binary_start (volume dout) (rnd q) nm (INR ko) x) /\
  (ki <> O -> exists y, g_x0 o (q + rnz_n_out (degree_reduction_dir dout din))%nat = Fin y /\
     binary_start (volume dout) (rnd (q + rnz_n_out (degree_reduction_dir dout din))%nat) nm (INR ki) y).
Proof.
  intros HL HB Ho Hdo Hdi Hq. destruct (reduction_dir_index dout din v ko ki q HL Hdo Hdi Hq) as (Eo & Ei & Lq).
  unfold set_initial_guess_dcm, dcm_values in Ho.
  destruct (binary_named _ _ rnd nm) as [f|e] eqn:E; [|discriminate Ho]. cbn [gbind] in Ho.
  destruct (binary_named _ _ (fun i => rnd _) nm) as [h|e] eqn:E'; [|discriminate Ho]. cbn [gbind fst snd] in Ho.
  match type of Ho with inl ?X = _ => assert (Ho' : o = X) by congruence end. rewrite Ho'. clear Ho Ho'.
  cbn [g_x0]. rewrite cat2_l by exact Lq. rewrite cat2_r. split; intros H0.
  - rewrite where_zero_off by (rewrite Eo, INR_zero_iff; exact H0).
    destruct (binary_named_value _ _ _ _ _ q E (edges_pos dout v ko Hdo H0)) as (x & Ex & Hx). exists x. split; [exact Ex|].
    rewrite Eo, np_sum_rsum in Hx. exact Hx.
  - rewrite where_zero_off by (rewrite Ei, INR_zero_iff; exact H0).
    assert (HE : 0 < np_sum (List.length dout) (fun i => INR (nth i dout O))).
    { unfold balanced in HB. rewrite <- !np_sum_rsum in HB. rewrite HB. apply (edges_pos din v ki Hdi H0). }
    destruct (binary_named_value _ _ _ _ _ q E' HE) as (y & Ey & Hy). exists y. split; [exact Ey|].
    rewrite Ei, np_sum_rsum in Hy. exact Hy.
Qed.

(** The Chung-Lu formula gives the probability [k_i k_j / 2m]; the guess gives [k_i k_j / (2m)^2]. *)
Lemma guess_chung_lu_refuted dseq rnd o v w d d' q q' x x' :
  set_initial_guess_cm false dseq rnd (GStr "chung_lu") = inl o ->
  nth_error dseq v = Some d -> d <> O -> nth_error (snd (fst (degree_reduction_und dseq))) v = Some q -> g_x0 o q = Fin x ->
  nth_error dseq w = Some d' -> d' <> O -> nth_error (snd (fst (degree_reduction_und dseq))) w = Some q' -> g_x0 o q' = Fin x' ->
  x * x' * volume dseq = INR d * INR d' / volume dseq /\ (volume dseq <> 1 -> x * x' <> INR d * INR d' / volume dseq).
Proof.
  intros Ho Hd H0 Hq Ex Hd' H0' Hq' Ex'.
  destruct (guess_cm_values dseq rnd _ o v d q Ho Hd H0 Hq) as (y & Ey & Hy). rewrite Ex in Ey. injection Ey as <-.
  destruct (guess_cm_values dseq rnd _ o w d' q' Ho Hd' H0' Hq') as (y & Ey & Hy'). rewrite Ex' in Ey. injection Ey as <-.
  destruct Hy as (_ & _ & _ & _ & Hy), Hy' as (_ & _ & _ & _ & Hy'). specialize (Hy eq_refl). specialize (Hy' eq_refl).
  assert (HV : 0 < volume dseq) by (unfold volume; rewrite <- np_sum_rsum; apply (edges_pos dseq v d Hd H0)).
  pose proof (INR_pos_neq d H0). pose proof (INR_pos_neq d' H0'). revert Hy Hy' HV. generalize (volume dseq). intros V Hy Hy' HV.
  replace (2 * (V / 2)) with V in * by field. rewrite <- Hy, <- Hy' in *.
  split; [field; lra|]. intros N E.
  assert (E2 : x * x' = x * x' * V) by (rewrite E at 1; field; lra).
  assert (x * x' <> 0). { intros Z. assert (0 < x * V * (x' * V)) by nra. replace (x * V * (x' * V)) with (x * x' * (V * V)) in * by ring. rewrite Z in *. lra. }
  apply N. apply Rmult_eq_reg_l with (x * x'); [lra|assumption].
Qed.
(** "uniform" gives link probabilities 1/5, not 1/2 as the comment says. *)
Lemma guess_uniform_probability dseq rnd o v w d d' q q' x x' :
  set_initial_guess_cm false dseq rnd (GStr "uniform") = inl o ->
  nth_error dseq v = Some d -> d <> O -> nth_error (snd (fst (degree_reduction_und dseq))) v = Some q -> g_x0 o q = Fin x ->
  nth_error dseq w = Some d' -> d' <> O -> nth_error (snd (fst (degree_reduction_und dseq))) w = Some q' -> g_x0 o q' = Fin x' ->
  x * x' / (1 + x * x') = / 5.
Proof.
  intros Ho Hd H0 Hq Ex Hd' H0' Hq' Ex'.
  destruct (guess_cm_values dseq rnd _ o v d q Ho Hd H0 Hq) as (y & Ey & Hy). rewrite Ex in Ey. injection Ey as <-.
  destruct (guess_cm_values dseq rnd _ o w d' q' Ho Hd' H0' Hq') as (y & Ey & Hy'). rewrite Ex' in Ey. injection Ey as <-.
  destruct Hy as (_ & Hy & _), Hy' as (_ & Hy' & _). rewrite (Hy eq_refl), (Hy' eq_refl). field.
Qed.

(** * Weighted names *)
Lemma weighted_named_value E n u k s rd rw nm f h i : degree_named E u k rd nm = inl f -> strength_named n u s rw nm = inl h ->
  nonneg n k -> nonneg n s -> 0 <= E -> (i < n)%nat ->
  exists a, f i = Fin a /\ (s i <> 0 -> exists b, h i = Fin b /\ weighted_start E (np_sum n s) u (rd i) (rw i) nm (k i) (s i) a b).
Proof.
  intros Hf Hh Hk Hs HE Hi. pose proof (Hk i Hi). pose proof (Hs i Hi). unfold degree_named in Hf. unfold strength_named in Hh.
  destruct (String.eqb_spec nm "strengths") as [->|_].
  { injection Hf as <-. injection Hh as <-. rewrite fdiv_pos by lra. eexists. split; [reflexivity|]. intros N.
    pose proof (sum_dom n s i Hs Hi). rewrite fdiv_pos by lra. eexists. split; [reflexivity|].
    repeat split; try discriminate; field; lra. }
  destruct (String.eqb_spec nm "strengths_minor") as [->|_].
  { injection Hf as <-. injection Hh as <-. rewrite !fdiv_pos by lra. eexists. split; [reflexivity|]. intros N. eexists. split; [reflexivity|].
    repeat split; try discriminate; field; lra. }
  destruct (String.eqb_spec nm "random") as [->|_].
  { injection Hf as <-. injection Hh as <-. eexists. split; [reflexivity|]. intros N. eexists. split; [reflexivity|]. repeat split; discriminate. }
  destruct (String.eqb_spec nm "uniform") as [->|_]; [|discriminate].
  injection Hf as <-. injection Hh as <-. eexists. split; [reflexivity|]. intros N. eexists. split; [reflexivity|]. repeat split; discriminate.
Qed.
Lemma guess_ecm_values n k s rnd nm o i : nonneg n k -> nonneg n s -> set_initial_guess_ecm false n k s rnd (GStr nm) = inl o ->
  (i < n)%nat -> k i <> 0 -> s i <> 0 ->
  exists a b, g_x0 o i = Fin a /\ g_x0 o (i + n)%nat = Fin b /\
  weighted_start (rsum n k / 2) (rsum n s) (/ 1000) (rnd i) (rnd (i + n)%nat) nm (k i) (s i) a b.
Proof.
  intros Hk Hs Ho Hi Nk Ns. unfold set_initial_guess_ecm in Ho.
  destruct (degree_named _ _ k rnd nm) as [f|e] eqn:E; [|discriminate Ho]. cbn [gbind] in Ho.
  destruct (strength_named n _ s (fun i => rnd _) nm) as [h|e] eqn:E'; [|discriminate Ho]. cbn [gbind fst snd] in Ho.
  injection Ho as <-. cbn [g_x0]. rewrite cat2_l by exact Hi. rewrite cat2_r. rewrite !where_zero_off by assumption.
  destruct (weighted_named_value _ _ _ _ _ _ _ _ _ _ i E E' Hk Hs (half_sum_nonneg n k Hk) Hi) as (a & Ea & Hb).
  destruct (Hb Ns) as (b & Eb & W). rewrite !np_sum_rsum in W. exists a, b. auto.
Qed.
Lemma guess_decm_values n k_out k_in s_out s_in rnd nm o i : nonneg n k_out -> nonneg n k_in -> nonneg n s_out -> nonneg n s_in ->
  set_initial_guess_decm n k_out k_in s_out s_in rnd (GStr nm) = inl o -> (i < n)%nat ->
  (k_out i <> 0 -> s_out i <> 0 -> exists a b, g_x0 o i = Fin a /\ g_x0 o (i + 2 * n)%nat = Fin b /\
     weighted_start (rsum n k_out) (rsum n s_out) (9 / 10) (rnd i) (rnd (i + 2 * n)%nat) nm (k_out i) (s_out i) a b) /\
  (k_in i <> 0 -> s_in i <> 0 -> exists a b, g_x0 o (i + n)%nat = Fin a /\ g_x0 o (i + 3 * n)%nat = Fin b /\
     weighted_start (rsum n k_out) (rsum n s_in) (9 / 10) (rnd (i + n)%nat) (rnd (i + 3 * n)%nat) nm (k_in i) (s_in i) a b).
Proof.
  intros Ko Ki So Si Ho Hi. unfold set_initial_guess_decm, decm_values in Ho.
  destruct (degree_named _ _ k_out rnd nm) as [x|e] eqn:E1; [|discriminate Ho]. cbn [gbind] in Ho.
  destruct (degree_named _ _ k_in (fun i => rnd _) nm) as [y|e] eqn:E2; [|discriminate Ho]. cbn [gbind] in Ho.
  destruct (strength_named n _ s_out (fun i => rnd _) nm) as [bo|e] eqn:E3; [|discriminate Ho]. cbn [gbind] in Ho.
  destruct (strength_named n _ s_in (fun i => rnd _) nm) as [bi|e] eqn:E4; [|discriminate Ho]. cbn [gbind] in Ho.
  injection Ho as <-. cbn [g_x0]. rewrite cat4_0, cat4_1, cat4_2, cat4_3 by exact Hi. split; intros N1 N2; rewrite !where_zero_off by assumption.
  - destruct (weighted_named_value _ _ _ _ _ _ _ _ _ _ i E1 E3 Ko So (np_sum_nonneg n k_out Ko) Hi) as (a & Ea & Hb).
    destruct (Hb N2) as (b & Eb & W). rewrite !np_sum_rsum in W. exists a, b. auto.
  - destruct (weighted_named_value _ _ _ _ _ _ _ _ _ _ i E2 E4 Ki Si (np_sum_nonneg n k_out Ko) Hi) as (a & Ea & Hb).
    destruct (Hb N2) as (b & Eb & W). rewrite !np_sum_rsum in W. exists a, b. auto.
Qed.
(** CReMa: "strengths" is the same value for every node with weight, whatever its strength;
    "strengths_minor" is inversely proportional to strength plus one. *)
Lemma guess_crema_values n s rnd o i : nonneg n s -> (i < n)%nat -> s i <> 0 ->
  (set_initial_guess_crema_undirected n s rnd (GStr "random") = inl o -> g_x0 o i = Fin (rnd i)) /\
  (set_initial_guess_crema_undirected n s rnd (GStr "strengths") = inl o -> exists b, g_x0 o i = Fin b /\ b * rsum n s = 1) /\
  (set_initial_guess_crema_undirected n s rnd (GStr "strengths_minor") = inl o -> exists b, g_x0 o i = Fin b /\ b * (s i + 1) = 1).
Proof.
  intros Hs Hi N. pose proof (Hs i Hi). pose proof (sum_dom n s i Hs Hi) as HS.
  split; [|split]; intros Ho; unfold set_initial_guess_crema_undirected in Ho; cbn in Ho; injection Ho as <-; cbn [g_x0]; rewrite where_zero_off by exact N.
  - reflexivity.
  - unfold positive01. destruct (Rlt_dec 0 (s i)); [|lra]. rewrite fdiv_pos by lra. eexists. split; [reflexivity|]. rewrite <- np_sum_rsum. field. lra.
  - unfold positive01. destruct (Rlt_dec 0 (s i)); [|lra]. rewrite fdiv_pos by lra. eexists. split; [reflexivity|]. field. lra.
Qed.
Lemma guess_crema_directed_values n s_out s_in rnd nm o i : (i < n)%nat ->
  set_initial_guess_crema_directed n s_out s_in rnd (GStr nm) = inl o ->
  exists o1 o2, set_initial_guess_crema_undirected n s_out rnd (GStr nm) = inl o1 /\
    set_initial_guess_crema_undirected n s_in (fun i => rnd (i + n)%nat) (GStr nm) = inl o2 /\
    g_x0 o i = g_x0 o1 i /\ g_x0 o (i + n)%nat = g_x0 o2 i.
Proof.
  intros Hi Ho. unfold set_initial_guess_crema_directed in Ho. unfold set_initial_guess_crema_undirected.
  destruct (crema_named n s_out rnd nm) as [f|e]; [|discriminate Ho]. cbn [gbind] in *.
  destruct (crema_named n s_in _ nm) as [h|e]; [|discriminate Ho]. cbn [gbind fst snd] in *. injection Ho as <-.
  eexists _, _. do 2 (split; [reflexivity|]). cbn [g_x0]. rewrite cat2_l by exact Hi. rewrite cat2_r. split; reflexivity.
Qed.
Lemma guess_crema_strengths_refuted : exists n s rnd o b, nonneg n s /\ draws rnd /\ s 0%nat < s 1%nat /\
  set_initial_guess_crema_undirected n s rnd (GStr "strengths") = inl o /\ g_x0 o 0%nat = Fin b /\ g_x0 o 1%nat = Fin b.
Proof.
  set (s := fun i => INR (S i)).
  assert (Hs : nonneg 2 s) by (intros i _; apply pos_INR).
  destruct (guess_crema_inside 2 s (fun _ => / 2) "strengths"%string) as (o & x & Eo & Fx & _); [cbn; auto|exact Hs|intros ?; lra|].
  destruct (guess_crema_values 2 s (fun _ => / 2) o 0 Hs ltac:(lia)) as (_ & A & _); [unfold s; cbn; lra|].
  destruct (guess_crema_values 2 s (fun _ => / 2) o 1 Hs ltac:(lia)) as (_ & B & _); [unfold s; cbn; lra|].
  destruct (A Eo) as (b & Eb & Hb), (B Eo) as (b' & Eb' & Hb').
  exists 2%nat, s, (fun _ => / 2), o, b. split; [exact Hs|]. split; [intros ?; lra|]. split; [unfold s; cbn; lra|]. split; [exact Eo|]. split; [exact Eb|].
  rewrite Eb'. f_equal. assert (HS : rsum 2 s = 3) by (unfold rsum, s; cbn; lra). rewrite HS in *. lra.
Qed.
