(** The parameters a solve leaves rank the nodes as their constraints do. *)
From Coq Require Import Reals List Arith Bool ZArith String Lia Lra.
From Verif Require Import Base SpecGraph SpecDirected SpecEnsemble SpecNetwork SpecLife SpecLinsearch SpecSolver SpecDispatch SpecGuess SpecRun SpecSolve SpecTool SpecReach SpecReachTool SpecRank
  ModelCM ModelDCM ModelNetwork ModelLife ModelSolver ModelDispatch ModelGuess ModelRun ModelSolve ModelTool ModelObject SpecObject.
From Verif Require Import ProofsGraph ProofsEnsemble ProofsAlike ProofsMainCM ProofsLife ProofsLifeDir ProofsLifeForms ProofsSolve ProofsSolveU ProofsSolveD ProofsTool ProofsToolD
  ProofsObject ProofsObjectForms ProofsObjectLabels ProofsReport ProofsReachTool ProofsReachObject ProofsPipeline.
Import ListNotations.
Local Open Scope R_scope.
#[local] Opaque u_dispatch d_dispatch lookup.

(** * Means *)
Lemma dev_gap a b c d e : Rabs (a - b) <= e -> Rabs (c - d) <= e -> d - b - 2 * e <= c - a.
Proof. intros H1 H2. unfold Rabs in H1, H2. destruct (Rcase_abs (a - b)), (Rcase_abs (c - d)); lra. Qed.
Lemma und_rank n k x e i j : none_negative n x ->
  (forall q, (q < n)%nat -> Rabs (mean_undirected n (p_ubcm x) (fun a => deg n a q) - k q) <= e) ->
  (i < n)%nat -> (j < n)%nat -> k i + 2 * e < k j -> x i < x j.
Proof.
  intros Hx HE Hi Hj H. apply Rnot_le_lt. intros C. pose proof (expected_cm_mono n x j i Hx Hj Hi C) as M.
  pose proof (dev_gap _ _ _ _ _ (HE i Hi) (HE j Hj)) as D. cbv beta in D. rewrite !expected_degree_cm_mean in D by assumption. lra.
Qed.
Lemma link_rank x i j l : 0 <= x i -> x i < x j -> 0 < x l -> p_ubcm x i l < p_ubcm x j l.
Proof. intros H1 H2 H3. unfold p_ubcm. apply frac_lt; nra. Qed.
Lemma arc_lt_1 a b : 0 <= a -> 0 <= b -> 0 <= a * b / (1 + a * b) < 1.
Proof.
  intros Ha Hb. assert (0 <= a * b) by nra. split; [apply Rmult_le_pos; [exact H|left; apply Rinv_0_lt_compat; lra]|].
  apply Rmult_lt_reg_r with (1 + a * b); [lra|]. replace (a * b / (1 + a * b) * (1 + a * b)) with (a * b) by (field; lra). lra.
Qed.
Lemma row_rank n (p : nat -> nat -> R) i j : (i < n)%nat -> (j < n)%nat -> i <> j -> (forall l, (l < n)%nat -> p j l <= p i l) -> 0 <= p i j -> p j i < 1 ->
  rsum n (fun l => if Nat.eqb j l then 0 else p j l) - rsum n (fun l => if Nat.eqb i l then 0 else p i l) < 1.
Proof.
  intros Hi Hj Hij H Z1 Z2. rewrite <- rsum_minus. eapply Rle_lt_trans; [|exact Z2]. rewrite <- (rsum_single n i (fun _ => p j i) Hi). apply rsum_le. intros l Hl.
  rewrite (Nat.eqb_sym l i). specialize (H l Hl). destruct (Nat.eqb_spec j l), (Nat.eqb_spec i l); subst; try congruence; lra.
Qed.
Lemma dir_rank_out n k x y e i j : none_negative n x -> none_negative n y ->
  (forall q, (q < n)%nat -> Rabs (mean_directed n (p_dbcm x y) (fun a => deg n a q) - k q) <= e) ->
  (i < n)%nat -> (j < n)%nat -> k i + 1 + 2 * e <= k j -> x i < x j.
Proof.
  intros Hx Hy HE Hi Hj H. destruct (Nat.eq_dec i j) as [<-|Hij]; [pose proof (Rabs_pos (mean_directed n (p_dbcm x y) (fun a => deg n a i) - k i)); specialize (HE i Hi); lra|].
  apply Rnot_le_lt. intros C. pose proof (dev_gap _ _ _ _ _ (HE i Hi) (HE j Hj)) as D. cbv beta in D. rewrite !mean_directed_deg in D by assumption.
  cut (rsum n (fun l => if Nat.eqb j l then 0 else p_dbcm x y j l) - rsum n (fun l => if Nat.eqb i l then 0 else p_dbcm x y i l) < 1); [lra|].
  apply row_rank; try assumption; unfold p_dbcm.
  - intros l Hl. pose proof (Hx j Hj). pose proof (Hy l Hl). apply frac_le; nra.
  - apply arc_lt_1; [apply Hx|apply Hy]; assumption.
  - apply arc_lt_1; [apply Hx|apply Hy]; assumption.
Qed.
Lemma dir_rank_in n k x y e i j : none_negative n x -> none_negative n y ->
  (forall q, (q < n)%nat -> Rabs (mean_directed n (p_dbcm x y) (fun a => indeg n a q) - k q) <= e) ->
  (i < n)%nat -> (j < n)%nat -> k i + 1 + 2 * e <= k j -> y i < y j.
Proof.
  intros Hx Hy HE Hi Hj H. destruct (Nat.eq_dec i j) as [<-|Hij]; [pose proof (Rabs_pos (mean_directed n (p_dbcm x y) (fun a => indeg n a i) - k i)); specialize (HE i Hi); lra|].
  apply Rnot_le_lt. intros C. pose proof (dev_gap _ _ _ _ _ (HE i Hi) (HE j Hj)) as D. cbv beta in D. rewrite !mean_directed_indeg in D by assumption.
  assert (S : forall q, rsum n (fun l => if Nat.eqb l q then 0 else p_dbcm x y l q) = rsum n (fun l => if Nat.eqb q l then 0 else p_dbcm y x q l)).
  { intros q. apply rsum_ext. intros l _. rewrite Nat.eqb_sym. destruct (Nat.eqb q l); [reflexivity|]. unfold p_dbcm. rewrite (Rmult_comm (x l)). reflexivity. }
  rewrite !S in D.
  cut (rsum n (fun l => if Nat.eqb j l then 0 else p_dbcm y x j l) - rsum n (fun l => if Nat.eqb i l then 0 else p_dbcm y x i l) < 1); [lra|].
  apply row_rank; try assumption; unfold p_dbcm.
  - intros l Hl. pose proof (Hy j Hj). pose proof (Hx l Hl). apply frac_le; nra.
  - apply arc_lt_1; [apply Hy|apply Hx]; assumption.
  - apply arc_lt_1; [apply Hy|apply Hx]; assumption.
Qed.
Lemma rows_flat n (p : nat -> nat -> R) q i : (i < n)%nat -> (forall l, (l < n)%nat -> l <> i -> p i l = q) -> rsum n (fun l => if Nat.eqb i l then 0 else p i l) = (INR n - 1) * q.
Proof.
  intros Hi H. rewrite (rsum_ext _ _ (fun l => q - (if Nat.eqb l i then q else 0))).
  - rewrite rsum_minus, rsum_const, (rsum_single n i (fun _ => q) Hi). ring.
  - intros l Hl. rewrite (Nat.eqb_sym l i). destruct (Nat.eqb_spec i l); [ring|]. rewrite H by (try assumption; congruence). ring.
Qed.
Lemma flat_close n q d e : (2 <= n)%nat -> Rabs ((INR n - 1) * q - d) <= e -> Rabs (q - d / (INR n - 1)) <= e / (INR n - 1).
Proof.
  intros Hn H. assert (P : 0 < INR n - 1) by (apply le_INR in Hn; cbn in Hn; lra).
  replace (q - d / (INR n - 1)) with (((INR n - 1) * q - d) * / (INR n - 1)) by (field; lra).
  rewrite Rabs_mult, (Rabs_pos_eq (/ _)) by (left; apply Rinv_0_lt_compat; exact P). apply Rmult_le_compat_r; [left; apply Rinv_0_lt_compat; exact P|exact H].
Qed.

(** * cm and cm_exp *)
Lemma INR_lt_gap a b : INR a < INR b -> INR a + 1 <= INR b.
Proof. intros H. apply INR_lt in H. rewrite <- S_INR. apply le_INR. lia. Qed.
Lemma u_rank g c o o' : (0 < un_n g)%nat -> us_beta o = None -> In (c_model c) ["cm"; "cm_exp"]%string -> u_solve_tool g c o = (o', None) ->
  exists x err, us_x o' = Some x /\ us_err o' = Some err /\ (c_model c = "cm_exp"%string -> forall i, 0 < x i) /\
    (forall i j, (i < un_n g)%nat -> (j < un_n g)%nat -> at_list (un_dseq g) i = at_list (un_dseq g) j -> x i = x j) /\
    (none_negative (un_n g) x ->
       (forall i j, (i < un_n g)%nat -> (j < un_n g)%nat -> at_list (un_dseq g) i + 2 * err < at_list (un_dseq g) j ->
          x i < x j /\ forall l, 0 < x l -> p_ubcm x i l < p_ubcm x j l) /\
       (err < / 2 -> same_ranking (un_n g) (at_list (un_dseq g)) x)).
Proof.
  intros Hn Hb Hm H. destruct (u_error_cm g c o o' Hn Hb Hm H) as (v & cls & x & e & _ & X & E & HC & HV & S).
  assert (EQ : forall i j, (i < un_n g)%nat -> (j < un_n g)%nat -> at_list (un_dseq g) i = at_list (un_dseq g) j -> x i = x j).
  { intros i j Hi Hj Q. apply INR_eq in Q. apply (HC i j Hi Hj) in Q. rewrite !HV, Q. reflexivity. }
  exists x, e. split; [exact X|split; [exact E|split; [|split; [exact EQ|]]]].
  - intros Hc i. rewrite HV, Hc. apply exp_pos.
  - intros Hx. assert (RK : forall i j, (i < un_n g)%nat -> (j < un_n g)%nat -> at_list (un_dseq g) i + 2 * e < at_list (un_dseq g) j -> x i < x j).
    { intros i j Hi Hj. apply (und_rank (un_n g) (at_list (un_dseq g)) x e i j Hx); try assumption. apply S. }
    split.
    + intros i j Hi Hj Q. specialize (RK i j Hi Hj Q). split; [exact RK|]. intros l Hl. apply link_rank; [apply Hx|exact RK|exact Hl]. exact Hi.
    + intros He. assert (ST : forall i j, (i < un_n g)%nat -> (j < un_n g)%nat -> at_list (un_dseq g) i < at_list (un_dseq g) j -> x i < x j).
      { intros i j Hi Hj Q. apply RK; try assumption. apply INR_lt_gap in Q. unfold at_list. lra. }
      intros i j Hi Hj. split; [apply ST; assumption|]. intros Q. apply Rnot_le_lt. intros [C|C]; [specialize (ST j i Hj Hi C); lra|specialize (EQ j i Hj Hi C); lra].
Qed.
Lemma u_regular g c o o' d : (2 <= un_n g)%nat -> us_beta o = None -> In (c_model c) ["cm"; "cm_exp"]%string -> u_solve_tool g c o = (o', None) ->
  (forall i, (i < un_n g)%nat -> at_list (un_dseq g) i = d) ->
  exists x err p, us_x o' = Some x /\ us_err o' = Some err /\ (forall i j, (i < un_n g)%nat -> (j < un_n g)%nat -> p_ubcm x i j = p) /\
    Rabs (p - d / (INR (un_n g) - 1)) <= err / (INR (un_n g) - 1).
Proof.
  intros Hn Hb Hm H Hd. destruct (u_error_cm g c o o' ltac:(lia) Hb Hm H) as (v & cls & x & e & _ & X & E & HC & HV & S).
  assert (EQ : forall i, (i < un_n g)%nat -> x i = x O).
  { intros i Hi. pose proof (Hd i Hi) as Q. rewrite <- (Hd O ltac:(lia)) in Q. apply INR_eq in Q. apply (HC i O Hi ltac:(lia)) in Q. rewrite !HV, Q. reflexivity. }
  exists x, e, (p_ubcm x O O). split; [exact X|split; [exact E|]].
  assert (PQ : forall i j, (i < un_n g)%nat -> (j < un_n g)%nat -> p_ubcm x i j = p_ubcm x O O) by (intros i j Hi Hj; unfold p_ubcm; rewrite (EQ i Hi), (EQ j Hj); reflexivity).
  split; [exact PQ|]. apply flat_close; [exact Hn|]. pose proof (proj1 S O ltac:(lia)) as D. rewrite (Hd O ltac:(lia)) in D. cbv beta in D.
  rewrite mean_undirected_deg in D by (try lia; intros; unfold p_ubcm; rewrite (Rmult_comm (x _)); reflexivity).
  rewrite (rows_flat (un_n g) (p_ubcm x) (p_ubcm x O O)) in D by (try lia; intros; apply PQ; lia). exact D.
Qed.
(** * dcm and dcm_exp *)
Lemma d_rank g c o o' : (0 < dn_n g)%nat -> d_paired g -> ds_bo o = None -> In (c_model c) ["dcm"; "dcm_exp"]%string -> d_solve_tool g c o = (o', None) ->
  exists x y err, ds_x o' = Some x /\ ds_y o' = Some y /\ ds_err o' = Some err /\ (c_model c = "dcm_exp"%string -> none_negative (dn_n g) x /\ none_negative (dn_n g) y) /\
    (forall i j, (i < dn_n g)%nat -> (j < dn_n g)%nat -> at_list (dn_out g) i = at_list (dn_out g) j -> at_list (dn_in g) i = at_list (dn_in g) j -> x i = x j /\ y i = y j) /\
    (none_negative (dn_n g) x -> none_negative (dn_n g) y -> forall i j, (i < dn_n g)%nat -> (j < dn_n g)%nat ->
       (at_list (dn_out g) i + 1 + 2 * err <= at_list (dn_out g) j -> x i < x j /\ forall l, 0 < y l -> p_dbcm x y i l < p_dbcm x y j l) /\
       (at_list (dn_in g) i + 1 + 2 * err <= at_list (dn_in g) j -> y i < y j /\ forall l, 0 < x l -> p_dbcm x y l i < p_dbcm x y l j)).
Proof.
  intros Hn HP Hb Hm H. destruct (d_error_dcm g c o o' Hn HP Hb Hm H) as (v & s & cls & m & x & y & e1 & e2 & _ & X & Y & E & HS & HC & HV & S1 & S2).
  exists x, y, (Rmax e1 e2). do 3 (split; [assumption|]). split; [|split].
  - intros Hc. split; intros i Hi; destruct (HV i Hi) as (_ & E1 & E2); [rewrite E1|rewrite E2]; rewrite HS, Hc; cbn [String.eqb Ascii.eqb Bool.eqb]; unfold exp_neg; (destruct (o_inf v _); [apply Rle_refl|left; apply exp_pos]).
  - intros i j Hi Hj Q1 Q2. apply INR_eq in Q1, Q2. pose proof (proj2 (HC i j Hi Hj) (conj Q1 Q2)) as Q. destruct (HV i Hi) as (_ & -> & ->), (HV j Hj) as (_ & -> & ->). rewrite Q. split; reflexivity.
  - intros Hx Hy i j Hi Hj. split; intros Q.
    + assert (R : x i < x j) by (apply (dir_rank_out (dn_n g) (at_list (dn_out g)) x y e1 i j Hx Hy (proj1 S1) Hi Hj); pose proof (Rmax_l e1 e2); lra).
      split; [exact R|]. intros l Hl. unfold p_dbcm. pose proof (Hx i Hi). apply frac_lt; nra.
    + assert (R : y i < y j) by (apply (dir_rank_in (dn_n g) (at_list (dn_in g)) x y e2 i j Hx Hy (proj1 S2) Hi Hj); pose proof (Rmax_r e1 e2); lra).
      split; [exact R|]. intros l Hl. unfold p_dbcm. pose proof (Hy i Hi). apply frac_lt; nra.
Qed.
Lemma d_regular g c o o' d : (2 <= dn_n g)%nat -> d_paired g -> ds_bo o = None -> In (c_model c) ["dcm"; "dcm_exp"]%string -> d_solve_tool g c o = (o', None) ->
  (forall i, (i < dn_n g)%nat -> at_list (dn_out g) i = d /\ at_list (dn_in g) i = d) ->
  exists x y err p, ds_x o' = Some x /\ ds_y o' = Some y /\ ds_err o' = Some err /\ (forall i j, (i < dn_n g)%nat -> (j < dn_n g)%nat -> p_dbcm x y i j = p) /\
    Rabs (p - d / (INR (dn_n g) - 1)) <= err / (INR (dn_n g) - 1).
Proof.
  intros Hn HP Hb Hm H Hd. destruct (d_error_dcm g c o o' ltac:(lia) HP Hb Hm H) as (v & s & cls & m & x & y & e1 & e2 & _ & X & Y & E & _ & HC & HV & S1 & S2).
  assert (EQ : forall i, (i < dn_n g)%nat -> x i = x O /\ y i = y O).
  { intros i Hi. destruct (Hd i Hi) as [Q1 Q2], (Hd O ltac:(lia)) as [Q3 Q4]. rewrite <- Q3 in Q1. rewrite <- Q4 in Q2. apply INR_eq in Q1, Q2.
    pose proof (proj2 (HC i O Hi ltac:(lia)) (conj Q1 Q2)) as Q. destruct (HV i Hi) as (_ & -> & ->), (HV O ltac:(lia)) as (_ & -> & ->). rewrite Q. split; reflexivity. }
  exists x, y, (Rmax e1 e2), (p_dbcm x y O O). do 3 (split; [assumption|]).
  assert (PQ : forall i j, (i < dn_n g)%nat -> (j < dn_n g)%nat -> p_dbcm x y i j = p_dbcm x y O O) by (intros i j Hi Hj; unfold p_dbcm; rewrite (proj1 (EQ i Hi)), (proj2 (EQ j Hj)); reflexivity).
  split; [exact PQ|]. apply flat_close; [exact Hn|]. eapply Rle_trans; [|apply Rmax_l]. pose proof (proj1 S1 O ltac:(lia)) as D. rewrite (proj1 (Hd O ltac:(lia))) in D. cbv beta in D.
  rewrite mean_directed_deg in D by lia. rewrite (rows_flat (dn_n g) (p_dbcm x y) (p_dbcm x y O O)) in D by (try lia; intros; apply PQ; lia). exact D.
Qed.
(** * CReMa with a given matrix *)
Lemma div_rank a u v : 0 <= a -> (a <> 0 -> 0 < u) -> u <= v -> a / v <= a / u.
Proof.
  intros Ha Hu H. destruct (Req_dec a 0) as [->|Z]; [unfold Rdiv; rewrite !Rmult_0_l; lra|]. apply Rmult_le_compat_l; [exact Ha|]. apply Rinv_le_contravar; [apply Hu; exact Z|exact H].
Qed.
Lemma crema_diff n a b i j : (i < n)%nat -> (j < n)%nat -> i <> j ->
  crema_mean n a b i - crema_mean n a b j =
  rsum n (fun l => if Nat.eqb i l then 0 else if Nat.eqb j l then 0 else a (Nat.min i l) (Nat.max i l) / (b i + b l) - a (Nat.min j l) (Nat.max j l) / (b j + b l)).
Proof.
  intros Hi Hj Hij. unfold crema_mean.
  assert (E : forall u w, (u < n)%nat -> (w < n)%nat -> u <> w ->
    rsum n (fun l => if Nat.eqb u l then 0 else a (Nat.min u l) (Nat.max u l) / (b u + b l)) =
    a (Nat.min u w) (Nat.max u w) / (b u + b w) + rsum n (fun l => if Nat.eqb u l then 0 else if Nat.eqb w l then 0 else a (Nat.min u l) (Nat.max u l) / (b u + b l))).
  { intros u w Hu Hw Huw. rewrite <- (rsum_single n w (fun l => a (Nat.min u l) (Nat.max u l) / (b u + b l)) Hw), <- rsum_plus.
    apply rsum_ext. intros l _. rewrite (Nat.eqb_sym l w). destruct (Nat.eqb_spec u l), (Nat.eqb_spec w l); subst; try congruence; ring. }
  rewrite (E i j Hi Hj Hij), (E j i Hj Hi (not_eq_sym Hij)), (Nat.min_comm j i), (Nat.max_comm j i), (Rplus_comm (b j) (b i)).
  match goal with |- ?P + ?A - (?P + ?B) = _ => transitivity (A - B); [ring|] end. rewrite <- rsum_minus. apply rsum_ext. intros l _. destruct (Nat.eqb i l), (Nat.eqb j l); ring.
Qed.
Lemma crema_rank n a b s e i j : (forall u w, a u w = a w u) -> (forall u w, (u < n)%nat -> (w < n)%nat -> 0 <= a u w) -> positive_rates n a b -> same_links n a i j ->
  (forall q, (q < n)%nat -> Rabs (crema_mean n a b q - s q) <= e) -> (i < n)%nat -> (j < n)%nat -> s i + 2 * e < s j -> b j < b i.
Proof.
  intros Hs Ha HR HL HE Hi Hj H. destruct (Nat.eq_dec i j) as [<-|Hij]; [pose proof (Rabs_pos (crema_mean n a b i - s i)); specialize (HE i Hi); lra|].
  apply Rnot_le_lt. intros C. pose proof (dev_gap _ _ _ _ _ (HE i Hi) (HE j Hj)) as D. cbv beta in D.
  cut (0 <= crema_mean n a b i - crema_mean n a b j); [lra|]. rewrite crema_diff by assumption. apply rsum_nonneg. intros l Hl.
  destruct (Nat.eqb_spec i l); [lra|]. destruct (Nat.eqb_spec j l); [lra|].
  assert (M : forall u, a (Nat.min u l) (Nat.max u l) = a u l) by (intros u; destruct (Nat.le_ge_cases u l); [rewrite Nat.min_l, Nat.max_r by assumption; reflexivity|rewrite Nat.min_r, Nat.max_l by assumption; apply Hs]).
  rewrite !M, <- (HL l Hl) by congruence. cut (a i l / (b j + b l) <= a i l / (b i + b l)); [lra|]. apply div_rank; [apply Ha; assumption| |lra].
  intros Z. destruct (Nat.lt_ge_cases i l) as [Q|Q]; [apply (HR i l); [lia|exact Z]|]. rewrite Rplus_comm. apply (HR l i); [lia|]. rewrite Hs. exact Z.
Qed.
Lemma u_rank_crema g c o o' a : (0 < un_n g)%nat -> In (c_model c) ["crema"; "crema-sparse"]%string -> c_adjacency c = AdjMatrix a -> hollow a ->
  (forall u w, a u w = a w u) -> (forall u w, (u < un_n g)%nat -> (w < un_n g)%nat -> 0 <= a u w) ->
  u_solve_tool g c o = (o', None) -> (forall b, us_beta o' = Some b -> positive_rates (un_n g) a b) ->
  exists b err, us_beta o' = Some b /\ us_err o' = Some err /\
    forall i j, (i < un_n g)%nat -> (j < un_n g)%nat -> same_links (un_n g) a i j -> un_str g i + 2 * err < un_str g j -> b j < b i.
Proof.
  intros Hn Hm Hc Hh Hs Ha H HR. destruct (u_error_crema_matrix g c o o' a Hn Hm Hc Hh H HR) as (v & e & _ & B & E & S).
  exists (o_x v), e. split; [exact B|split; [exact E|]]. intros i j Hi Hj HL Q. apply (crema_rank (un_n g) a (o_x v) (un_str g) e i j); try assumption; [apply HR; exact B|apply S].
Qed.

(** * Every network *)
Lemma ranked_cm (L : Type) e (g : @ugraph L) nm tol n a ds : (0 < n)%nat -> INR n <= 10 ^ 22 -> u_dseq g = Some (row_degrees n a) ->
  symmetric n a -> (forall i, (i < n)%nat -> a i i = 0) -> distinct (row_degrees n a) ds -> sound_numpy (List.length ds) e -> In nm binary_names -> 0 < tol < / 2 ->
  eventually (fun M eps => forall t, exp_call "cm_exp" nm e tol M eps t -> exists o' x,
    returned (u_new_tool e g t) o' /\ us_x o' = Some x /\ same_ranking n (deg n (links a)) x).
Proof.
  intros Hn Hb ED Hs Hd HD HN Hnm [Ht Ht']. destruct (object_cm_exp_data L e g nm tol n a ds Hn Hb ED Hs Hd HD HN Hnm Ht) as (M & e0 & He0 & H).
  exists M, e0. split; [exact He0|]. intros M' eps HM He t HT. destruct (H M' eps HM He t HT) as (o' & R & x & err & X & E & HP & HE & _).
  destruct (returned_net L e g t o' n a (proj1 HT) ED R) as (net & EN & EK & RT).
  assert (CM : c_model (ModelTool.u_call e net t (u_fresh (u_is_sparse g))) = "cm_exp"%string) by exact (proj1 HT).
  destruct (u_rank net _ (u_fresh (u_is_sparse g)) o' ltac:(rewrite EN; exact Hn) eq_refl ltac:(rewrite CM; cbn; tauto) RT) as (x' & err' & X' & E' & _ & _ & K).
  rewrite X in X'. injection X' as <-. rewrite E in E'. injection E' as <-. exists o', x. split; [exact R|split; [exact X|]].
  rewrite EN in K. destruct K as [_ K]; [intros i Hi; left; apply HP, Hi|]. specialize (K ltac:(lra)).
  intros i j Hi Hj. rewrite <- !EK by assumption. apply K; assumption.
Qed.
