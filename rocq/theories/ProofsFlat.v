(** Ensembles in which all pairs are linked with the same probability. *)
From Coq Require Import Reals List Arith Bool ZArith Lia Lra String.
From Coquelicot Require Import Coquelicot.
From Verif Require Import Base ModelDECM SpecGraph SpecEnsemble SpecSolver SpecNetwork ProofsNetwork ModelNetwork ModelMotifs SpecMotifs ProofsDyads ProofsDyadMoments ProofsTriads ProofsTriadMoments SpecZscore
  SpecLife ModelLife ModelSolve ModelObject ModelZscore ProofsZscore ProofsReverse.
Import ListNotations.
Local Open Scope R_scope.

Lemma motif_with_links q : (2 <= q <= 5)%nat -> exists m, (1 <= m <= 13)%nat /\ ProofsTriadMoments.links (motif m) = q.
Proof.
  intros Hq. destruct (Nat.eq_dec q 2) as [->|]; [exists 1%nat; split; [lia|reflexivity]|]. destruct (Nat.eq_dec q 3) as [->|]; [exists 9%nat; split; [lia|reflexivity]|].
  destruct (Nat.eq_dec q 4) as [->|]; [exists 8%nat; split; [lia|reflexivity]|]. assert (q = 5)%nat as -> by lia. exists 12%nat; split; [lia|reflexivity].
Qed.
Lemma flat_std n q P m : (1 <= m <= 13)%nat -> ProofsTriadMoments.links (motif m) = q -> (1 <= q <= 5)%nat ->
  (forall i j, (i < n)%nat -> (j < n)%nat -> i <> j -> P i j = INR q / 6) -> triad_std n m P = 0.
Proof.
  intros Hm Hl Hq HP. unfold triad_std. rewrite <- sqrt_0. f_equal. unfold dsum. apply rsum_zero. intros u Hu. apply rsum_zero. intros v Hv.
  destruct (Nat.eqb_spec u v) as [E|E]; [reflexivity|]. replace (link_slope n (motif m) P u v) with 0; [ring|]. symmetry. apply rsum_zero. intros w Hw.
  destruct (Nat.eqb_spec w u) as [Wu|Wu]; [reflexivity|]. destruct (Nat.eqb_spec w v) as [Wv|Wv]; [reflexivity|]. cbn [orb]. rewrite !HP by (assumption || congruence).
  rewrite <- Hl. apply slope_flat. rewrite Hl. exact Hq.
Qed.
Lemma flat_raises (L : Type) (leb eqb : L -> L -> bool) n q a ob o x y : (0 < n)%nat -> (2 <= q <= 5)%nat -> nonneg_matrix n a -> @d_construct L leb eqb (ArrayAdj n a) NoEdges NoSeq NoSeq = inl ob ->
  ds_x o = Some x -> ds_y o = Some y -> (forall i j, (i < n)%nat -> (j < n)%nat -> i <> j -> p_dbcm x y i j = INR q / 6) -> d_zscore_3motifs ob "dcm" o = inl EArith.
Proof.
  intros Hn Hq Ha E Ex Ey HP. destruct (matrix_object L leb eqb n a Hn Ha) as (g0 & E0 & DA & DS & _). rewrite E in E0. injection E0 as <-.
  destruct (motif_with_links q Hq) as (m & Hm & Hl). unfold d_zscore_3motifs. cbn [String.eqb Ascii.eqb Bool.eqb]. rewrite Ex, Ey, DA, DS. unfold quotients.
  replace (forallb _ _) with false; [reflexivity|]. symmetry. apply not_true_is_false. intros F. rewrite forallb_forall in F.
  specialize (F (m, zscore_dcm_3motif KNdarray m n (concatenate n x y) a)). cbn [snd] in F. rewrite triad_score_model in F by exact Hm. unfold triad_score, zscore_of in F.
  rewrite (flat_std n q (p_dbcm x y) m Hm Hl ltac:(lia) HP) in F. unfold sdiv in F. destruct (Req_EM_T 0 0) as [_|N]; [|contradiction N; reflexivity].
  discriminate F. unfold zscore_3motifs. cbn [String.eqb Ascii.eqb Bool.eqb]. cbv zeta. apply in_map_iff. exists m. split; [|apply in_seq; lia].
  f_equal. rewrite triad_score_model by exact Hm. unfold triad_score, zscore_of. rewrite (flat_std n q (p_dbcm x y) m Hm Hl ltac:(lia) HP). unfold sdiv. destruct (Req_EM_T 0 0) as [_|N]; [reflexivity|contradiction N; reflexivity].
Qed.
