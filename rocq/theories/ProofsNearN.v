(** Directed CReMa on the link probabilities of a binary model: what the reported error says
    about the likelihood. *)
From Coq Require Import Reals List Arith Lia Lra String.
From Coquelicot Require Import Coquelicot.
From Verif Require Import Base SpecGraph SpecCReMa SpecEnsemble SpecSolve SpecNear ModelSolve ProofsSolveU ProofsSolveD ProofsNear ProofsNearC ProofsNearTool.
Import ListNotations.
Local Open Scope R_scope.

Lemma supported_nonneg n k x : supported n k x -> forall i, (i < n)%nat -> 0 <= x i.
Proof. intros H i Hi. destruct (H i Hi) as [A B]. destruct (Req_dec (k i) 0) as [Z|Z]; [rewrite (B Z); lra|left; apply A; exact Z]. Qed.
Lemma call_near_crema_dir_name g c o o' a : (0 < dn_n g)%nat -> d_paired g -> In (c_model c) ["crema"; "crema-sparse"]%string ->
  c_adjacency c = AdjName a -> In a ["dcm"; "dcm_exp"]%string -> d_solve_tool g c o = (o', None) ->
  (forall x y bo bi, ds_x o' = Some x -> ds_y o' = Some y -> ds_bo o' = Some bo -> ds_bi o' = Some bi ->
     supported (dn_n g) (at_list (dn_out g)) x /\ supported (dn_n g) (at_list (dn_in g)) y /\ positive_rates_dir (dn_n g) (dcm_prob x y) bo bi) ->
  exists x y bo bi err, ds_x o' = Some x /\ ds_y o' = Some y /\ ds_bo o' = Some bo /\ ds_bi o' = Some bi /\ ds_err o' = Some err /\
    forall co ci, positive_rates_dir (dn_n g) (dcm_prob x y) co ci ->
      crema_loglik_dir (dn_n g) (dcm_prob x y) (dn_sout g) (dn_sin g) co ci <=
      crema_loglik_dir (dn_n g) (dcm_prob x y) (dn_sout g) (dn_sin g) bo bi + err * (one_norm (dn_n g) bo co + one_norm (dn_n g) bi ci).
Proof.
  intros Hn Hg Hm Ha Hna H HP.
  destruct (d_error_crema_name g c o o' a Hn Hg Hm Ha Hna H HP) as (va & v & s & cls & m & x & y & bo & bi & e1 & e2 & e3 & e4 & _ & _ & X & Y & BO & BI & E & _ & _ & _ & _ & _ & _ & S3 & S4).
  destruct (HP _ _ _ _ X Y BO BI) as (PX & PY & HR). exists x, y, bo, bi, (Rmax (Rmax e3 e4) (Rmax e1 e2)). do 5 (split; [assumption|]). intros co ci Hc.
  eapply Rle_trans; [apply (near_crema_dir _ (dcm_prob x y) (dn_sout g) (dn_sin g) bo bi co ci e3 e4); [|exact HR|exact Hc|apply S3|apply S4]|].
  - intros i j Hi Hj. unfold dcm_prob. destruct (Nat.eqb i j); [lra|]. pose proof (supported_nonneg _ _ _ PX i Hi). pose proof (supported_nonneg _ _ _ PY j Hj).
    assert (0 <= x i * y j) by (apply Rmult_le_pos; assumption). apply Rdiv_le_0_compat; lra.
  - pose proof (Rmax_l (Rmax e3 e4) (Rmax e1 e2)). pose proof (Rmax_l e3 e4). pose proof (Rmax_r e3 e4).
    apply Rplus_le_compat_l. rewrite Rmult_plus_distr_l. apply Rplus_le_compat; apply Rmult_le_compat_r; try apply one_norm_nonneg; lra.
Qed.
