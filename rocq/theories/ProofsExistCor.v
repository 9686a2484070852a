(** Consequences of the existence theorems for networks. *)
From Coq Require Import Reals List Arith Lia Lra Bool.
From Verif Require Import Base SpecGraph SpecEnsemble SpecDirected SpecWeighted SpecCReMa SpecExist SpecReduce.
From Verif Require Import ModelCM ModelDCM ModelECM ModelDECM ModelCReMa.
From Verif Require Import ProofsEnsemble ProofsCM ProofsECM ProofsCReMa ProofsMainCReMa ProofsDirCReMa ProofsDirSparseCReMa ProofsReduce ProofsCompact ProofsExist ProofsExistW ProofsExistCReMa.
Local Open Scope R_scope.
Import ListNotations.

(** * Weights on the topology of a matrix *)
Lemma flat_map_ext_in {A B : Type} (f g : A -> list B) l : (forall a, In a l -> f a = g a) -> flat_map f l = flat_map g l.
Proof. induction l as [|a l IH]; intros H; [reflexivity|]. cbn. rewrite (H a (or_introl eq_refl)). f_equal. apply IH. intros b Hb. apply H. right. exact Hb. Qed.
Lemma map_flat_map {A B C : Type} (h : B -> C) (f : A -> list B) l : map h (flat_map f l) = flat_map (fun a => map h (f a)) l.
Proof. induction l as [|a l IH]; [reflexivity|]. cbn. rewrite map_app, IH. reflexivity. Qed.
Lemma row_edges_fst n keep p w i : (i < n)%nat -> (forall j, (j < n)%nat -> p i j = 0 <-> w i j = 0) ->
  map fst (row_edges n keep w i) = map fst (row_edges n keep p i).
Proof.
  intros Hi H. unfold row_edges. rewrite !map_flat_map. apply flat_map_ext_in. intros j Hj. apply in_seq in Hj.
  destruct (keep j); [|reflexivity]. specialize (H j ltac:(lia)).
  destruct (Req_EM_T (p i j) 0), (Req_EM_T (w i j) 0); try reflexivity; tauto.
Qed.
Lemma triu_reweighted n p w : (forall i j, (i < n)%nat -> (j < n)%nat -> (p i j = 0 <-> w i j = 0) /\ 0 <= w i j) ->
  reweighted (triu_edges n p) (triu_edges n w).
Proof.
  intros H. split.
  - unfold triu_edges. rewrite !map_flat_map. apply flat_map_ext_in. intros i Hi. apply in_seq in Hi.
    apply row_edges_fst; [lia|]. intros j Hj. apply H; lia.
  - intros i j v Hin. apply in_triu in Hin. destruct Hin as ([Hij Hj] & -> & N). destruct (H i j ltac:(lia) Hj) as [_ P]. lra.
Qed.
Lemma all_reweighted n p w : (forall i j, (i < n)%nat -> (j < n)%nat -> (p i j = 0 <-> w i j = 0) /\ 0 <= w i j) ->
  reweighted (all_edges n p) (all_edges n w).
Proof.
  intros H. split.
  - unfold all_edges. rewrite !map_flat_map. apply flat_map_ext_in. intros i Hi. apply in_seq in Hi.
    apply row_edges_fst; [lia|]. intros j Hj. apply H; lia.
  - intros i j v Hin. apply in_all in Hin. destruct Hin as (Hi & Hj & -> & N). destruct (H i j Hi Hj) as [_ P]. lra.
Qed.
Lemma triu_below n p : pairs_below n (triu_edges n p).
Proof. intros i j w Hin. apply in_triu in Hin. lia. Qed.
Lemma all_below n p : pairs_below n (all_edges n p).
Proof. intros i j w Hin. apply in_all in Hin. tauto. Qed.

Lemma triu_weight n w k : (k < n)%nat -> (forall i j, (i < n)%nat -> (j < n)%nat -> w i j = w j i) -> (forall i, (i < n)%nat -> w i i = 0) ->
  out_weight (triu_edges n w) k + in_weight (triu_edges n w) k = rsum n (w k).
Proof.
  intros Hk Hs H0. rewrite out_weight_esum, in_weight_esum.
  rewrite (esum_triu n w (fun a b v => if Nat.eqb a k then v * 1 else 0)) by (intros a b; destruct (Nat.eqb a k); ring).
  rewrite (esum_triu n w (fun a b v => if Nat.eqb b k then v * 1 else 0)) by (intros a b; destruct (Nat.eqb b k); ring).
  rewrite (rsum_ext n (fun i => rsum n (fun j => if Nat.leb i j then if Nat.eqb i k then w i j * 1 else 0 else 0))
    (fun i => if Nat.eqb i k then rsum n (fun j => if Nat.leb i j then w i j else 0) else 0)).
  2: { intros i _. destruct (Nat.eqb i k); [apply rsum_ext|apply rsum_zero]; intros j _; destruct (Nat.leb i j); ring. }
  rewrite (rsum_single n k (fun i => rsum n (fun j => if Nat.leb i j then w i j else 0)) Hk), <- rsum_plus.
  apply rsum_ext. intros j Hj.
  rewrite (rsum_ext n _ (fun b => if Nat.eqb b k then (if Nat.leb j b then w j b else 0) else 0))
    by (intros b _; destruct (Nat.eqb b k), (Nat.leb j b); ring).
  rewrite (rsum_single n k (fun b => if Nat.leb j b then w j b else 0) Hk).
  destruct (Nat.leb_spec k j), (Nat.leb_spec j k); try lia; try (rewrite (Hs j k) by assumption; ring); try ring.
  replace j with k by lia. rewrite H0 by exact Hk. ring.
Qed.
Lemma all_weight n w k : (k < n)%nat -> out_weight (all_edges n w) k = rsum n (w k) /\ in_weight (all_edges n w) k = rsum n (fun i => w i k).
Proof.
  intros Hk. rewrite out_weight_esum, in_weight_esum.
  rewrite (esum_all n w (fun a b v => if Nat.eqb a k then v * 1 else 0)) by (intros a b; destruct (Nat.eqb a k); ring).
  rewrite (esum_all n w (fun a b v => if Nat.eqb b k then v * 1 else 0)) by (intros a b; destruct (Nat.eqb b k); ring).
  split.
  - rewrite (rsum_ext n _ (fun i => if Nat.eqb i k then rsum n (w i) else 0)).
    2: { intros i _. destruct (Nat.eqb i k); [apply rsum_ext|apply rsum_zero]; intros; ring. }
    exact (rsum_single n k (fun i => rsum n (w i)) Hk).
  - apply rsum_ext. intros i _. rewrite <- (rsum_single n k (w i) Hk). apply rsum_ext. intros j _. destruct (Nat.eqb j k); ring.
Qed.

(** * The topology of the network itself *)
Lemma crema_given_exists n p W :
  (forall i j, (i < n)%nat -> (j < n)%nat -> W i j = W j i) -> (forall i, (i < n)%nat -> W i i = 0) ->
  (forall i j, (i < n)%nat -> (j < n)%nat -> 0 <= p i j /\ 0 <= W i j /\ (p i j = 0 <-> W i j = 0)) ->
  exists beta, crema_dom (triu_edges n p) beta /\
    exists E, expected_strength_crema_undirected (triu_edges n p) beta = Some E /\ forall k, (k < n)%nat -> E k = rsum n (W k).
Proof.
  intros Hs H0 H. apply (solution_crema_exists n (fun k => rsum n (W k)) (triu_edges n p) (triu_edges n W)).
  - apply triu_below.
  - intros i j w Hin. apply in_triu in Hin. destruct Hin as ([Hij Hj] & -> & N). destruct (H i j ltac:(lia) Hj) as [P _]. lra.
  - apply triu_reweighted. intros i j Hi Hj. destruct (H i j Hi Hj) as (_ & P & Q). auto.
  - intros k Hk. apply triu_weight; assumption.
Qed.
Lemma crema_dir_given_exists n p W :
  (forall i j, (i < n)%nat -> (j < n)%nat -> 0 <= p i j /\ 0 <= W i j /\ (p i j = 0 <-> W i j = 0)) ->
  exists beta, crema_dir_dom n (all_edges n p) beta /\
    exists EO EI, expected_out_strength_crema_directed n (all_edges n p) beta = Some EO /\
      expected_in_strength_crema_directed n (all_edges n p) beta = Some EI /\
      forall k, (k < n)%nat -> EO k = rsum n (W k) /\ EI k = rsum n (fun i => W i k).
Proof.
  intros H. apply (solution_crema_dir_exists n _ _ (all_edges n p) (all_edges n W)).
  - apply all_below.
  - intros i j w Hin. apply in_all in Hin. destruct Hin as (Hi & Hj & -> & N). destruct (H i j Hi Hj) as [P _]. lra.
  - apply all_reweighted. intros i j Hi Hj. destruct (H i j Hi Hj) as (_ & P & Q). auto.
  - intros k Hk. apply all_weight; assumption.
Qed.

(** * The topology of the binary model *)
Lemma ind_nonneg b : 0 <= ind b.
Proof. unfold ind. destruct b; lra. Qed.
Lemma deg_row n a i : loopless n a -> (i < n)%nat -> deg n a i = row n (fun i j => ind (a i j)) i.
Proof.
  intros HL Hi. unfold deg, row. apply rsum_ext. intros j Hj. destruct (Nat.eqb_spec i j) as [<-|]; [|reflexivity].
  rewrite HL by exact Hi. reflexivity.
Qed.
Lemma indeg_col n a i : loopless n a -> (i < n)%nat -> indeg n a i = col n (fun i j => ind (a i j)) i.
Proof.
  intros HL Hi. unfold indeg, col. apply rsum_ext. intros j Hj. destruct (Nat.eqb_spec i j) as [<-|]; [|reflexivity].
  rewrite HL by exact Hi. reflexivity.
Qed.
Lemma sum_row n W i : W i i = 0 -> rsum n (W i) = row n W i.
Proof. intros H. apply rsum_ext. intros j _. destruct (Nat.eqb_spec i j) as [<-|]; auto. Qed.
Lemma sum_col n W i : W i i = 0 -> rsum n (fun j => W j i) = col n W i.
Proof. intros H. apply rsum_ext. intros j _. destruct (Nat.eqb_spec i j) as [<-|]; auto. Qed.
Lemma row_lin n f g h c i : (forall j, (j < n)%nat -> i <> j -> h i j = f i j + c * g i j) -> row n h i = row n f i + c * row n g i.
Proof.
  intros H. unfold row. rewrite <- rsum_scal_l, <- rsum_plus. apply rsum_ext. intros j Hj.
  destruct (Nat.eqb_spec i j); [ring|apply H; assumption].
Qed.
Lemma col_lin n f g h c i : (forall j, (j < n)%nat -> i <> j -> h j i = f j i + c * g j i) -> col n h i = col n f i + c * col n g i.
Proof.
  intros H. unfold col. rewrite <- rsum_scal_l, <- rsum_plus. apply rsum_ext. intros j Hj.
  destruct (Nat.eqb_spec i j); [ring|apply H; assumption].
Qed.
Lemma row_minus n f g i : row n (fun i j => f i j - g i j) i = row n f i - row n g i.
Proof. unfold row. rewrite <- rsum_minus. apply rsum_ext. intros j _. destruct (Nat.eqb i j); ring. Qed.
Lemma col_minus n f g i : col n (fun i j => f i j - g i j) i = col n f i - col n g i.
Proof. unfold col. rewrite <- rsum_minus. apply rsum_ext. intros j _. destruct (Nat.eqb i j); ring. Qed.

(** Weights moved onto all possible links. *)
Lemma spread n a W p : loopless n a -> weights_on n a W -> inner_dir n (deg n a) (indeg n a) p ->
  exists eps, 0 < eps /\ let V := fun i j => if Nat.eqb i j then 0 else W i j + eps * (p i j - ind (a i j)) in
    (forall i j, (i < n)%nat -> (j < n)%nat -> i <> j -> 0 <= V i j /\ (p i j = 0 <-> V i j = 0)) /\
    forall i, (i < n)%nat -> rsum n (V i) = rsum n (W i) /\ rsum n (fun j => V j i) = rsum n (fun j => W j i).
Proof.
  intros HL HW (Hin & Hz & Hs).
  destruct (pos_bound n (fun i j => a i j = true) W) as (mu & Hmu & Hm).
  { intros i j Hi Hj H. apply HW; assumption. }
  exists (mu / 2). split; [lra|]. cbv zeta. set (eps := mu / 2).
  assert (AP : forall i j, (i < n)%nat -> (j < n)%nat -> a i j = true -> deg n a i <> 0 /\ indeg n a j <> 0).
  { intros i j Hi Hj Ha. split; apply Rgt_not_eq; unfold deg, indeg.
    - apply (rsum_pos n (fun j => ind (a i j)) j); [intros; apply ind_nonneg|exact Hj|rewrite Ha; cbn; lra].
    - apply (rsum_pos n (fun i => ind (a i j)) i); [intros; apply ind_nonneg|exact Hi|rewrite Ha; cbn; lra]. }
  split.
  - intros i j Hi Hj Hij. rewrite (proj2 (Nat.eqb_neq i j) Hij). destruct (a i j) eqn:Ea; cbn [ind].
    + destruct (AP i j Hi Hj Ea) as [D1 D2]. pose proof (Hin i j Hi Hj Hij D1 D2) as P. pose proof (Hm i j Hi Hj Ea).
      assert (eps * (1 - p i j) < mu) by (unfold eps; nra). split; [nra|]. split; intros; nra.
    + rewrite (proj2 (HW i j Hi Hj) Ea).
      assert (P : 0 <= p i j).
      { destruct (Req_EM_T (deg n a i) 0) as [E|E]; [rewrite (Hz i j Hi Hj Hij (or_introl E)); lra|].
        destruct (Req_EM_T (indeg n a j) 0) as [E1|E1]; [rewrite (Hz i j Hi Hj Hij (or_intror E1)); lra|].
        destruct (Hin i j Hi Hj Hij E E1). lra. }
      assert (0 < eps) by (unfold eps; lra). split; [nra|]. split; intros E; [rewrite E; ring|].
      apply Rmult_eq_reg_l with eps; lra.
  - intros i Hi. destruct (Hs i Hi) as [S1 S2].
    assert (W0 : W i i = 0) by (apply HW; auto).
    rewrite (sum_row n W i W0), (sum_col n W i W0).
    rewrite (sum_row n (fun i j => if Nat.eqb i j then 0 else W i j + eps * (p i j - ind (a i j))) i) by (rewrite Nat.eqb_refl; reflexivity).
    rewrite (sum_col n (fun i j => if Nat.eqb i j then 0 else W i j + eps * (p i j - ind (a i j))) i) by (rewrite Nat.eqb_refl; reflexivity).
    rewrite (row_lin n W (fun i j => p i j - ind (a i j)) _ eps), (col_lin n W (fun i j => p i j - ind (a i j)) _ eps).
    + rewrite row_minus, col_minus, S1, S2, <- deg_row, <- indeg_col by assumption. split; ring.
    + intros j Hj Hij. rewrite (proj2 (Nat.eqb_neq j i)) by auto. reflexivity.
    + intros j Hj Hij. rewrite (proj2 (Nat.eqb_neq i j)) by auto. reflexivity.
Qed.

Lemma crema_after_dcm_exists n a W nzo nzi x : loopless n a -> weights_on n a W ->
  nonzero_list n (deg n a) nzo -> nonzero_list n (indeg n a) nzi -> dcm_full n nzo nzi x ->
  (forall i, (i < n)%nat -> expected_out_degree_dcm n x i = deg n a i /\ expected_in_degree_dcm n x i = indeg n a i) ->
  let es := all_edges n (pmatrix_dcm n nzo nzi x) in
  exists beta, crema_dir_dom n es beta /\
    exists EO EI, expected_out_strength_crema_directed n es beta = Some EO /\
      expected_in_strength_crema_directed n es beta = Some EI /\
      forall k, (k < n)%nat -> EO k = rsum n (W k) /\ EI k = rsum n (fun i => W i k).
Proof.
  intros HL HW Ho Hi HF HS es.
  pose proof (solution_dcm_inner n (deg n a) (indeg n a) nzo nzi x Ho Hi HF HS) as HI.
  destruct (spread n a W _ HL HW HI) as (eps & He & HV & HR). cbv zeta in HV, HR.
  set (p := p_dbcm x (fun j => x (j + n)%nat)) in *.
  set (V := fun i j => if Nat.eqb i j then 0 else W i j + eps * (p i j - ind (a i j))) in *.
  assert (PE : forall i j, (i < n)%nat -> (j < n)%nat -> pmatrix_dcm n nzo nzi x i j = if Nat.eqb i j then 0 else p i j).
  { intros i j Hi' Hj. rewrite pmatrix_dcm_prob by assumption. reflexivity. }
  destruct (crema_dir_given_exists n (pmatrix_dcm n nzo nzi x) V) as (beta & HD & EO & EI & H1 & H2 & H3).
  - intros i j Hi' Hj. rewrite PE by assumption. destruct (Nat.eqb_spec i j) as [<-|Hne].
    + unfold V. rewrite Nat.eqb_refl. split; [lra|]. split; [lra|tauto].
    + destruct (HV i j Hi' Hj Hne) as [P Q]. split; [|split; assumption].
      destruct HI as (Hin & Hz & _).
      destruct (Req_EM_T (deg n a i) 0) as [E|E]; [rewrite (Hz i j Hi' Hj Hne (or_introl E)); lra|].
      destruct (Req_EM_T (indeg n a j) 0) as [E1|E1]; [rewrite (Hz i j Hi' Hj Hne (or_intror E1)); lra|].
      destruct (Hin i j Hi' Hj Hne E E1). lra.
  - exists beta. split; [exact HD|]. exists EO, EI. split; [exact H1|]. split; [exact H2|].
    intros k Hk. destruct (H3 k Hk) as [-> ->]. apply HR. exact Hk.
Qed.

Lemma indeg_deg n a i : simple_graph n a -> (i < n)%nat -> indeg n a i = deg n a i.
Proof. intros [Hs _] Hi. unfold indeg, deg. apply rsum_ext. intros j Hj. rewrite Hs by assumption. reflexivity. Qed.
Lemma inner_und_graph n a p : simple_graph n a -> inner_und n (deg n a) p -> inner_dir n (deg n a) (indeg n a) p.
Proof.
  intros HG ((Hin & Hz & Hs) & _). split; [|split].
  - intros i j Hi Hj. rewrite indeg_deg by assumption. apply Hin; assumption.
  - intros i j Hi Hj. rewrite indeg_deg by assumption. apply Hz; assumption.
  - intros i Hi. rewrite indeg_deg by assumption. apply Hs; assumption.
Qed.

Lemma crema_after_cm_exists n a W x : simple_graph n a -> weights_on n a W ->
  (forall i j, (i < n)%nat -> (j < n)%nat -> W i j = W j i) ->
  cm_full n (deg n a) x -> (forall i, (i < n)%nat -> expected_degree_cm n x i = deg n a i) ->
  let es := triu_edges n (pmatrix_cm x) in
  exists beta, crema_dom es beta /\
    exists E, expected_strength_crema_undirected es beta = Some E /\ forall k, (k < n)%nat -> E k = rsum n (W k).
Proof.
  intros HG HW HWs HF HS es.
  pose proof (solution_cm_inner n (deg n a) x HF HS) as HI.
  destruct (spread n a W _ (proj2 HG) HW (inner_und_graph n a _ HG HI)) as (eps & He & HV & HR). cbv zeta in HV, HR.
  set (V := fun i j => if Nat.eqb i j then 0 else W i j + eps * (p_ubcm x i j - ind (a i j))) in *.
  destruct HI as ((Hin & Hz & _) & Hp).
  destruct (crema_given_exists n (pmatrix_cm x) V) as (beta & HD & E & H1 & H2).
  - intros i j Hi Hj. unfold V. rewrite (Nat.eqb_sym j i), (HWs i j), (Hp i j), (proj1 HG i j) by assumption. reflexivity.
  - intros i Hi. unfold V. rewrite Nat.eqb_refl. reflexivity.
  - intros i j Hi Hj. rewrite pmatrix_cm_eq. destruct (Nat.eqb_spec i j) as [<-|Hne].
    + unfold V. rewrite Nat.eqb_refl. split; [lra|]. split; [lra|tauto].
    + destruct (HV i j Hi Hj Hne) as [P Q]. split; [|split; assumption].
      destruct (Req_EM_T (deg n a i) 0) as [E|E]; [rewrite (Hz i j Hi Hj Hne (or_introl E)); lra|].
      destruct (Req_EM_T (deg n a j) 0) as [E1|E1]; [rewrite (Hz i j Hi Hj Hne (or_intror E1)); lra|].
      destruct (Hin i j Hi Hj Hne E E1). lra.
  - exists beta. split; [exact HD|]. exists E. split; [exact H1|]. intros k Hk. rewrite (H2 k Hk). apply HR. exact Hk.
Qed.

(** * Weights above one *)
Lemma enhanced_point n a W p : loopless n a -> weights_on n a W -> inner_dir n (deg n a) (indeg n a) p ->
  (forall i j, (i < n)%nat -> (j < n)%nat -> a i j = true -> 1 < W i j) ->
  exists eps, 0 < eps < 1 /\
    let P := fun i j => ind (a i j) + eps * (p i j - ind (a i j)) in
    let V := fun i j => W i j + (2 * eps) * (p i j - ind (a i j)) in
    (forall i j, (i < n)%nat -> (j < n)%nat -> i <> j -> deg n a i <> 0 -> indeg n a j <> 0 -> 0 < P i j < 1 /\ P i j < V i j) /\
    (forall i j, (i < n)%nat -> (j < n)%nat -> i <> j -> deg n a i = 0 \/ indeg n a j = 0 -> P i j = 0 /\ V i j = 0) /\
    (forall i, (i < n)%nat -> row n P i = deg n a i /\ col n P i = indeg n a i /\ row n V i = rsum n (W i) /\ col n V i = rsum n (fun j => W j i)).
Proof.
  intros HL HW (Hin & Hz & Hs) H1.
  destruct (pos_bound n (fun i j => a i j = true) (fun i j => W i j - 1)) as (mu & Hmu & Hm).
  { intros i j Hi Hj H. pose proof (H1 i j Hi Hj H). lra. }
  exists (Rmin mu (/ 2)). set (eps := Rmin mu (/ 2)).
  assert (He : 0 < eps) by (unfold eps; apply Rmin_pos; lra).
  assert (He1 : eps <= / 2) by apply Rmin_r. assert (He2 : eps <= mu) by apply Rmin_l.
  split; [lra|]. cbv zeta.
  assert (AZ : forall i j, (i < n)%nat -> (j < n)%nat -> deg n a i = 0 \/ indeg n a j = 0 -> a i j = false).
  { intros i j Hi Hj H. destruct (a i j) eqn:Ea; [exfalso|reflexivity]. destruct H as [H|H]; revert H; apply Rgt_not_eq; unfold deg, indeg.
    - apply (rsum_pos n (fun j => ind (a i j)) j); [intros; apply ind_nonneg|exact Hj|rewrite Ea; cbn; lra].
    - apply (rsum_pos n (fun i => ind (a i j)) i); [intros; apply ind_nonneg|exact Hi|rewrite Ea; cbn; lra]. }
  split; [|split].
  - intros i j Hi Hj Hij D1 D2. pose proof (Hin i j Hi Hj Hij D1 D2) as P. destruct (a i j) eqn:Ea; cbn [ind].
    + pose proof (Hm i j Hi Hj Ea). assert (0 < eps * (1 - p i j) < eps) by (split; nra). split; [split; lra|nra].
    + rewrite (proj2 (HW i j Hi Hj) Ea). assert (0 < eps * p i j < eps) by (split; nra). split; [split; lra|nra].
  - intros i j Hi Hj Hij D. pose proof (AZ i j Hi Hj D) as Ea. rewrite (Hz i j Hi Hj Hij D), Ea, (proj2 (HW i j Hi Hj) Ea). cbn. split; ring.
  - intros i Hi. destruct (Hs i Hi) as [S1 S2]. assert (W0 : W i i = 0) by (apply HW; auto).
    rewrite (sum_row n W i W0), (sum_col n W i W0).
    rewrite (row_lin n (fun i j => ind (a i j)) (fun i j => p i j - ind (a i j)) (fun i j => ind (a i j) + eps * (p i j - ind (a i j))) eps) by reflexivity.
    rewrite (row_lin n W (fun i j => p i j - ind (a i j)) (fun i j => W i j + 2 * eps * (p i j - ind (a i j))) (2 * eps)) by reflexivity.
    rewrite (col_lin n (fun i j => ind (a i j)) (fun i j => p i j - ind (a i j)) (fun i j => ind (a i j) + eps * (p i j - ind (a i j))) eps) by reflexivity.
    rewrite (col_lin n W (fun i j => p i j - ind (a i j)) (fun i j => W i j + 2 * eps * (p i j - ind (a i j))) (2 * eps)) by reflexivity.
    rewrite row_minus, col_minus, S1, S2, <- deg_row, <- indeg_col by assumption. repeat split; ring.
Qed.

Lemma weight_deg n a W i : (i < n)%nat -> weights_on n a W -> (rsum n (W i) = 0 <-> deg n a i = 0) /\ (rsum n (fun j => W j i) = 0 <-> indeg n a i = 0).
Proof.
  intros Hi HW.
  assert (NN : forall i j, (i < n)%nat -> (j < n)%nat -> 0 <= W i j).
  { intros u v Hu Hv. destruct (HW u v Hu Hv) as [H1 H2]. destruct (a u v); [specialize (H1 eq_refl); lra|rewrite H2 by reflexivity; lra]. }
  assert (NI : forall u v, 0 <= ind (a u v)) by (intros u v; unfold ind; destruct (a u v); lra).
  assert (Z : forall u v, (u < n)%nat -> (v < n)%nat -> W u v = 0 <-> ind (a u v) = 0).
  { intros u v Hu Hv. destruct (HW u v Hu Hv) as [H1 H2]. destruct (a u v); cbn; [specialize (H1 eq_refl); lra|rewrite H2 by reflexivity; tauto]. }
  unfold deg, indeg. split; split; intros E; apply rsum_zero; intros j Hj.
  - apply Z; auto. apply (rsum_nonneg_zero n (W i)); auto.
  - apply Z; auto. apply (rsum_nonneg_zero n (fun j => ind (a i j))); auto.
  - apply Z; auto. apply (rsum_nonneg_zero n (fun j => W j i)); auto.
  - apply Z; auto. apply (rsum_nonneg_zero n (fun j => ind (a j i))); auto.
Qed.

Lemma decm_heavy_exists n a W p : loopless n a -> weights_on n a W ->
  (forall i j, (i < n)%nat -> (j < n)%nat -> a i j = true -> 1 < W i j) ->
  inner_dir n (deg n a) (indeg n a) p ->
  let so := fun i => rsum n (W i) in let si := fun i => rsum n (fun j => W j i) in
  exists x, decm_dom n x /\ decm_supp n (deg n a) (indeg n a) so si x /\
    forall r, (r < 4 * n)%nat -> expected_decm n x r = decm_constraint n (deg n a) (indeg n a) so si r.
Proof.
  intros HL HW H1 HI so si. apply solvable_decm_iff.
  destruct (enhanced_point n a W p HL HW HI H1) as (eps & He & HA & HB & HC). cbv zeta in HA, HB, HC.
  exists (fun i j => ind (a i j) + eps * (p i j - ind (a i j))), (fun i j => W i j + 2 * eps * (p i j - ind (a i j))). split; [|split; [|exact HC]].
  - intros i j Hi Hj Hij (D1 & D2 & _). apply HA; assumption.
  - intros i j Hi Hj Hij D. apply HB; auto.
    destruct (weight_deg n a W i Hi HW) as [Q1 _]. destruct (weight_deg n a W j Hj HW) as [_ Q2].
    destruct (Req_EM_T (deg n a i) 0) as [E|E]; [auto|]. destruct (Req_EM_T (indeg n a j) 0) as [E'|E']; [auto|].
    exfalso. apply D. unfold so, si. tauto.
Qed.
Lemma ecm_heavy_exists n a W p : simple_graph n a -> weights_on n a W ->
  (forall i j, (i < n)%nat -> (j < n)%nat -> W i j = W j i) ->
  (forall i j, (i < n)%nat -> (j < n)%nat -> a i j = true -> 1 < W i j) ->
  (forall i, (i < n)%nat -> deg n a i <> 0) -> inner_und n (deg n a) p ->
  exists sol, ecm_dom n sol /\
    forall i, (i < n)%nat -> expected_ecm n sol i = deg n a i /\ expected_ecm n sol (i + n) = rsum n (W i).
Proof.
  intros HG HW HWs H1 HZ HI. apply solvable_ecm_iff.
  destruct (enhanced_point n a W p (proj2 HG) HW (inner_und_graph n a p HG HI) H1) as (eps & He & HA & _ & HC). cbv zeta in HA, HC.
  destruct HI as [_ Hp].
  exists (fun i j => ind (a i j) + eps * (p i j - ind (a i j))), (fun i j => W i j + 2 * eps * (p i j - ind (a i j))). split; [|split].
  - intros i j Hi Hj Hij. apply HA; try assumption; [apply HZ|rewrite indeg_deg by assumption; apply HZ]; assumption.
  - intros i j Hi Hj. rewrite (proj1 HG i j), (Hp i j), (HWs i j) by assumption. split; reflexivity.
  - intros i Hi. destruct (HC i Hi) as (R1 & _ & R2 & _). split; assumption.
Qed.

(** * No solution *)
Lemma row_below n k p i : (i < n)%nat -> 0 < k i ->
  (forall j, (j < n)%nat -> i <> j -> k j <> 0 -> p i j < 1) -> (forall j, (j < n)%nat -> i <> j -> k j = 0 -> p i j = 0) ->
  row n p i = k i -> k i < others n k i.
Proof.
  intros Hi K H1 H0 E. rewrite <- E. unfold row, others. apply Rminus_gt_0_lt. rewrite <- rsum_minus.
  assert (NN : forall j, (j < n)%nat -> 0 <= (if Nat.eqb i j then 0 else if Req_EM_T (k j) 0 then 0 else 1) - (if Nat.eqb i j then 0 else p i j)).
  { intros j Hj. destruct (Nat.eqb_spec i j); [lra|]. destruct (Req_EM_T (k j) 0); [rewrite H0 by assumption; lra|].
    pose proof (H1 j Hj n0 n1). lra. }
  destruct (Rle_lt_or_eq_dec _ _ (rsum_nonneg n _ NN)) as [L|Z]; [exact L|exfalso]. symmetry in Z.
  assert (P0 : row n p i = 0).
  { unfold row. apply rsum_zero. intros j Hj. pose proof (rsum_nonneg_zero n _ NN Z j Hj) as Q. cbv beta in Q.
    destruct (Nat.eqb_spec i j); [reflexivity|]. destruct (Req_EM_T (k j) 0); [apply H0; assumption|].
    pose proof (H1 j Hj n0 n1). lra. }
  lra.
Qed.
Lemma cm_degree_bound n k x : cm_full n k x -> (forall i, (i < n)%nat -> expected_degree_cm n x i = k i) ->
  forall i, (i < n)%nat -> k i <> 0 -> 0 < k i < others n k i.
Proof.
  intros HF HS i Hi K. destruct (solution_cm_inner n k x HF HS) as ((Hin & Hz & Hs) & _).
  destruct (Hs i Hi) as [R1 _].
  assert (K0 : 0 < k i).
  { destruct (Rle_lt_or_eq_dec 0 (k i)) as [L|E]; [|exact L|exfalso; apply K; symmetry; exact E].
    rewrite <- R1. unfold row. apply rsum_nonneg. intros j Hj. destruct (Nat.eqb_spec i j); [lra|].
    destruct (Req_EM_T (k j) 0) as [E|E]; [rewrite Hz by auto; lra|]. destruct (Hin i j Hi Hj n0 K E). lra. }
  split; [exact K0|]. apply (row_below n k (p_ubcm x) i Hi K0).
  - intros j Hj Hij E. apply Hin; assumption.
  - intros j Hj Hij E. apply Hz; auto.
  - exact R1.
Qed.
Lemma ecm_strength_bound n k s sol : (2 <= n)%nat -> ecm_dom n sol ->
  (forall i, (i < n)%nat -> expected_ecm n sol i = k i /\ expected_ecm n sol (i + n) = s i) ->
  forall i, (i < n)%nat -> 0 < k i < INR n - 1 /\ k i < s i.
Proof.
  intros Hn HD HS i Hi. 
  destruct (proj1 (solvable_ecm_iff n k s) (ex_intro _ sol (conj HD HS))) as (p & w & Hin & _ & Hs).
  destruct (Hs i Hi) as [R1 R2]. split; [split|].
  - rewrite <- R1. apply row_pos; auto. intros j Hj Hij. destruct (Hin i j Hi Hj Hij). lra.
  - apply Rminus_gt_0_lt. replace (INR n - 1) with (row n (fun _ _ => 1) i).
    + rewrite <- R1, <- (row_minus n (fun _ _ => 1) p i). apply (row_pos n (fun i j => 1 - p i j)); auto.
      intros j Hj Hij. destruct (Hin i j Hi Hj Hij). lra.
    + unfold row. rewrite (rsum_ext n _ (fun j => 1 - (if Nat.eqb j i then 1 else 0)))
        by (intros j _; rewrite (Nat.eqb_sym j i); destruct (Nat.eqb i j); ring).
      rewrite rsum_minus, (rsum_single n i (fun _ => 1) Hi). f_equal.
      clear. induction n as [|n IH]; [reflexivity|]. rewrite S_INR. cbn [rsum]. rewrite IH. reflexivity.
  - apply Rminus_gt_0_lt. rewrite <- R1, <- R2, <- (row_minus n w p i). apply (row_pos n (fun i j => w i j - p i j)); auto.
    intros j Hj Hij. destruct (Hin i j Hi Hj Hij). lra.
Qed.

(** * A sample of networks with the same degrees *)
Lemma sample_inner n k (gs : list (nat -> nat -> bool)) : gs <> [] ->
  (forall g, In g gs -> simple_graph n g /\ forall i, (i < n)%nat -> deg n g i = k i) ->
  (forall i j, (i < n)%nat -> (j < n)%nat -> i <> j -> k i <> 0 -> k j <> 0 ->
     (exists g, In g gs /\ g i j = true) /\ exists g, In g gs /\ g i j = false) ->
  inner_und n k (fun i j => lsum gs (fun g => ind (g i j)) / INR (length gs)).
Proof.
  intros Hne HG HX. set (L := INR (length gs)).
  assert (HL : 0 < L). { unfold L. apply lt_0_INR. destruct gs; [congruence|cbn; lia]. }
  assert (L1 : lsum gs (fun _ => 1) = L).
  { unfold L. clear. induction gs as [|g gs IH]; [reflexivity|]. cbn [lsum length]. rewrite IH, S_INR. ring. }
  assert (NN : forall (i j : nat) (g : nat -> nat -> bool), 0 <= ind (g i j)) by (intros i j g; unfold ind; destruct (g i j); lra).
  assert (PO : forall f : (nat -> nat -> bool) -> R, (forall g, 0 <= f g) -> (exists g, In g gs /\ 0 < f g) -> 0 < lsum gs f).
  { intros f Hf (g & Hin & Hg). clear - Hf Hin Hg. induction gs as [|h gs IH]; [destruct Hin|].
    assert (0 <= lsum gs f). { clear - Hf. induction gs as [|h gs IH]; cbn; [lra|]. pose proof (Hf h). lra. }
    cbn. destruct Hin as [->|Hin]; [lra|]. pose proof (Hf h). specialize (IH Hin). lra. }
  assert (RS : forall i, (i < n)%nat -> rsum n (fun j => lsum gs (fun g => ind (g i j)) / L) = k i).
  { intros i Hi. transitivity (/ L * rsum n (fun j => lsum gs (fun g => ind (g i j)))).
    - rewrite <- rsum_scal_l. apply rsum_ext. intros; unfold Rdiv; ring.
    - rewrite <- lsum_rsum_swap. rewrite (lsum_ext gs _ (fun _ => k i * 1)).
      + rewrite lsum_scal, L1. field. lra.
      + intros g Hin. rewrite Rmult_1_r. apply HG; assumption. }
  assert (SY : forall i j, (i < n)%nat -> (j < n)%nat -> lsum gs (fun g => ind (g i j)) / L = lsum gs (fun g => ind (g j i)) / L).
  { intros i j Hi Hj. f_equal. apply lsum_ext. intros g Hin. f_equal. apply HG; assumption. }
  assert (D0 : forall i, (i < n)%nat -> lsum gs (fun g => ind (g i i)) / L = 0).
  { intros i Hi. rewrite lsum_zero; [unfold Rdiv; ring|]. intros g Hin. destruct (HG g Hin) as [[_ H] _]. rewrite H by exact Hi. reflexivity. }
  split; [|exact SY]. split; [|split].
  - intros i j Hi Hj Hij Ki Kj. destruct (HX i j Hi Hj Hij Ki Kj) as [(g & Hg & Eg) (h & Hh & Eh)].
    assert (0 < lsum gs (fun g => ind (g i j))) by (apply PO; [intros; apply NN|exists g; rewrite Eg; cbn; split; [exact Hg|lra]]).
    assert (P2 : 0 < lsum gs (fun g => 1 - ind (g i j))).
    { apply PO; [intros u; unfold ind; destruct (u i j); lra|exists h; rewrite Eh; cbn; split; [exact Hh|lra]]. }
    rewrite lsum_minus, L1 in P2. split; [apply Rdiv_lt_0_compat; lra|].
    apply Rmult_lt_reg_r with L; [exact HL|]. unfold Rdiv. rewrite Rmult_assoc, Rinv_l by lra. lra.
  - intros i j Hi Hj Hij HK. rewrite lsum_zero; [unfold Rdiv; ring|]. intros g Hin. destruct (HG g Hin) as [HS HDg].
    destruct HK as [K|K].
    + rewrite <- (HDg i Hi) in K. exact (rsum_nonneg_zero n (fun j => ind (g i j)) ltac:(intros; apply NN) K j Hj).
    + rewrite <- (HDg j Hj) in K. rewrite (proj1 HS i j) by assumption.
      exact (rsum_nonneg_zero n (fun i => ind (g j i)) ltac:(intros; apply NN) K i Hi).
  - intros i Hi. split.
    + rewrite <- (sum_row n (fun i j => lsum gs (fun g => ind (g i j)) / L) i (D0 i Hi)). apply RS; exact Hi.
    + rewrite <- (sum_col n (fun i j => lsum gs (fun g => ind (g i j)) / L) i (D0 i Hi)). rewrite <- (RS i Hi).
      apply rsum_ext. intros j Hj. apply SY; assumption.
Qed.
Lemma cm_sample_exists n k (gs : list (nat -> nat -> bool)) : gs <> [] ->
  (forall g, In g gs -> simple_graph n g /\ forall i, (i < n)%nat -> deg n g i = k i) ->
  (forall i j, (i < n)%nat -> (j < n)%nat -> i <> j -> k i <> 0 -> k j <> 0 ->
     (exists g, In g gs /\ g i j = true) /\ exists g, In g gs /\ g i j = false) ->
  exists x, cm_full n k x /\ forall i, (i < n)%nat -> expected_degree_cm n x i = k i.
Proof. intros H1 H2 H3. exact (solution_cm_exists n k _ (sample_inner n k gs H1 H2 H3)). Qed.
