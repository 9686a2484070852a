(** The generators: termination of the loops for isolated nodes. *)
From Coq Require Import Reals List Arith Bool ZArith Lia Lra.
From Verif Require Import Base ModelGenerators SpecGenerators ProofsGenerators ProofsMainGenerators.
Import ListNotations.
Local Open Scope R_scope.

Definition nn (v : R) : Prop := 0 <= v.
Lemma isolated_dir_iff n A i : inv_dir n nn A -> (i < n)%nat -> isolated_dir n A i = true <-> ~ touched n A i.
Proof.
  intros (HZ & HE) Hi. split.
  - unfold isolated_dir. intros H (j & Hj & HN). apply andb_true_iff in H. destruct H as [H1 H2]. apply eq0_true in H1. apply eq0_true in H2. destruct HN as [HN|HN]; apply HN.
    + apply (rsum_nonneg_zero n (fun j => A i j)); auto. intros k Hk. apply HE; assumption.
    + apply (rsum_nonneg_zero n (fun j => A j i)); auto. intros k Hk. apply HE; assumption.
  - intros H. destruct (isolated_dir n A i) eqn:E; [reflexivity|]. exfalso. apply H, not_isolated_dir, E.
Qed.
Lemma isolated_sym_iff n A i : inv_sym n nn A -> (i < n)%nat -> isolated_sym n A i = true <-> ~ touched n A i.
Proof.
  intros (HZ & HS & HE) Hi. split.
  - unfold isolated_sym. intros H (j & Hj & HN). apply eq0_true in H.
    assert (K : A j i = 0) by (apply (rsum_nonneg_zero n (fun j => A j i)); auto; intros k Hk; apply HE; assumption).
    destruct HN as [HN|HN]; apply HN; [rewrite HS by assumption|]; exact K.
  - intros H. destruct (isolated_sym n A i) eqn:E; [reflexivity|]. exfalso. apply H, not_isolated_sym, E.
Qed.

Section Term.
Variable G : source.
Hypothesis HG : source_contract G.
Variable draw : mstate G -> R * mstate G.
Hypothesis HPd : forall s, 0 <= fst (draw s).

Lemma repair_dir_unfold n ind fuel A s :
  repair_dir G draw n ind (S fuel) A s =
  if isolated_dir n A ind then
    repair_dir G draw n ind fuel
      (upd2 (if Rgt_dec (fst (m_random G s)) (1 / 2) then upd2 A (dir_node G draw n s) ind (dir_value G draw s) else upd2 A ind (dir_node G draw n s) (dir_value G draw s)) ind ind 0)
      (dir_step G draw n s)
  else Some (A, s).
Proof.
  cbn [repair_dir]. unfold isolated_dir, dir_node, dir_value, dir_step. destruct (eq0 (col_sum n A ind) && eq0 (row_sum n A ind)); [|reflexivity].
  destruct (m_random G s) as [u s1]. cbn [fst snd]. destruct (draw s1) as [v s2]. cbn [fst snd]. destruct (m_randint G n s2) as [r s3]. reflexivity.
Qed.
Lemma dir_value_nn s : 0 <= dir_value G draw s.
Proof. apply HPd. Qed.
Lemma dir_node_lt n s : (0 < n)%nat -> (dir_node G draw n s < n)%nat.
Proof. intros H. apply (proj2 HG), H. Qed.
(** One turn of the loop links the node exactly when another node and a non-zero value are proposed. *)
Lemma dir_turn n ind A x y r v : inv_dir n nn A -> (ind < n)%nat -> ~ touched n A ind -> (r < n)%nat -> 0 <= v -> ((x = r /\ y = ind) \/ (x = ind /\ y = r)) ->
  inv_dir n nn (upd2 (upd2 A x y v) ind ind 0) /\ (touched n (upd2 (upd2 A x y v) ind ind 0) ind <-> r <> ind /\ v <> 0).
Proof.
  intros HI Hi HT Hr Hv Hxy. pose proof (proj2 (isolated_dir_iff n A ind HI Hi) HT) as HC.
  assert (HX : (x < n)%nat) by (destruct Hxy as [[-> ->]|[-> ->]]; assumption). assert (HY : (y < n)%nat) by (destruct Hxy as [[-> ->]|[-> ->]]; assumption).
  split; [refine (proj1 (dir_iteration nn (Rle_refl 0) n ind A x y v Hi HX HY _ Hv (or_introl (fun w H => H)) HI HC)); destruct Hxy as [[-> ->]|[-> ->]]; auto|].
  assert (Z : forall j, (j < n)%nat -> A ind j = 0 /\ A j ind = 0).
  { intros j Hj. destruct (Req_dec (A ind j) 0) as [E1|E1]; [|exfalso; apply HT; exists j; auto]. destruct (Req_dec (A j ind) 0) as [E2|E2]; [auto|exfalso; apply HT; exists j; auto]. }
  split.
  - intros (j & Hj & HN). destruct (Z j Hj) as [Z1 Z2]. destruct Hxy as [[-> ->]|[-> ->]].
    + destruct HN as [HN|HN].
      * exfalso. apply HN. unfold upd2. rewrite Nat.eqb_refl. destruct (Nat.eqb_spec j ind) as [->|Nj]; simpl; [reflexivity|]. rewrite andb_false_r. exact Z1.
      * revert HN. unfold upd2. rewrite Nat.eqb_refl, !andb_true_r. destruct (Nat.eqb_spec j ind) as [->|Nj]; [congruence|]. destruct (Nat.eqb_spec j r) as [->|Nr]; [auto|congruence].
    + destruct HN as [HN|HN].
      * revert HN. unfold upd2. rewrite Nat.eqb_refl. simpl. destruct (Nat.eqb_spec j ind) as [->|Nj]; [congruence|]. destruct (Nat.eqb_spec j r) as [->|Nr]; [auto|congruence].
      * exfalso. apply HN. unfold upd2. rewrite Nat.eqb_refl, andb_true_r. destruct (Nat.eqb_spec j ind) as [->|Nj]; simpl; [reflexivity|]. exact Z2.
  - intros [HN HV]. exists r. split; [exact Hr|]. destruct Hxy as [[-> ->]|[-> ->]]; [right|left].
    + rewrite upd2_neq by auto. rewrite upd2_eq. exact HV.
    + rewrite upd2_neq by auto. rewrite upd2_eq. exact HV.
Qed.
Lemma dir_turn_model n ind A s : inv_dir n nn A -> (ind < n)%nat -> ~ touched n A ind ->
  let A' := upd2 (if Rgt_dec (fst (m_random G s)) (1 / 2) then upd2 A (dir_node G draw n s) ind (dir_value G draw s) else upd2 A ind (dir_node G draw n s) (dir_value G draw s)) ind ind 0 in
  inv_dir n nn A' /\ (touched n A' ind <-> dir_node G draw n s <> ind /\ dir_value G draw s <> 0).
Proof.
  intros HI Hi HT. cbv zeta. destruct (Rgt_dec _ _).
  - apply dir_turn; auto; [apply dir_node_lt; lia|apply dir_value_nn].
  - apply dir_turn; auto; [apply dir_node_lt; lia|apply dir_value_nn].
Qed.
(** A repaired node stops the loop at once. *)
Lemma repair_dir_touched n ind fuel A s : inv_dir n nn A -> (ind < n)%nat -> touched n A ind -> repair_dir G draw n ind fuel A s = Some (A, s).
Proof.
  intros HI Hi HT. assert (E : isolated_dir n A ind = false).
  { destruct (isolated_dir n A ind) eqn:E; [|reflexivity]. exfalso. apply (isolated_dir_iff n A ind HI Hi) in E. exact (E HT). }
  unfold isolated_dir in E. destruct fuel; cbn [repair_dir]; rewrite E; reflexivity.
Qed.
Lemma repair_dir_terminates n ind A s : (ind < n)%nat -> inv_dir n nn A -> touched n A ind \/ dir_proposes G draw n ind s -> exists fuel r, repair_dir G draw n ind fuel A s = Some r.
Proof.
  intros Hi HI [HT|(k & HK)]; [exists 0%nat, (A, s); apply repair_dir_touched; assumption|].
  revert A s HI HK. induction k as [|k IH]; intros A s HI HK; (destruct (isolated_dir n A ind) eqn:EC;
    [|exists 0%nat, (A, s); apply repair_dir_touched; auto; apply not_isolated_dir; exact EC]).
  - pose proof (proj1 (isolated_dir_iff n A ind HI Hi) EC) as HT. destruct (dir_turn_model n ind A s HI Hi HT) as [H1 H2]. simpl in HK. exists 1%nat. eexists. rewrite repair_dir_unfold, EC.
    apply repair_dir_touched; [exact H1|exact Hi|apply H2, HK].
  - pose proof (proj1 (isolated_dir_iff n A ind HI Hi) EC) as HT. destruct (dir_turn_model n ind A s HI Hi HT) as [H1 _].
    destruct (IH _ (dir_step G draw n s) H1 HK) as (fuel & r & E). exists (S fuel), r. rewrite repair_dir_unfold, EC. exact E.
Qed.
Lemma repair_dir_diverges n ind fuel : (ind < n)%nat -> forall A s, inv_dir n nn A -> ~ touched n A ind -> ~ dir_proposes G draw n ind s -> repair_dir G draw n ind fuel A s = None.
Proof.
  intros Hi. induction fuel as [|fuel IH]; intros A s HI HT HP; pose proof (proj2 (isolated_dir_iff n A ind HI Hi) HT) as EC.
  - unfold isolated_dir in EC. cbn [repair_dir]. rewrite EC. reflexivity.
  - rewrite repair_dir_unfold, EC. destruct (dir_turn_model n ind A s HI Hi HT) as [H1 H2]. apply IH; [exact H1| |].
    + rewrite H2. intros H. apply HP. exists 0%nat. exact H.
    + intros (k & H). apply HP. exists (S k). exact H.
Qed.
Lemma repair_dir_mono n ind fuel : forall fuel' A s r, (fuel <= fuel')%nat -> repair_dir G draw n ind fuel A s = Some r -> repair_dir G draw n ind fuel' A s = Some r.
Proof.
  induction fuel as [|fuel IH]; intros fuel' A s r HF.
  - cbn [repair_dir]. destruct (eq0 _ && eq0 _) eqn:E; [discriminate|]. intros H. destruct fuel'; cbn [repair_dir]; rewrite E; exact H.
  - destruct fuel' as [|fuel']; [lia|]. rewrite !repair_dir_unfold. destruct (isolated_dir n A ind); [|auto]. apply IH. lia.
Qed.

(** The symmetric loops, with the two orders of assignment and with or without clearing the diagonal. *)
Lemma repair_sym_unfold diag n ind fuel A s :
  repair_sym G draw diag n ind (S fuel) A s =
  if isolated_sym n A ind then
    repair_sym G draw diag n ind fuel
      (let B := if Nat.eqb (sym_node G n s) ind then A else upd2 (upd2 A ind (sym_node G n s) (sym_value G draw n s)) (sym_node G n s) ind (sym_value G draw n s) in
       if diag then upd2 B ind ind 0 else B)
      (sym_step G draw n ind s)
  else Some (A, s).
Proof.
  cbn [repair_sym]. unfold isolated_sym, sym_node, sym_value, sym_step, sym_node. destruct (eq0 (col_sum n A ind)); [|reflexivity].
  destruct (m_randint G n s) as [r s1]. cbn [fst snd]. destruct (Nat.eqb r ind); [reflexivity|]. destruct (draw s1) as [v s2]. cbn [fst snd]. rewrite upd2_eq. reflexivity.
Qed.
Lemma sym_turn n ind A r v B : inv_sym n nn A -> (ind < n)%nat -> ~ touched n A ind -> (r < n)%nat -> 0 <= v -> r <> ind ->
  (forall a b, B a b = if (Nat.eqb a ind && Nat.eqb b r) || (Nat.eqb a r && Nat.eqb b ind) then v else A a b) ->
  inv_sym n nn B /\ (touched n B ind <-> v <> 0).
Proof.
  intros HI Hi HT Hr Hv HN HB. pose proof (proj2 (isolated_sym_iff n A ind HI Hi) HT) as HC.
  split; [exact (proj1 (sym_iteration nn n ind A r v Hi Hr HN Hv (or_introl (fun w H => H)) HI HC B HB))|].
  assert (Z : forall j, (j < n)%nat -> A ind j = 0 /\ A j ind = 0).
  { intros j Hj. destruct (Req_dec (A ind j) 0) as [E1|E1]; [|exfalso; apply HT; exists j; auto]. destruct (Req_dec (A j ind) 0) as [E2|E2]; [auto|exfalso; apply HT; exists j; auto]. }
  split.
  - intros (j & Hj & HX). destruct (Z j Hj) as [Z1 Z2]. rewrite !HB in HX. intros ->. destruct HX as [HX|HX]; apply HX; destruct (_ || _); auto.
  - intros HV. exists r. split; [exact Hr|]. left. rewrite HB, !Nat.eqb_refl. exact HV.
Qed.
Lemma sym_turn_model (diag : bool) n ind A s : inv_sym n nn A -> (ind < n)%nat -> ~ touched n A ind ->
  let B := if Nat.eqb (sym_node G n s) ind then A else upd2 (upd2 A ind (sym_node G n s) (sym_value G draw n s)) (sym_node G n s) ind (sym_value G draw n s) in
  let A' := if diag then upd2 B ind ind 0 else B in
  inv_sym n nn A' /\ (touched n A' ind <-> sym_node G n s <> ind /\ sym_value G draw n s <> 0).
Proof.
  intros HI Hi HT. cbv zeta. pose proof (proj2 HG n s ltac:(lia)) as Hr. fold (sym_node G n s) in Hr.
  set (B := if Nat.eqb (sym_node G n s) ind then A else (upd2 (upd2 A ind (sym_node G n s) (sym_value G draw n s)) (sym_node G n s) ind (sym_value G draw n s))). assert (HB : inv_sym n nn B /\ (touched n B ind <-> sym_node G n s <> ind /\ sym_value G draw n s <> 0)).
  { unfold B. destruct (Nat.eqb_spec (sym_node G n s) ind) as [E|E].
    - split; [exact HI|]. split; [intros H; exfalso; exact (HT H)|intros [H _]; congruence].
    - destruct (sym_turn n ind A (sym_node G n s) (sym_value G draw n s) (upd2 (upd2 A ind (sym_node G n s) (sym_value G draw n s)) (sym_node G n s) ind (sym_value G draw n s)) HI Hi HT Hr (HPd _) E) as [H1 H2].
      + intros a b. unfold upd2. destruct (Nat.eqb a (sym_node G n s) && Nat.eqb b ind), (Nat.eqb a ind && Nat.eqb b (sym_node G n s)); reflexivity.
      + split; [exact H1|]. rewrite H2. tauto. }
  clearbody B. destruct HB as [H1 H2]. destruct diag; [|split; assumption].
  destruct (sym_zero_diag nn n ind B H1 Hi) as [H3 H4]. split; [exact H3|]. rewrite <- H2. split; [|apply keeps_touched; assumption].
  intros (j & Hj & HX). exists j. split; [exact Hj|]. unfold upd2 in HX. destruct HX as [HX|HX]; [left|right]; destruct (_ && _); try assumption; congruence.
Qed.
Lemma repair_sym_touched diag n ind fuel A s : inv_sym n nn A -> (ind < n)%nat -> touched n A ind -> repair_sym G draw diag n ind fuel A s = Some (A, s).
Proof.
  intros HI Hi HT. assert (E : isolated_sym n A ind = false).
  { destruct (isolated_sym n A ind) eqn:E; [|reflexivity]. exfalso. apply (isolated_sym_iff n A ind HI Hi) in E. exact (E HT). }
  unfold isolated_sym in E. destruct fuel; cbn [repair_sym]; rewrite E; reflexivity.
Qed.
Lemma repair_sym_terminates diag n ind A s : (ind < n)%nat -> inv_sym n nn A -> touched n A ind \/ sym_proposes G draw n ind s -> exists fuel r, repair_sym G draw diag n ind fuel A s = Some r.
Proof.
  intros Hi HI [HT|(k & HK)]; [exists 0%nat, (A, s); apply repair_sym_touched; assumption|].
  revert A s HI HK. induction k as [|k IH]; intros A s HI HK; (destruct (isolated_sym n A ind) eqn:EC;
    [|exists 0%nat, (A, s); apply repair_sym_touched; auto; apply not_isolated_sym; exact EC]).
  - pose proof (proj1 (isolated_sym_iff n A ind HI Hi) EC) as HT. destruct (sym_turn_model diag n ind A s HI Hi HT) as [H1 H2]. simpl in HK. exists 1%nat. eexists. rewrite repair_sym_unfold, EC.
    apply repair_sym_touched; [exact H1|exact Hi|apply H2, HK].
  - pose proof (proj1 (isolated_sym_iff n A ind HI Hi) EC) as HT. destruct (sym_turn_model diag n ind A s HI Hi HT) as [H1 _].
    destruct (IH _ (sym_step G draw n ind s) H1 HK) as (fuel & r & E). exists (S fuel), r. rewrite repair_sym_unfold, EC. exact E.
Qed.
Lemma repair_sym_diverges diag n ind fuel : (ind < n)%nat -> forall A s, inv_sym n nn A -> ~ touched n A ind -> ~ sym_proposes G draw n ind s -> repair_sym G draw diag n ind fuel A s = None.
Proof.
  intros Hi. induction fuel as [|fuel IH]; intros A s HI HT HP; pose proof (proj2 (isolated_sym_iff n A ind HI Hi) HT) as EC.
  - unfold isolated_sym in EC. cbn [repair_sym]. rewrite EC. reflexivity.
  - rewrite repair_sym_unfold, EC. destruct (sym_turn_model diag n ind A s HI Hi HT) as [H1 H2]. apply IH; [exact H1| |].
    + rewrite H2. intros H. apply HP. exists 0%nat. exact H.
    + intros (k & H). apply HP. exists (S k). exact H.
Qed.
Lemma repair_sym_mono diag n ind fuel : forall fuel' A s r, (fuel <= fuel')%nat -> repair_sym G draw diag n ind fuel A s = Some r -> repair_sym G draw diag n ind fuel' A s = Some r.
Proof.
  induction fuel as [|fuel IH]; intros fuel' A s r HF.
  - cbn [repair_sym]. destruct (eq0 _) eqn:E; [discriminate|]. intros H. destruct fuel'; cbn [repair_sym]; rewrite E; exact H.
  - destruct fuel' as [|fuel']; [lia|]. rewrite !repair_sym_unfold. destruct (isolated_sym n A ind); [|auto]. apply IH. lia.
Qed.
End Term.

(** The dense symmetric loop is the same with constant value one, on the same states. *)
Lemma repair_sym_dense_unfold G n ind fuel A s :
  repair_sym_dense G n ind (S fuel) A s =
  if isolated_sym n A ind then
    repair_sym_dense G n ind fuel (upd2 (upd2 (upd2 A (sym_node G n s) ind 1) ind (sym_node G n s) 1) ind ind 0) (sym_step G (const_draw G 1) n ind s)
  else Some (A, s).
Proof.
  cbn [repair_sym_dense]. unfold isolated_sym, sym_step, sym_node. destruct (eq0 _); [|reflexivity]. destruct (m_randint G n s) as [r t]. cbn [fst snd]. destruct (Nat.eqb r ind); reflexivity.
Qed.
Lemma dense_turn G n ind A s : source_contract G -> inv_sym n nn A -> (ind < n)%nat -> ~ touched n A ind ->
  let A' := upd2 (upd2 (upd2 A (sym_node G n s) ind 1) ind (sym_node G n s) 1) ind ind 0 in
  inv_sym n nn A' /\ (touched n A' ind <-> sym_node G n s <> ind /\ sym_value G (const_draw G 1) n s <> 0).
Proof.
  intros HG HI Hi HT. cbv zeta. destruct (sym_turn_model G HG (const_draw G 1) (fun _ => Rle_0_1) true n ind A s HI Hi HT) as [H1 H2]. cbn in H1, H2. revert H1 H2.
  set (r := sym_node G n s). unfold sym_value, const_draw. cbn [fst].
  set (B := upd2 (if Nat.eqb r ind then A else _) ind ind 0). intros H1 H2.
  assert (E : forall a b, upd2 (upd2 (upd2 A r ind 1) ind r 1) ind ind 0 a b = B a b).
  { intros a b. unfold B, upd2. destruct (Nat.eqb_spec a ind), (Nat.eqb_spec b ind); simpl; try reflexivity; subst; destruct (Nat.eqb_spec r ind); subst; simpl;
      rewrite ?Nat.eqb_refl, ?andb_true_r, ?andb_false_r; try reflexivity; repeat (match goal with |- context [Nat.eqb ?x ?y] => destruct (Nat.eqb_spec x y) end); subst; simpl; try reflexivity; congruence. }
  clearbody B. split.
  - destruct H1 as (Z & S & EN). split; [|split].
    + intros i Hii. rewrite E. auto.
    + intros i j Hii Hj. rewrite !E. auto.
    + intros i j Hii Hj. rewrite !E. auto.
  - rewrite <- H2. split; intros (j & Hj & HX); exists j; (split; [exact Hj|]); rewrite ?E in *; exact HX.
Qed.
Lemma repair_sym_dense_touched G n ind fuel A s : inv_sym n nn A -> (ind < n)%nat -> touched n A ind -> repair_sym_dense G n ind fuel A s = Some (A, s).
Proof.
  intros HI Hi HT. assert (E : isolated_sym n A ind = false).
  { destruct (isolated_sym n A ind) eqn:E; [|reflexivity]. exfalso. apply (isolated_sym_iff n A ind HI Hi) in E. exact (E HT). }
  unfold isolated_sym in E. destruct fuel; cbn [repair_sym_dense]; rewrite E; reflexivity.
Qed.
Lemma repair_sym_dense_terminates G n ind A s : source_contract G -> (ind < n)%nat -> inv_sym n nn A -> touched n A ind \/ sym_proposes G (const_draw G 1) n ind s ->
  exists fuel r, repair_sym_dense G n ind fuel A s = Some r.
Proof.
  intros HG Hi HI [HT|(k & HK)]; [exists 0%nat, (A, s); apply repair_sym_dense_touched; assumption|].
  revert A s HI HK. induction k as [|k IH]; intros A s HI HK; (destruct (isolated_sym n A ind) eqn:EC;
    [|exists 0%nat, (A, s); apply repair_sym_dense_touched; auto; apply not_isolated_sym; exact EC]).
  - pose proof (proj1 (isolated_sym_iff n A ind HI Hi) EC) as HT. destruct (dense_turn G n ind A s HG HI Hi HT) as [H1 H2]. simpl in HK. exists 1%nat. eexists. rewrite repair_sym_dense_unfold, EC.
    apply repair_sym_dense_touched; [exact H1|exact Hi|apply H2, HK].
  - pose proof (proj1 (isolated_sym_iff n A ind HI Hi) EC) as HT. destruct (dense_turn G n ind A s HG HI Hi HT) as [H1 _].
    destruct (IH _ (sym_step G (const_draw G 1) n ind s) H1 HK) as (fuel & r & E). exists (S fuel), r. rewrite repair_sym_dense_unfold, EC. exact E.
Qed.
Lemma repair_sym_dense_diverges G n ind fuel : source_contract G -> (ind < n)%nat -> forall A s, inv_sym n nn A -> ~ touched n A ind -> ~ sym_proposes G (const_draw G 1) n ind s ->
  repair_sym_dense G n ind fuel A s = None.
Proof.
  intros HG Hi. induction fuel as [|fuel IH]; intros A s HI HT HP; pose proof (proj2 (isolated_sym_iff n A ind HI Hi) HT) as EC.
  - unfold isolated_sym in EC. cbn [repair_sym_dense]. rewrite EC. reflexivity.
  - rewrite repair_sym_dense_unfold, EC. destruct (dense_turn G n ind A s HG HI Hi HT) as [H1 H2]. apply IH; [exact H1| |].
    + rewrite H2. intros H. apply HP. exists 0%nat. exact H.
    + intros (k & H). apply HP. exists (S k). exact H.
Qed.
Lemma repair_sym_dense_mono G n ind fuel : forall fuel' A s r, (fuel <= fuel')%nat -> repair_sym_dense G n ind fuel A s = Some r -> repair_sym_dense G n ind fuel' A s = Some r.
Proof.
  induction fuel as [|fuel IH]; intros fuel' A s r HF.
  - cbn [repair_sym_dense]. destruct (eq0 _) eqn:E; [discriminate|]. intros H. destruct fuel'; cbn [repair_sym_dense]; rewrite E; exact H.
  - destruct fuel' as [|fuel']; [lia|]. rewrite !repair_sym_dense_unfold. destruct (isolated_sym n A ind); [|auto]. apply IH. lia.
Qed.

(** * Whole generators *)
Lemma repair_all_terminates (G : source) (Inv : (nat -> nat -> R) -> Prop) (todo : nat -> bool) (repair : nat -> nat -> (nat -> nat -> R) -> mstate G -> option ((nat -> nat -> R) * mstate G)) n :
  (forall fuel ind A s A' s', (ind < n)%nat -> Inv A -> repair fuel ind A s = Some (A', s') -> Inv A') ->
  (forall ind A s, (ind < n)%nat -> Inv A -> exists fuel r, repair fuel ind A s = Some r) ->
  (forall fuel fuel' ind A s r, (fuel <= fuel')%nat -> repair fuel ind A s = Some r -> repair fuel' ind A s = Some r) ->
  forall A s, Inv A -> exists fuel r, repair_all G todo (repair fuel) n A s = Some r.
Proof.
  intros HI HT HM A0 s0 HA. unfold repair_all.
  set (F := fun fuel acc ind => match acc with None => None | Some (A, s) => if todo ind then repair fuel ind A s else Some (A, s) end).
  assert (MONO : forall l fuel fuel' a r, (fuel <= fuel')%nat -> fold_left (F fuel) l a = Some r -> fold_left (F fuel') l a = Some r).
  { induction l as [|x l IH]; intros fuel fuel' a r HF; cbn [fold_left]; [auto|]. intros E. destruct a as [[A s]|]; [|change (fold_left (F fuel) l None = Some r) in E; rewrite fold_left_none in E by reflexivity; discriminate].
    unfold F at 2 in E. unfold F at 2. destruct (todo x); [|exact (IH _ _ _ _ HF E)]. destruct (repair fuel x A s) as [r'|] eqn:ER; [|rewrite fold_left_none in E by reflexivity; discriminate].
    rewrite (HM _ _ _ _ _ _ HF ER). exact (IH _ _ _ _ HF E). }
  assert (K : forall m, (m <= n)%nat -> exists fuel A s, fold_left (F fuel) (seq 0 m) (Some (A0, s0)) = Some (A, s) /\ Inv A).
  { induction m as [|m IH]; intros Hm; [exists 0%nat, A0, s0; split; [reflexivity|exact HA]|]. destruct (IH ltac:(lia)) as (fuel & A & s & E & HAm). destruct (todo m) eqn:ET.
    - destruct (HT m A s ltac:(lia) HAm) as (f2 & [A2 s2] & E2). exists (Nat.max fuel f2), A2, s2. assert (EM : repair (Nat.max fuel f2) m A s = Some (A2, s2)) by (apply (HM f2); [lia|exact E2]). split.
      + rewrite seq_S, fold_left_app, (MONO _ fuel (Nat.max fuel f2) _ (A, s) ltac:(lia) E). cbn [fold_left Nat.add]. unfold F. rewrite ET. exact EM.
      + exact (HI _ m A s A2 s2 ltac:(lia) HAm EM).
    - exists fuel, A, s. split; [|exact HAm]. rewrite seq_S, fold_left_app, E. cbn [fold_left Nat.add]. unfold F. rewrite ET. reflexivity. }
  destruct (K n (le_n n)) as (fuel & A & s & E & _). exists fuel, (A, s). exact E.
Qed.
(** If the loop for the first selected node does not end, nothing is returned. *)
Lemma repair_all_diverges (G : source) todo repair n A s ind : (ind < n)%nat -> todo ind = true -> (forall j, (j < ind)%nat -> todo j = false) ->
  repair ind A s = None -> repair_all G todo repair n A s = None.
Proof.
  intros Hi HT HF HR. unfold repair_all. replace n with (ind + S (n - S ind))%nat by lia. rewrite seq_app, fold_left_app.
  assert (E : fold_left (fun acc i => match acc with None => None | Some (A, s) => if todo i then repair i A s else Some (A, s) end) (seq 0 ind) (Some (A, s)) = Some (A, s)).
  { assert (K : forall m, (m <= ind)%nat -> fold_left (fun acc i => match acc with None => None | Some (A, s) => if todo i then repair i A s else Some (A, s) end) (seq 0 m) (Some (A, s)) = Some (A, s)).
    { induction m as [|m IH]; intros Hm; [reflexivity|]. rewrite seq_S, fold_left_app, IH by lia. cbn [fold_left Nat.add]. rewrite HF by lia. reflexivity. }
    apply K. lia. }
  rewrite E. cbn [seq fold_left Nat.add]. rewrite HT, HR. apply fold_left_none. reflexivity.
Qed.

(** * C56: exactly when the loops end *)
Lemma dir_loop_iff (G : source) draw n ind A s : source_contract G -> (forall s, 0 <= fst (draw s)) -> (ind < n)%nat -> zero_diagonal n A -> entries n (fun v => 0 <= v) A ->
  (exists fuel r, repair_dir G draw n ind fuel A s = Some r) <-> touched n A ind \/ dir_proposes G draw n ind s.
Proof.
  intros HG HD Hi HZ HE. split; [|apply repair_dir_terminates; auto; split; assumption].
  intros (fuel & r & E). revert A s HZ HE E. induction fuel as [|fuel IH]; intros A s HZ HE E; (destruct (isolated_dir n A ind) eqn:EC; [|left; apply not_isolated_dir, EC]).
  - unfold isolated_dir in EC. cbn [repair_dir] in E. rewrite EC in E. discriminate.
  - rewrite repair_dir_unfold, EC in E. assert (HI : inv_dir n nn A) by (split; assumption). pose proof (proj1 (isolated_dir_iff n A ind HI Hi) EC) as HT.
    destruct (dir_turn_model G HG draw HD n ind A s HI Hi HT) as [[H1 H2] H3]. destruct (IH _ _ H1 H2 E) as [HX|(k & HX)].
    + right. exists 0%nat. apply H3, HX.
    + right. exists (S k). exact HX.
Qed.
Lemma sym_loop_iff (G : source) draw diag n ind A s : source_contract G -> (forall s, 0 <= fst (draw s)) -> (ind < n)%nat -> zero_diagonal n A -> symmetric n A -> entries n (fun v => 0 <= v) A ->
  (exists fuel r, repair_sym G draw diag n ind fuel A s = Some r) <-> touched n A ind \/ sym_proposes G draw n ind s.
Proof.
  intros HG HD Hi HZ HS HE. split; [|apply repair_sym_terminates; auto; split; [|split]; assumption].
  intros (fuel & r & E). revert A s HZ HS HE E. induction fuel as [|fuel IH]; intros A s HZ HS HE E; (destruct (isolated_sym n A ind) eqn:EC; [|left; apply not_isolated_sym, EC]).
  - unfold isolated_sym in EC. cbn [repair_sym] in E. rewrite EC in E. discriminate.
  - rewrite repair_sym_unfold, EC in E. assert (HI : inv_sym n nn A) by (split; [|split]; assumption). pose proof (proj1 (isolated_sym_iff n A ind HI Hi) EC) as HT.
    destruct (sym_turn_model G HG draw HD diag n ind A s HI Hi HT) as [(H1 & H2 & H3) H4]. destruct (IH _ _ H1 H2 H3 E) as [HX|(k & HX)].
    + right. exists 0%nat. apply H4, HX.
    + right. exists (S k). exact HX.
Qed.
Lemma sym_dense_loop_iff (G : source) n ind A s : source_contract G -> (ind < n)%nat -> zero_diagonal n A -> symmetric n A -> entries n (fun v => 0 <= v) A ->
  (exists fuel r, repair_sym_dense G n ind fuel A s = Some r) <-> touched n A ind \/ sym_proposes G (const_draw G 1) n ind s.
Proof.
  intros HG Hi HZ HS HE. split; [|apply repair_sym_dense_terminates; auto; split; [|split]; assumption].
  intros (fuel & r & E). revert A s HZ HS HE E. induction fuel as [|fuel IH]; intros A s HZ HS HE E; (destruct (isolated_sym n A ind) eqn:EC; [|left; apply not_isolated_sym, EC]).
  - unfold isolated_sym in EC. cbn [repair_sym_dense] in E. rewrite EC in E. discriminate.
  - rewrite repair_sym_dense_unfold, EC in E. assert (HI : inv_sym n nn A) by (split; [|split]; assumption). pose proof (proj1 (isolated_sym_iff n A ind HI Hi) EC) as HT.
    destruct (dense_turn G n ind A s HG HI Hi HT) as [(H1 & H2 & H3) H4]. destruct (IH _ _ H1 H2 H3 E) as [HX|(k & HX)].
    + right. exists 0%nat. apply H4, HX.
    + right. exists (S k). exact HX.
Qed.

Lemma reseed_valid (G : source) seed entropy : valid_seed seed -> exists s, reseed G seed entropy = Some s.
Proof.
  destruct seed as [k|]; [|intros _; exists entropy; reflexivity]. intros H. exists (m_seed G k). unfold reseed. simpl in H.
  replace (0 <=? k)%Z with true by (symmetry; apply Z.leb_le; lia). replace (k <? 4294967296)%Z with true by (symmetry; apply Z.ltb_lt; lia). reflexivity.
Qed.
Lemma inv_weaken_dir n (P : R -> Prop) A : (forall v, P v -> 0 <= v) -> inv_dir n P A -> inv_dir n nn A.
Proof. intros H [H1 H2]. split; [exact H1|]. intros i j Hi Hj. apply H, H2; assumption. Qed.
Lemma inv_weaken_sym n (P : R -> Prop) A : (forall v, P v -> 0 <= v) -> inv_sym n P A -> inv_sym n nn A.
Proof. intros H (H1 & H2 & H3). split; [exact H1|split; [exact H2|]]. intros i j Hi Hj. apply H, H3; assumption. Qed.
Lemma dir_all_terminates (G : source) draw n A s : source_contract G -> (forall s, 0 <= fst (draw s)) -> fair_dir G draw n -> inv_dir n nn A ->
  exists fuel r, repair_all G (isolated_dir n A) (fun ind => repair_dir G draw n ind fuel) n A s = Some r.
Proof.
  intros HG HD HF HI. apply (repair_all_terminates G (inv_dir n nn) (isolated_dir n A) (fun fuel ind => repair_dir G draw n ind fuel) n); auto.
  - intros fuel ind A1 s1 A2 s2 Hi H1 E. exact (proj1 (repair_dir_ok G HG draw nn (Rle_refl 0) HD (or_introl (fun v H => H)) n ind fuel Hi A1 s1 A2 s2 H1 E)).
  - intros ind A1 s1 Hi H1. apply repair_dir_terminates; auto.
  - intros fuel fuel' ind A1 s1 r. apply repair_dir_mono.
Qed.
Lemma sym_all_terminates (G : source) draw diag n A s : source_contract G -> (forall s, 0 <= fst (draw s)) -> fair_sym G draw n -> inv_sym n nn A ->
  exists fuel r, repair_all G (isolated_sym n A) (fun ind => repair_sym G draw diag n ind fuel) n A s = Some r.
Proof.
  intros HG HD HF HI. apply (repair_all_terminates G (inv_sym n nn) (isolated_sym n A) (fun fuel ind => repair_sym G draw diag n ind fuel) n); auto.
  - intros fuel ind A1 s1 A2 s2 Hi H1 E. exact (proj1 (repair_sym_ok G HG draw nn HD (or_introl (fun v H => H)) diag n ind fuel Hi A1 s1 A2 s2 H1 E)).
  - intros ind A1 s1 Hi H1. apply repair_sym_terminates; auto.
  - intros fuel fuel' ind A1 s1 r. apply repair_sym_mono.
Qed.
Lemma sym_dense_all_terminates (G : source) n A s : source_contract G -> fair_sym G (const_draw G 1) n -> inv_sym n nn A ->
  exists fuel r, repair_all G (isolated_sym n A) (fun ind => repair_sym_dense G n ind fuel) n A s = Some r.
Proof.
  intros HG HF HI. apply (repair_all_terminates G (inv_sym n nn) (isolated_sym n A) (fun fuel ind => repair_sym_dense G n ind fuel) n); auto.
  - intros fuel ind A1 s1 A2 s2 Hi H1 E. exact (proj1 (repair_sym_dense_ok G nn n ind fuel HG (Rle_refl 0) Rle_0_1 (fun v H => H) Hi A1 s1 A2 s2 H1 E)).
  - intros ind A1 s1 Hi H1. apply repair_sym_dense_terminates; auto.
  - intros fuel fuel' ind A1 s1 r. apply repair_sym_dense_mono.
Qed.
Lemma output_some (G : source) iw (r : (nat -> nat -> R) * mstate G) : exists A, output G iw (Some r) = Returned A.
Proof. destruct r as [A s]. eexists. reflexivity. Qed.

Lemma binary_dense_returns (G : source) n sym seed entropy : source_contract G -> valid_seed seed -> fair G sym (const_draw G 1) n ->
  exists fuel A, random_binary_matrix_generator_dense G fuel n sym seed entropy = Returned A.
Proof.
  intros HG HS HF. unfold random_binary_matrix_generator_dense. destruct (reseed_valid G seed entropy HS) as [s ->]. destruct sym; cbn [negb fair] in *.
  - pose proof (random_array_P G _ is_binary binary_0 (int_draw_2 G HG) n s) as HB. destruct (random_array G (int_draw G 2) n s) as [B t]. cbn [fst] in HB.
    destruct (sym_dense_all_terminates G n (fill_diagonal (fun i j => to_int ((B i j + B j i) / 2))) t HG HF) as (fuel & r & E).
    + apply (inv_weaken_sym n is_binary _ binary_nonneg). apply fill_diagonal_sym; [apply binary_0|intros; apply average_binary; apply HB|]. intros a b. rewrite Rplus_comm. reflexivity.
    + exists fuel. rewrite E. apply output_some.
  - pose proof (random_array_P G _ is_binary binary_0 (int_draw_2 G HG) n s) as HB. destruct (random_array G (int_draw G 2) n s) as [B t]. cbn [fst] in HB.
    destruct (dir_all_terminates G (const_draw G 1) n (fill_diagonal B) t HG (fun _ => Rle_0_1) HF) as (fuel & r & E).
    + apply (inv_weaken_dir n is_binary _ binary_nonneg). apply fill_diagonal_P; [apply binary_0|exact HB].
    + exists fuel. rewrite E. apply output_some.
Qed.
Lemma binary_custom_returns (G : source) n p sym seed entropy : source_contract G -> valid_seed seed -> fair G sym (const_draw G 1) n ->
  exists fuel A, random_binary_matrix_generator_custom_density G fuel n p sym seed entropy = Returned A.
Proof.
  intros HG HS HF. unfold random_binary_matrix_generator_custom_density. destruct (reseed_valid G seed entropy HS) as [s ->]. destruct sym; cbn [negb fair] in *.
  - destruct (random_upper_P G (const_draw G 1) is_binary binary_0 (fun _ => binary_1) p n s) as (H1 & H2 & H3). destruct (random_upper G p (const_draw G 1) n s) as [B t]. cbn [fst] in *.
    destruct (sym_all_terminates G (const_draw G 1) true n (fill_diagonal B) t HG (fun _ => Rle_0_1) HF) as (fuel & r & E).
    + apply (inv_weaken_sym n is_binary _ binary_nonneg). apply fill_diagonal_sym; [apply binary_0|exact H1|exact H2].
    + exists fuel. rewrite E. apply output_some.
  - pose proof (random_cells_P G (const_draw G 1) is_binary binary_0 (fun _ => binary_1) p n s) as HB. destruct (random_cells G p (const_draw G 1) n s) as [B t]. cbn [fst] in HB.
    destruct (dir_all_terminates G (const_draw G 1) n (fill_diagonal B) t HG (fun _ => Rle_0_1) HF) as (fuel & r & E).
    + apply (inv_weaken_dir n is_binary _ binary_nonneg). apply fill_diagonal_P; [apply binary_0|exact HB].
    + exists fuel. rewrite E. apply output_some.
Qed.
Lemma weighted_dense_returns (G : source) n sup_ext sym seed iw entropy : source_contract G -> 0 <= sup_ext -> valid_seed seed -> fair G sym (scaled_draw G sup_ext) n ->
  exists fuel A, random_weighted_matrix_generator_dense G fuel n sup_ext sym seed iw entropy = Returned A.
Proof.
  intros HG Hs HS HF. assert (H0 : between 0 sup_ext 0) by (unfold between; lra). pose proof (scaled_draw_between G sup_ext HG Hs) as HD. assert (HD' : forall s, 0 <= fst (scaled_draw G sup_ext s)) by (intros; apply HD).
  unfold random_weighted_matrix_generator_dense. destruct (reseed_valid G seed entropy HS) as [s ->]. destruct sym; cbn [negb fair] in *.
  - pose proof (random_array_P G _ _ H0 HD n s) as HB. destruct (random_array G (scaled_draw G sup_ext) n s) as [B t]. cbn [fst] in HB.
    destruct (sym_all_terminates G (scaled_draw G sup_ext) false n (fill_diagonal (fun i j => (B i j + B j i) / 2)) t HG HD' HF) as (fuel & r & E).
    + apply (inv_weaken_sym n _ _ (between_nonneg sup_ext)). apply fill_diagonal_sym; [exact H0| |intros; rewrite Rplus_comm; reflexivity]. intros a b. pose proof (HB a b). pose proof (HB b a). unfold between in *. lra.
    + exists fuel. rewrite E. apply output_some.
  - pose proof (random_array_P G _ _ H0 HD n s) as HB. destruct (random_array G (scaled_draw G sup_ext) n s) as [B t]. cbn [fst] in HB.
    destruct (dir_all_terminates G (scaled_draw G sup_ext) n (fill_diagonal B) t HG HD' HF) as (fuel & r & E).
    + apply (inv_weaken_dir n _ _ (between_nonneg sup_ext)). apply fill_diagonal_P; [exact H0|exact HB].
    + exists fuel. rewrite E. apply output_some.
Qed.
Lemma weighted_uniform_returns (G : source) n p sup_ext sym seed iw entropy : source_contract G -> 0 <= sup_ext -> valid_seed seed -> fair G sym (scaled_draw G sup_ext) n ->
  exists fuel A, random_weighted_matrix_generator_uniform_custom_density G fuel n p sup_ext sym seed iw entropy = Returned A.
Proof.
  intros HG Hs HS HF. assert (H0 : between 0 sup_ext 0) by (unfold between; lra). pose proof (scaled_draw_between G sup_ext HG Hs) as HD. assert (HD' : forall s, 0 <= fst (scaled_draw G sup_ext s)) by (intros; apply HD).
  unfold random_weighted_matrix_generator_uniform_custom_density. destruct (reseed_valid G seed entropy HS) as [s ->]. destruct sym; cbn [negb fair] in *.
  - destruct (random_upper_P G _ _ H0 HD p n s) as (H1 & H2 & H3). destruct (random_upper G p (scaled_draw G sup_ext) n s) as [B t]. cbn [fst] in *.
    destruct (sym_all_terminates G (scaled_draw G sup_ext) false n B t HG HD' HF) as (fuel & r & E).
    + apply (inv_weaken_sym n _ _ (between_nonneg sup_ext)). split; [intros i _; apply H3|split; [intros i j _ _; apply H2|intros i j _ _; apply H1]].
    + exists fuel. rewrite E. apply output_some.
  - pose proof (random_cells_P G _ _ H0 HD p n s) as HB. destruct (random_cells G p (scaled_draw G sup_ext) n s) as [B t]. cbn [fst] in HB.
    destruct (dir_all_terminates G (scaled_draw G sup_ext) n (fill_diagonal B) t HG HD' HF) as (fuel & r & E).
    + apply (inv_weaken_dir n _ _ (between_nonneg sup_ext)). apply fill_diagonal_P; [exact H0|exact HB].
    + exists fuel. rewrite E. apply output_some.
Qed.

(** * C56: a single node, or no weight to give *)
Lemma one_dir (G : source) draw fuel A s : source_contract G -> A 0%nat 0%nat = 0 ->
  repair_all G (isolated_dir 1 A) (fun ind => repair_dir G draw 1 ind fuel) 1 A s = None.
Proof.
  intros HG HA. apply (repair_all_diverges G _ _ 1 A s 0); [lia| |intros; lia|].
  - unfold isolated_dir, col_sum, row_sum. simpl. rewrite HA, Rplus_0_l. replace (eq0 0) with true by (symmetry; apply eq0_true; reflexivity). reflexivity.
  - revert A s HA. induction fuel as [|fuel IH]; intros A s HA.
    + cbn [repair_dir]. unfold col_sum, row_sum. simpl. rewrite HA, Rplus_0_l. replace (eq0 0) with true by (symmetry; apply eq0_true; reflexivity). reflexivity.
    + rewrite repair_dir_unfold. destruct (isolated_dir 1 A 0) eqn:E.
      * apply IH. rewrite upd2_eq. reflexivity.
      * exfalso. revert E. unfold isolated_dir, col_sum, row_sum. simpl. rewrite HA, Rplus_0_l. replace (eq0 0) with true by (symmetry; apply eq0_true; reflexivity). discriminate.
Qed.
Lemma one_isolated_sym A : A 0%nat 0%nat = 0 -> isolated_sym 1 A 0 = true.
Proof. intros HA. unfold isolated_sym, col_sum. simpl. rewrite HA, Rplus_0_l. apply eq0_true. reflexivity. Qed.
Lemma one_sym (G : source) draw diag fuel A s : source_contract G -> A 0%nat 0%nat = 0 ->
  repair_all G (isolated_sym 1 A) (fun ind => repair_sym G draw diag 1 ind fuel) 1 A s = None.
Proof.
  intros HG HA. apply (repair_all_diverges G _ _ 1 A s 0); [lia|apply one_isolated_sym, HA|intros; lia|].
  revert A s HA. induction fuel as [|fuel IH]; intros A s HA; pose proof (one_isolated_sym A HA) as E.
  - unfold isolated_sym in E. cbn [repair_sym]. rewrite E. reflexivity.
  - rewrite repair_sym_unfold, E. apply IH. pose proof (proj2 HG 1%nat s ltac:(lia)) as HR. fold (sym_node G 1 s) in HR. replace (sym_node G 1 s) with 0%nat by lia. cbn. destruct diag; [apply upd2_eq|exact HA].
Qed.
Lemma one_sym_dense (G : source) fuel A s : source_contract G -> A 0%nat 0%nat = 0 -> repair_all G (isolated_sym 1 A) (fun ind => repair_sym_dense G 1 ind fuel) 1 A s = None.
Proof.
  intros HG HA. apply (repair_all_diverges G _ _ 1 A s 0); [lia|apply one_isolated_sym, HA|intros; lia|].
  revert A s HA. induction fuel as [|fuel IH]; intros A s HA; pose proof (one_isolated_sym A HA) as E.
  - unfold isolated_sym in E. cbn [repair_sym_dense]. rewrite E. reflexivity.
  - rewrite repair_sym_dense_unfold, E. apply IH. apply upd2_eq.
Qed.
Lemma one_sym_gauss (G : source) draw fuel A s : source_contract G -> A 0%nat 0%nat = 0 -> repair_all G (isolated_sym 1 A) (fun ind => repair_sym_gauss G draw 1 ind fuel) 1 A s = None.
Proof.
  intros HG HA. apply (repair_all_diverges G _ _ 1 A s 0); [lia|apply one_isolated_sym, HA|intros; lia|].
  revert A s HA. induction fuel as [|fuel IH]; intros A s HA; pose proof (one_isolated_sym A HA) as E; unfold isolated_sym in E; cbn [repair_sym_gauss]; rewrite E; [reflexivity|].
  pose proof (proj2 HG 1%nat s ltac:(lia)) as HR. destruct (m_randint G 1 s) as [r t]. cbn [fst] in HR. replace r with 0%nat by lia. cbn [Nat.eqb]. apply IH, HA.
Qed.
Lemma one_node (G : source) fuel mean sigma p sup_ext sym seed iw entropy : source_contract G -> valid_seed seed ->
  random_binary_matrix_generator_dense G fuel 1 sym seed entropy = Running /\
  random_binary_matrix_generator_custom_density G fuel 1 p sym seed entropy = Running /\
  random_weighted_matrix_generator_dense G fuel 1 sup_ext sym seed iw entropy = Running /\
  random_weighted_matrix_generator_uniform_custom_density G fuel 1 p sup_ext sym seed iw entropy = Running /\
  random_weighted_matrix_generator_gaussian_custom_density G fuel 1 mean sigma p sym seed iw entropy = Running.
Proof.
  intros HG HS. destruct (reseed_valid G seed entropy HS) as [s ES].
  unfold random_binary_matrix_generator_dense, random_binary_matrix_generator_custom_density, random_weighted_matrix_generator_dense, random_weighted_matrix_generator_uniform_custom_density,
    random_weighted_matrix_generator_gaussian_custom_density. rewrite ES.
  destruct sym; cbn [negb]; repeat split.
  - destruct (random_array _ _ _ _) as [B t]. rewrite one_sym_dense by (auto; reflexivity). reflexivity.
  - destruct (random_upper _ _ _ _ _) as [B t]. rewrite one_sym by (auto; reflexivity). reflexivity.
  - destruct (random_array _ _ _ _) as [B t]. rewrite one_sym by (auto; reflexivity). reflexivity.
  - pose proof (random_upper_P G (scaled_draw G sup_ext) (fun _ => True) I (fun _ => I) p 1 s) as (_ & _ & HZ). destruct (random_upper _ _ _ _ _) as [B t]. rewrite one_sym by (auto; apply HZ). reflexivity.
  - destruct (random_upper _ _ _ _ _) as [B t]. rewrite one_sym_gauss by (auto; reflexivity). reflexivity.
  - destruct (random_array _ _ _ _) as [B t]. rewrite one_dir by (auto; reflexivity). reflexivity.
  - destruct (random_cells _ _ _ _ _) as [B t]. rewrite one_dir by (auto; reflexivity). reflexivity.
  - destruct (random_array _ _ _ _) as [B t]. rewrite one_dir by (auto; reflexivity). reflexivity.
  - destruct (random_cells _ _ _ _ _) as [B t]. rewrite one_dir by (auto; reflexivity). reflexivity.
  - destruct (random_cells _ _ _ _ _) as [B t]. rewrite one_dir by (auto; reflexivity). reflexivity.
Qed.
Lemma scaled_0 (G : source) s : fst (scaled_draw G 0 s) = 0.
Proof. unfold scaled_draw. destruct (m_random G s) as [u t]. simpl. ring. Qed.
Lemma zero_dir (G : source) n fuel A s : source_contract G -> (0 < n)%nat -> (forall i j, A i j = 0) ->
  repair_all G (isolated_dir n A) (fun ind => repair_dir G (scaled_draw G 0) n ind fuel) n A s = None.
Proof.
  intros HG Hn HA. assert (HD : forall s, 0 <= fst (scaled_draw G 0 s)) by (intros; rewrite scaled_0; lra). assert (HI : inv_dir n nn A) by (split; [intros i _; apply HA|intros i j _ _; rewrite HA; apply Rle_refl]).
  assert (HT : ~ touched n A 0) by (intros (j & _ & [H|H]); apply H, HA).
  apply (repair_all_diverges G _ _ n A s 0); [exact Hn|apply isolated_dir_iff; assumption|intros; lia|].
  apply repair_dir_diverges; auto. intros (k & _ & H). apply H. unfold dir_value. apply scaled_0.
Qed.
Lemma zero_sym (G : source) n diag fuel A s : source_contract G -> (0 < n)%nat -> (forall i j, A i j = 0) ->
  repair_all G (isolated_sym n A) (fun ind => repair_sym G (scaled_draw G 0) diag n ind fuel) n A s = None.
Proof.
  intros HG Hn HA. assert (HD : forall s, 0 <= fst (scaled_draw G 0 s)) by (intros; rewrite scaled_0; lra).
  assert (HI : inv_sym n nn A) by (split; [intros i _; apply HA|split; [intros i j _ _; rewrite !HA; reflexivity|intros i j _ _; rewrite HA; apply Rle_refl]]).
  assert (HT : ~ touched n A 0) by (intros (j & _ & [H|H]); apply H, HA).
  apply (repair_all_diverges G _ _ n A s 0); [exact Hn|apply isolated_sym_iff; assumption|intros; lia|].
  apply repair_sym_diverges; auto. intros (k & _ & H). apply H. unfold sym_value. apply scaled_0.
Qed.
Lemma no_weight (G : source) fuel n p sym seed iw entropy : source_contract G -> valid_seed seed -> (0 < n)%nat ->
  random_weighted_matrix_generator_dense G fuel n 0 sym seed iw entropy = Running /\
  random_weighted_matrix_generator_uniform_custom_density G fuel n p 0 sym seed iw entropy = Running.
Proof.
  intros HG HS Hn. destruct (reseed_valid G seed entropy HS) as [s ES]. unfold random_weighted_matrix_generator_dense, random_weighted_matrix_generator_uniform_custom_density. rewrite ES.
  set (P := fun v => v = 0). assert (HD : forall s, P (fst (scaled_draw G 0 s))) by (intros; apply scaled_0). assert (H0 : P 0) by reflexivity.
  assert (FD : forall A, (forall i j, A i j = 0) -> forall i j, fill_diagonal A i j = 0) by (intros A H i j; unfold fill_diagonal; destruct (Nat.eqb i j); auto).
  destruct sym; cbn [negb]; split.
  - pose proof (random_array_P G _ P H0 HD n s) as HB. destruct (random_array _ _ _ _) as [B t]. cbn [fst] in HB. rewrite zero_sym; auto. apply FD. intros i j. rewrite !HB. lra.
  - destruct (random_upper_P G _ P H0 HD p n s) as (HB & _). destruct (random_upper _ _ _ _ _) as [B t]. cbn [fst] in HB. rewrite zero_sym; auto.
  - pose proof (random_array_P G _ P H0 HD n s) as HB. destruct (random_array _ _ _ _) as [B t]. cbn [fst] in HB. rewrite zero_dir; auto.
  - pose proof (random_cells_P G _ P H0 HD p n s) as HB. destruct (random_cells _ _ _ _ _) as [B t]. cbn [fst] in HB. rewrite zero_dir; auto.
Qed.
