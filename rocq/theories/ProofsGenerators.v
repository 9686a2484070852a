(** The generators: validity of the matrices and termination. *)
From Coq Require Import Reals List Arith Bool ZArith Lia Lra.
From Verif Require Import Base ModelGenerators SpecGenerators.
Import ListNotations.
Local Open Scope R_scope.

Lemma upd2_eq A i j v : upd2 A i j v i j = v.
Proof. unfold upd2. rewrite !Nat.eqb_refl. reflexivity. Qed.
Lemma upd2_neq A i j v a b : (a <> i \/ b <> j) -> upd2 A i j v a b = A a b.
Proof. intros H. unfold upd2. destruct (Nat.eqb_spec a i), (Nat.eqb_spec b j); simpl; try reflexivity. lia. Qed.
Lemma eq0_true v : eq0 v = true <-> v = 0.
Proof. unfold eq0. destruct (Req_EM_T v 0); split; intros; congruence. Qed.
Lemma eq0_false v : eq0 v = false <-> v <> 0.
Proof. unfold eq0. destruct (Req_EM_T v 0); split; intros; congruence. Qed.
Lemma rsum_nonzero n f : rsum n f <> 0 -> exists j, (j < n)%nat /\ f j <> 0.
Proof.
  induction n as [|n IH]; simpl; intros H; [lra|]. destruct (Req_dec (f n) 0) as [E|E].
  - rewrite E, Rplus_0_r in H. destruct (IH H) as (j & Hj & Hf). exists j. split; [lia|exact Hf].
  - exists n. split; [lia|exact E].
Qed.
(** Non-zero entries stay non-zero. *)
Definition keeps (n : nat) (A A' : nat -> nat -> R) : Prop := forall a b, (a < n)%nat -> (b < n)%nat -> A a b <> 0 -> A' a b <> 0.
Lemma keeps_refl n A : keeps n A A.
Proof. intros a b _ _ H. exact H. Qed.
Lemma keeps_trans n A B C : keeps n A B -> keeps n B C -> keeps n A C.
Proof. intros H1 H2 a b Ha Hb H. auto. Qed.
Lemma keeps_touched n A A' i : (i < n)%nat -> keeps n A A' -> touched n A i -> touched n A' i.
Proof. intros Hi HK (j & Hj & [H|H]); exists j; split; auto. Qed.
Lemma col_touched n A i : col_sum n A i <> 0 -> touched n A i.
Proof. intros H. apply rsum_nonzero in H. destruct H as (j & Hj & H). exists j. auto. Qed.
Lemma row_touched n A i : row_sum n A i <> 0 -> touched n A i.
Proof. intros H. apply rsum_nonzero in H. destruct H as (j & Hj & H). exists j. auto. Qed.
Lemma not_isolated_dir n A i : isolated_dir n A i = false -> touched n A i.
Proof. unfold isolated_dir. intros H. apply andb_false_iff in H. destruct H as [H|H]; apply eq0_false in H; [apply col_touched|apply row_touched]; exact H. Qed.
Lemma not_isolated_sym n A i : isolated_sym n A i = false -> touched n A i.
Proof. unfold isolated_sym. intros H. apply eq0_false in H. apply col_touched, H. Qed.

Definition inv_dir (n : nat) (P : R -> Prop) (A : nat -> nat -> R) : Prop := zero_diagonal n A /\ entries n P A.
Definition inv_sym (n : nat) (P : R -> Prop) (A : nat -> nat -> R) : Prop := zero_diagonal n A /\ symmetric n A /\ entries n P A.

Section Repair.
Variable G : source.
Hypothesis HG : source_contract G.
Variable draw : mstate G -> R * mstate G.
Variable P : R -> Prop.
Hypothesis HP0 : P 0.
Hypothesis HPd : forall s, P (fst (draw s)).
Hypothesis Hmode : (forall v, P v -> 0 <= v) \/ (forall s, fst (draw s) <> 0).

Lemma dir_iteration n ind A x y v : (ind < n)%nat -> (x < n)%nat -> (y < n)%nat -> (x = ind \/ y = ind) -> P v -> ((forall w, P w -> 0 <= w) \/ v <> 0) ->
  inv_dir n P A -> eq0 (col_sum n A ind) && eq0 (row_sum n A ind) = true ->
  inv_dir n P (upd2 (upd2 A x y v) ind ind 0) /\ keeps n A (upd2 (upd2 A x y v) ind ind 0).
Proof.
  intros Hi Hx Hy Hxy HV HM (HZ & HE) HC. apply andb_true_iff in HC. destruct HC as [HC1 HC2]. apply eq0_true in HC1. apply eq0_true in HC2. split; [split|].
  - intros i Hii. destruct (Nat.eq_dec i ind) as [->|N]; [apply upd2_eq|]. rewrite upd2_neq by auto. rewrite upd2_neq by (destruct Hxy; [left|right]; congruence). auto.
  - intros a b Ha Hb. unfold upd2. destruct (Nat.eqb a ind && Nat.eqb b ind); [exact HP0|]. destruct (Nat.eqb a x && Nat.eqb b y); [exact HV|]. auto.
  - intros a b Ha Hb HN. destruct (Nat.eq_dec a ind) as [->|Na]; [destruct (Nat.eq_dec b ind) as [->|Nb]; [exfalso; apply HN, HZ, Ha|]|];
      (rewrite upd2_neq by auto; unfold upd2; destruct (Nat.eqb_spec ind x); destruct (Nat.eqb_spec b y); try (destruct (Nat.eqb_spec a x)); simpl; try exact HN; subst).
    all: destruct HM as [HM|HM]; [|exact HM].
    all: exfalso; apply HN.
    + apply (rsum_nonneg_zero n (fun j => A x j)); [intros j Hj; apply HM, HE; assumption|exact HC2|assumption].
    + apply (rsum_nonneg_zero n (fun j => A x j)); [intros j Hj; apply HM, HE; assumption|exact HC2|assumption].
    + destruct Hxy as [E|E]; [congruence|]. subst y. apply (rsum_nonneg_zero n (fun j => A j ind)); [intros j Hj; apply HM, HE; assumption|exact HC1|assumption].
Qed.
Lemma repair_dir_ok n ind fuel : (ind < n)%nat -> forall A s A' s', inv_dir n P A -> repair_dir G draw n ind fuel A s = Some (A', s') ->
  inv_dir n P A' /\ keeps n A A' /\ touched n A' ind.
Proof.
  intros Hi. induction fuel as [|fuel IH]; intros A s A' s' HI; cbn [repair_dir]; destruct (eq0 (col_sum n A ind) && eq0 (row_sum n A ind)) eqn:EC; try discriminate.
  1, 3: intros E; injection E as <- <-; split; [exact HI|split; [apply keeps_refl|apply not_isolated_dir, EC]].
  destruct (m_random G s) as [u s1]. pose proof (HPd s1) as HV. assert (HM : (forall w, P w -> 0 <= w) \/ fst (draw s1) <> 0) by (destruct Hmode; auto).
  destruct (draw s1) as [v s2]. cbn [fst] in HV, HM. pose proof (proj2 HG n s2 ltac:(lia)) as HR. destruct (m_randint G n s2) as [r s3]. cbn [fst] in HR.
  intros E. assert (HA : inv_dir n P (upd2 (if Rgt_dec u (1 / 2) then upd2 A r ind v else upd2 A ind r v) ind ind 0) /\
    keeps n A (upd2 (if Rgt_dec u (1 / 2) then upd2 A r ind v else upd2 A ind r v) ind ind 0)).
  { destruct (Rgt_dec u (1 / 2)); apply dir_iteration; auto. }
  destruct HA as [HA HK]. destruct (IH _ _ _ _ HA E) as (H1 & H2 & H3). split; [exact H1|split; [exact (keeps_trans _ _ _ _ HK H2)|exact H3]].
Qed.
Lemma sym_iteration n ind A r v : (ind < n)%nat -> (r < n)%nat -> r <> ind -> P v -> ((forall w, P w -> 0 <= w) \/ v <> 0) ->
  inv_sym n P A -> eq0 (col_sum n A ind) = true ->
  forall B, (forall a b, B a b = if (Nat.eqb a ind && Nat.eqb b r) || (Nat.eqb a r && Nat.eqb b ind) then v else A a b) ->
  inv_sym n P B /\ keeps n A B.
Proof.
  intros Hi Hr HN HV HM (HZ & HS & HE) HC B HB. apply eq0_true in HC. split; [split; [|split]|].
  - intros i Hii. rewrite HB. destruct (Nat.eqb_spec i ind), (Nat.eqb_spec i r); simpl; try (apply HZ; assumption). congruence.
  - intros a b Ha Hb. rewrite !HB. destruct (Nat.eqb a ind), (Nat.eqb b r), (Nat.eqb a r), (Nat.eqb b ind); simpl; auto.
  - intros a b Ha Hb. rewrite HB. destruct (_ || _); auto.
  - intros a b Ha Hb HA. rewrite HB. destruct (_ || _) eqn:E; [|exact HA]. destruct HM as [HM|HM]; [|exact HM]. exfalso. apply HA. apply orb_true_iff in E.
    assert (Z : forall j, (j < n)%nat -> A j ind = 0) by (apply (rsum_nonneg_zero n (fun j => A j ind)); [intros j Hj; apply HM, HE; assumption|exact HC]).
    destruct E as [E|E]; apply andb_true_iff in E; destruct E as [E1 E2]; apply Nat.eqb_eq in E1; apply Nat.eqb_eq in E2; subst; [rewrite HS by assumption|]; apply Z; assumption.
Qed.
Lemma upd2_twice A x y v : forall B, B = upd2 A x y v -> forall a b, upd2 B y x (B x y) a b = if (Nat.eqb a x && Nat.eqb b y) || (Nat.eqb a y && Nat.eqb b x) then v else A a b.
Proof. intros B -> a b. rewrite upd2_eq. unfold upd2. destruct (Nat.eqb a y && Nat.eqb b x), (Nat.eqb a x && Nat.eqb b y); reflexivity. Qed.
Lemma sym_zero_diag n ind A : inv_sym n P A -> (ind < n)%nat -> inv_sym n P (upd2 A ind ind 0) /\ keeps n A (upd2 A ind ind 0).
Proof.
  intros (HZ & HS & HE) Hi. assert (E : forall a b, (a < n)%nat -> (b < n)%nat -> upd2 A ind ind 0 a b = A a b).
  { intros a b Ha Hb. unfold upd2. destruct (Nat.eqb_spec a ind), (Nat.eqb_spec b ind); subst; simpl; try reflexivity. symmetry. apply HZ, Hi. }
  split; [split; [|split]|].
  - intros i Hii. rewrite E by assumption. auto.
  - intros i j Hii Hj. rewrite !E by assumption. auto.
  - intros i j Hii Hj. rewrite !E by assumption. auto.
  - intros i j Hii Hj. rewrite !E by assumption. auto.
Qed.
Lemma repair_sym_ok diag n ind fuel : (ind < n)%nat -> forall A s A' s', inv_sym n P A -> repair_sym G draw diag n ind fuel A s = Some (A', s') ->
  inv_sym n P A' /\ keeps n A A' /\ touched n A' ind.
Proof.
  intros Hi. induction fuel as [|fuel IH]; intros A s A' s' HI; cbn [repair_sym]; destruct (eq0 (col_sum n A ind)) eqn:EC; try discriminate.
  1, 3: intros E; injection E as <- <-; split; [exact HI|split; [apply keeps_refl|apply not_isolated_sym, EC]].
  pose proof (proj2 HG n s ltac:(lia)) as HR. destruct (m_randint G n s) as [r s1]. cbn [fst] in HR. destruct (Nat.eqb_spec r ind) as [ER|ER].
  - intros E. assert (HA : inv_sym n P (if diag then upd2 A ind ind 0 else A) /\ keeps n A (if diag then upd2 A ind ind 0 else A)) by (destruct diag; [apply sym_zero_diag; assumption|split; [assumption|apply keeps_refl]]).
    destruct HA as [HA HK]. destruct (IH _ _ _ _ HA E) as (H1 & H2 & H3). split; [exact H1|split; [exact (keeps_trans _ _ _ _ HK H2)|exact H3]].
  - pose proof (HPd s1) as HV. assert (HM : (forall w, P w -> 0 <= w) \/ fst (draw s1) <> 0) by (destruct Hmode; auto). destruct (draw s1) as [v s2]. cbn [fst] in HV, HM. intros E.
    destruct (sym_iteration n ind A r v Hi HR ER HV HM HI EC _ (upd2_twice A ind r v _ eq_refl)) as [HA HK].
    set (B := upd2 (upd2 A ind r v) r ind (upd2 A ind r v ind r)) in *.
    assert (HB : inv_sym n P (if diag then upd2 B ind ind 0 else B) /\ keeps n B (if diag then upd2 B ind ind 0 else B)) by (destruct diag; [apply sym_zero_diag; assumption|split; [assumption|apply keeps_refl]]).
    destruct HB as [HB HK']. destruct (IH _ _ _ _ HB E) as (H1 & H2 & H3). split; [exact H1|split; [exact (keeps_trans _ _ _ _ (keeps_trans _ _ _ _ HK HK') H2)|exact H3]].
Qed.
Lemma repair_sym_gauss_ok n ind fuel : (ind < n)%nat -> forall A s A' s', inv_sym n P A -> repair_sym_gauss G draw n ind fuel A s = Some (A', s') ->
  inv_sym n P A' /\ keeps n A A' /\ touched n A' ind.
Proof.
  intros Hi. induction fuel as [|fuel IH]; intros A s A' s' HI; cbn [repair_sym_gauss]; destruct (eq0 (col_sum n A ind)) eqn:EC; try discriminate.
  1, 3: intros E; injection E as <- <-; split; [exact HI|split; [apply keeps_refl|apply not_isolated_sym, EC]].
  pose proof (proj2 HG n s ltac:(lia)) as HR. destruct (m_randint G n s) as [r s1]. cbn [fst] in HR. destruct (Nat.eqb_spec r ind) as [ER|ER].
  - intros E. exact (IH _ _ _ _ HI E).
  - pose proof (HPd s1) as HV. assert (HM : (forall w, P w -> 0 <= w) \/ fst (draw s1) <> 0) by (destruct Hmode; auto). destruct (draw s1) as [v s2]. cbn [fst] in HV, HM. intros E.
    assert (HB : forall a b, upd2 (upd2 A r ind v) ind r (upd2 A r ind v r ind) a b = if (Nat.eqb a ind && Nat.eqb b r) || (Nat.eqb a r && Nat.eqb b ind) then v else A a b).
    { intros a b. rewrite (upd2_twice A r ind v _ eq_refl). rewrite orb_comm. reflexivity. }
    destruct (sym_iteration n ind A r v Hi HR ER HV HM HI EC _ HB) as [HA HK].
    destruct (IH _ _ _ _ HA E) as (H1 & H2 & H3). split; [exact H1|split; [exact (keeps_trans _ _ _ _ HK H2)|exact H3]].
Qed.
End Repair.
Lemma repair_sym_dense_ok (G : source) (P : R -> Prop) n ind fuel : source_contract G -> P 0 -> P 1 -> (forall v, P v -> 0 <= v) -> (ind < n)%nat -> forall A s A' s', inv_sym n P A ->
  repair_sym_dense G n ind fuel A s = Some (A', s') -> inv_sym n P A' /\ keeps n A A' /\ touched n A' ind.
Proof.
  intros HG HP0 HP1 HM Hi. induction fuel as [|fuel IH]; intros A s A' s' HI; cbn [repair_sym_dense]; destruct (eq0 (col_sum n A ind)) eqn:EC; try discriminate.
  1, 3: intros E; injection E as <- <-; split; [exact HI|split; [apply keeps_refl|apply not_isolated_sym, EC]].
  pose proof (proj2 HG n s ltac:(lia)) as HR. destruct (m_randint G n s) as [r s1]. cbn [fst] in HR. intros E.
  assert (HA : inv_sym n P (upd2 (upd2 (upd2 A r ind 1) ind r 1) ind ind 0) /\ keeps n A (upd2 (upd2 (upd2 A r ind 1) ind r 1) ind ind 0)).
  { destruct (Nat.eq_dec r ind) as [->|ER].
    - assert (EQ : forall a b, upd2 (upd2 (upd2 A ind ind 1) ind ind 1) ind ind 0 a b = upd2 A ind ind 0 a b) by (intros a b; unfold upd2; destruct (Nat.eqb a ind && Nat.eqb b ind); reflexivity).
      destruct (sym_zero_diag P n ind A HI Hi) as ((H1 & H2 & H3) & H4). split; [split; [|split]|].
      + intros i Hii. rewrite EQ. auto.
      + intros i j Hii Hj. rewrite !EQ. auto.
      + intros i j Hii Hj. rewrite !EQ. auto.
      + intros i j Hii Hj. rewrite !EQ. auto.
    - assert (HB : forall a b, upd2 (upd2 A r ind 1) ind r 1 a b = if (Nat.eqb a ind && Nat.eqb b r) || (Nat.eqb a r && Nat.eqb b ind) then 1 else A a b).
      { intros a b. unfold upd2. destruct (Nat.eqb a ind && Nat.eqb b r), (Nat.eqb a r && Nat.eqb b ind); reflexivity. }
      destruct (sym_iteration P n ind A r 1 Hi HR ER HP1 (or_introl HM) HI EC _ HB) as [H1 H2]. destruct (sym_zero_diag P n ind _ H1 Hi) as [H3 H4]. split; [exact H3|exact (keeps_trans _ _ _ _ H2 H4)]. }
  destruct HA as [HA HK]. destruct (IH _ _ _ _ HA E) as (H1 & H2 & H3). split; [exact H1|split; [exact (keeps_trans _ _ _ _ HK H2)|exact H3]].
Qed.

(** * The loop over the nodes *)
Lemma fold_left_none {A B} (f : option A -> B -> option A) l : (forall b, f None b = None) -> fold_left f l None = None.
Proof. intros H. induction l as [|b l IH]; [reflexivity|]. simpl. rewrite H. exact IH. Qed.
Lemma repair_all_ok (G : source) (Inv : (nat -> nat -> R) -> Prop) todo repair n :
  (forall ind A s A' s', (ind < n)%nat -> Inv A -> repair ind A s = Some (A', s') -> Inv A' /\ keeps n A A' /\ touched n A' ind) ->
  forall A s A' s', Inv A -> (forall ind, (ind < n)%nat -> todo ind = false -> touched n A ind) -> repair_all G todo repair n A s = Some (A', s') -> Inv A' /\ no_isolated n A'.
Proof.
  intros HR A0 s0 A' s' HI HT. unfold repair_all.
  assert (HM : forall m A1 s1, (m <= n)%nat -> fold_left (fun acc ind => match acc with None => None | Some (A, s) => if todo ind then repair ind A s else Some (A, s) end) (seq 0 m) (Some (A0, s0)) = Some (A1, s1) ->
     Inv A1 /\ keeps n A0 A1 /\ forall ind, (ind < m)%nat -> touched n A1 ind).
  { induction m as [|m IH]; intros A1 s1 Hm.
    - simpl. intros E. injection E as <- <-. split; [exact HI|split; [apply keeps_refl|intros; lia]].
    - rewrite seq_S, fold_left_app. simpl. destruct (fold_left _ (seq 0 m) _) as [[A2 s2]|] eqn:E2; [|discriminate].
      destruct (IH A2 s2 ltac:(lia) eq_refl) as (H1 & H2 & H3). destruct (todo m) eqn:ET.
      + intros E. destruct (HR m A2 s2 A1 s1 ltac:(lia) H1 E) as (H4 & H5 & H6). split; [exact H4|split; [exact (keeps_trans _ _ _ _ H2 H5)|]].
        intros ind Hind. destruct (Nat.eq_dec ind m) as [->|N]; [exact H6|]. apply (keeps_touched n A2); [lia|exact H5|apply H3; lia].
      + intros E. injection E as <- <-. split; [exact H1|split; [exact H2|]]. intros ind Hind. destruct (Nat.eq_dec ind m) as [->|N]; [|apply H3; lia].
        apply (keeps_touched n A0); [lia|exact H2|apply HT; [lia|exact ET]]. }
  intros E. destruct (HM n A' s' (le_n n) E) as (H1 & _ & H3). split; [exact H1|exact H3].
Qed.
