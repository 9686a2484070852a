(** Nodes with the same constraints are treated alike by every solution. *)
From Coq Require Import Reals List Arith Lia Lra Bool FunctionalExtensionality.
From Verif Require Import Base SpecGraph SpecWeighted SpecDirected SpecNetwork SpecSymmetry SpecEnsemble.
From Verif Require Import ModelCM ModelECM ModelDCM ModelDECM.
From Verif Require Import ProofsGraph ProofsCM ProofsECM ProofsDECM ProofsMainCM ProofsMainECM ProofsMainDCM ProofsFixDECM.
From Verif Require Import ProofsRelabel ProofsEquivariant.
Local Open Scope R_scope.

(** * UBCM: degrees and parameters are in the same order *)

Lemma frac_le a b : 0 <= a -> a <= b -> a / (1 + a) <= b / (1 + b).
Proof.
  intros Ha Hab. apply Rmult_le_reg_r with ((1 + a) * (1 + b)); [nra|].
  replace (a / (1 + a) * ((1 + a) * (1 + b))) with (a * (1 + b)) by (field; lra).
  replace (b / (1 + b) * ((1 + a) * (1 + b))) with (b * (1 + a)) by (field; lra). nra.
Qed.
Lemma frac_lt a b : 0 <= a -> a < b -> a / (1 + a) < b / (1 + b).
Proof.
  intros Ha Hab. apply Rmult_lt_reg_r with ((1 + a) * (1 + b)); [nra|].
  replace (a / (1 + a) * ((1 + a) * (1 + b))) with (a * (1 + b)) by (field; lra).
  replace (b / (1 + b) * ((1 + a) * (1 + b))) with (b * (1 + a)) by (field; lra). nra.
Qed.

Lemma expected_cm_diff n x i j : (i < n)%nat -> (j < n)%nat -> i <> j ->
  expected_degree_cm n x j - expected_degree_cm n x i =
  rsum n (fun l => if Nat.eqb i l then 0 else if Nat.eqb j l then 0 else p_ubcm x j l - p_ubcm x i l).
Proof.
  intros Hi Hj Hij. rewrite !expected_degree_cm_nf.
  assert (E : forall a b, (a < n)%nat -> (b < n)%nat -> a <> b ->
    rsum n (fun l => if Nat.eqb a l then 0 else p_ubcm x a l) =
    p_ubcm x a b + rsum n (fun l => if Nat.eqb a l then 0 else if Nat.eqb b l then 0 else p_ubcm x a l)).
  { intros a b Ha Hb Hab. rewrite <- (rsum_single n b (fun l => p_ubcm x a l) Hb), <- rsum_plus.
    apply rsum_ext. intros l _. rewrite (Nat.eqb_sym l b).
    destruct (Nat.eqb_spec a l), (Nat.eqb_spec b l); subst; try congruence; ring. }
  rewrite (E j i Hj Hi) by auto. rewrite (E i j Hi Hj Hij).
  replace (p_ubcm x j i) with (p_ubcm x i j) by (unfold p_ubcm; rewrite (Rmult_comm (x i)); reflexivity).
  match goal with |- _ + ?A - (_ + ?B) = _ => transitivity (A - B); [ring|] end.
  rewrite <- rsum_minus. apply rsum_ext.
  intros l _. destruct (Nat.eqb i l), (Nat.eqb j l); ring.
Qed.

Lemma expected_cm_mono n x i j : (forall q, (q < n)%nat -> 0 <= x q) -> (i < n)%nat -> (j < n)%nat ->
  x i <= x j -> expected_degree_cm n x i <= expected_degree_cm n x j.
Proof.
  intros Hx Hi Hj H. destruct (Nat.eq_dec i j) as [->|Hij]; [lra|].
  cut (0 <= expected_degree_cm n x j - expected_degree_cm n x i); [lra|]. rewrite (expected_cm_diff n x i j Hi Hj Hij). apply rsum_nonneg. intros l Hl.
  destruct (Nat.eqb i l); [lra|]. destruct (Nat.eqb j l); [lra|]. unfold p_ubcm.
  pose proof (Hx i Hi). pose proof (Hx l Hl). assert (0 <= x i * x l) by nra. assert (x i * x l <= x j * x l) by nra.
  pose proof (frac_le (x i * x l) (x j * x l) H2 H3). lra.
Qed.
Lemma expected_cm_strict n x i j l : (forall q, (q < n)%nat -> 0 <= x q) -> (i < n)%nat -> (j < n)%nat -> (l < n)%nat ->
  l <> i -> l <> j -> 0 < x l -> x i < x j -> expected_degree_cm n x i < expected_degree_cm n x j.
Proof.
  intros Hx Hi Hj Hl Hli Hlj Hp H. assert (Hij : i <> j) by (intros ->; lra).
  cut (0 < expected_degree_cm n x j - expected_degree_cm n x i); [lra|]. rewrite (expected_cm_diff n x i j Hi Hj Hij).
  apply (rsum_pos n _ l); [|exact Hl|].
  - intros q Hq. destruct (Nat.eqb i q); [lra|]. destruct (Nat.eqb j q); [lra|]. unfold p_ubcm.
    pose proof (Hx i Hi). pose proof (Hx q Hq). assert (0 <= x i * x q) by nra. assert (x i * x q <= x j * x q) by nra.
    pose proof (frac_le (x i * x q) (x j * x q) H2 H3). lra.
  - rewrite (proj2 (Nat.eqb_neq i l)), (proj2 (Nat.eqb_neq j l)) by auto. unfold p_ubcm.
    pose proof (Hx i Hi). assert (0 <= x i * x l) by nra. assert (x i * x l < x j * x l) by nra.
    pose proof (frac_lt (x i * x l) (x j * x l) H1 H2). lra.
Qed.

Lemma order_cm n x i j l : (forall q, (q < n)%nat -> 0 <= x q) -> (i < n)%nat -> (j < n)%nat -> (l < n)%nat ->
  l <> i -> l <> j -> 0 < x l ->
  (x i < x j <-> expected_degree_cm n x i < expected_degree_cm n x j) /\
  (x i = x j <-> expected_degree_cm n x i = expected_degree_cm n x j).
Proof.
  intros Hx Hi Hj Hl Hli Hlj Hp.
  pose proof (expected_cm_mono n x i j Hx Hi Hj) as M1. pose proof (expected_cm_mono n x j i Hx Hj Hi) as M2.
  pose proof (expected_cm_strict n x i j l Hx Hi Hj Hl Hli Hlj Hp) as S1.
  pose proof (expected_cm_strict n x j i l Hx Hj Hi Hl Hlj Hli Hp) as S2.
  destruct (Rtotal_order (x i) (x j)) as [T|[T|T]]; split; split; intros; try lra;
    try (specialize (S1 T)); try (specialize (S2 T)); try lra;
    specialize (M1 (Req_le _ _ T)); specialize (M2 (Req_le _ _ (eq_sym T))); lra.
Qed.

(** * Constraint-preserving renamings *)

Lemma alike_ecm n k s x p : (3 <= n)%nat -> ecm_dom n x -> relabelling n p ->
  (forall i, (i < n)%nat -> expected_ecm n x i = k i /\ expected_ecm n x (i + n) = s i) ->
  (forall i, (i < n)%nat -> k (p i) = k i /\ s (p i) = s i) ->
  forall i, (i < n)%nat -> x (p i) = x i /\ x (p i + n)%nat = x (i + n)%nat.
Proof.
  intros Hn HD HP HS HK.
  assert (U : forall r, (r < 2 * n)%nat -> x (lift n p r) = x r).
  { apply (solution_ecm_unique_parameters n k s x (fun r => x (lift n p r)) Hn HD).
    - destruct HD as [D1 D2]. split.
      + intros i Hi. rewrite lift0, lift1 by exact Hi. apply D1. apply HP; exact Hi.
      + intros i j Hi Hj Hij. rewrite !lift1 by assumption. apply D2; [apply HP; exact Hi|apply HP; exact Hj|].
        intros E. apply Hij. apply (proj2 HP); assumption.
    - exact HS.
    - intros i Hi. rewrite !(expected_ecm_equi n p HP) by lia. rewrite lift0, lift1 by exact Hi.
      destruct (HK i Hi) as [<- <-]. apply HS. apply HP; exact Hi. }
  intros i Hi. split.
  - rewrite <- (U i) by lia. rewrite lift0 by exact Hi. reflexivity.
  - rewrite <- (U (i + n)%nat) by lia. rewrite lift1 by exact Hi. reflexivity.
Qed.

Lemma expand_id n (x : nat -> R) : expand n n (fun i => i) x = x.
Proof.
  apply functional_extensionality. intros r. unfold expand. destruct (Nat.ltb_spec r n); [reflexivity|].
  f_equal. lia.
Qed.

Lemma alike_dcm n k_out k_in nzo nzi x p :
  nonzero_list n k_out nzo -> nonzero_list n k_in nzi -> dcm_full n nzo nzi x -> relabelling n p ->
  (forall i, (i < n)%nat -> expected_out_degree_dcm n x i = k_out i /\ expected_in_degree_dcm n x i = k_in i) ->
  (forall i, (i < n)%nat -> k_out (p i) = k_out i /\ k_in (p i) = k_in i) ->
  forall i j, (i < n)%nat -> (j < n)%nat -> i <> j ->
  p_dbcm x (fun v => x (v + n)%nat) (p i) (p j) = p_dbcm x (fun v => x (v + n)%nat) i j.
Proof.
  intros Ho Hi ((D1 & D2) & Z1 & Z2) HP HS HK.
  assert (Mo : forall i, (i < n)%nat -> (In (p i) nzo <-> In i nzo)).
  { intros i Hin. rewrite !(proj2 Ho). rewrite (proj1 (HK i Hin)). pose proof (relabelling_lt n p i HP Hin). tauto. }
  assert (Mi : forall i, (i < n)%nat -> (In (p i) nzi <-> In i nzi)).
  { intros i Hin. rewrite !(proj2 Hi). rewrite (proj2 (HK i Hin)). pose proof (relabelling_lt n p i HP Hin). tauto. }
  assert (Bo : forall i, In i nzo -> (i < n)%nat) by (intros i Q; apply Ho in Q; tauto).
  assert (Bi : forall i, In i nzi -> (i < n)%nat) by (intros i Q; apply Hi in Q; tauto).
  intros i j Hin Hjn Hij.
  assert (FF : dcm_full n nzo nzi x) by (split; [split; assumption|split; assumption]).
  assert (FZ : dcm_full n nzo nzi (fun r => x (lift n p r))).
  { split; [split|split].
    - intros a Ha. rewrite lift0 by auto. apply D1. apply Mo; auto.
    - intros a Ha. rewrite lift1 by auto. apply D2. apply Mi; auto.
    - intros a Ha N. rewrite lift0 by auto. apply Z1; [apply HP; exact Ha|]. intros Q. apply N, Mo; assumption.
    - intros a Ha N. rewrite lift1 by auto. apply Z2; [apply HP; exact Ha|]. intros Q. apply N, Mi; assumption. }
  pose proof (solution_dcm_unique n n (fun i => i) k_out k_in nzo nzi (fun _ => 1) x (fun r => x (lift n p r))
    (classes_id n) Ho Hi FF FZ) as U. rewrite !expand_id in U.
  specialize (U HS).
  assert (HZ : forall i, (i < n)%nat -> expected_out_degree_dcm n (fun r => x (lift n p r)) i = k_out i /\
     expected_in_degree_dcm n (fun r => x (lift n p r)) i = k_in i).
  { intros a Ha. rewrite (expected_out_dcm_equi n p HP), (expected_in_dcm_equi n p HP) by exact Ha.
    destruct (HK a Ha) as [<- <-]. apply HS. apply HP; exact Ha. }
  specialize (U HZ (seq 0 n) (seq 0 n) i j Hin Hjn).
  unfold pmatrix_dcm in U.
  assert (M : forall a, (a < n)%nat -> memb a (seq 0 n) = true).
  { intros a Ha. unfold memb. apply existsb_exists. exists a. split; [apply in_seq; lia|apply Nat.eqb_refl]. }
  rewrite !M in U by assumption. rewrite (proj2 (Nat.eqb_neq i j) Hij) in U. simpl in U.
  rewrite lift0, lift1 in U by assumption. exact U.
Qed.

Lemma alike_decm n ko ki so si x p :
  decm_dom n x -> decm_supp n ko ki so si x -> relabelling n p ->
  (forall r, (r < 4 * n)%nat -> expected_decm n x r = decm_constraint n ko ki so si r) ->
  (forall i, (i < n)%nat -> ko (p i) = ko i /\ ki (p i) = ki i /\ so (p i) = so i /\ si (p i) = si i) ->
  forall i j w, (i < n)%nat -> (j < n)%nat -> i <> j ->
  q_enh (x (p i) * x (p j + n)%nat) (x (p i + 2 * n)%nat * x (p j + 3 * n)%nat) w =
  q_enh (x i * x (j + n)%nat) (x (i + 2 * n)%nat * x (j + 3 * n)%nat) w.
Proof.
  intros HD HSu HP HS HK i j w Hi Hj Hij.
  pose proof (solution_decm_unique n ko ki so si x (fun r => x (lift n p r)) HD) as U.
  assert (DZ : decm_dom n (fun r => x (lift n p r))).
  { destruct HD as [D1 D2]. split.
    - apply coord4; intros a Ha; pose proof (relabelling_lt n p a HP Ha); cbv beta;
        rewrite ?lift3, ?lift2, ?lift1 by exact Ha; rewrite ?lift0 by exact Ha; apply D1; lia.
    - intros a b Ha Hb Hab. rewrite lift2, lift3 by assumption.
      apply D2; [apply HP; exact Ha|apply HP; exact Hb|]. intros E. apply Hab. apply (proj2 HP); assumption. }
  assert (SZ : decm_supp n ko ki so si (fun r => x (lift n p r))).
  { intros a Ha. destruct (HK a Ha) as (E1 & E2 & E3 & E4).
    destruct (HSu (p a) (relabelling_lt n p a HP Ha)) as (Q1 & Q2 & Q3 & Q4).
    rewrite lift3, lift2, lift1, lift0 by exact Ha. rewrite E1 in Q1. rewrite E2 in Q2. rewrite E3 in Q3. rewrite E4 in Q4. auto. }
  specialize (U DZ HSu SZ HS).
  assert (HZ : forall r, (r < 4 * n)%nat -> expected_decm n (fun r => x (lift n p r)) r = decm_constraint n ko ki so si r).
  { intros r Hr. rewrite (expected_decm_equi n p HP) by exact Hr. revert r Hr.
    apply coord4; intros a Ha; pose proof (relabelling_lt n p a HP Ha) as Hpa; destruct (HK a Ha) as (E1 & E2 & E3 & E4);
      rewrite ?lift3, ?lift2, ?lift1 by exact Ha; rewrite ?lift0 by exact Ha; rewrite HS by lia;
      rewrite ?constraint0, ?constraint1, ?constraint2, ?constraint3 by assumption; assumption. }
  specialize (U HZ i j w Hi Hj Hij). cbv beta in U.
  rewrite (lift3 n p j Hj), (lift2 n p i Hi), (lift1 n p j Hj), (lift0 n p i Hi) in U. exact U.
Qed.

(** * Exchange of two nodes *)

Lemma transpose_relabelling n a b : (a < n)%nat -> (b < n)%nat -> relabelling n (transpose a b).
Proof.
  intros Ha Hb. unfold transpose. split.
  - intros i Hi. destruct (Nat.eqb i a); [exact Hb|]. destruct (Nat.eqb i b); assumption.
  - intros i j _ _. destruct (Nat.eqb_spec i a), (Nat.eqb_spec j a), (Nat.eqb_spec i b), (Nat.eqb_spec j b); intros; subst; lia.
Qed.
Lemma transpose_l a b : transpose a b a = b.
Proof. unfold transpose. rewrite Nat.eqb_refl. reflexivity. Qed.
Lemma transpose_r a b : transpose a b b = a.
Proof. unfold transpose. rewrite Nat.eqb_refl. destruct (Nat.eqb_spec b a); auto. Qed.
Lemma transpose_o a b i : i <> a -> i <> b -> transpose a b i = i.
Proof. intros. unfold transpose. rewrite !(proj2 (Nat.eqb_neq _ _)) by assumption. reflexivity. Qed.
Lemma transpose_const {A : Type} (k : nat -> A) a b i : k a = k b -> k (transpose a b i) = k i.
Proof.
  intros E. unfold transpose. destruct (Nat.eqb_spec i a) as [->|]; [auto|].
  destruct (Nat.eqb_spec i b) as [->|]; auto.
Qed.

Lemma twins_ecm n k s x a b : (3 <= n)%nat -> ecm_dom n x -> (a < n)%nat -> (b < n)%nat ->
  (forall i, (i < n)%nat -> expected_ecm n x i = k i /\ expected_ecm n x (i + n) = s i) ->
  k a = k b -> s a = s b -> x a = x b /\ x (a + n)%nat = x (b + n)%nat.
Proof.
  intros Hn HD Ha Hb HS E1 E2.
  pose proof (alike_ecm n k s x (transpose a b) Hn HD (transpose_relabelling n a b Ha Hb) HS
    (fun i _ => conj (transpose_const k a b i E1) (transpose_const s a b i E2)) b Hb) as [Q1 Q2].
  rewrite transpose_r in Q1, Q2. auto.
Qed.

Lemma twins_dcm n k_out k_in nzo nzi x a b :
  nonzero_list n k_out nzo -> nonzero_list n k_in nzi -> dcm_full n nzo nzi x -> (a < n)%nat -> (b < n)%nat ->
  (forall i, (i < n)%nat -> expected_out_degree_dcm n x i = k_out i /\ expected_in_degree_dcm n x i = k_in i) ->
  k_out a = k_out b -> k_in a = k_in b ->
  let q := p_dbcm x (fun v => x (v + n)%nat) in
  (forall l, (l < n)%nat -> l <> a -> l <> b -> q a l = q b l /\ q l a = q l b) /\ (a <> b -> q a b = q b a).
Proof.
  intros Ho Hi HF Ha Hb HS E1 E2 q.
  pose proof (alike_dcm n k_out k_in nzo nzi x (transpose a b) Ho Hi HF (transpose_relabelling n a b Ha Hb) HS
    (fun i _ => conj (transpose_const k_out a b i E1) (transpose_const k_in a b i E2))) as U. fold q in U.
  split.
  - intros l Hl N1 N2. split.
    + rewrite <- (U a l Ha Hl) by auto. rewrite transpose_l, transpose_o by assumption. reflexivity.
    + rewrite <- (U l a Hl Ha) by auto. rewrite transpose_l, transpose_o by assumption. reflexivity.
  - intros N. rewrite <- (U a b Ha Hb N). rewrite transpose_l, transpose_r. reflexivity.
Qed.

Lemma twins_decm n ko ki so si x a b :
  decm_dom n x -> decm_supp n ko ki so si x -> (a < n)%nat -> (b < n)%nat ->
  (forall r, (r < 4 * n)%nat -> expected_decm n x r = decm_constraint n ko ki so si r) ->
  ko a = ko b -> ki a = ki b -> so a = so b -> si a = si b ->
  let q := fun i j => q_enh (x i * x (j + n)%nat) (x (i + 2 * n)%nat * x (j + 3 * n)%nat) in
  (forall l w, (l < n)%nat -> l <> a -> l <> b -> q a l w = q b l w /\ q l a w = q l b w) /\
  (forall w, a <> b -> q a b w = q b a w).
Proof.
  intros HD HSu Ha Hb HS E1 E2 E3 E4 q.
  pose proof (alike_decm n ko ki so si x (transpose a b) HD HSu (transpose_relabelling n a b Ha Hb) HS
    (fun i _ => conj (transpose_const ko a b i E1) (conj (transpose_const ki a b i E2)
       (conj (transpose_const so a b i E3) (transpose_const si a b i E4))))) as U.
  change (forall i j w, (i < n)%nat -> (j < n)%nat -> i <> j -> q (transpose a b i) (transpose a b j) w = q i j w) in U.
  split.
  - intros l w Hl N1 N2. split.
    + rewrite <- (U a l w Ha Hl) by auto. rewrite transpose_l, transpose_o by assumption. reflexivity.
    + rewrite <- (U l a w Hl Ha) by auto. rewrite transpose_l, transpose_o by assumption. reflexivity.
  - intros w N. rewrite <- (U a b w Ha Hb N). rewrite transpose_l, transpose_r. reflexivity.
Qed.
