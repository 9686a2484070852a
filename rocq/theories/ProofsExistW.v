(** Existence of solutions of the enhanced models. *)
From Coq Require Import Reals List Arith Lia Lra Bool.
From Verif Require Import Base SpecGraph SpecEnsemble SpecWeighted SpecExist SpecReduce SpecSymmetry.
From Verif Require Import ModelECM ModelDECM.
From Verif Require Import ProofsGraph ProofsECM ProofsDECM ProofsMainDECM ProofsFixDECM ProofsPairW ProofsFlip ProofsReduce ProofsBalance.
Local Open Scope R_scope.
Import ListNotations.

Definition nz (k : nat -> R) (i : nat) : bool := if Req_EM_T (k i) 0 then false else true.
Lemma nz_true k i : nz k i = true <-> k i <> 0.
Proof. unfold nz. destruct (Req_EM_T (k i) 0); split; congruence. Qed.
Lemma nz_false k i : nz k i = false <-> k i = 0.
Proof. unfold nz. destruct (Req_EM_T (k i) 0); split; congruence. Qed.

Lemma enh_range z y : 0 < z -> 0 < y < 1 -> 0 < z * y / (1 - y + z * y) < 1 /\
  z * y / (1 - y + z * y) < z * y / ((1 - y + z * y) * (1 - y)).
Proof.
  intros Hz Hy. assert (0 < z * y) by (apply Rmult_lt_0_compat; lra). split; [split|].
  - apply Rdiv_lt_0_compat; lra.
  - apply Rmult_lt_reg_r with (1 - y + z * y); [lra|]. unfold Rdiv. rewrite Rmult_assoc, Rinv_l; [lra|]. apply Rgt_not_eq. lra.
  - apply Rmult_lt_compat_l; [assumption|]. apply Rinv_lt_contravar.
    + apply Rmult_lt_0_compat; [apply Rmult_lt_0_compat; lra|lra].
    + nra.
Qed.

Lemma inner_paired n ko ki so si p w : inner_dirw n ko ki so si p w ->
  forall i, (i < n)%nat -> (ko i = 0 <-> so i = 0) /\ (ki i = 0 <-> si i = 0).
Proof.
  intros (_ & Hz & Hs) i Hi. destruct (Hs i Hi) as (S1 & S2 & S3 & S4).
  assert (R0 : forall q : nat -> nat -> R, (forall j, (j < n)%nat -> i <> j -> q i j = 0) -> row n q i = 0).
  { intros q H. unfold row. apply rsum_zero. intros j Hj. destruct (Nat.eqb_spec i j); [reflexivity|apply H; assumption]. }
  assert (C0 : forall q : nat -> nat -> R, (forall j, (j < n)%nat -> i <> j -> q j i = 0) -> col n q i = 0).
  { intros q H. unfold col. apply rsum_zero. intros j Hj. destruct (Nat.eqb_spec i j); [reflexivity|apply H; assumption]. }
  split; split; intros E.
  - rewrite <- S3. apply R0. intros j Hj Hij. apply Hz; auto. tauto.
  - rewrite <- S1. apply R0. intros j Hj Hij. apply Hz; auto. tauto.
  - rewrite <- S4. apply C0. intros j Hj Hij. apply Hz; auto. tauto.
  - rewrite <- S2. apply C0. intros j Hj Hij. apply Hz; auto. tauto.
Qed.

Definition from_exp4 (ko ki so si : nat -> R) (n : nat) (th : nat -> R) (r : nat) : R :=
  if nz (decm_constraint n ko ki so si) r then exp (- th r) else 0.

Lemma solution_decm_exists n ko ki so si p w : inner_dirw n ko ki so si p w ->
  exists x, decm_dom n x /\ decm_supp n ko ki so si x /\
    (forall r, (r < 4 * n)%nat -> decm_constraint n ko ki so si r = 0 -> x r = 0) /\
    forall r, (r < 4 * n)%nat -> expected_decm n x r = decm_constraint n ko ki so si r.
Proof.
  intros HI. pose proof (inner_paired n ko ki so si p w HI) as HP. destruct HI as (Hin & Hz & Hs).
  set (E := fun i j => if Nat.eqb i j then false else nz ko i && nz ki j).
  assert (HE : forall i j, (i < n)%nat -> (j < n)%nat -> E i j = true -> i <> j /\ ko i <> 0 /\ ki j <> 0 /\ so i <> 0 /\ si j <> 0).
  { intros i j Hi Hj H. unfold E in H. destruct (Nat.eqb_spec i j) as [|Hne]; [discriminate|].
    apply andb_prop in H. rewrite !nz_true in H. destruct H as [Ha Hb]. pose proof (HP i Hi) as [P1 _]. pose proof (HP j Hj) as [_ P2].
    split; [exact Hne|]. split; [exact Ha|]. split; [exact Hb|]. split; tauto. }
  assert (HN : forall i j, (i < n)%nat -> (j < n)%nat -> i <> j -> E i j = false -> (ko i = 0 /\ so i = 0) \/ (ki j = 0 /\ si j = 0)).
  { intros i j Hi Hj Hij H. unfold E in H. rewrite (proj2 (Nat.eqb_neq i j) Hij) in H.
    apply andb_false_iff in H. rewrite !nz_false in H. pose proof (HP i Hi) as [P1 _]. pose proof (HP j Hj) as [_ P2]. tauto. }
  destruct (balance_enh n E p w) as (th & Hu & Hb).
  { intros i j Hi Hj H. apply HE in H; try assumption. apply Hin; tauto. }
  cbv zeta in Hb.
  set (x := from_exp4 ko ki so si n th).
  assert (X0 : forall i, (i < n)%nat -> x i = if nz ko i then exp (- th i) else 0).
  { intros i Hi. unfold x, from_exp4, nz. rewrite constraint0 by exact Hi. reflexivity. }
  assert (X1 : forall i, (i < n)%nat -> x (i + n)%nat = if nz ki i then exp (- th (i + n)%nat) else 0).
  { intros i Hi. unfold x, from_exp4, nz. rewrite constraint1 by exact Hi. reflexivity. }
  assert (X2 : forall i, (i < n)%nat -> x (i + 2 * n)%nat = if nz so i then exp (- th (i + 2 * n)%nat) else 0).
  { intros i Hi. unfold x, from_exp4, nz. rewrite constraint2 by exact Hi. reflexivity. }
  assert (X3 : forall i, (i < n)%nat -> x (i + 3 * n)%nat = if nz si i then exp (- th (i + 3 * n)%nat) else 0).
  { intros i Hi. unfold x, from_exp4, nz. rewrite constraint3 by exact Hi. reflexivity. }
  assert (NN : forall r, 0 <= x r).
  { intros r. unfold x, from_exp4. destruct (nz _ r); [left; apply exp_pos|lra]. }
  assert (HZ : forall i j, (i < n)%nat -> (j < n)%nat -> E i j = true -> zz n x i j = exp (- (th i + th (j + n)%nat)) /\
     yy n x i j = exp (- (th (i + 2 * n)%nat + th (j + 3 * n)%nat))).
  { intros i j Hi Hj He. destruct (HE i j Hi Hj He) as (_ & A1 & A2 & A3 & A4). unfold zz, yy.
    rewrite X0, X1, X2, X3 by assumption. rewrite !(proj2 (nz_true _ _)) by assumption.
    rewrite !Ropp_plus_distr, !exp_plus. split; reflexivity. }
  assert (HZ0 : forall i j, (i < n)%nat -> (j < n)%nat -> i <> j -> E i j = false -> zz n x i j = 0 /\ yy n x i j = 0).
  { intros i j Hi Hj Hij He. unfold zz, yy. rewrite X0, X1, X2, X3 by assumption.
    destruct (HN i j Hi Hj Hij He) as [[A1 A2]|[A1 A2]]; apply nz_false in A1, A2; rewrite A1, A2; split; ring. }
  assert (HD : decm_dom n x).
  { split; [intros r _; apply NN|]. intros i j Hi Hj Hij. fold (yy n x i j). destruct (E i j) eqn:He.
    - rewrite (proj2 (HZ i j Hi Hj He)). specialize (Hu i j Hi Hj He). rewrite <- exp_0. apply exp_increasing. lra.
    - rewrite (proj2 (HZ0 i j Hi Hj Hij He)). lra. }
  assert (EP : forall i j, (i < n)%nat -> (j < n)%nat -> i <> j ->
     (E i j = true -> PP n x i j = exp (- (th i + th (j + n)%nat)) * exp (- (th (i + 2 * n)%nat + th (j + 3 * n)%nat))
       / (1 - exp (- (th (i + 2 * n)%nat + th (j + 3 * n)%nat))
          + exp (- (th i + th (j + n)%nat)) * exp (- (th (i + 2 * n)%nat + th (j + 3 * n)%nat))) /\
       MM n x i j = PP n x i j / (1 - exp (- (th (i + 2 * n)%nat + th (j + 3 * n)%nat)))) /\
     (E i j = false -> PP n x i j = 0 /\ MM n x i j = 0 /\ p i j = 0 /\ w i j = 0)).
  { intros i j Hi Hj Hij. split; intros He.
    - unfold PP, MM. destruct (HZ i j Hi Hj He) as [-> ->]. split; [reflexivity|].
      pose proof (one_minus_exp _ (Hu i j Hi Hj He)). pose proof (exp_pos (- (th i + th (j + n)%nat))).
      pose proof (exp_pos (- (th (i + 2 * n)%nat + th (j + 3 * n)%nat))). field. split; [nra|lra].
    - destruct (HZ0 i j Hi Hj Hij He) as [Z1 Z2]. unfold PP, MM. rewrite Z1, Z2.
      split; [field|]. split; [field|]. apply Hz; auto. destruct (HN i j Hi Hj Hij He); tauto. }
  exists x. split; [exact HD|]. split.
  { intros i Hi. rewrite X0, X1, X2, X3 by exact Hi. repeat split; intros H; apply nz_true in H; rewrite H; apply exp_pos. }
  split. { intros r Hr H. unfold x, from_exp4. apply nz_false in H. rewrite H. reflexivity. }
  apply coord4; intros i Hi; destruct (Hb i Hi) as (B0 & B1 & B2 & B3); destruct (Hs i Hi) as (S0 & S1 & S2 & S3).
  - rewrite constraint0, expected_decm_0 by assumption. rewrite <- S0. apply Rminus_diag_uniq_sym. refine (eq_trans _ B0).
    unfold row. rewrite <- rsum_minus. apply rsum_ext. intros j Hj. destruct (Nat.eqb_spec i j) as [->|Hne].
    + unfold E. rewrite Nat.eqb_refl. ring.
    + destruct (EP i j Hi Hj Hne) as [T F]. destruct (E i j) eqn:He; [rewrite (proj1 (T eq_refl)); reflexivity|].
      destruct (F eq_refl) as (-> & _ & -> & _). ring.
  - rewrite constraint1, expected_decm_1 by assumption. rewrite <- S1. apply Rminus_diag_uniq_sym. refine (eq_trans _ B1).
    unfold col. rewrite <- rsum_minus. apply rsum_ext. intros j Hj. destruct (Nat.eqb_spec i j) as [->|Hne].
    + unfold E. rewrite Nat.eqb_refl. ring.
    + destruct (EP j i Hj Hi (not_eq_sym Hne)) as [T F]. destruct (E j i) eqn:He; [rewrite (proj1 (T eq_refl)); reflexivity|].
      destruct (F eq_refl) as (-> & _ & -> & _). ring.
  - rewrite constraint2, expected_decm_2 by assumption. rewrite <- S2. apply Rminus_diag_uniq_sym. refine (eq_trans _ B2).
    unfold row. rewrite <- rsum_minus. apply rsum_ext. intros j Hj. destruct (Nat.eqb_spec i j) as [->|Hne].
    + unfold E. rewrite Nat.eqb_refl. ring.
    + destruct (EP i j Hi Hj Hne) as [T F]. destruct (E i j) eqn:He; [destruct (T eq_refl) as [T1 T2]; rewrite T2, T1; reflexivity|].
      destruct (F eq_refl) as (_ & -> & _ & ->). ring.
  - rewrite constraint3, expected_decm_3 by assumption. rewrite <- S3. apply Rminus_diag_uniq_sym. refine (eq_trans _ B3).
    unfold col. rewrite <- rsum_minus. apply rsum_ext. intros j Hj. destruct (Nat.eqb_spec i j) as [->|Hne].
    + unfold E. rewrite Nat.eqb_refl. ring.
    + destruct (EP j i Hj Hi (not_eq_sym Hne)) as [T F]. destruct (E j i) eqn:He; [destruct (T eq_refl) as [T1 T2]; rewrite T2, T1; reflexivity|].
      destruct (F eq_refl) as (_ & -> & _ & ->). ring.
Qed.

Lemma pp_mm_facts n x i j : decm_dom n x -> (i < n)%nat -> (j < n)%nat -> i <> j ->
  0 <= PP n x i j /\ 0 <= MM n x i j /\ (PP n x i j = 0 <-> MM n x i j = 0).
Proof.
  intros HD Hi Hj Hij.
  assert (Z : 0 <= zz n x i j) by (unfold zz; apply Rmult_le_pos; apply HD; lia).
  assert (Y : 0 <= yy n x i j) by (unfold yy; apply Rmult_le_pos; apply HD; lia).
  assert (Y1 : yy n x i j < 1) by (unfold yy; apply HD; assumption).
  unfold PP, MM. set (z := zz n x i j) in *. set (y := yy n x i j) in *.
  assert (0 <= z * y) by (apply Rmult_le_pos; assumption).
  assert (D1 : 0 < 1 - y + z * y) by lra. assert (D2 : 0 < (1 - y + z * y) * (1 - y)) by (apply Rmult_lt_0_compat; lra).
  pose proof (Rinv_0_lt_compat _ D1). pose proof (Rinv_0_lt_compat _ D2). unfold Rdiv.
  split; [apply Rmult_le_pos; lra|]. split; [apply Rmult_le_pos; lra|].
  split; intros E; apply Rmult_integral in E; (destruct E as [->|E]; [ring|lra]).
Qed.

Lemma solution_decm_inner n ko ki so si x : decm_dom n x -> decm_supp n ko ki so si x ->
  (forall r, (r < 4 * n)%nat -> expected_decm n x r = decm_constraint n ko ki so si r) ->
  inner_dirw n ko ki so si (PP n x) (MM n x).
Proof.
  intros HD HS HE.
  assert (S : forall i, (i < n)%nat -> row n (PP n x) i = ko i /\ col n (PP n x) i = ki i /\ row n (MM n x) i = so i /\ col n (MM n x) i = si i).
  { intros i Hi. unfold row, col.
    rewrite <- expected_decm_0, <- expected_decm_1, <- expected_decm_2, <- expected_decm_3 by assumption.
    rewrite !HE by lia. rewrite constraint0, constraint1, constraint2, constraint3 by exact Hi. auto. }
  split; [|split; [|exact S]].
  - intros i j Hi Hj Hij (A1 & A2 & A3 & A4). destruct (HS i Hi) as (P1 & _ & P3 & _). destruct (HS j Hj) as (_ & P2 & _ & P4).
    apply enh_range; [apply Rmult_lt_0_compat; auto|]. split; [apply Rmult_lt_0_compat; auto|]. apply HD; assumption.
  - intros i j Hi Hj Hij HN. destruct (pp_mm_facts n x i j HD Hi Hj Hij) as (F1 & F2 & F3).
    assert (RZ : forall (q : nat -> R) h b, (forall v, (v < n)%nat -> v <> h -> 0 <= q v) ->
      rsum n (fun v => if Nat.eqb h v then 0 else q v) = 0 -> (b < n)%nat -> b <> h -> q b = 0).
    { intros q h b Hq E Hb Hne. 
      assert (NNq : forall v, (v < n)%nat -> 0 <= (if Nat.eqb h v then 0 else q v)).
      { intros v Hv. destruct (Nat.eqb_spec h v); [lra|apply Hq; auto]. }
      pose proof (rsum_nonneg_zero n _ NNq E b Hb) as Q. cbv beta in Q. rewrite (proj2 (Nat.eqb_neq h b)) in Q by auto. exact Q. }
    destruct (S i Hi) as (S1 & _ & S3 & _). destruct (S j Hj) as (_ & S2 & _ & S4).
    destruct (Req_EM_T (ko i) 0) as [E|E].
    { rewrite E in S1. pose proof (RZ (fun v => PP n x i v) i j ltac:(intros; apply pp_mm_facts; auto) S1 Hj (not_eq_sym Hij)). tauto. }
    destruct (Req_EM_T (ki j) 0) as [E1|E1].
    { rewrite E1 in S2. pose proof (RZ (fun v => PP n x v j) j i ltac:(intros; apply pp_mm_facts; auto) S2 Hi Hij). tauto. }
    destruct (Req_EM_T (so i) 0) as [E2|E2].
    { rewrite E2 in S3. pose proof (RZ (fun v => MM n x i v) i j ltac:(intros; apply pp_mm_facts; auto) S3 Hj (not_eq_sym Hij)). tauto. }
    destruct (Req_EM_T (si j) 0) as [E3|E3].
    { rewrite E3 in S4. pose proof (RZ (fun v => MM n x v j) j i ltac:(intros; apply pp_mm_facts; auto) S4 Hi Hij). tauto. }
    tauto.
Qed.

Lemma solvable_decm_iff n ko ki so si :
  (exists x, decm_dom n x /\ decm_supp n ko ki so si x /\
     forall r, (r < 4 * n)%nat -> expected_decm n x r = decm_constraint n ko ki so si r) <->
  exists p w, inner_dirw n ko ki so si p w.
Proof.
  split.
  - intros (x & HD & HS & HE). exists (PP n x), (MM n x). apply solution_decm_inner; assumption.
  - intros (p & w & H). destruct (solution_decm_exists n ko ki so si p w H) as (x & HD & HS & _ & HE). exists x. auto.
Qed.

(** * Undirected *)
Lemma q_enh_inj z y z' y' : 0 < z -> 0 < y < 1 -> 0 < z' -> 0 < y' < 1 ->
  (forall w, q_enh z y w = q_enh z' y' w) -> z = z' /\ y = y'.
Proof.
  intros Hz Hy Hz' Hy' H.
  pose proof (H 0%nat) as H0. pose proof (H 1%nat) as H1. pose proof (H 2%nat) as H2.
  rewrite !q_enh_S in H1, H2. rewrite !q_enh_0 in H0.
  assert (0 < z * y) by (apply Rmult_lt_0_compat; lra). assert (0 < z' * y') by (apply Rmult_lt_0_compat; lra).
  assert (Q : 0 < (1 - y) / (1 - y + z * y)) by (apply Rdiv_lt_0_compat; lra).
  assert (Q' : 0 < (1 - y') / (1 - y' + z' * y')) by (apply Rdiv_lt_0_compat; lra).
  set (q := (1 - y) / (1 - y + z * y)) in *. set (q' := (1 - y') / (1 - y' + z' * y')) in *.
  rewrite <- H0 in H1, H2. simpl in H1, H2. rewrite !Rmult_1_r in H1. rewrite !Rmult_1_r in H2.
  assert (E1 : z * y = z' * y') by (apply Rmult_eq_reg_r with q; lra).
  rewrite <- E1 in H2.
  assert (E2 : y = y') by (apply Rmult_eq_reg_l with (z * y * q); [lra|]; apply Rgt_not_eq, Rmult_lt_0_compat; assumption).
  split; [|exact E2]. subst y'. apply Rmult_eq_reg_r with y; lra.
Qed.

Lemma row_pos n (f : nat -> nat -> R) i : (2 <= n)%nat -> (i < n)%nat ->
  (forall j, (j < n)%nat -> i <> j -> 0 < f i j) -> 0 < row n f i.
Proof. intros Hn Hi H. unfold row. apply rsum_skip_pos; auto. Qed.

Lemma solution_ecm_exists n k s p w : inner_undw n k s p w ->
  exists sol, ecm_dom n sol /\ forall i, (i < n)%nat -> expected_ecm n sol i = k i /\ expected_ecm n sol (i + n) = s i.
Proof.
  intros (Hin & Hsy & Hs). destruct (le_lt_dec 2 n) as [Hn|Hn].
  2: { exists (fun _ => / 2). split; [split; intros; lra|]. intros i Hi. destruct (Hs i Hi) as [<- <-].
       rewrite expected_ecm_x, expected_ecm_y by exact Hi. unfold row.
       split; apply rsum_ext; intros j Hj; replace j with i by lia; rewrite Nat.eqb_refl; reflexivity. }
  assert (K : forall i, (i < n)%nat -> 0 < k i /\ 0 < s i).
  { intros i Hi. destruct (Hs i Hi) as [<- <-]. split; apply row_pos; auto; intros j Hj Hij; destruct (Hin i j Hi Hj Hij); lra. }
  assert (HI : inner_dirw n k k s s p w).
  { split; [|split].
    - intros i j Hi Hj Hij _. apply Hin; assumption.
    - intros i j Hi Hj Hij HN. exfalso. apply HN. destruct (K i Hi), (K j Hj). repeat split; lra.
    - intros i Hi. destruct (Hs i Hi) as [S1 S2]. split; [exact S1|]. split; [|split; [exact S2|]].
      + rewrite <- S1. unfold row, col. apply rsum_ext. intros j Hj. rewrite (proj1 (Hsy i j Hi Hj)). reflexivity.
      + rewrite <- S2. unfold row, col. apply rsum_ext. intros j Hj. rewrite (proj2 (Hsy i j Hi Hj)). reflexivity. }
  destruct (solution_decm_exists n k k s s p w HI) as (z & HD & HS & _ & HE).
  assert (Zp : forall i, (i < n)%nat -> 0 < z i /\ 0 < z (i + n)%nat /\ 0 < z (i + 2 * n)%nat /\ 0 < z (i + 3 * n)%nat).
  { intros i Hi. destruct (HS i Hi) as (P0 & P1 & P2 & P3). destruct (K i Hi). repeat split; [apply P0|apply P1|apply P2|apply P3]; lra. }
  set (f := fun r => z (flip n r)).
  assert (F0 : forall i, (i < n)%nat -> f i = z (i + n)%nat) by (intros i Hi; unfold f; rewrite flip0 by exact Hi; reflexivity).
  assert (F1 : forall i, (i < n)%nat -> f (i + n)%nat = z i) by (intros i Hi; unfold f; rewrite flip1 by exact Hi; reflexivity).
  assert (F2 : forall i, (i < n)%nat -> f (i + 2 * n)%nat = z (i + 3 * n)%nat) by (intros i Hi; unfold f; rewrite flip2 by exact Hi; reflexivity).
  assert (F3 : forall i, (i < n)%nat -> f (i + 3 * n)%nat = z (i + 2 * n)%nat) by (intros i Hi; unfold f; rewrite flip3 by exact Hi; reflexivity).
  assert (FD : decm_dom n f).
  { split.
    - apply coord4; intros i Hi; rewrite ?F0, ?F1, ?F2, ?F3 by exact Hi; destruct (Zp i Hi) as (? & ? & ? & ?); lra.
    - intros i j Hi Hj Hij. rewrite F2, F3 by assumption. rewrite Rmult_comm. apply HD; auto. }
  assert (FS : decm_supp n k k s s f).
  { intros i Hi. rewrite F0, F1, F2, F3 by exact Hi. destruct (Zp i Hi) as (? & ? & ? & ?). auto. }
  assert (FE : forall r, (r < 4 * n)%nat -> expected_decm n f r = decm_constraint n k k s s r).
  { apply coord4; intros i Hi; unfold f; rewrite expected_decm_flip by lia;
      rewrite ?flip0, ?flip1, ?flip2, ?flip3 by exact Hi; rewrite HE by lia;
      rewrite ?(constraint0 n k k s s i Hi), ?(constraint1 n k k s s i Hi), ?(constraint2 n k k s s i Hi), ?(constraint3 n k k s s i Hi); reflexivity. }
  pose proof (solution_decm_unique n k k s s z f HD FD HS FS HE FE) as U.
  assert (EQ : forall i j, (i < n)%nat -> (j < n)%nat -> i <> j ->
     z j * z (i + n)%nat = z i * z (j + n)%nat /\
     z (j + 2 * n)%nat * z (i + 3 * n)%nat = z (i + 2 * n)%nat * z (j + 3 * n)%nat).
  { intros i j Hi Hj Hij. destruct (Zp i Hi) as (? & ? & ? & ?). destruct (Zp j Hj) as (? & ? & ? & ?).
    assert (G : forall w, q_enh (z j * z (i + n)%nat) (z (j + 2 * n)%nat * z (i + 3 * n)%nat) w =
       q_enh (z i * z (j + n)%nat) (z (i + 2 * n)%nat * z (j + 3 * n)%nat) w).
    { intros v. rewrite <- (U i j v Hi Hj Hij). rewrite F0, F1, F2, F3 by assumption. f_equal; ring. }
    apply q_enh_inj; [apply Rmult_lt_0_compat; assumption| |apply Rmult_lt_0_compat; assumption| |exact G];
      (split; [apply Rmult_lt_0_compat; assumption|apply HD; auto]). }
  set (sol := fun r => if Nat.ltb r n then sqrt (z r * z (r + n)%nat) else sqrt (z (r - n + 2 * n)%nat * z (r - n + 3 * n)%nat)).
  assert (Sx : forall i, (i < n)%nat -> sol i = sqrt (z i * z (i + n)%nat)).
  { intros i Hi. unfold sol. rewrite (proj2 (Nat.ltb_lt i n) Hi). reflexivity. }
  assert (Sy : forall i, (i < n)%nat -> sol (i + n)%nat = sqrt (z (i + 2 * n)%nat * z (i + 3 * n)%nat)).
  { intros i Hi. unfold sol. rewrite ltb_plus_n, plus_n_minus. reflexivity. }
  assert (SQ : forall a b c d, 0 < a -> 0 < b -> 0 < c -> 0 < d -> c * b = a * d -> sqrt (a * b) * sqrt (c * d) = a * d).
  { intros a b c d Ha Hb Hc Hd E. rewrite <- sqrt_mult by (apply Rlt_le, Rmult_lt_0_compat; assumption).
    replace (a * b * (c * d)) with ((a * d) * (c * b)) by ring. rewrite E. apply sqrt_square. apply Rlt_le, Rmult_lt_0_compat; assumption. }
  assert (XX : forall i j, (i < n)%nat -> (j < n)%nat -> i <> j ->
     sol i * sol j = z i * z (j + n)%nat /\ sol (i + n)%nat * sol (j + n)%nat = z (i + 2 * n)%nat * z (j + 3 * n)%nat).
  { intros i j Hi Hj Hij. destruct (Zp i Hi) as (? & ? & ? & ?). destruct (Zp j Hj) as (? & ? & ? & ?).
    destruct (EQ i j Hi Hj Hij). rewrite !Sx, !Sy by assumption. split; apply SQ; assumption. }
  exists sol. split.
  - split.
    + intros i Hi. rewrite Sx, Sy by exact Hi. destruct (Zp i Hi) as (? & ? & ? & ?).
      split; apply sqrt_lt_R0; apply Rmult_lt_0_compat; assumption.
    + intros i j Hi Hj Hij. rewrite (proj2 (XX i j Hi Hj Hij)). apply HD; assumption.
  - intros i Hi. rewrite expected_ecm_x, expected_ecm_y by exact Hi.
    pose proof (HE i ltac:(lia)) as HE0. pose proof (HE (i + 2 * n)%nat ltac:(lia)) as HE2.
    rewrite constraint0, expected_decm_0 in HE0 by assumption. rewrite constraint2, expected_decm_2 in HE2 by assumption.
    rewrite <- HE0, <- HE2. split; apply rsum_ext; intros j Hj; destruct (Nat.eqb_spec i j) as [|Hne]; try reflexivity;
      destruct (XX i j Hi Hj Hne) as [-> ->]; reflexivity.
Qed.

Lemma solution_ecm_inner n k s sol : ecm_dom n sol ->
  (forall i, (i < n)%nat -> expected_ecm n sol i = k i /\ expected_ecm n sol (i + n) = s i) ->
  inner_undw n k s
    (fun i j => sol i * sol j * (sol (i + n)%nat * sol (j + n)%nat) / (1 - sol (i + n)%nat * sol (j + n)%nat + sol i * sol j * (sol (i + n)%nat * sol (j + n)%nat)))
    (fun i j => sol i * sol j * (sol (i + n)%nat * sol (j + n)%nat) / ((1 - sol (i + n)%nat * sol (j + n)%nat + sol i * sol j * (sol (i + n)%nat * sol (j + n)%nat)) * (1 - sol (i + n)%nat * sol (j + n)%nat))).
Proof.
  intros HD HS. split; [|split].
  - intros i j Hi Hj Hij. destruct (proj1 HD i Hi), (proj1 HD j Hj).
    apply enh_range; [apply Rmult_lt_0_compat; assumption|].
    split; [apply Rmult_lt_0_compat; assumption|apply (proj2 HD); assumption].
  - intros i j Hi Hj. rewrite (Rmult_comm (sol i) (sol j)), (Rmult_comm (sol (i + n)%nat) (sol (j + n)%nat)). split; reflexivity.
  - intros i Hi. destruct (HS i Hi) as [<- <-]. rewrite expected_ecm_x, expected_ecm_y by exact Hi. split; reflexivity.
Qed.
Lemma solvable_ecm_iff n k s :
  (exists sol, ecm_dom n sol /\ forall i, (i < n)%nat -> expected_ecm n sol i = k i /\ expected_ecm n sol (i + n) = s i) <->
  exists p w, inner_undw n k s p w.
Proof.
  split.
  - intros (sol & HD & HS). eexists. eexists. apply (solution_ecm_inner n k s sol HD HS).
  - intros (p & w & H). exact (solution_ecm_exists n k s p w H).
Qed.
