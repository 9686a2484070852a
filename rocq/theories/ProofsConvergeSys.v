(** The contraction of ProofsConverge for the binary models: classes of nodes with
    multiplicities and degrees at least one. *)
From Coq Require Import Reals List Arith Lia Lra Psatz.
From Verif Require Import Base ProofsConverge.
Local Open Scope R_scope.

Definition cw (c : nat -> R) (i j : nat) : R := c j - (if Nat.eqb i j then 1 else 0).

Lemma finite_min n (P : nat -> nat -> Prop) (f : nat -> nat -> R) :
  (forall i j, P i j \/ ~ P i j) -> (forall i j, (i < n)%nat -> (j < n)%nat -> P i j -> 0 < f i j) ->
  exists m, 0 < m <= 1 /\ forall i j, (i < n)%nat -> (j < n)%nat -> P i j -> m <= f i j.
Proof.
  intros Dec Hp.
  assert (Row : forall i, (i < n)%nat -> exists m, 0 < m <= 1 /\ forall j, (j < n)%nat -> P i j -> m <= f i j).
  { intros i Hi. assert (G : forall k, (k <= n)%nat -> exists m, 0 < m <= 1 /\ forall j, (j < k)%nat -> P i j -> m <= f i j).
    { induction k as [|k IH]; intros Hk; [exists 1; split; [lra|intros; lia]|]. destruct IH as (m & Pm & Hm); [lia|].
      destruct (Dec i k) as [D|D].
      - exists (Rmin m (f i k)). assert (0 < f i k) by (apply Hp; [assumption|lia|assumption]).
        assert (Rmin m (f i k) <= m) by apply Rmin_l. split; [split; [apply Rmin_glb_lt; lra|lra]|].
        intros j Hj Pj. destruct (Nat.eq_dec j k) as [->|]; [apply Rmin_r|]. apply Rle_trans with m; [assumption|apply Hm; [lia|assumption]].
      - exists m. split; [assumption|]. intros j Hj Pj. destruct (Nat.eq_dec j k) as [->|]; [contradiction|apply Hm; [lia|assumption]]. }
    apply (G n); lia. }
  assert (G : forall k, (k <= n)%nat -> exists m, 0 < m <= 1 /\ forall i j, (i < k)%nat -> (j < n)%nat -> P i j -> m <= f i j).
  { induction k as [|k IH]; intros Hk; [exists 1; split; [lra|intros; lia]|]. destruct IH as (m & Pm & Hm); [lia|].
    destruct (Row k ltac:(lia)) as (m' & Pm' & Hm'). exists (Rmin m m'). assert (Rmin m m' <= m) by apply Rmin_l. assert (Rmin m m' <= m') by apply Rmin_r.
    split; [split; [apply Rmin_glb_lt; lra|lra]|]. intros i j Hi Hj Pj. destruct (Nat.eq_dec i k) as [->|].
    - specialize (Hm' j Hj Pj). lra.
    - specialize (Hm i j ltac:(lia) Hj Pj). lra. }
  apply (G n); lia.
Qed.

Section Sys.
  Variables (n : nat) (c ko ki s s' : nat -> R) (al : R).
  Hypothesis Hc : forall i, (i < n)%nat -> 1 <= c i.
  Hypothesis Hko : forall i, (i < n)%nat -> 1 <= ko i /\ 0 < s i \/ ko i = 0 /\ s i = 0.
  Hypothesis Hki : forall i, (i < n)%nat -> 1 <= ki i /\ 0 < s' i \/ ki i = 0 /\ s' i = 0.
  Hypothesis So : forall i, (i < n)%nat -> ko i = s i * pull n (cw c) s s' i.
  Hypothesis Si : forall i, (i < n)%nat -> ki i = s' i * pull n (cw c) s' s i.
  Hypotheses (Hal : 0 < al) (Hal1 : al <= 1).

  Lemma cw_diag i : cw c i i = c i - 1.
  Proof. unfold cw. rewrite Nat.eqb_refl. reflexivity. Qed.
  Lemma cw_off i j : i <> j -> cw c i j = c j.
  Proof. intros N. unfold cw. destruct (Nat.eqb_spec i j); [contradiction|lra]. Qed.
  Lemma cw_weights : weights n (cw c).
  Proof.
    split; intros i j Hi Hj.
    - assert (1 <= c j) by auto. unfold cw. destruct (Nat.eqb i j); lra.
    - intros P. destruct (Nat.eq_dec i j) as [->|N]; [assumption|]. rewrite cw_off by auto. assert (1 <= c i) by auto. lra.
  Qed.
  Lemma pull_sys_o i : (i < n)%nat -> 0 < s i -> 0 < pull n (cw c) s s' i.
  Proof.
    intros Hi P. assert (E := So i Hi). destruct (Hko i Hi) as [[L _]|[_ Z]]; [|lra].
    destruct (Rlt_dec 0 (pull n (cw c) s s' i)) as [|Q]; [assumption|]. exfalso. assert (s i * pull n (cw c) s s' i <= 0) by nra. lra.
  Qed.
  Lemma pull_sys_i i : (i < n)%nat -> 0 < s' i -> 0 < pull n (cw c) s' s i.
  Proof.
    intros Hi P. assert (E := Si i Hi). destruct (Hki i Hi) as [[L _]|[_ Z]]; [|lra].
    destruct (Rlt_dec 0 (pull n (cw c) s' s i)) as [|Q]; [assumption|]. exfalso. assert (s' i * pull n (cw c) s' s i <= 0) by nra. lra.
  Qed.
  (** More than one node of the other block beside the nodes of a class. *)
  Lemma mass a b k i : (i < n)%nat -> 0 < a i -> (forall j, (j < n)%nat -> 0 <= b j) -> 1 <= k -> k = a i * pull n (cw c) a b i ->
    1 < rsum n (fun j => if Rlt_dec 0 (b j) then cw c i j else 0).
  Proof.
    intros Hi Pa Pb Hk E.
    assert (L : k < rsum n (fun j => if Rlt_dec 0 (b j) then cw c i j else 0)); [|lra].
    rewrite E. unfold pull. rewrite <- rsum_scal_l.
    assert (T : forall j, (j < n)%nat -> a i * (cw c i j * (b j / (1 + a i * b j))) <= if Rlt_dec 0 (b j) then cw c i j else 0).
    { intros j Hj. assert (N := w_nonneg _ _ cw_weights i j Hi Hj). destruct (Rlt_dec 0 (b j)) as [P|P].
      - assert (0 < a i * b j) by (apply Rmult_lt_0_compat; assumption).
        replace (a i * (cw c i j * (b j / (1 + a i * b j)))) with (cw c i j * (1 - / (1 + a i * b j))) by (field; lra).
        assert (0 < / (1 + a i * b j)) by (apply Rinv_0_lt_compat; lra). nra.
      - assert (Z : b j = 0) by (specialize (Pb j Hj); lra). rewrite Z. unfold Rdiv. rewrite Rmult_0_l, !Rmult_0_r. lra. }
    assert (D : (exists j, (j < n)%nat /\ 0 < cw c i j /\ 0 < b j) \/ forall j, (j < n)%nat -> ~ (0 < cw c i j /\ 0 < b j)).
    { assert (G : forall m, (m <= n)%nat -> (exists j, (j < n)%nat /\ 0 < cw c i j /\ 0 < b j) \/ forall j, (j < m)%nat -> ~ (0 < cw c i j /\ 0 < b j)).
      { induction m as [|m IH]; intros Hm; [right; intros; lia|]. destruct IH as [IH|IH]; [lia|left; assumption|].
        destruct (Rlt_dec 0 (cw c i m)) as [p|p]; [destruct (Rlt_dec 0 (b m)) as [q|q]|].
        - left. exists m. split; [lia|]. split; assumption.
        - right. intros j Hj. destruct (Nat.eq_dec j m) as [->|]; [tauto|apply IH; lia].
        - right. intros j Hj. destruct (Nat.eq_dec j m) as [->|]; [tauto|apply IH; lia]. }
      apply (G n); lia. }
    destruct D as [(h & Hh & P1 & P2)|D].
    - assert (0 < rsum n (fun j => (if Rlt_dec 0 (b j) then cw c i j else 0) - a i * (cw c i j * (b j / (1 + a i * b j))))); [|rewrite rsum_minus in H; lra].
      apply rsum_pos with h; [intros j Hj; specialize (T j Hj); lra|assumption|].
      destruct (Rlt_dec 0 (b h)); [|lra]. assert (0 < a i * b h) by (apply Rmult_lt_0_compat; assumption).
      replace (cw c i h - a i * (cw c i h * (b h / (1 + a i * b h)))) with (cw c i h * / (1 + a i * b h)) by (field; lra).
      apply Rmult_lt_0_compat; [assumption|apply Rinv_0_lt_compat; lra].
    - exfalso. assert (Z : pull n (cw c) a b i = 0).
      { unfold pull. apply rsum_zero. intros j Hj. specialize (D j Hj). assert (N := w_nonneg _ _ cw_weights i j Hi Hj). specialize (Pb j Hj).
        destruct (Rlt_dec 0 (b j)) as [P|P]; [|replace (b j) with 0 by lra; unfold Rdiv; ring].
        replace (cw c i j) with 0; [ring|]. destruct (Rlt_dec 0 (cw c i j)); [tauto|lra]. }
      rewrite Z in E. lra.
  Qed.
  (** Two classes of the same block have a common neighbour. *)
  Lemma common a b k k' i h : (i < n)%nat -> (h < n)%nat -> 0 < a i -> 0 < a h -> (forall j, (j < n)%nat -> 0 <= b j) ->
    1 <= k -> k = a i * pull n (cw c) a b i -> 1 <= k' -> k' = a h * pull n (cw c) a b h ->
    exists j, (j < n)%nat /\ 0 < b j /\ 0 < cw c i j /\ 0 < cw c j h.
  Proof.
    intros Hi Hh Pi Ph Pb K1 E1 K2 E2.
    assert (M1 := mass a b k i Hi Pi Pb K1 E1). assert (M2 := mass a b k' h Hh Ph Pb K2 E2).
    assert (D : (exists j, (j < n)%nat /\ 0 < b j /\ 0 < cw c i j /\ 0 < cw c j h) \/
      forall j, (j < n)%nat -> ~ (0 < b j /\ 0 < cw c i j /\ 0 < cw c j h)).
    { assert (G : forall m, (m <= n)%nat -> (exists j, (j < n)%nat /\ 0 < b j /\ 0 < cw c i j /\ 0 < cw c j h) \/
        forall j, (j < m)%nat -> ~ (0 < b j /\ 0 < cw c i j /\ 0 < cw c j h)).
      { induction m as [|m IH]; intros Hm; [right; intros; lia|]. destruct IH as [IH|IH]; [lia|left; assumption|].
        destruct (Rlt_dec 0 (b m)) as [p|p], (Rlt_dec 0 (cw c i m)) as [q|q], (Rlt_dec 0 (cw c m h)) as [r|r];
          try (right; intros j Hj; destruct (Nat.eq_dec j m) as [->|]; [tauto|apply IH; lia]).
        left. exists m. split; [lia|]. tauto. }
      apply (G n); lia. }
    destruct D as [D|D]; [exact D|exfalso].
    (* every active class is [i] or [h], alone in its class *)
    assert (One : forall j, (j < n)%nat -> 0 < b j -> (j = i \/ j = h) /\ c j = 1).
    { intros j Hj Pj. assert (Cj := Hc j Hj). specialize (D j Hj).
      destruct (Nat.eq_dec i j) as [<-|Ni].
      - split; [auto|]. destruct (Req_dec (c i) 1) as [|N1]; [assumption|]. exfalso. apply D. split; [assumption|].
        rewrite cw_diag. split; [lra|]. destruct (Nat.eq_dec i h) as [<-|Nh]; [rewrite cw_diag; lra|rewrite cw_off by assumption]. assert (1 <= c h) by auto. lra.
      - destruct (Nat.eq_dec j h) as [->|Nh].
        + split; [auto|]. destruct (Req_dec (c h) 1) as [|N1]; [assumption|]. exfalso. apply D. split; [assumption|]. rewrite cw_off, cw_diag by assumption. lra.
        + exfalso. apply D. split; [assumption|]. rewrite !cw_off by assumption. assert (1 <= c h) by auto. lra. }
    assert (B : rsum n (fun j => if Rlt_dec 0 (b j) then cw c i j else 0) <= 1); [|lra].
    apply Rle_trans with (rsum n (fun j => if Nat.eqb j h then 1 else 0)).
    - apply rsum_le. intros j Hj. destruct (Rlt_dec 0 (b j)) as [P|P]; [|destruct (Nat.eqb j h); lra].
      destruct (One j Hj P) as [[->| ->] C1].
      + rewrite cw_diag, C1. destruct (Nat.eqb i h); lra.
      + rewrite Nat.eqb_refl. unfold cw. destruct (Nat.eqb i h); lra.
    - rewrite (rsum_pull n h _ Hh), Nat.eqb_refl, rsum_zero; [lra|]. intros j _. destruct (Nat.eqb j h); reflexivity.
  Qed.

  Hypothesis Some_active : exists i, (i < n)%nat /\ (0 < s i \/ 0 < s' i).
  Lemma s_nonneg j : (j < n)%nat -> 0 <= s j.
  Proof. intros Hj. destruct (Hko j Hj); lra. Qed.
  Lemma s'_nonneg j : (j < n)%nat -> 0 <= s' j.
  Proof. intros Hj. destruct (Hki j Hj); lra. Qed.
  Lemma hub_exists : exists t0 i0, hub n (cw c) s s' t0 i0.
  Proof.
    destruct Some_active as (i0 & Hi0 & [P|P]).
    - exists true, i0. split; [assumption|]. split; [exact P|]. intros i Hi Ai. simpl in *.
      apply (common s s' (ko i) (ko i0) i i0); auto using s'_nonneg.
      + destruct (Hko i Hi) as [[L _]|[_ Z]]; lra.
      + destruct (Hko i0 Hi0) as [[L _]|[_ Z]]; lra.
    - exists false, i0. split; [assumption|]. split; [exact P|]. intros i Hi Ai. simpl in *.
      apply (common s' s (ki i) (ki i0) i i0); auto using s_nonneg.
      + destruct (Hki i Hi) as [[L _]|[_ Z]]; lra.
      + destruct (Hki i0 Hi0) as [[L _]|[_ Z]]; lra.
  Qed.
  Lemma rate_pos a b y i j : paired_with n b y -> (i < n)%nat -> (j < n)%nat -> 0 < a i -> 0 < b j -> 0 < cw c i j -> 0 < pull n (cw c) a b i ->
    0 < rate n (cw c) a b i j.
  Proof.
    intros Hy Hi Hj Pa Pb Pc Pp. unfold rate, share. assert (0 < a i * b j) by (apply Rmult_lt_0_compat; assumption).
    apply Rmult_lt_0_compat; apply Rmult_lt_0_compat.
    - apply Rmult_lt_0_compat; [assumption|]. apply Rmult_lt_0_compat; [assumption|apply Rinv_0_lt_compat; lra].
    - apply Rinv_0_lt_compat; assumption.
    - apply Rmin_glb_lt; lra.
    - apply Rinv_0_lt_compat; lra.
  Qed.
  Lemma rate_exists : exists r, 0 < r <= 1 /\ half_system n (cw c) s s' al r /\ half_system n (cw c) s' s al r.
  Proof.
    assert (Ps : paired_with n s s) by (intros i Hi; destruct (Hko i Hi) as [[_ P]|[_ P]]; auto).
    assert (Ps' : paired_with n s' s') by (intros i Hi; destruct (Hki i Hi) as [[_ P]|[_ P]]; auto).
    destruct (finite_min n (fun i j => 0 < s i /\ 0 < s' j /\ 0 < cw c i j) (rate n (cw c) s s')) as (m1 & P1 & H1).
    { intros i j. destruct (Rlt_dec 0 (s i)), (Rlt_dec 0 (s' j)), (Rlt_dec 0 (cw c i j)); tauto. }
    { intros i j Hi Hj (A & B & D). eapply rate_pos; eauto using pull_sys_o. }
    destruct (finite_min n (fun i j => 0 < s' i /\ 0 < s j /\ 0 < cw c i j) (rate n (cw c) s' s)) as (m2 & P2 & H2).
    { intros i j. destruct (Rlt_dec 0 (s' i)), (Rlt_dec 0 (s j)), (Rlt_dec 0 (cw c i j)); tauto. }
    { intros i j Hi Hj (A & B & D). eapply rate_pos; eauto using pull_sys_i. }
    exists (al * Rmin m1 m2). assert (L1 := Rmin_l m1 m2). assert (L2 := Rmin_r m1 m2). assert (0 < Rmin m1 m2) by (apply Rmin_glb_lt; lra).
    split; [split; [apply Rmult_lt_0_compat; assumption|nra]|]. split; split.
    - exact pull_sys_o.
    - intros i j Hi Hj A B D. specialize (H1 i j Hi Hj (conj A (conj B D))). apply Rmult_le_compat_l; lra.
    - exact pull_sys_i.
    - intros i j Hi Hj A B D. specialize (H2 i j Hi Hj (conj A (conj B D))). apply Rmult_le_compat_l; lra.
  Qed.
  (** Steps in terms of the degrees. *)
  Definition fmove (x y x' y' : nat -> R) : Prop :=
    paired_with n s x /\ paired_with n s' y /\ paired_with n s x' /\ paired_with n s' y' /\
    (forall i, (i < n)%nat -> 0 < s i -> damped al (x i) (ko i / pull n (cw c) x y i) (x' i)) /\
    (forall i, (i < n)%nat -> 0 < s' i -> damped al (y i) (ki i / pull n (cw c) y x i) (y' i)).
  Lemma fmove_stepped x y x' y' : fmove x y x' y' -> stepped n (cw c) s s' al x y x' y'.
  Proof.
    intros (H1 & H2 & H3 & H4 & H5 & H6). unfold stepped, moved, target.
    do 4 (split; [assumption|]). split; intros i Hi P; [rewrite <- So|rewrite <- Si]; auto.
  Qed.
  Theorem system_converges : exists r, 0 < r < 1 /\ forall X Y, (forall t, fmove (X t) (Y t) (X (S t)) (Y (S t))) ->
    exists K l, 0 <= K /\ 0 < l /\ forall t i, (i < n)%nat ->
      within (1 + K * r ^ t) (X t i) (l * s i) /\ within (1 + K * r ^ t) (Y t i) (s' i / l) /\
      (0 < s i -> within (1 + K * r ^ t) (ko i / pull n (cw c) (X t) (Y t) i) (l * s i)) /\
      (0 < s' i -> within (1 + K * r ^ t) (ki i / pull n (cw c) (Y t) (X t) i) (s' i / l)).
  Proof.
    destruct rate_exists as (r & Pr & H1 & H2). destruct hub_exists as (t0 & i0 & HH). exists (rho r).
    split; [apply rho_range; tauto|]. intros X Y HT.
    destruct (converges n (cw c) s s' al r cw_weights Hal Hal1 (proj1 Pr) (proj2 Pr) H1 H2 t0 i0 HH X Y (fun t => fmove_stepped _ _ _ _ (HT t))) as (K & l & PK & Pl & G).
    exists K, l. split; [assumption|]. split; [assumption|]. intros t i Hi. destruct (G t i Hi) as (G1 & G2 & G3 & G4).
    unfold target in *. rewrite <- So in G3 by assumption. rewrite <- Si in G4 by assumption. tauto.
  Qed.
End Sys.
