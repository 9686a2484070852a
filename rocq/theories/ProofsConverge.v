(** Convergence of the fixed-point iterations of the binary models: weighted averages of the
    ratios to a solution, which contract. *)
From Coq Require Import Reals List Arith Lia Lra Psatz.
From Verif Require Import Base.
Local Open Scope R_scope.

Definition pull (n : nat) (C : nat -> nat -> R) (a b : nat -> R) (i : nat) : R :=
  rsum n (fun j => C i j * (b j / (1 + a i * b j))).

(** * One term *)
Lemma term_lower a b a' b' B1 B2 : 0 < a' -> 0 < b' -> 0 < a -> 0 < b -> 0 < B1 -> 0 < B2 -> a <= B1 * a' -> b' <= B2 * b ->
  b' / (B2 + B1 * (a' * b')) <= b / (1 + a * b).
Proof.
  intros Ha' Hb' Ha Hb H1 H2 La Lb. assert (0 < a' * b') by (apply Rmult_lt_0_compat; assumption).
  assert (0 < a * b) by (apply Rmult_lt_0_compat; assumption). assert (0 < B1 * (a' * b')) by (apply Rmult_lt_0_compat; assumption).
  assert (E : 0 <= b / (1 + a * b) - b' / (B2 + B1 * (a' * b'))); [|lra].
  replace (b / (1 + a * b) - b' / (B2 + B1 * (a' * b')))
    with (((B2 * b - b') + (b * b') * (B1 * a' - a)) / ((1 + a * b) * (B2 + B1 * (a' * b')))) by (field; lra).
  apply Rmult_le_pos; [|left; apply Rinv_0_lt_compat, Rmult_lt_0_compat; lra].
  assert (0 <= (b * b') * (B1 * a' - a)) by (apply Rmult_le_pos; [left; apply Rmult_lt_0_compat; assumption|lra]). lra.
Qed.
Lemma term_upper a b a' b' B1 B2 : 0 < a' -> 0 < b' -> 0 < a -> 0 < b -> 0 < B1 -> 0 < B2 -> a' <= B1 * a -> b <= B2 * b' ->
  b / (1 + a * b) <= B1 * B2 * b' / (B1 + B2 * (a' * b')).
Proof.
  intros Ha' Hb' Ha Hb H1 H2 La Lb. assert (0 < a' * b') by (apply Rmult_lt_0_compat; assumption).
  assert (0 < a * b) by (apply Rmult_lt_0_compat; assumption). assert (0 < B2 * (a' * b')) by (apply Rmult_lt_0_compat; assumption).
  assert (E : 0 <= B1 * B2 * b' / (B1 + B2 * (a' * b')) - b / (1 + a * b)); [|lra].
  replace (B1 * B2 * b' / (B1 + B2 * (a' * b')) - b / (1 + a * b))
    with ((B1 * (B2 * b' - b) + B2 * (b * b') * (B1 * a - a')) / ((1 + a * b) * (B1 + B2 * (a' * b')))) by (field; lra).
  apply Rmult_le_pos; [|left; apply Rinv_0_lt_compat, Rmult_lt_0_compat; lra].
  assert (0 <= B2 * (b * b') * (B1 * a - a')).
  { apply Rmult_le_pos; [|lra]. left. apply Rmult_lt_0_compat; [lra|apply Rmult_lt_0_compat; assumption]. }
  assert (0 <= B1 * (B2 * b' - b)) by (apply Rmult_le_pos; lra). lra.
Qed.

(** * Means *)
Lemma mean_direct n (C T T' : nat -> R) B d h : (h < n)%nat -> (forall j, (j < n)%nat -> 0 <= C j) -> (forall j, (j < n)%nat -> 0 <= T' j) ->
  0 < B -> 0 <= d < B -> (forall j, (j < n)%nat -> T' j / B <= T j) -> T' h / (B - d) <= T h ->
  0 < rsum n (fun j => C j * T' j) ->
  rsum n (fun j => C j * T' j) / rsum n (fun j => C j * T j) <= B - C h * T' h / rsum n (fun j => C j * T' j) * d /\
  0 < rsum n (fun j => C j * T j).
Proof.
  intros Hh HC HT HB Hd HL Hs HS.
  set (S' := rsum n (fun j => C j * T' j)) in *. set (S := rsum n (fun j => C j * T j)).
  set (q := C h * T' h / S').
  assert (Eq : q * S' = C h * T' h) by (unfold q; field; lra).
  assert (Hq : 0 <= q).
  { unfold q. apply Rmult_le_pos; [apply Rmult_le_pos; auto|left; apply Rinv_0_lt_compat; assumption]. }
  assert (Hq1 : q <= 1).
  { apply Rmult_le_reg_r with S'; [assumption|]. rewrite Eq, Rmult_1_l. unfold S'.
    rewrite (rsum_pull n h (fun j => C j * T' j) Hh).
    assert (0 <= rsum n (fun j => if Nat.eqb j h then 0 else C j * T' j)); [|lra].
    apply rsum_nonneg. intros j Hj. destruct (Nat.eqb j h); [lra|apply Rmult_le_pos; auto]. }
  assert (HSS : S' * (/ B + q * (/ (B - d) - / B)) <= S).
  { replace (S' * (/ B + q * (/ (B - d) - / B))) with (S' * / B + (q * S') * (/ (B - d) - / B)) by ring. rewrite Eq.
    unfold S', S. rewrite (rsum_pull n h (fun j => C j * T j) Hh), (rsum_pull n h (fun j => C j * T' j) Hh).
    assert (rsum n (fun j => if Nat.eqb j h then 0 else C j * T' j) * / B <= rsum n (fun j => if Nat.eqb j h then 0 else C j * T j)).
    { rewrite <- rsum_scal_r. apply rsum_le. intros j Hj. destruct (Nat.eqb j h); [lra|].
      rewrite Rmult_assoc. apply Rmult_le_compat_l; [auto|exact (HL j Hj)]. }
    assert (C h * (T' h / (B - d)) <= C h * T h) by (apply Rmult_le_compat_l; auto).
    unfold Rdiv in *. nra. }
  assert (HB' : 0 < / B) by (apply Rinv_0_lt_compat; lra).
  assert (Hbd : / B <= / (B - d)) by (apply Rinv_le_contravar; lra).
  assert (Hg : 0 < / B + q * (/ (B - d) - / B)) by nra.
  assert (HSp : 0 < S).
  { apply Rlt_le_trans with (S' * (/ B + q * (/ (B - d) - / B))); [apply Rmult_lt_0_compat; assumption|assumption]. }
  split; [|assumption].
  apply Rmult_le_reg_r with S; [assumption|]. unfold Rdiv. rewrite Rmult_assoc, Rinv_l, Rmult_1_r by lra.
  assert (Hpos : 0 <= B - q * d) by nra.
  apply Rle_trans with ((B - q * d) * (S' * (/ B + q * (/ (B - d) - / B)))); [|apply Rmult_le_compat_l; assumption].
  assert (E1 : 1 <= (B - q * d) * (/ B + q * (/ (B - d) - / B))).
  { assert (E : 0 <= (B - q * d) * (/ B + q * (/ (B - d) - / B)) - 1); [|lra].
    replace ((B - q * d) * (/ B + q * (/ (B - d) - / B)) - 1) with ((q * (1 - q) * (d * d)) / (B * (B - d))) by (field; lra).
    apply Rmult_le_pos; [|left; apply Rinv_0_lt_compat, Rmult_lt_0_compat; lra].
    apply Rmult_le_pos; [apply Rmult_le_pos; lra|nra]. }
  replace ((B - q * d) * (S' * (/ B + q * (/ (B - d) - / B)))) with (S' * ((B - q * d) * (/ B + q * (/ (B - d) - / B)))) by ring.
  nra.
Qed.
Lemma mean_recip n (C T T' : nat -> R) B d h : (h < n)%nat -> (forall j, (j < n)%nat -> 0 <= C j) -> (forall j, (j < n)%nat -> 0 <= T' j) ->
  (forall j, (j < n)%nat -> T j <= B * T' j) -> T h <= (B - d) * T' h ->
  0 < rsum n (fun j => C j * T' j) ->
  rsum n (fun j => C j * T j) <= (B - C h * T' h / rsum n (fun j => C j * T' j) * d) * rsum n (fun j => C j * T' j).
Proof.
  intros Hh HC HT HL Hs HS. set (S' := rsum n (fun j => C j * T' j)) in *.
  replace ((B - C h * T' h / S' * d) * S') with (B * S' - C h * T' h * d) by (field; lra).
  unfold S'. rewrite (rsum_pull n h (fun j => C j * T j) Hh), (rsum_pull n h (fun j => C j * T' j) Hh).
  assert (rsum n (fun j => if Nat.eqb j h then 0 else C j * T j) <= B * rsum n (fun j => if Nat.eqb j h then 0 else C j * T' j)).
  { rewrite <- rsum_scal_l. apply rsum_le. intros j Hj. destruct (Nat.eqb j h); [lra|].
    replace (B * (C j * T' j)) with (C j * (B * T' j)) by ring. apply Rmult_le_compat_l; auto. }
  assert (C h * T h <= C h * ((B - d) * T' h)) by (apply Rmult_le_compat_l; auto). nra.
Qed.

(** * One block *)
Section Block.
  Variables (n : nat) (C : nat -> nat -> R) (a b a' b' : nat -> R) (i : nat).
  Hypothesis HC : forall j, (j < n)%nat -> 0 <= C i j.
  Hypotheses (Ha' : 0 < a' i) (Ha : 0 < a i).
  Hypothesis Hb' : forall j, (j < n)%nat -> 0 < b' j /\ 0 < b j \/ b' j = 0 /\ b j = 0.
  Hypothesis HS : 0 < pull n C a' b' i.

  Definition share (j : nat) : R := C i j * (b' j / (1 + a' i * b' j)) / pull n C a' b' i.

  Lemma term_nonneg j : (j < n)%nat -> 0 <= b' j / (1 + a' i * b' j).
  Proof.
    intros Hj. destruct (Hb' j Hj) as [[P _]|[E _]].
    - apply Rmult_le_pos; [lra|]. left. apply Rinv_0_lt_compat. assert (0 < a' i * b' j) by (apply Rmult_lt_0_compat; assumption). lra.
    - rewrite E. unfold Rdiv. lra.
  Qed.
  Lemma direct_gen B e1 e2 h : (h < n)%nat -> 0 < b' h -> 0 <= e1 -> 0 <= e2 -> a i <= (B - e1) * a' i ->
    (forall j, (j < n)%nat -> b' j <= B * b j) -> b' h <= (B - e2) * b h ->
    a' i * pull n C a' b' i / pull n C a b i <=
      (B - share h * ((e2 + e1 * (a' i * b' h)) / (1 + a' i * b' h))) * a' i /\ 0 < pull n C a b i.
  Proof.
    intros Hh Ph He1 He2 La Lb Lh.
    assert (Pbh : 0 < b h) by (destruct (Hb' h Hh) as [[_ P]|[E _]]; lra).
    assert (B1 : 0 < B - e1). { apply Rmult_lt_reg_r with (a' i); [assumption|]. lra. }
    assert (B2 : 0 < B - e2). { apply Rmult_lt_reg_r with (b h); [assumption|]. lra. }
    assert (HB : 0 < B) by lra.
    set (w := a' i * b' h). assert (Hw : 0 < w) by (apply Rmult_lt_0_compat; assumption).
    set (d := (e2 + e1 * w) / (1 + w)).
    assert (Ed : d * (1 + w) = e2 + e1 * w) by (unfold d; field; lra).
    assert (Hd : 0 <= d < B).
    { split; [unfold d; apply Rmult_le_pos; [nra|left; apply Rinv_0_lt_compat; lra]|].
      apply Rmult_lt_reg_r with (1 + w); [lra|]. rewrite Ed. nra. }
    destruct (mean_direct n (C i) (fun j => b j / (1 + a i * b j)) (fun j => b' j / (1 + a' i * b' j)) B d h) as [K P]; try assumption.
    - exact term_nonneg.
    - intros j Hj. destruct (Hb' j Hj) as [[P1 P2]|[E1 E2]]; [|rewrite E1, E2; unfold Rdiv; rewrite !Rmult_0_l; lra].
      assert (0 < a' i * b' j) by (apply Rmult_lt_0_compat; assumption).
      replace (b' j / (1 + a' i * b' j) / B) with (b' j / (B + B * (a' i * b' j))) by (assert (0 < B * (a' i * b' j)) by (apply Rmult_lt_0_compat; assumption); field; repeat split; lra).
      apply term_lower; try assumption; [|auto]. nra.
    - replace (b' h / (1 + a' i * b' h) / (B - d)) with (b' h / ((B - e2) + (B - e1) * (a' i * b' h))).
      { apply term_lower; assumption. }
      fold w. replace ((B - e2) + (B - e1) * w) with ((1 + w) * (B - d)) by nra. field. split; lra.
    - split; [|exact P]. unfold pull at 1 2, share. fold w. fold d. fold (pull n C a' b' i) in K |- *. fold (pull n C a b i) in K |- *.
      apply Rmult_le_compat_r with (r := a' i) in K; [|lra].
      replace (a' i * pull n C a' b' i / pull n C a b i) with (pull n C a' b' i / pull n C a b i * a' i) by (unfold Rdiv; ring).
      unfold pull in *. exact K.
  Qed.
  Lemma recip_gen B e1 e2 h : (h < n)%nat -> 0 < b' h -> 0 <= e1 -> 0 <= e2 -> a' i <= (B - e1) * a i ->
    (forall j, (j < n)%nat -> b j <= B * b' j) -> b h <= (B - e2) * b' h -> 0 < pull n C a b i ->
    a' i <= (B - share h * ((e2 + e1 * (a' i * b' h)) / (1 + a' i * b' h))) * (a' i * pull n C a' b' i / pull n C a b i).
  Proof.
    intros Hh Ph He1 He2 La Lb Lh HP.
    assert (Pbh : 0 < b h) by (destruct (Hb' h Hh) as [[_ P]|[E _]]; lra).
    assert (B1 : 0 < B - e1). { apply Rmult_lt_reg_r with (a i); [assumption|]. lra. }
    assert (B2 : 0 < B - e2). { apply Rmult_lt_reg_r with (b' h); [assumption|]. lra. }
    assert (HB : 0 < B) by lra.
    set (w := a' i * b' h). assert (Hw : 0 < w) by (apply Rmult_lt_0_compat; assumption).
    set (d := (e2 + e1 * w) / (1 + w)).
    assert (Ed : d * (1 + w) = e2 + e1 * w) by (unfold d; field; lra).
    assert (K := mean_recip n (C i) (fun j => b j / (1 + a i * b j)) (fun j => b' j / (1 + a' i * b' j)) B d h Hh HC term_nonneg).
    cbv beta in K.
    assert (K' : pull n C a b i <= (B - share h * d) * pull n C a' b' i).
    { unfold share. apply K; try exact HS.
      - intros j Hj. destruct (Hb' j Hj) as [[P1 P2]|[E1 E2]]; [|rewrite E1, E2; unfold Rdiv; rewrite !Rmult_0_l; lra].
        assert (0 < a' i * b' j) by (apply Rmult_lt_0_compat; assumption).
        replace (B * (b' j / (1 + a' i * b' j))) with (B * B * b' j / (B + B * (a' i * b' j))) by (assert (0 < B * (a' i * b' j)) by (apply Rmult_lt_0_compat; assumption); field; repeat split; lra).
        apply term_upper; try assumption; [|auto]. nra.
      - apply Rle_trans with ((B - e1) * (B - e2) * b' h / ((B - e1) + (B - e2) * (a' i * b' h))); [apply term_upper; assumption|].
        fold w. assert (E : 0 <= (B - d) * (b' h / (1 + w)) - (B - e1) * (B - e2) * b' h / (B - e1 + (B - e2) * w)); [|lra].
        assert (0 < (B - e2) * w) by (apply Rmult_lt_0_compat; assumption).
        replace ((B - d) * (b' h / (1 + w)) - (B - e1) * (B - e2) * b' h / (B - e1 + (B - e2) * w))
          with (b' h * (w * ((e1 - e2) * (e1 - e2))) / ((1 + w) * (1 + w) * (B - e1 + (B - e2) * w))).
        { apply Rmult_le_pos; [|left; apply Rinv_0_lt_compat; apply Rmult_lt_0_compat; [nra|lra]].
          apply Rmult_le_pos; [lra|]. apply Rmult_le_pos; [lra|apply Rle_0_sqr]. }
        unfold d. field. split; lra. }
    fold d. apply Rmult_le_reg_r with (pull n C a b i); [assumption|].
    replace ((B - share h * d) * (a' i * pull n C a' b' i / pull n C a b i) * pull n C a b i)
      with (a' i * ((B - share h * d) * pull n C a' b' i)) by (field; lra).
    apply Rmult_le_compat_l; lra.
  Qed.
End Block.

(** * Two blocks *)
Definition paired_with (n : nat) (s x : nat -> R) : Prop := forall i, (i < n)%nat -> 0 < s i /\ 0 < x i \/ s i = 0 /\ x i = 0.
Definition damped (al u f u' : R) : Prop :=
  0 < u' /\ exists a, al <= a <= 1 /\ u' <= (1 - a) * u + a * f /\ / u' <= (1 - a) * / u + a * / f.
Definition target (n : nat) (C : nat -> nat -> R) (s s' a b : nat -> R) (i : nat) : R := s i * pull n C s s' i / pull n C a b i.
Definition moved (n : nat) (C : nat -> nat -> R) (al : R) (s s' x y x' : nat -> R) : Prop :=
  forall i, (i < n)%nat -> 0 < s i -> damped al (x i) (target n C s s' x y i) (x' i).
Definition rate (n : nat) (C : nat -> nat -> R) (s s' : nat -> R) (i j : nat) : R :=
  share n C s s' i j * (Rmin 1 (s i * s' j) / (1 + s i * s' j)).
Record half_system (n : nat) (C : nat -> nat -> R) (s s' : nat -> R) (al c : R) : Prop := {
  hs_pull : forall i, (i < n)%nat -> 0 < s i -> 0 < pull n C s s' i;
  hs_rate : forall i j, (i < n)%nat -> (j < n)%nat -> 0 < s i -> 0 < s' j -> 0 < C i j -> c <= al * rate n C s s' i j }.
Record weights (n : nat) (C : nat -> nat -> R) : Prop := {
  w_nonneg : forall i j, (i < n)%nat -> (j < n)%nat -> 0 <= C i j;
  w_sym : forall i j, (i < n)%nat -> (j < n)%nat -> 0 < C i j -> 0 < C j i }.

Lemma damped_direct al u f u' s B e : 0 < al -> 0 <= e -> 0 < s -> u <= B * s -> f <= (B - e) * s -> damped al u f u' ->
  u' <= (B - al * e) * s.
Proof.
  intros Hal He Hs Hu Hf (P & a & Ha & L & _).
  assert ((1 - a) * u <= (1 - a) * (B * s)) by (apply Rmult_le_compat_l; lra).
  assert (a * f <= a * ((B - e) * s)) by (apply Rmult_le_compat_l; lra).
  assert (al * (e * s) <= a * (e * s)) by (apply Rmult_le_compat_r; [apply Rmult_le_pos; lra|lra]). nra.
Qed.
Lemma damped_recip al u f u' s B e : 0 < al -> 0 <= e -> 0 < s -> 0 < u -> 0 < f -> s <= B * u -> s <= (B - e) * f -> damped al u f u' ->
  s <= (B - al * e) * u'.
Proof.
  intros Hal He Hs Pu Pf Hu Hf (P & a & Ha & _ & L).
  assert (H1 : s * / u <= B). { apply Rmult_le_reg_r with u; [assumption|]. rewrite Rmult_assoc, Rinv_l; lra. }
  assert (H2 : s * / f <= B - e). { apply Rmult_le_reg_r with f; [assumption|]. rewrite Rmult_assoc, Rinv_l; lra. }
  assert (H3 : s * / u' <= B - al * e).
  { apply Rle_trans with (s * ((1 - a) * / u + a * / f)); [apply Rmult_le_compat_l; lra|].
    replace (s * ((1 - a) * / u + a * / f)) with ((1 - a) * (s * / u) + a * (s * / f)) by ring.
    assert ((1 - a) * (s * / u) <= (1 - a) * B) by (apply Rmult_le_compat_l; lra).
    assert (a * (s * / f) <= a * (B - e)) by (apply Rmult_le_compat_l; lra).
    assert (al * e <= a * e) by (apply Rmult_le_compat_r; lra). nra. }
  apply Rmult_le_compat_r with (r := u') in H3; [|lra]. rewrite Rmult_assoc, Rinv_l, Rmult_1_r in H3; lra.
Qed.

Lemma pull_positive n C s s' x y i : weights n C -> (i < n)%nat -> paired_with n s x -> paired_with n s' y -> 0 < s i ->
  0 < pull n C s s' i -> 0 < pull n C x y i /\ exists j, (j < n)%nat /\ 0 < C i j /\ 0 < s' j.
Proof.
  intros HW Hi Hx Hy Hs HP.
  assert (Px : 0 < x i) by (destruct (Hx i Hi) as [[_ P]|[E _]]; lra).
  assert (W : exists j, (j < n)%nat /\ 0 < C i j /\ 0 < s' j).
  { destruct (Rle_dec (pull n C s s' i) 0) as [L|_]; [lra|].
    assert (D : (exists j, (j < n)%nat /\ 0 < C i j /\ 0 < s' j) \/ forall j, (j < n)%nat -> C i j * (s' j / (1 + s i * s' j)) = 0).
    { clear HP. assert (G : forall m, (m <= n)%nat -> (exists j, (j < n)%nat /\ 0 < C i j /\ 0 < s' j) \/
        forall j, (j < m)%nat -> C i j * (s' j / (1 + s i * s' j)) = 0).
      { induction m as [|m IH]; intros Hm; [right; intros; lia|]. destruct IH as [IH|IH]; [lia|left; assumption|].
        destruct (Rlt_dec 0 (C i m)) as [c|c].
        - destruct (Hy m ltac:(lia)) as [[P _]|[E _]]; [left; exists m; repeat split; [lia|assumption|assumption]|].
          right. intros j Hj. destruct (Nat.eq_dec j m) as [->|]; [rewrite E; unfold Rdiv; ring|apply IH; lia].
        - right. intros j Hj. destruct (Nat.eq_dec j m) as [->|]; [|apply IH; lia].
          replace (C i m) with 0; [ring|]. assert (K := w_nonneg n C HW i m Hi ltac:(lia)). lra. }
      apply (G n). lia. }
    destruct D as [D|D]; [exact D|]. exfalso. unfold pull in HP. rewrite (rsum_ext n _ (fun _ => 0)) in HP by exact D.
    rewrite rsum_zero in HP; [lra|reflexivity]. }
  split; [|exact W]. destruct W as (j & Hj & Pc & Ps). unfold pull. apply rsum_pos with j; [|assumption|].
  - intros h Hh. apply Rmult_le_pos; [apply (w_nonneg n C HW); assumption|].
    destruct (Hy h Hh) as [[_ P]|[_ E]]; [|rewrite E; unfold Rdiv; lra].
    assert (0 < x i * y h) by (apply Rmult_lt_0_compat; assumption). apply Rmult_le_pos; [lra|left; apply Rinv_0_lt_compat; lra].
  - apply Rmult_lt_0_compat; [assumption|]. assert (P : 0 < y j) by (destruct (Hy j Hj) as [[_ P]|[E _]]; lra).
    assert (0 < x i * y j) by (apply Rmult_lt_0_compat; assumption). apply Rmult_lt_0_compat; [lra|apply Rinv_0_lt_compat; lra].
Qed.

Lemma share_nonneg n C s s' y i j : weights n C -> (i < n)%nat -> (j < n)%nat -> paired_with n s' y -> 0 < s i -> 0 < pull n C s s' i ->
  0 <= share n C s s' i j.
Proof.
  intros HW Hi Hj Hy Hs HP. unfold share. apply Rmult_le_pos; [|left; apply Rinv_0_lt_compat; assumption].
  apply Rmult_le_pos; [apply (w_nonneg n C HW); assumption|]. apply (term_nonneg n y s s' i Hs Hy j Hj).
Qed.
(** The loss of a bound, in terms of [rate]. *)
Lemma rate_below n C s s' y i j e1 e2 : weights n C -> (i < n)%nat -> (j < n)%nat -> paired_with n s' y -> 0 < s i -> 0 < s' j -> 0 < pull n C s s' i ->
  0 <= e1 -> 0 <= e2 ->
  rate n C s s' i j * Rmax e1 e2 <= share n C s s' i j * ((e2 + e1 * (s i * s' j)) / (1 + s i * s' j)).
Proof.
  intros HW Hi Hj Hy Hs Hs' HP H1 H2. unfold rate. rewrite Rmult_assoc.
  apply Rmult_le_compat_l; [eapply share_nonneg; eassumption|].
  set (w := s i * s' j). assert (Hw : 0 < w) by (apply Rmult_lt_0_compat; assumption).
  replace (Rmin 1 w / (1 + w) * Rmax e1 e2) with (Rmin 1 w * Rmax e1 e2 / (1 + w)) by (unfold Rdiv; ring).
  apply Rmult_le_compat_r; [left; apply Rinv_0_lt_compat; lra|].
  unfold Rmin, Rmax. destruct (Rle_dec 1 w), (Rle_dec e1 e2); nra.
Qed.

Section Advance.
  Variables (n : nat) (C : nat -> nat -> R) (s s' : nat -> R) (al c : R).
  Hypothesis HW : weights n C.
  Hypotheses (Hal : 0 < al) (Hal1 : al <= 1).
  Hypothesis HS : half_system n C s s' al c.
  Variables x y x' : nat -> R.
  Hypotheses (Hx : paired_with n s x) (Hy : paired_with n s' y) (Hm : moved n C al s s' x y x').

  Lemma advance_direct B e1 e2 i h : (i < n)%nat -> (h < n)%nat -> 0 < s i -> 0 < s' h -> 0 < C i h -> 0 <= e1 -> 0 <= e2 ->
    x i <= (B - e1) * s i -> (forall j, (j < n)%nat -> s' j <= B * y j) -> s' h <= (B - e2) * y h ->
    x' i <= (B - c * Rmax e1 e2) * s i.
  Proof.
    intros Hi Hh Psi Psh Pc He1 He2 La Lb Lh.
    assert (Px : 0 < x i) by (destruct (Hx i Hi) as [[_ P]|[E _]]; lra).
    destruct (direct_gen n C x y s s' i (fun j => w_nonneg n C HW i j Hi) Psi Px Hy (hs_pull _ _ _ _ _ _ HS i Hi Psi) B e1 e2 h Hh Psh He1 He2 La Lb Lh) as [K P].
    set (e := share n C s s' i h * ((e2 + e1 * (s i * s' h)) / (1 + s i * s' h))) in *.
    assert (Hpull := hs_pull _ _ _ _ _ _ HS i Hi Psi).
    assert (R1 := rate_below n C s s' y i h e1 e2 HW Hi Hh Hy Psi Psh Hpull He1 He2). fold e in R1.
    assert (Rc := hs_rate _ _ _ _ _ _ HS i h Hi Hh Psi Psh Pc).
    assert (M : 0 <= Rmax e1 e2) by (apply Rle_trans with e1; [assumption|apply Rmax_l]).
    assert (He : 0 <= e).
    { unfold e. apply Rmult_le_pos; [eapply share_nonneg; eassumption|]. assert (0 < s i * s' h) by (apply Rmult_lt_0_compat; assumption).
      apply Rmult_le_pos; [nra|left; apply Rinv_0_lt_compat; lra]. }
    assert (D := damped_direct al (x i) (target n C s s' x y i) (x' i) (s i) B e Hal He Psi ltac:(nra) K (Hm i Hi Psi)).
    apply Rle_trans with ((B - al * e) * s i); [exact D|]. apply Rmult_le_compat_r; [lra|].
    assert (c * Rmax e1 e2 <= al * rate n C s s' i h * Rmax e1 e2) by (apply Rmult_le_compat_r; assumption).
    assert (al * (rate n C s s' i h * Rmax e1 e2) <= al * e) by (apply Rmult_le_compat_l; lra). lra.
  Qed.
  Lemma advance_recip B e1 e2 i h : (i < n)%nat -> (h < n)%nat -> 0 < s i -> 0 < s' h -> 0 < C i h -> 0 <= e1 -> 0 <= e2 ->
    s i <= (B - e1) * x i -> (forall j, (j < n)%nat -> y j <= B * s' j) -> y h <= (B - e2) * s' h ->
    s i <= (B - c * Rmax e1 e2) * x' i.
  Proof.
    intros Hi Hh Psi Psh Pc He1 He2 La Lb Lh.
    assert (Px : 0 < x i) by (destruct (Hx i Hi) as [[_ P]|[E _]]; lra).
    assert (Hpull := hs_pull _ _ _ _ _ _ HS i Hi Psi).
    destruct (pull_positive n C s s' x y i HW Hi Hx Hy Psi Hpull) as [HP _].
    assert (K := recip_gen n C x y s s' i (fun j => w_nonneg n C HW i j Hi) Psi Px Hy Hpull B e1 e2 h Hh Psh He1 He2 La Lb Lh HP).
    set (e := share n C s s' i h * ((e2 + e1 * (s i * s' h)) / (1 + s i * s' h))) in *.
    assert (R1 := rate_below n C s s' y i h e1 e2 HW Hi Hh Hy Psi Psh Hpull He1 He2). fold e in R1.
    assert (Rc := hs_rate _ _ _ _ _ _ HS i h Hi Hh Psi Psh Pc).
    assert (M : 0 <= Rmax e1 e2) by (apply Rle_trans with e1; [assumption|apply Rmax_l]).
    assert (He : 0 <= e).
    { unfold e. apply Rmult_le_pos; [eapply share_nonneg; eassumption|]. assert (0 < s i * s' h) by (apply Rmult_lt_0_compat; assumption).
      apply Rmult_le_pos; [nra|left; apply Rinv_0_lt_compat; lra]. }
    assert (Pf : 0 < target n C s s' x y i).
    { unfold target. apply Rmult_lt_0_compat; [apply Rmult_lt_0_compat; assumption|apply Rinv_0_lt_compat; assumption]. }
    assert (D := damped_recip al (x i) (target n C s s' x y i) (x' i) (s i) B e Hal He Psi Px Pf ltac:(nra) K (Hm i Hi Psi)).
    apply Rle_trans with ((B - al * e) * x' i); [exact D|].
    apply Rmult_le_compat_r; [left; apply (Hm i Hi Psi)|].
    assert (c * Rmax e1 e2 <= al * rate n C s s' i h * Rmax e1 e2) by (apply Rmult_le_compat_r; assumption).
    assert (al * (rate n C s s' i h * Rmax e1 e2) <= al * e) by (apply Rmult_le_compat_l; lra). lra.
  Qed.
End Advance.

(** * Bounds over both blocks *)
Definition slot (s s' : nat -> R) (t : bool) (i : nat) (B : R) (x y : nat -> R) : Prop :=
  if t then x i <= B * s i else s' i <= B * y i.
Definition act (s s' : nat -> R) (t : bool) (i : nat) : Prop := if t then 0 < s i else 0 < s' i.
Definition inside (n : nat) (s s' : nat -> R) (B : R) (x y : nat -> R) : Prop :=
  forall t i, (i < n)%nat -> slot s s' t i B x y.

Section Bounds.
  Variables (n : nat) (C : nat -> nat -> R) (s s' : nat -> R) (al c : R).
  Hypothesis HW : weights n C.
  Hypotheses (Hal : 0 < al) (Hal1 : al <= 1) (Hc : 0 < c) (Hc1 : c <= 1).
  Hypothesis HS : half_system n C s s' al c.
  Hypothesis HS' : half_system n C s' s al c.

  Definition stepped (x y x' y' : nat -> R) : Prop :=
    paired_with n s x /\ paired_with n s' y /\ paired_with n s x' /\ paired_with n s' y' /\
    moved n C al s s' x y x' /\ moved n C al s' s y x y'.

  Lemma slot_inactive t i B x y : (i < n)%nat -> paired_with n s x -> paired_with n s' y -> ~ act s s' t i -> slot s s' t i B x y.
  Proof.
    intros Hi Hx Hy Na. destruct t; simpl in *.
    - destruct (Hx i Hi) as [[P _]|[E1 E2]]; [contradiction|]. rewrite E1, E2. lra.
    - destruct (Hy i Hi) as [[P _]|[E1 E2]]; [contradiction|]. rewrite E1, E2. lra.
  Qed.
  Lemma act_dec t i : act s s' t i \/ ~ act s s' t i.
  Proof. destruct t; simpl; [destruct (Rlt_dec 0 (s i))|destruct (Rlt_dec 0 (s' i))]; auto. Qed.
  (** One move with slack [e1] at the slot itself and [e2] at one of its neighbours. *)
  Lemma advance x y x' y' B t i h e1 e2 : stepped x y x' y' -> inside n s s' B x y -> (i < n)%nat -> (h < n)%nat ->
    act s s' t i -> act s s' (negb t) h -> 0 < C i h -> 0 <= e1 -> 0 <= e2 ->
    slot s s' t i (B - e1) x y -> slot s s' (negb t) h (B - e2) x y -> slot s s' t i (B - c * Rmax e1 e2) x' y'.
  Proof.
    intros (Hx & Hy & _ & _ & Mx & My) HI Hi Hh Ai Ah Pc He1 He2 S1 S2. destruct t; simpl in *.
    - eapply (advance_direct n C s s' al c HW Hal HS x y x' Hx Hy Mx B e1 e2 i h); try assumption.
      intros j Hj. exact (HI false j Hj).
    - eapply (advance_recip n C s' s al c HW Hal HS' y x y' Hy Hx My B e1 e2 i h); try assumption.
      intros j Hj. exact (HI true j Hj).
  Qed.
  Lemma neighbour t i x y : paired_with n s x -> paired_with n s' y -> (i < n)%nat -> act s s' t i ->
    exists j, (j < n)%nat /\ 0 < C i j /\ act s s' (negb t) j.
  Proof.
    intros Hx Hy Hi Ai. destruct t; simpl in *.
    - apply (pull_positive n C s s' x y i HW Hi Hx Hy Ai (hs_pull _ _ _ _ _ _ HS i Hi Ai)).
    - apply (pull_positive n C s' s y x i HW Hi Hy Hx Ai (hs_pull _ _ _ _ _ _ HS' i Hi Ai)).
  Qed.
  Lemma keeps x y x' y' B t i e : stepped x y x' y' -> inside n s s' B x y -> (i < n)%nat -> 0 <= e ->
    slot s s' t i (B - e) x y -> slot s s' t i (B - c * e) x' y'.
  Proof.
    intros HT HI Hi He S1. assert (HT0 := HT). destruct HT0 as (Hx & Hy & Hx' & Hy' & _).
    destruct (act_dec t i) as [Ai|Na]; [|apply slot_inactive; assumption].
    destruct (neighbour t i x y Hx Hy Hi Ai) as (j & Hj & Pc & Aj).
    replace e with (Rmax e 0) by (apply Rmax_left; assumption).
    eapply (advance x y x' y' B t i j e 0); try eassumption; [lra|]. rewrite Rminus_0_r. apply HI; assumption.
  Qed.
  Lemma spreads x y x' y' B t i h e : stepped x y x' y' -> inside n s s' B x y -> (i < n)%nat -> (h < n)%nat -> 0 <= e ->
    act s s' t i -> act s s' (negb t) h -> 0 < C i h ->
    slot s s' (negb t) h (B - e) x y -> slot s s' t i (B - c * e) x' y'.
  Proof.
    intros HT HI Hi Hh He Ai Ah Pc S1.
    replace e with (Rmax 0 e) by (apply Rmax_right; assumption).
    eapply (advance x y x' y' B t i h 0 e); try eassumption; [lra|]. rewrite Rminus_0_r. apply HI; assumption.
  Qed.
  Lemma inside_step x y x' y' B : stepped x y x' y' -> inside n s s' B x y -> inside n s s' B x' y'.
  Proof.
    intros HT HI t i Hi. replace B with (B - c * 0) by ring. apply (keeps x y x' y' B t i 0 HT HI Hi); [lra|].
    rewrite Rminus_0_r. apply HI; assumption.
  Qed.

  (** Every slot of the hub's block shares a neighbour with the hub. *)
  Definition hub (t0 : bool) (i0 : nat) : Prop :=
    (i0 < n)%nat /\ act s s' t0 i0 /\
    forall i, (i < n)%nat -> act s s' t0 i -> exists j, (j < n)%nat /\ act s s' (negb t0) j /\ 0 < C i j /\ 0 < C j i0.

  Lemma three_steps t0 i0 x0 y0 x1 y1 x2 y2 x3 y3 B e : hub t0 i0 -> stepped x0 y0 x1 y1 -> stepped x1 y1 x2 y2 -> stepped x2 y2 x3 y3 ->
    inside n s s' B x0 y0 -> 0 <= e -> slot s s' t0 i0 (B - e) x0 y0 -> inside n s s' (B - c * c * c * e) x3 y3.
  Proof.
    intros (Hi0 & A0 & HH) T0 T1 T2 I0 He S0.
    assert (I1 := inside_step _ _ _ _ B T0 I0). assert (I2 := inside_step _ _ _ _ B T1 I1).
    assert (E1 : 0 <= c * e) by (apply Rmult_le_pos; lra). assert (E2 : 0 <= c * (c * e)) by (apply Rmult_le_pos; lra).
    replace (c * c * c * e) with (c * (c * (c * e))) by ring.
    assert (K2 : forall i, (i < n)%nat -> act s s' t0 i -> slot s s' t0 i (B - c * (c * e)) x2 y2).
    { intros i Hi Ai. destruct (HH i Hi Ai) as (j & Hj & Aj & P1 & P2).
      assert (K1 : slot s s' (negb t0) j (B - c * e) x1 y1).
      { eapply (spreads x0 y0 x1 y1 B (negb t0) j i0 e); try eassumption; rewrite Bool.negb_involutive; assumption. }
      eapply (spreads x1 y1 x2 y2 B t0 i j (c * e)); eassumption. }
    intros t i Hi.
    assert (HT2 := T2). destruct HT2 as (Hx2 & Hy2 & Hx3 & Hy3 & _).
    destruct (act_dec t i) as [Ai|Na]; [|apply slot_inactive; assumption].
    destruct (Bool.bool_dec t t0) as [->|Nt].
    - apply (keeps x2 y2 x3 y3 B t0 i (c * (c * e)) T2 I2 Hi E2). apply K2; assumption.
    - assert (Et : negb t = t0) by (destruct t, t0; simpl; congruence).
      destruct (neighbour t i x2 y2 Hx2 Hy2 Hi Ai) as (j & Hj & Pc & Aj). rewrite Et in Aj.
      eapply (spreads x2 y2 x3 y3 B t i j (c * (c * e))); try eassumption; rewrite Et; [assumption|]. apply K2; assumption.
  Qed.
End Bounds.

(** * The two families of bounds together *)
Definition within (W a b : R) : Prop := a <= W * b /\ b <= W * a.

Section Sequence.
  Variables (n : nat) (C : nat -> nat -> R) (s s' : nat -> R) (al c : R).
  Hypothesis HW : weights n C.
  Hypotheses (Hal : 0 < al) (Hal1 : al <= 1) (Hc : 0 < c) (Hc1 : c <= 1).
  Hypothesis HS : half_system n C s s' al c.
  Hypothesis HS' : half_system n C s' s al c.
  Variables (t0 : bool) (i0 : nat).
  Hypothesis HH : hub n C s s' t0 i0.
  Variables X Y : nat -> nat -> R.
  Hypothesis HT : forall t, stepped n C s s' al (X t) (Y t) (X (S t)) (Y (S t)).

  Lemma stepped_swap x y x' y' : stepped n C s s' al x y x' y' -> stepped n C s' s al y x y' x'.
  Proof. intros (H1 & H2 & H3 & H4 & H5 & H6). unfold stepped; tauto. Qed.
  Lemma act_swap t i : act s' s t i <-> act s s' (negb t) i.
  Proof. destruct t; simpl; tauto. Qed.
  Lemma hub_swap : hub n C s' s (negb t0) i0.
  Proof.
    destruct HH as (Hi & A & K). split; [assumption|]. split; [rewrite act_swap, Bool.negb_involutive; assumption|].
    intros i Hi' Ai. rewrite act_swap, Bool.negb_involutive in Ai. destruct (K i Hi' Ai) as (j & Hj & Aj & P). exists j.
    rewrite act_swap. split; [assumption|]. split; [|assumption]. rewrite Bool.negb_involutive. exact Aj.
  Qed.
  Definition both (B B' : R) (x y : nat -> R) : Prop := inside n s s' B x y /\ inside n s' s B' y x.
  Lemma both_step x y x' y' B B' : stepped n C s s' al x y x' y' -> both B B' x y -> both B B' x' y'.
  Proof.
    intros T [I I']. split.
    - exact (inside_step n C s s' al c HW Hal HS HS' x y x' y' B T I).
    - exact (inside_step n C s' s al c HW Hal HS' HS y x y' x' B' (stepped_swap _ _ _ _ T) I').
  Qed.
  Definition ratio (x y : nat -> R) : R := if t0 then x i0 / s i0 else s' i0 / y i0.
  Lemma ratio_pos x y : paired_with n s x -> paired_with n s' y -> 0 < ratio x y.
  Proof.
    intros Hx Hy. destruct HH as (Hi & A & _). unfold ratio. destruct t0; simpl in A.
    - destruct (Hx i0 Hi) as [[P P']|[E _]]; [|lra]. apply Rmult_lt_0_compat; [assumption|apply Rinv_0_lt_compat; assumption].
    - destruct (Hy i0 Hi) as [[P P']|[E _]]; [|lra]. apply Rmult_lt_0_compat; [assumption|apply Rinv_0_lt_compat; assumption].
  Qed.
  Lemma div_le a b q : 0 < b -> (a / b <= q <-> a <= q * b).
  Proof.
    intros P. split; intros L.
    - apply Rmult_le_compat_r with (r := b) in L; [|lra]. unfold Rdiv in L. rewrite Rmult_assoc, Rinv_l in L; lra.
    - apply Rmult_le_reg_r with b; [assumption|]. unfold Rdiv. rewrite Rmult_assoc, Rinv_l; lra.
  Qed.
  (** The slot of the hub in the two families. *)
  Lemma hub_slot x y B : paired_with n s x -> paired_with n s' y -> (slot s s' t0 i0 B x y <-> ratio x y <= B).
  Proof.
    intros Hx Hy. destruct HH as (Hi & A & _). unfold ratio, slot. destruct t0; simpl in A.
    - symmetry. apply div_le; assumption.
    - destruct (Hy i0 Hi) as [[P P']|[E _]]; [|lra]. symmetry. apply div_le; assumption.
  Qed.
  Lemma hub_slot' x y B : paired_with n s x -> paired_with n s' y -> (slot s' s (negb t0) i0 B y x <-> / ratio x y <= B).
  Proof.
    intros Hx Hy. destruct HH as (Hi & A & _). unfold ratio, slot. destruct t0; simpl in A |- *.
    - destruct (Hx i0 Hi) as [[P P']|[E _]]; [|lra]. replace (/ (x i0 / s i0)) with (s i0 / x i0) by (field; lra). symmetry. apply div_le; assumption.
    - destruct (Hy i0 Hi) as [[P P']|[E _]]; [|lra]. replace (/ (s' i0 / y i0)) with (y i0 / s' i0) by (field; lra). symmetry. apply div_le; assumption.
  Qed.

  Definition kap : R := c * c * c.
  Lemma kap_range : 0 < kap <= 1.
  Proof. unfold kap. assert (0 < c * c) by nra. assert (c * c <= 1) by nra. split; nra. Qed.

  Lemma both_ratio x y B B' : paired_with n s x -> paired_with n s' y -> both B B' x y -> ratio x y <= B /\ / ratio x y <= B'.
  Proof.
    intros Hx Hy [I I']. assert (Hi : (i0 < n)%nat) by apply HH. split.
    - apply (hub_slot x y B Hx Hy). apply I; assumption.
    - apply (hub_slot' x y B' Hx Hy). apply I'; assumption.
  Qed.
  Lemma both_three t B B' : both B B' (X t) (Y t) ->
    both (B - kap * (B - ratio (X t) (Y t))) (B' - kap * (B' - / ratio (X t) (Y t))) (X (3 + t)%nat) (Y (3 + t)%nat).
  Proof.
    intros HB. assert (T := HT t). destruct T as (Hx & Hy & _). destruct (both_ratio _ _ _ _ Hx Hy HB) as [L1 L2]. destruct HB as [I I'].
    split; unfold kap.
    - eapply (three_steps n C s s' al c HW Hal Hc HS HS' t0 i0 _ _ _ _ _ _ _ _ B _ HH (HT t) (HT (S t)) (HT (S (S t))) I); [lra|].
      apply (hub_slot _ _ _ Hx Hy). lra.
    - eapply (three_steps n C s' s al c HW Hal Hc HS' HS (negb t0) i0 _ _ _ _ _ _ _ _ B' _ hub_swap
        (stepped_swap _ _ _ _ (HT t)) (stepped_swap _ _ _ _ (HT (S t))) (stepped_swap _ _ _ _ (HT (S (S t)))) I'); [lra|].
      apply (hub_slot' _ _ _ Hx Hy). lra.
  Qed.

  Variables B0 B0' : R.
  Hypothesis H0 : both B0 B0' (X 0%nat) (Y 0%nat).
  Fixpoint bb (m : nat) : R * R :=
    match m with
    | O => (B0, B0')
    | S m => (fst (bb m) - kap * (fst (bb m) - ratio (X (3 * m)%nat) (Y (3 * m)%nat)),
              snd (bb m) - kap * (snd (bb m) - / ratio (X (3 * m)%nat) (Y (3 * m)%nat)))
    end.
  Lemma bb_both m : both (fst (bb m)) (snd (bb m)) (X (3 * m)%nat) (Y (3 * m)%nat).
  Proof.
    induction m as [|m IH]; [exact H0|]. replace (3 * S m)%nat with (3 + 3 * m)%nat by lia. apply both_three. exact IH.
  Qed.
  Lemma bb_ratio m : let r := ratio (X (3 * m)%nat) (Y (3 * m)%nat) in 0 < r /\ r <= fst (bb m) /\ / r <= snd (bb m).
  Proof.
    cbv zeta. destruct (HT (3 * m)%nat) as (Hx & Hy & _). split; [apply ratio_pos; assumption|]. apply both_ratio; [assumption|assumption|apply bb_both].
  Qed.
  Lemma bb_pos m : 0 < fst (bb m) /\ 0 < snd (bb m) /\ 1 <= fst (bb m) * snd (bb m).
  Proof.
    destruct (bb_ratio m) as (P & L1 & L2). set (r := ratio _ _) in *. assert (0 < / r) by (apply Rinv_0_lt_compat; assumption).
    split; [lra|]. split; [lra|]. replace 1 with (r * / r) by (apply Rinv_r; lra). apply Rmult_le_compat; lra.
  Qed.
  Lemma bb_mono m : fst (bb (S m)) <= fst (bb m) /\ snd (bb (S m)) <= snd (bb m).
  Proof. destruct (bb_ratio m) as (P & L1 & L2). destruct kap_range. cbn [bb fst snd]. split; nra. Qed.
  Lemma bb_mono_le m k : (m <= k)%nat -> fst (bb k) <= fst (bb m) /\ snd (bb k) <= snd (bb m).
  Proof. induction 1 as [|k L IH]; [lra|]. destruct (bb_mono k). lra. Qed.
  Lemma bb_contracts m : fst (bb (S m)) * snd (bb (S m)) - 1 <= (1 - kap) * (fst (bb m) * snd (bb m) - 1).
  Proof.
    destruct (bb_ratio m) as (P & L1 & L2). destruct kap_range as [K1 K2]. cbn [bb fst snd].
    set (r := ratio _ _) in *. set (B := fst (bb m)) in *. set (B' := snd (bb m)) in *.
    assert (P' : 0 < / r) by (apply Rinv_0_lt_compat; assumption). assert (E : r * / r = 1) by (apply Rinv_r; lra).
    set (q := / r) in *. clearbody q.
    (* (B - r)(B' - q) >= 0 gives B q + B' r <= B B' + 1 *)
    assert (Q : 0 <= (B - r) * (B' - q)) by (apply Rmult_le_pos; lra).
    assert (E1 : (B - kap * (B - r)) * (B' - kap * (B' - q)) - 1 - (1 - kap) * (B * B' - 1)
      = - (kap * (1 - kap) * ((B - r) * (B' - q)))).
    { replace ((B - kap * (B - r)) * (B' - kap * (B' - q))) with ((1 - kap) * (1 - kap) * (B * B') + kap * kap * (r * q) + kap * (1 - kap) * (B * q + B' * r)) by ring.
      replace ((B - r) * (B' - q)) with (B * B' - (B * q + B' * r) + r * q) by ring. rewrite E. ring. }
    assert (0 <= kap * (1 - kap) * ((B - r) * (B' - q))) by (apply Rmult_le_pos; [apply Rmult_le_pos; lra|assumption]). lra.
  Qed.
  Lemma bb_geometric m : fst (bb m) * snd (bb m) - 1 <= (1 - kap) ^ m * (B0 * B0' - 1).
  Proof.
    destruct kap_range as [K1 K2]. induction m as [|m IH]; [simpl; lra|].
    apply Rle_trans with (1 := bb_contracts m). cbn [pow]. rewrite Rmult_assoc. apply Rmult_le_compat_l; lra.
  Qed.

  (** The common limit of the two families. *)
  Lemma bb_limit : exists l, 0 < l /\ forall m, / snd (bb m) <= l /\ l <= fst (bb m).
  Proof.
    assert (Cr : forall m k, / snd (bb m) <= fst (bb k)).
    { intros m k. destruct (bb_mono_le m (Nat.max m k) ltac:(lia)) as [_ L2]. destruct (bb_mono_le k (Nat.max m k) ltac:(lia)) as [L1 _].
      destruct (bb_pos (Nat.max m k)) as (P1 & P2 & P3). destruct (bb_pos m) as (_ & Pm & _).
      apply Rle_trans with (/ snd (bb (Nat.max m k))); [apply Rinv_le_contravar; assumption|].
      apply Rle_trans with (fst (bb (Nat.max m k))); [|assumption].
      apply Rmult_le_reg_r with (snd (bb (Nat.max m k))); [assumption|]. rewrite Rinv_l; lra. }
    destruct (completeness (fun z => exists m, z = / snd (bb m))) as [l [U L]].
    - exists (fst (bb 0)). intros z [m ->]. apply Cr.
    - exists (/ snd (bb 0)). exists 0%nat. reflexivity.
    - exists l. assert (G : forall m, / snd (bb m) <= l) by (intros m; apply U; exists m; reflexivity). split.
      + destruct (bb_pos 0) as (_ & P & _). assert (Pi := Rinv_0_lt_compat _ P). specialize (G 0%nat). lra.
      + intros m. split; [apply G|]. apply L. intros z [k ->]. apply Cr.
  Qed.
  Lemma both_within B B' l x y i : 0 < B -> 0 < B' -> 0 < l -> / B' <= l -> l <= B -> paired_with n s x -> paired_with n s' y ->
    both B B' x y -> (i < n)%nat -> within (B * B') (x i) (l * s i) /\ within (B * B') (y i) (s' i / l).
  Proof.
    intros PB PB' Pl L1 L2 Hx Hy [I I'] Hi. assert (L1' : 1 <= B' * l).
    { apply Rmult_le_compat_l with (r := B') in L1; [|lra]. rewrite Rinv_r in L1; lra. }
    assert (Sx := I true i Hi). assert (Sy := I false i Hi). assert (Sx' := I' false i Hi). assert (Sy' := I' true i Hi). simpl in *.
    assert (Nx : 0 <= s i /\ 0 <= x i) by (destruct (Hx i Hi); lra).
    assert (Ny : 0 <= s' i /\ 0 <= y i) by (destruct (Hy i Hi); lra).
    assert (Ys : forall a, s' i / l <= a <-> s' i <= a * l) by (intros; apply div_le; assumption).
    assert (Yd : s' i / l * l = s' i) by (field; lra).
    set (z := s' i / l) in *.
    unfold within. repeat split.
    - apply Rle_trans with (1 := Sx). replace (B * B' * (l * s i)) with (B * s i * (B' * l)) by ring.
      rewrite <- (Rmult_1_r (B * s i)) at 1. apply Rmult_le_compat_l; [apply Rmult_le_pos; lra|assumption].
    - apply Rle_trans with (l * (B' * x i)); [apply Rmult_le_compat_l; lra|].
      replace (B * B' * x i) with (B * (B' * x i)) by ring. apply Rmult_le_compat_r; [apply Rmult_le_pos; lra|assumption].
    - apply Rle_trans with (1 := Sy'). rewrite <- Yd. replace (B * B' * z) with (B' * z * B) by ring. replace (B' * (z * l)) with (B' * z * l) by ring.
      apply Rmult_le_compat_l; [|assumption]. apply Rmult_le_pos; [lra|].
      unfold z. apply Rmult_le_pos; [lra|left; apply Rinv_0_lt_compat; assumption].
    - apply Ys. apply Rle_trans with (1 := Sy). replace (B * B' * y i * l) with (B * y i * (B' * l)) by ring.
      rewrite <- (Rmult_1_r (B * y i)) at 1. apply Rmult_le_compat_l; [apply Rmult_le_pos; lra|assumption].
  Qed.
  Lemma within_mono W W' a b : 0 <= a -> 0 <= b -> W <= W' -> within W a b -> within W' a b.
  Proof. intros Pa Pb L [H1 H2]. unfold within. split; nra. Qed.

  Definition rho : R := 1 - kap / 3.
  Lemma rho_range : 0 < rho < 1.
  Proof. unfold rho. destruct kap_range. lra. Qed.
  Lemma rho_cube m : (1 - kap) ^ m <= rho ^ (3 * m).
  Proof.
    rewrite pow_mult. apply pow_incr. unfold rho. destruct kap_range. split; [lra|]. simpl. nra.
  Qed.
  Lemma target_paired x y : paired_with n s x -> paired_with n s' y ->
    paired_with n s (fun i => if Rlt_dec 0 (s i) then target n C s s' x y i else 0).
  Proof.
    intros Hx Hy i Hi. destruct (Hx i Hi) as [[P P']|[E E']].
    - left. split; [assumption|]. destruct (Rlt_dec 0 (s i)); [|lra].
      assert (Hp := hs_pull _ _ _ _ _ _ HS i Hi P). destruct (pull_positive n C s s' x y i HW Hi Hx Hy P Hp) as [Q _].
      unfold target. apply Rmult_lt_0_compat; [apply Rmult_lt_0_compat; assumption|apply Rinv_0_lt_compat; assumption].
    - right. split; [assumption|]. destruct (Rlt_dec 0 (s i)); lra.
  Qed.
  Lemma target_moved x y : paired_with n s x -> paired_with n s' y ->
    moved n C al s s' x y (fun i => if Rlt_dec 0 (s i) then target n C s s' x y i else 0).
  Proof.
    intros Hx Hy i Hi P. destruct (Rlt_dec 0 (s i)) as [_|]; [|lra].
    assert (Q := target_paired x y Hx Hy i Hi). cbv beta in Q. destruct (Rlt_dec 0 (s i)); [|lra].
    destruct Q as [[_ Q]|[Q _]]; [|lra]. split; [assumption|]. exists 1. split; [lra|]. split; lra.
  Qed.
End Sequence.

Section Limit.
  Variables (n : nat) (C : nat -> nat -> R) (s s' : nat -> R) (al c : R).
  Hypothesis HW : weights n C.
  Hypotheses (Hal : 0 < al) (Hal1 : al <= 1) (Hc : 0 < c) (Hc1 : c <= 1).
  Hypothesis HS : half_system n C s s' al c.
  Hypothesis HS' : half_system n C s' s al c.
  Variables (t0 : bool) (i0 : nat).
  Hypothesis HH : hub n C s s' t0 i0.
  Variables X Y : nat -> nat -> R.
  Hypothesis HT : forall t, stepped n C s s' al (X t) (Y t) (X (S t)) (Y (S t)).

  Lemma bounded_start x y : paired_with n s x -> paired_with n s' y -> exists B, 0 < B /\ inside n s s' B x y.
  Proof.
    intros Hx Hy. assert (G : forall m, (m <= n)%nat -> exists B, 0 < B /\ forall i, (i < m)%nat -> x i <= B * s i /\ s' i <= B * y i).
    { induction m as [|m IH]; intros Hm; [exists 1; split; [lra|intros; lia]|]. destruct IH as (B & PB & HB); [lia|].
      assert (W1 : exists b, 0 < b /\ x m <= b * s m).
      { destruct (Hx m ltac:(lia)) as [[P P']|[E E']]; [|exists 1; rewrite E, E'; lra].
        exists (x m / s m). split; [apply Rmult_lt_0_compat; [assumption|apply Rinv_0_lt_compat; assumption]|]. right. field. lra. }
      assert (W2 : exists b, 0 < b /\ s' m <= b * y m).
      { destruct (Hy m ltac:(lia)) as [[P P']|[E E']]; [|exists 1; rewrite E, E'; lra].
        exists (s' m / y m). split; [apply Rmult_lt_0_compat; [assumption|apply Rinv_0_lt_compat; assumption]|]. right. field. lra. }
      destruct W1 as (b1 & P1 & L1), W2 as (b2 & P2 & L2). exists (B + b1 + b2). split; [lra|]. intros i Hi.
      assert (N : 0 <= s i /\ 0 <= y i) by (destruct (Hx i ltac:(lia)), (Hy i ltac:(lia)); lra).
      destruct (Nat.eq_dec i m) as [->|]; [|destruct (HB i ltac:(lia))]; split; nra. }
    destruct (G n (le_n n)) as (B & PB & HB). exists B. split; [assumption|]. intros t i Hi. destruct t; simpl; apply HB; assumption.
  Qed.

  Theorem converges : exists K l, 0 <= K /\ 0 < l /\ forall t i, (i < n)%nat ->
    within (1 + K * rho c ^ t) (X t i) (l * s i) /\ within (1 + K * rho c ^ t) (Y t i) (s' i / l) /\
    (0 < s i -> within (1 + K * rho c ^ t) (target n C s s' (X t) (Y t) i) (l * s i)) /\
    (0 < s' i -> within (1 + K * rho c ^ t) (target n C s' s (Y t) (X t) i) (s' i / l)).
  Proof.
    assert (Pr : forall t, paired_with n s (X t) /\ paired_with n s' (Y t)) by (intros t; destruct (HT t) as (H1 & H2 & _); tauto).
    destruct (Pr 0%nat) as [Hx0 Hy0].
    destruct (bounded_start (X 0%nat) (Y 0%nat) Hx0 Hy0) as (B0 & PB0 & I0).
    assert (E0 : exists B0', 0 < B0' /\ inside n s' s B0' (Y 0%nat) (X 0%nat)).
    { assert (G : forall m, (m <= n)%nat -> exists B, 0 < B /\ forall i, (i < m)%nat -> Y 0%nat i <= B * s' i /\ s i <= B * X 0%nat i).
      { induction m as [|m IH]; intros Hm; [exists 1; split; [lra|intros; lia]|]. destruct IH as (B & PB & HB); [lia|].
        assert (W1 : exists b, 0 < b /\ Y 0%nat m <= b * s' m).
        { destruct (Hy0 m ltac:(lia)) as [[P P']|[E E']]; [|exists 1; rewrite E, E'; lra].
          exists (Y 0%nat m / s' m). split; [apply Rmult_lt_0_compat; [assumption|apply Rinv_0_lt_compat; assumption]|]. right. field. lra. }
        assert (W2 : exists b, 0 < b /\ s m <= b * X 0%nat m).
        { destruct (Hx0 m ltac:(lia)) as [[P P']|[E E']]; [|exists 1; rewrite E, E'; lra].
          exists (s m / X 0%nat m). split; [apply Rmult_lt_0_compat; [assumption|apply Rinv_0_lt_compat; assumption]|]. right. field. lra. }
        destruct W1 as (b1 & P1 & L1), W2 as (b2 & P2 & L2). exists (B + b1 + b2). split; [lra|]. intros i Hi.
        assert (N : 0 <= s' i /\ 0 <= X 0%nat i) by (destruct (Hx0 i ltac:(lia)), (Hy0 i ltac:(lia)); lra).
        destruct (Nat.eq_dec i m) as [->|]; [|destruct (HB i ltac:(lia))]; split; nra. }
      destruct (G n (le_n n)) as (B & PB & HB). exists B. split; [assumption|]. intros t i Hi. destruct t; simpl; apply HB; assumption. }
    destruct E0 as (B0' & PB0' & I0').
    assert (H0 : both n s s' B0 B0' (X 0%nat) (Y 0%nat)) by (split; assumption).
    destruct (bb_limit n C s s' al c HW Hal Hc Hc1 HS HS' t0 i0 HH X Y HT B0 B0' H0) as (l & Pl & Hl).
    destruct (rho_range c Hc Hc1) as [R1 R2].
    assert (Q0 := bb_pos n C s s' al c HW Hal Hc HS HS' t0 i0 HH X Y HT B0 B0' H0 0). cbn [bb fst snd] in Q0. destruct Q0 as (_ & _ & Q0).
    set (K := (B0 * B0' - 1) * / (rho c * rho c)).
    assert (PK : 0 <= K). { apply Rmult_le_pos; [lra|left; apply Rinv_0_lt_compat; nra]. }
    exists K, l. split; [assumption|]. split; [assumption|].
    assert (M : forall t, exists B B', 0 < B /\ 0 < B' /\ B * B' <= 1 + K * rho c ^ t /\ / B' <= l /\ l <= B /\ both n s s' B B' (X t) (Y t)).
    { intros t.
      assert (Dv := Nat.div_mod t 3 ltac:(lia)). assert (Rm := Nat.mod_upper_bound t 3 ltac:(lia)).
      set (m := (t / 3)%nat) in *. set (r := (t mod 3)%nat) in *.
      set (b := fst (bb s s' c t0 i0 X Y B0 B0' m)). set (b' := snd (bb s s' c t0 i0 X Y B0 B0' m)).
      destruct (bb_pos n C s s' al c HW Hal Hc HS HS' t0 i0 HH X Y HT B0 B0' H0 m) as (P1 & P2 & _).
      exists b, b'. split; [exact P1|]. split; [exact P2|]. split.
      - assert (G := bb_geometric n C s s' al c HW Hal Hc Hc1 HS HS' t0 i0 HH X Y HT B0 B0' H0 m). fold b b' in G.
        assert (Cb := rho_cube c Hc Hc1 m).
        assert (L : rho c ^ (3 * m) * (rho c * rho c) <= rho c ^ t).
        { replace t with (3 * m + r)%nat by lia. rewrite pow_add. apply Rmult_le_compat_l; [left; apply pow_lt; assumption|].
          assert (Cr : r = 0%nat \/ r = 1%nat \/ r = 2%nat) by lia. destruct Cr as [ -> | [ -> | -> ] ]; cbn [pow]; nra. }
        assert (L' : (1 - kap c) ^ m <= rho c ^ t * / (rho c * rho c)).
        { apply Rle_trans with (1 := Cb). apply Rmult_le_reg_r with (rho c * rho c); [nra|]. rewrite Rmult_assoc, Rinv_l; [lra|nra]. }
        assert ((1 - kap c) ^ m * (B0 * B0' - 1) <= rho c ^ t * / (rho c * rho c) * (B0 * B0' - 1)) by (apply Rmult_le_compat_r; lra).
        unfold K. lra.
      - split; [apply Hl|]. split; [apply Hl|].
        assert (S0 := bb_both n C s s' al c HW Hal Hc HS HS' t0 i0 HH X Y HT B0 B0' H0 m). fold b b' in S0.
        replace t with (r + 3 * m)%nat by lia. clearbody r. clear Rm Dv. induction r as [|r IH]; [exact S0|].
        exact (both_step n C s s' al c HW Hal HS HS' _ _ _ _ b b' (HT (r + 3 * m)%nat) IH). }
    intros t i Hi. destruct (M t) as (B & B' & PB & PB' & LW & L1 & L2 & HB). destruct (Pr t) as [Hx Hy].
    set (fx := fun i => if Rlt_dec 0 (s i) then target n C s s' (X t) (Y t) i else 0).
    set (fy := fun i => if Rlt_dec 0 (s' i) then target n C s' s (Y t) (X t) i else 0).
    assert (Pfx := target_paired n C s s' al c HW HS (X t) (Y t) Hx Hy). fold fx in Pfx.
    assert (Pfy := target_paired n C s' s al c HW HS' (Y t) (X t) Hy Hx). fold fy in Pfy.
    assert (Tf : stepped n C s s' al (X t) (Y t) fx fy).
    { split; [exact Hx|]. split; [exact Hy|]. split; [exact Pfx|]. split; [exact Pfy|]. split.
      - eapply target_moved; eassumption.
      - eapply target_moved; eassumption. }
    assert (HBf := both_step n C s s' al c HW Hal HS HS' _ _ _ _ B B' Tf HB).
    destruct (both_within n s s' B B' l (X t) (Y t) i PB PB' Pl L1 L2 Hx Hy HB Hi) as [W1 W2].
    destruct (both_within n s s' B B' l fx fy i PB PB' Pl L1 L2 Pfx Pfy HBf Hi) as [W3 W4].
    assert (Nx : 0 <= s i /\ 0 <= X t i) by (destruct (Hx i Hi); lra). assert (Ny : 0 <= s' i /\ 0 <= Y t i) by (destruct (Hy i Hi); lra).
    assert (Nfx : 0 <= fx i) by (destruct (Pfx i Hi); lra). assert (Nfy : 0 <= fy i) by (destruct (Pfy i Hi); lra).
    assert (Nl : 0 <= l * s i) by (apply Rmult_le_pos; lra).
    assert (Nl' : 0 <= s' i / l) by (apply Rmult_le_pos; [lra|left; apply Rinv_0_lt_compat; assumption]).
    split; [apply within_mono with (B * B'); tauto|]. split; [apply within_mono with (B * B'); tauto|]. split; intros P.
    - apply (within_mono (B * B') (1 + K * rho c ^ t)) in W3; try tauto. unfold fx in W3. destruct (Rlt_dec 0 (s i)); [exact W3|lra].
    - apply (within_mono (B * B') (1 + K * rho c ^ t)) in W4; try tauto. unfold fy in W4. destruct (Rlt_dec 0 (s' i)); [exact W4|lra].
  Qed.
End Limit.
