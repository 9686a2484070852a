(** The points of a fixed-point run of CReMa converge. *)
From Coq Require Import Reals List Arith Bool Lia Lra Psatz Classical ClassicalEpsilon.
From Verif Require Import Base SpecGraph ProofsGraph SpecEnsemble ProofsEnsemble ProofsList SpecCReMa SpecExist ModelCReMa ProofsCReMa ProofsMainCReMa ProofsAscend.
Import ListNotations.
Local Open Scope R_scope.

(** A bounded sequence of points has a cluster point. *)
Lemma cluster_sub m (x : nat -> nat -> R) C : (forall t k, (k < m)%nat -> - C <= x t k <= C) ->
  exists (phi : nat -> nat) (y : nat -> R), (forall t, (t <= phi t)%nat) /\ forall k, (k < m)%nat -> forall e, 0 < e -> exists T, forall t, (T <= t)%nat -> Rabs (x (phi t) k - y k) < e.
Proof.
  induction m as [|m IH]; intros H; [exists (fun t => t), (fun _ => 0); split; [intros; lia|intros; lia]|].
  destruct IH as (phi & y & Hp & Hy); [intros; apply H; lia|].
  destruct (Bolzano_Weierstrass (fun t => x (phi t) m) (fun v => - C <= v <= C) (compact_P3 (- C) C) (fun t => H (phi t) m (Nat.lt_succ_diag_r m))) as [l Hl].
  assert (Q : forall t, exists p, (t <= p)%nat /\ Rabs (x (phi p) m - l) < / (INR t + 1)).
  { intros t. assert (P : 0 < / (INR t + 1)) by (apply Rinv_0_lt_compat; assert (Z := pos_INR t); lra).
    destruct (Hl (disc l (mkposreal _ P)) t) as (p & Lp & Vp); [exists (mkposreal _ P); intros v Hv; exact Hv|]. exists p. split; [exact Lp|exact Vp]. }
  set (psi := fun t => proj1_sig (constructive_indefinite_description _ (Q t))).
  assert (Hpsi : forall t, (t <= psi t)%nat /\ Rabs (x (phi (psi t)) m - l) < / (INR t + 1)) by (intros t; exact (proj2_sig (constructive_indefinite_description _ (Q t)))).
  clearbody psi. exists (fun t => phi (psi t)), (fun k => if Nat.eqb k m then l else y k). split; [intros t; destruct (Hpsi t); specialize (Hp (psi t)); lia|].
  intros k Hk e He. destruct (Nat.eqb_spec k m) as [->|N].
  - destruct (archimed_cor1 e He) as (T & HT & PT). exists T. intros t Ht. apply Rlt_trans with (1 := proj2 (Hpsi t)). apply Rle_lt_trans with (2 := HT).
    apply Rinv_le_contravar; [apply lt_0_INR; exact PT|]. apply le_INR in Ht. lra.
  - destruct (Hy k ltac:(lia) e He) as (T & HT). exists T. intros t Ht. apply HT. destruct (Hpsi t). lia.
Qed.
Lemma cluster m (x : nat -> nat -> R) C : (forall t k, (k < m)%nat -> - C <= x t k <= C) ->
  exists y, forall e T, 0 < e -> exists t, (T <= t)%nat /\ forall k, (k < m)%nat -> Rabs (x t k - y k) < e.
Proof.
  intros H. destruct (cluster_sub m x C H) as (phi & y & Hp & Hy). exists y. intros e T He.
  assert (G : forall q, (q <= m)%nat -> exists T', forall t, (T' <= t)%nat -> forall k, (k < q)%nat -> Rabs (x (phi t) k - y k) < e).
  { induction q as [|q IH]; intros Hq; [exists 0%nat; intros; lia|]. destruct (IH ltac:(lia)) as (T1 & H1). destruct (Hy q ltac:(lia) e He) as (T2 & H2).
    exists (T1 + T2)%nat. intros t Ht k Hk. destruct (Nat.eq_dec k q) as [->|N]; [apply H2; lia|apply H1; lia]. }
  destruct (G m (le_n m)) as (T' & HT). exists (phi (T + T')%nat). split; [specialize (Hp (T + T')%nat); lia|]. apply HT. lia.
Qed.
Lemma kl_above a b : 0 < a -> 0 < b -> kl a b <= (a - b) * (a - b) / b.
Proof.
  intros Pa Pb. unfold kl. assert (H := ProofsMainCReMa.ln_le_sub1 (a / b) ltac:(apply Rdiv_lt_0_compat; assumption)).
  assert (a * ln (a / b) <= a * (a / b - 1)) by (apply Rmult_le_compat_l; lra). replace ((a - b) * (a - b) / b) with (a * (a / b - 1) - a + b) by (field; lra). lra.
Qed.

Section Limit.
  Variables (n : nat) (s : nat -> R) (es : topology) (z : nat -> R).
  Hypotheses (HB : pairs_below n es) (HW : positive_weights es) (HZ : listed_positive es z) (HS : forall k, (k < n)%nat -> cE es z k = s k).
  Variables (amin : R) (xs : nat -> nat -> R) (al : nat -> R).
  Hypotheses (Ham : 0 < amin <= 1) (Hal : forall t, amin <= al t <= 1) (H0 : listed_positive es (xs 0%nat)).
  Hypothesis Hstep : forall t k, (k < n)%nat -> listed_positive es (xs t) -> xs (S t) k = mixed (al t) (xs t) (em s es (xs t)) k.
  Local Notation fl := (floor n s z xs).
  Local Lemma lt_floor t k : touched es k -> fl k <= xs t k.
  Proof. exact (xs_floor n s es z HB HW HZ HS amin xs al Ham Hal H0 Hstep t k). Qed.
  Local Lemma lt_floor_pos k : touched es k -> 0 < fl k.
  Proof. exact (floor_pos n s es z HZ xs k). Qed.

  Lemma xs_bounded : exists C, 0 <= C /\ forall k, (k < n)%nat -> forall t, - C <= xs t k <= C.
  Proof.
    apply (choose_bound n (fun k C => forall t, - C <= xs t k <= C)); [intros k a b H L t; specialize (H t); lra|]. intros k Hk.
    destruct (touched_dec es k) as [T|T].
    - assert (Ps := s_pos n s es z HB HW HZ HS k T). assert (PC := ceiling_nonneg n s es z HB HW HZ HS xs H0). exists (ceiling n s es xs / s k).
      assert (PD : 0 <= ceiling n s es xs / s k) by (apply Rmult_le_pos; [exact PC|left; apply Rinv_0_lt_compat; exact Ps]). split; [exact PD|]. intros t.
      assert (L := lt_floor t k T). assert (F := lt_floor_pos k T). assert (U := xs_ceiling n s es z HB HW HZ HS amin xs al Ham Hal H0 Hstep t k Hk).
      assert (xs t k <= ceiling n s es xs / s k); [|lra]. apply Rmult_le_reg_l with (s k); [exact Ps|]. replace (s k * (ceiling n s es xs / s k)) with (ceiling n s es xs) by (field; lra). exact U.
    - exists (Rabs (xs 0%nat k)). split; [apply Rabs_pos|]. intros t. assert (R := untouched_rate n s es z HB HW HZ HS amin xs al Ham Hal H0 Hstep t k Hk T).
      assert (0 <= amin * INR t * Rabs (xs t k)) by (apply Rmult_le_pos; [apply Rmult_le_pos; [lra|apply pos_INR]|apply Rabs_pos]).
      assert (Q : Rabs (xs t k) <= Rabs (xs 0%nat k)) by lra. revert Q. generalize (Rabs (xs 0%nat k)). intros v. unfold Rabs. destruct (Rcase_abs (xs t k)); lra.
  Qed.
  Section Cluster.
    Variable y : nat -> R.
    Hypothesis Hy : forall e T, 0 < e -> exists t, (T <= t)%nat /\ forall k, (k < n)%nat -> Rabs (xs t k - y k) < e.
    Lemma y_floor k : touched es k -> fl k <= y k.
    Proof.
      intros T. apply Rnot_lt_le. intros L. destruct (Hy (fl k - y k) 0%nat ltac:(lra)) as (t & _ & Ht). specialize (Ht k (touched_below n es HB k T)). assert (F := lt_floor t k T).
      unfold Rabs in Ht. destruct (Rcase_abs (xs t k - y k)); lra.
    Qed.
    Lemma y_listed : listed_positive es y.
    Proof. intros i j w Hin. destruct (listed_touched es i j w Hin) as [Ti Tj]. assert (F := lt_floor_pos i Ti). assert (F' := lt_floor_pos j Tj). assert (G := y_floor i Ti). assert (G' := y_floor j Tj). split; lra. Qed.
    Lemma cE_close t d k : (forall j, (j < n)%nat -> Rabs (xs t j - y j) <= d) ->
      Rabs (cE es (xs t) k - cE es y k) <= esum es (fun i j w => hit i j k * (w * 2 / ((fl i + fl j) * (fl i + fl j)))) * d.
    Proof.
      intros Hd. unfold cE. rewrite <- esum_minus, Rmult_comm, <- esum_scal. apply esum_abs. intros i j w Hin. destruct (listed_touched es i j w Hin) as [Ti Tj]. assert (Pw := HW i j w Hin).
      assert (F1 := lt_floor_pos i Ti). assert (F2 := lt_floor_pos j Tj). assert (L1 := lt_floor t i Ti). assert (L2 := lt_floor t j Tj). assert (L3 := y_floor i Ti). assert (L4 := y_floor j Tj).
      set (a := y i + y j) in *. set (b := xs t i + xs t j) in *. set (f := fl i + fl j) in *. assert (Pf : 0 < f) by (unfold f; lra). assert (La : f <= a) by (unfold f, a; lra). assert (Lb : f <= b) by (unfold f, b; lra).
      rewrite <- Rmult_minus_distr_l, Rabs_mult, (Rabs_pos_eq (hit i j k)) by apply hit_nonneg.
      replace (d * (hit i j k * (w * 2 / (f * f)))) with (hit i j k * (w * (2 * d) / (f * f))) by (unfold Rdiv; ring). apply Rmult_le_compat_l; [apply hit_nonneg|].
      replace (w / b - w / a) with (w * (a - b) * / (b * a)) by (field; lra). rewrite !Rabs_mult, (Rabs_pos_eq w) by lra. rewrite (Rabs_pos_eq (/ (b * a))) by (left; apply Rinv_0_lt_compat; nra).
      assert (M : Rabs (a - b) <= 2 * d).
      { assert (D1 := Hd i (touched_below n es HB i Ti)). assert (D2 := Hd j (touched_below n es HB j Tj)). replace (a - b) with (- ((xs t i - y i) + (xs t j - y j))) by (unfold a, b; ring). rewrite Rabs_Ropp.
        apply Rle_trans with (1 := Rabs_triang _ _). lra. }
      apply Rmult_le_compat; [apply Rmult_le_pos; [lra|apply Rabs_pos]|left; apply Rinv_0_lt_compat; nra|apply Rmult_le_compat_l; lra|apply Rinv_le_contravar; nra].
    Qed.
    Lemma y_solves k : (k < n)%nat -> cE es y k = s k.
    Proof.
      intros Hk. set (Q := esum es (fun i j w => hit i j k * (w * 2 / ((fl i + fl j) * (fl i + fl j))))).
      assert (PQ : 0 <= Q). { apply esum_nonneg. intros i j w Hin. destruct (listed_touched es i j w Hin) as [Ti Tj]. assert (Pw := HW i j w Hin). assert (F1 := lt_floor_pos i Ti). assert (F2 := lt_floor_pos j Tj). apply Rmult_le_pos; [apply hit_nonneg|]. left. apply Rdiv_lt_0_compat; nra. }
      destruct (error_rate n s es z HB HW HZ HS amin xs al Ham Hal H0 Hstep k Hk) as (K & PK & HK).
      destruct (Req_dec (cE es y k) (s k)) as [E|N]; [exact E|exfalso]. set (g := Rabs (cE es y k - s k)). assert (Pg : 0 < g) by (apply Rabs_pos_lt; lra).
      destruct (archimed_cor1 (g * g / (4 * (K + 1)))) as (T & HT & PT); [apply Rdiv_lt_0_compat; nra|].
      destruct (Hy (g / (2 * (Q + 1))) T ltac:(apply Rdiv_lt_0_compat; lra)) as (t & Lt & Ht).
      assert (C1 := cE_close t (g / (2 * (Q + 1))) k (fun j Hj => Rlt_le _ _ (Ht j Hj))). fold Q in C1.
      assert (C2 : Q * (g / (2 * (Q + 1))) < g / 2) by (apply Rmult_lt_reg_r with (2 * (Q + 1)); [lra|]; replace (Q * (g / (2 * (Q + 1))) * (2 * (Q + 1))) with (Q * g) by (field; lra); nra).
      assert (C3 : g / 2 < Rabs (cE es (xs t) k - s k)).
      { assert (Tri := Rabs_triang (- (cE es (xs t) k - cE es y k)) (cE es (xs t) k - s k)). rewrite Rabs_Ropp in Tri. replace (- (cE es (xs t) k - cE es y k) + (cE es (xs t) k - s k)) with (cE es y k - s k) in Tri by ring. fold g in Tri. lra. }
      assert (C4 := HK t). assert (E : (cE es (xs t) k - s k) * (cE es (xs t) k - s k) = Rabs (cE es (xs t) k - s k) * Rabs (cE es (xs t) k - s k)) by (rewrite <- Rabs_mult; symmetry; apply Rabs_pos_eq; apply Rle_0_sqr).
      rewrite E in C4. set (v := Rabs (cE es (xs t) k - s k)) in *. apply le_INR in Lt. assert (PT' := lt_0_INR T PT).
      assert (C5 : K + 1 < INR T * (g * g / 4)).
      { apply Rmult_lt_compat_r with (r := INR T * (K + 1)) in HT; [|nra]. replace (/ INR T * (INR T * (K + 1))) with (K + 1) in HT by (field; lra). replace (g * g / (4 * (K + 1)) * (INR T * (K + 1))) with (INR T * (g * g / 4)) in HT by (field; lra). exact HT. }
      assert (g * g / 4 <= v * v) by nra. assert (0 <= g * g / 4) by nra. assert (INR T * (g * g / 4) <= INR t * (v * v)) by (apply Rmult_le_compat; lra). lra.
    Qed.
    Lemma dist_vanishes e : 0 < e -> exists T, forall t, (T <= t)%nat -> dist n s y (xs t) <= e.
    Proof.
      intros He.
      destruct (choose_bound n (fun k B => forall t d, 0 <= d -> Rabs (xs t k - y k) <= d -> s k * kl (y k) (xs t k) <= B * (d * d))) as (B & PB & HB').
      { intros k a b H L t d Pd Hd. apply Rle_trans with (1 := H t d Pd Hd). apply Rmult_le_compat_r; nra. }
      { intros k Hk. destruct (touched_dec es k) as [T|T]; [|exists 0; split; [lra|]; intros t d _ _; rewrite (s_zero n s es z HS k Hk T); lra].
        assert (Ps := s_pos n s es z HB HW HZ HS k T). assert (F := lt_floor_pos k T). exists (s k / fl k). split; [apply Rlt_le, Rdiv_lt_0_compat; assumption|]. intros t d Pd Hd.
        assert (L := lt_floor t k T). assert (Ly := y_floor k T). assert (A := kl_above (y k) (xs t k) ltac:(lra) ltac:(lra)).
        assert (S2 : (y k - xs t k) * (y k - xs t k) <= d * d). { replace ((y k - xs t k) * (y k - xs t k)) with (Rabs (xs t k - y k) * Rabs (xs t k - y k)); [assert (Z := Rabs_pos (xs t k - y k)); nra|]. rewrite <- Rabs_mult, Rabs_pos_eq by apply Rle_0_sqr. ring. }
        assert (A2 : (y k - xs t k) * (y k - xs t k) / xs t k <= d * d / fl k) by (apply Rmult_le_compat; [apply Rle_0_sqr|left; apply Rinv_0_lt_compat; lra|exact S2|apply Rinv_le_contravar; lra]).
        replace (s k / fl k * (d * d)) with (s k * (d * d / fl k)) by (field; lra). apply Rmult_le_compat_l; lra. }
      assert (Pn := pos_INR n). assert (P1 : 0 < B * INR n + 1) by (assert (0 <= B * INR n) by (apply Rmult_le_pos; assumption); lra).
      set (d := Rmin 1 (e / (B * INR n + 1))). assert (Pe : 0 < e / (B * INR n + 1)) by (apply Rdiv_lt_0_compat; lra). assert (Pd : 0 < d) by (apply Rmin_glb_lt; lra). assert (D1 : d <= 1) by apply Rmin_l. assert (D2 : d <= e / (B * INR n + 1)) by apply Rmin_r.
      destruct (Hy d 0%nat Pd) as (T & _ & HT). exists T. intros t Ht.
      assert (D0 : dist n s y (xs T) <= e).
      { apply Rle_trans with (rsum n (fun _ => B * (d * d))); [apply rsum_le; intros k Hk; apply HB'; [exact Hk|lra|left; apply HT; exact Hk]|]. rewrite rsum_const.
        apply Rle_trans with ((B * INR n + 1) * d). { assert (Q1 : 0 <= B * INR n) by (apply Rmult_le_pos; assumption). assert (Q2 : 0 <= B * INR n * d * (1 - d)) by (apply Rmult_le_pos; [apply Rmult_le_pos; lra|lra]). replace (INR n * (B * (d * d))) with (B * INR n * d - B * INR n * d * (1 - d)) by ring. lra. }
        apply Rle_trans with ((B * INR n + 1) * (e / (B * INR n + 1))); [apply Rmult_le_compat_l; lra|right; field; lra]. }
      induction Ht as [|t Ht IH]; [exact D0|].
      assert (G1 := dist_decreases n s es y HB HW y_listed y_solves amin xs al Ham Hal H0 Hstep t). assert (G2 := gap_nonneg n s es y HB HW y_listed y_solves amin xs al Ham Hal H0 Hstep t).
      assert (G3 := Hal t). assert (0 <= al t * gap n s es y xs t) by (apply Rmult_le_pos; lra). lra.
    Qed.
    Lemma y_untouched k : (k < n)%nat -> ~ touched es k -> y k = 0.
    Proof.
      intros Hk T. destruct (Req_dec (y k) 0) as [E|N]; [exact E|exfalso]. set (g := Rabs (y k)). assert (Pg : 0 < g) by (apply Rabs_pos_lt; exact N).
      destruct (archimed_cor1 (amin * (g / 2) / (Rabs (xs 0%nat k) + 1))) as (T' & HT & PT); [apply Rdiv_lt_0_compat; [nra|assert (Z := Rabs_pos (xs 0%nat k)); lra]|].
      destruct (Hy (g / 2) T' ltac:(lra)) as (t & Lt & Ht). specialize (Ht k Hk). assert (R := untouched_rate n s es z HB HW HZ HS amin xs al Ham Hal H0 Hstep t k Hk T).
      assert (Tri := Rabs_triang (xs t k) (- (xs t k - y k))). rewrite Rabs_Ropp in Tri. replace (xs t k + - (xs t k - y k)) with (y k) in Tri by ring. fold g in Tri.
      assert (U := Rabs_pos (xs 0%nat k)). set (u := Rabs (xs 0%nat k)) in *. set (v := Rabs (xs t k)) in *. assert (Lv : g / 2 < v) by lra. apply le_INR in Lt. assert (PT' := lt_0_INR T' PT).
      apply Rmult_lt_compat_r with (r := INR T' * (u + 1)) in HT; [|nra]. replace (/ INR T' * (INR T' * (u + 1))) with (u + 1) in HT by (field; lra). replace (amin * (g / 2) / (u + 1) * (INR T' * (u + 1))) with (amin * INR T' * (g / 2)) in HT by (field; lra).
      assert (amin * INR T' * (g / 2) <= amin * INR t * v) by (apply Rmult_le_compat; [apply Rmult_le_pos; lra|lra|apply Rmult_le_compat_l; lra|lra]). lra.
    Qed.
    Lemma converges e : 0 < e -> exists T, forall t, (T <= t)%nat -> forall k, (k < n)%nat -> Rabs (xs t k - y k) <= e.
    Proof.
      intros He.
      assert (G : forall q, (q <= n)%nat -> exists T, forall t, (T <= t)%nat -> forall k, (k < q)%nat -> Rabs (xs t k - y k) <= e).
      { induction q as [|q IH]; intros Hq; [exists 0%nat; intros; lia|]. destruct (IH ltac:(lia)) as (T1 & H1).
        assert (H2 : exists T, forall t, (T <= t)%nat -> Rabs (xs t q - y q) <= e).
        { assert (Hk : (q < n)%nat) by lia. destruct (touched_dec es q) as [T|T].
          - assert (Ps := s_pos n s es z HB HW HZ HS q T). destruct xs_bounded as (C & PC & HC). specialize (HC q Hk). assert (F := lt_floor_pos q T). assert (Ly := y_floor q T).
            set (M := C + y q). assert (PM : 0 < M) by (unfold M; lra).
            destruct (dist_vanishes (s q * (e * e) / (4 * M))) as (T2 & H2); [apply Rdiv_lt_0_compat; [apply Rmult_lt_0_compat; nra|lra]|]. exists T2. intros t Ht. specialize (H2 t Ht).
            assert (L := lt_floor t q T). assert (Lq := xs_listed n s es z HB HW HZ HS amin xs al Ham Hal H0 Hstep t).
            assert (K : s q * kl (y q) (xs t q) <= s q * (e * e) / (4 * M)).
            { apply Rle_trans with (2 := H2). unfold dist. rewrite (rsum_pull n q (fun k => s k * kl (y k) (xs t k))) by exact Hk.
              assert (0 <= rsum n (fun j => if Nat.eqb j q then 0 else s j * kl (y j) (xs t j))); [|lra]. apply rsum_nonneg. intros j Hj. destruct (Nat.eqb j q); [lra|].
              apply (dist_term n s es z HB HW HZ HS y (xs t) j y_listed Lq Hj). }
            assert (Q := kl_square (y q) (xs t q) M ltac:(unfold M; lra) ltac:(specialize (HC t); unfold M; lra)).
            assert (K2 : kl (y q) (xs t q) <= e * e / (4 * M)) by (apply Rmult_le_reg_l with (s q); [exact Ps|]; replace (s q * (e * e / (4 * M))) with (s q * (e * e) / (4 * M)) by (field; lra); exact K).
            assert (K3 : (y q - xs t q) * (y q - xs t q) <= e * e) by (apply Rle_trans with (1 := Q); replace (e * e) with (4 * M * (e * e / (4 * M))) by (field; lra); apply Rmult_le_compat_l; lra).
            apply Rnot_lt_le. intros Lt. assert (E : (y q - xs t q) * (y q - xs t q) = Rabs (xs t q - y q) * Rabs (xs t q - y q)) by (rewrite <- Rabs_mult, Rabs_pos_eq by apply Rle_0_sqr; ring). rewrite E in K3. nra.
          - rewrite (y_untouched q Hk T). destruct (archimed_cor1 (amin * e / (Rabs (xs 0%nat q) + 1))) as (T2 & HT & PT); [apply Rdiv_lt_0_compat; [nra|assert (Z := Rabs_pos (xs 0%nat q)); lra]|].
            exists T2. intros t Ht. rewrite Rminus_0_r. assert (R := untouched_rate n s es z HB HW HZ HS amin xs al Ham Hal H0 Hstep t q Hk T).
            apply Rnot_lt_le. intros Lv. assert (U := Rabs_pos (xs 0%nat q)). set (u := Rabs (xs 0%nat q)) in *. set (v := Rabs (xs t q)) in *. apply le_INR in Ht. assert (PT' := lt_0_INR T2 PT).
            apply Rmult_lt_compat_r with (r := INR T2 * (u + 1)) in HT; [|nra]. replace (/ INR T2 * (INR T2 * (u + 1))) with (u + 1) in HT by (field; lra). replace (amin * e / (u + 1) * (INR T2 * (u + 1))) with (amin * INR T2 * e) in HT by (field; lra).
            assert (amin * INR T2 * e <= amin * INR t * v) by (apply Rmult_le_compat; [apply Rmult_le_pos; lra|lra|apply Rmult_le_compat_l; lra|lra]). lra. }
        destruct H2 as (T2 & H2). exists (T1 + T2)%nat. intros t Ht k Hk. destruct (Nat.eq_dec k q) as [->|N]; [apply H2; lia|apply H1; lia]. }
      exact (G n (le_n n)).
    Qed.
  End Cluster.
  Lemma sequence_limit : exists y, listed_positive es y /\ (forall k, (k < n)%nat -> cE es y k = s k) /\
    forall e, 0 < e -> exists T, forall t, (T <= t)%nat -> forall k, (k < n)%nat -> Rabs (xs t k - y k) <= e.
  Proof.
    destruct xs_bounded as (C & _ & HC). destruct (cluster n xs C (fun t k Hk => HC k Hk t)) as (y & Hy). exists y.
    split; [apply y_listed; exact Hy|]. split; [intros k; apply y_solves; exact Hy|]. intros e. apply converges. exact Hy.
  Qed.
End Limit.
