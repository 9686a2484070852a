(** The CReMa fixed-point map: every step raises the likelihood and approaches every positive
    solution. *)
From Coq Require Import Reals List Arith Bool Lia Lra Psatz.
From Verif Require Import Base SpecGraph ProofsGraph SpecEnsemble ProofsEnsemble ProofsList SpecCReMa SpecExist ModelCReMa ProofsCReMa ProofsMainCReMa.
Import ListNotations.
Local Open Scope R_scope.

(** * Inequalities between logarithms *)
Lemma ln_tan x y : 0 < x -> 0 < y -> ln x <= ln y + (x - y) / y.
Proof.
  intros Px Py. assert (P : 0 < x / y) by (apply Rdiv_lt_0_compat; assumption). assert (H := ProofsMainCReMa.ln_le_sub1 _ P).
  rewrite ln_div in H by assumption. replace ((x - y) / y) with (x / y - 1) by (field; lra). lra.
Qed.
Lemma ln_jensen p q x y : 0 <= p -> 0 <= q -> p + q = 1 -> 0 < x -> 0 < y -> p * ln x + q * ln y <= ln (p * x + q * y).
Proof.
  intros Pp Pq E Px Py. set (m := p * x + q * y). assert (Pm : 0 < m) by (unfold m; destruct Pp as [Pp| <-]; [|assert (q = 1) by lra; subst q; lra]; assert (0 < p * x) by nra; nra).
  assert (H1 := ln_tan x m Px Pm). assert (H2 := ln_tan y m Py Pm).
  assert (Q : p * (ln m + (x - m) / m) + q * (ln m + (y - m) / m) = ln m).
  { replace (p * (ln m + (x - m) / m) + q * (ln m + (y - m) / m)) with ((p + q) * ln m + (p * x + q * y - (p + q) * m) / m) by (field; lra).
    rewrite E. fold m. field. lra. }
  rewrite <- Q. apply Rplus_le_compat; apply Rmult_le_compat_l; assumption.
Qed.
Lemma exp_mono x y : x <= y -> exp x <= exp y.
Proof. intros [H| ->]; [left; apply exp_increasing; exact H|right; reflexivity]. Qed.
(** The distance from [b] to [a] of one node. *)
Definition kl (a b : R) : R := a * ln (a / b) - a + b.
Lemma kl_nonneg a b : 0 < a -> 0 < b -> 0 <= kl a b.
Proof.
  intros Pa Pb. unfold kl. assert (P : 0 < b / a) by (apply Rdiv_lt_0_compat; assumption). assert (H := ProofsMainCReMa.ln_le_sub1 _ P).
  rewrite ln_div in H |- * by assumption. assert (a * (ln b - ln a) <= a * (b / a - 1)) by (apply Rmult_le_compat_l; lra).
  replace (a * (b / a - 1)) with (b - a) in * by (field; lra). lra.
Qed.
Lemma kl_sqrt a b : 0 < a -> 0 < b -> (sqrt a - sqrt b) * (sqrt a - sqrt b) <= kl a b.
Proof.
  intros Pa Pb. unfold kl. assert (Pp := sqrt_lt_R0 a Pa). assert (Pq := sqrt_lt_R0 b Pb). assert (Ep := sqrt_sqrt a (Rlt_le _ _ Pa)). assert (Eq := sqrt_sqrt b (Rlt_le _ _ Pb)).
  set (p := sqrt a) in *. set (q := sqrt b) in *. rewrite <- Ep, <- Eq. rewrite ln_div by nra. rewrite !ln_mult by assumption.
  assert (H := ProofsMainCReMa.ln_le_sub1 (q / p) ltac:(apply Rdiv_lt_0_compat; assumption)). rewrite ln_div in H by assumption.
  assert (p * p * (ln q - ln p) <= p * p * (q / p - 1)) by (apply Rmult_le_compat_l; nra). replace (p * p * (q / p - 1)) with (p * q - p * p) in * by (field; lra). nra.
Qed.
Lemma kl_square a b M : 0 < a <= M -> 0 < b <= M -> (a - b) * (a - b) <= 4 * M * kl a b.
Proof.
  intros [Pa La] [Pb Lb]. assert (H := kl_sqrt a b Pa Pb). assert (Pp := sqrt_lt_R0 a Pa). assert (Pq := sqrt_lt_R0 b Pb). assert (Ep := sqrt_sqrt a (Rlt_le _ _ Pa)). assert (Eq := sqrt_sqrt b (Rlt_le _ _ Pb)).
  set (p := sqrt a) in *. set (q := sqrt b) in *. replace ((a - b) * (a - b)) with ((p + q) * (p + q) * ((p - q) * (p - q))) by (rewrite <- Ep, <- Eq; ring).
  apply Rle_trans with (4 * M * ((p - q) * (p - q))).
  - apply Rmult_le_compat_r; [apply Rle_0_sqr|]. assert (Q := Rle_0_sqr (p - q)). unfold Rsqr in Q. nra.
  - apply Rmult_le_compat_l; [lra|exact H].
Qed.

Lemma esum_abs es F G : (forall i j w, In (i, j, w) es -> Rabs (F i j w) <= G i j w) -> Rabs (esum es F) <= esum es G.
Proof.
  unfold esum. induction es as [|[[i j] w] l IH]; intros H; cbn [lsum fst snd]; [rewrite Rabs_R0; lra|].
  apply Rle_trans with (1 := Rabs_triang _ _). apply Rplus_le_compat; [apply H; left; reflexivity|]. apply IH. intros a b v Hin. apply H. right. exact Hin.
Qed.
(** Finitely many constants. *)
Lemma choose_bound n (Q : nat -> R -> Prop) : (forall k a b, Q k a -> a <= b -> Q k b) -> (forall k, (k < n)%nat -> exists B, 0 <= B /\ Q k B) ->
  exists B, 0 <= B /\ forall k, (k < n)%nat -> Q k B.
Proof.
  intros M. induction n as [|n IH]; intros H; [exists 0; split; [lra|intros; lia]|]. destruct IH as (B & PB & HB); [intros; apply H; lia|]. destruct (H n ltac:(lia)) as (C & PC & HC).
  exists (Rmax B C). split; [apply Rle_trans with (1 := PB); apply Rmax_l|]. intros k Hk. destruct (Nat.eq_dec k n) as [->|N].
  - apply M with (1 := HC). apply Rmax_r.
  - apply M with (a := B); [apply HB; lia|apply Rmax_l].
Qed.

(** * One step *)
Section Step.
  Variables (n : nat) (s : nat -> R) (es : topology) (z : nat -> R).
  Definition listed_positive (b : nat -> R) : Prop := forall i j w, In (i, j, w) es -> 0 < b i /\ 0 < b j.
  Hypotheses (HB : pairs_below n es) (HW : positive_weights es) (HZ : listed_positive z) (HS : forall k, (k < n)%nat -> cE es z k = s k).

  Definition touched (k : nat) : Prop := exists i j w, In (i, j, w) es /\ (i = k \/ j = k).
  Lemma touched_dec k : touched k \/ ~ touched k.
  Proof.
    clear. unfold touched. induction es as [|[[i j] w] l IH]; [right; intros (i & j & w & [] & _)|].
    destruct (Nat.eq_dec i k) as [E|E]; [left; exists i, j, w; split; [left; reflexivity|left; exact E]|].
    destruct (Nat.eq_dec j k) as [E'|E']; [left; exists i, j, w; split; [left; reflexivity|right; exact E']|].
    destruct IH as [(a & b & v & Hin & H)|H]; [left; exists a, b, v; split; [right; exact Hin|exact H]|].
    right. intros (a & b & v & [Q|Hin] & K); [injection Q as <- <- <-; destruct K; contradiction|]. apply H. exists a, b, v. split; assumption.
  Qed.
  Lemma untouched_zero b k : ~ touched k -> cE es b k = 0.
  Proof.
    intros H. apply esum_zero. intros i j w Hin. unfold hit. destruct (Nat.eqb_spec i k) as [E|_]; [exfalso; apply H; exists i, j, w; split; [exact Hin|left; exact E]|].
    destruct (Nat.eqb_spec j k) as [E|_]; [exfalso; apply H; exists i, j, w; split; [exact Hin|right; exact E]|]. ring.
  Qed.
  Lemma touched_below k : touched k -> (k < n)%nat.
  Proof. intros (i & j & w & Hin & [<-|<-]); apply (HB i j w Hin). Qed.
  Lemma touched_pos b k : listed_positive b -> touched k -> 0 < b k.
  Proof. intros H (i & j & w & Hin & [<-|<-]); apply (H i j w Hin). Qed.
  Lemma listed_touched i j w : In (i, j, w) es -> touched i /\ touched j.
  Proof. intros H. split; exists i, j, w; (split; [exact H|]); [left|right]; reflexivity. Qed.
  Lemma cE_pos b k : listed_positive b -> touched k -> 0 < cE es b k.
  Proof.
    intros Hb (i & j & w & Hin & Hk).
    assert (T : forall a c v, In (a, c, v) es -> 0 <= hit a c k * (v / (b a + b c))).
    { intros a c v H. apply Rmult_le_pos; [unfold hit; destruct (Nat.eqb a k), (Nat.eqb c k); lra|]. destruct (Hb a c v H). assert (Q := HW a c v H). left. apply Rdiv_lt_0_compat; lra. }
    destruct (esum_nonneg es _ T) as [P|E]; [exact P|]. exfalso. symmetry in E. assert (Q := esum_nonneg_zero es _ T E i j w Hin). cbv beta in Q.
    destruct (Hb i j w Hin). assert (Pw := HW i j w Hin). assert (0 < w / (b i + b j)) by (apply Rdiv_lt_0_compat; lra).
    assert (1 <= hit i j k) by (unfold hit; destruct Hk as [->| ->]; rewrite Nat.eqb_refl; [destruct (Nat.eqb j k)|destruct (Nat.eqb i k)]; lra). nra.
  Qed.
  Lemma s_pos k : touched k -> 0 < s k.
  Proof. intros T. rewrite <- HS by (apply touched_below; exact T). apply cE_pos; assumption. Qed.
  Lemma s_zero k : (k < n)%nat -> ~ touched k -> s k = 0.
  Proof. intros Hk T. rewrite <- HS by exact Hk. apply untouched_zero; exact T. Qed.
  Lemma s_nonneg k : (k < n)%nat -> 0 <= s k.
  Proof. intros Hk. destruct (touched_dec k) as [T|T]; [left; apply s_pos; exact T|rewrite s_zero by assumption; lra]. Qed.
  (** Sums over nodes and sums over pairs. *)
  Lemma exchange b c : listed_positive b -> rsum n (fun k => c k * cE es b k) = esum es (fun i j w => (c i + c j) * (w / (b i + b j))).
  Proof.
    intros Hb. rewrite (rsum_ext n _ (fun k => esum es (fun i j w => hit i j k * c k * (w / (b i + b j))))).
    - rewrite <- esum_rsum. apply esum_ext. intros i j w Hin. destruct (HB i j w Hin) as [Hi Hj]. rewrite rsum_scal_r, rsum_hit by assumption. reflexivity.
    - intros k Hk. unfold cE. rewrite <- esum_scal. apply esum_ext. intros. ring.
  Qed.
  Definition weight : R := esum es (fun _ _ w => w).
  Lemma weight_nonneg : 0 <= weight.
  Proof. apply esum_nonneg. intros i j w H. left. exact (HW i j w H). Qed.
  Lemma mass b : listed_positive b -> rsum n (fun k => b k * cE es b k) = weight.
  Proof. intros Hb. rewrite exchange by exact Hb. apply esum_ext. intros i j w Hin. destruct (Hb i j w Hin). field. lra. Qed.
  Lemma mass_z : rsum n (fun k => s k * z k) = weight.
  Proof. rewrite <- (mass z HZ). apply rsum_ext. intros k Hk. rewrite HS by exact Hk. ring. Qed.

  (** The map (with the sign of the solver): entry [k] of minus [iterative_crema_undirected]. *)
  Definition em (b : nat -> R) (k : nat) : R := if Req_EM_T (s k) 0 then b k * cE es b k else b k * cE es b k / s k.
  Lemma em_mass b k : (k < n)%nat -> s k * em b k = b k * cE es b k.
  Proof.
    intros Hk. unfold em. destruct (Req_EM_T (s k) 0) as [E|E]; [|field; exact E]. destruct (touched_dec k) as [T|T]; [assert (Q := s_pos k T); lra|].
    rewrite untouched_zero by exact T. ring.
  Qed.
  Lemma em_pos b k : listed_positive b -> touched k -> 0 < em b k.
  Proof.
    intros Hb T. assert (Q := s_pos k T). unfold em. destruct (Req_EM_T (s k) 0) as [E|_]; [lra|]. apply Rdiv_lt_0_compat; [|exact Q].
    apply Rmult_lt_0_compat; [apply touched_pos; assumption|apply cE_pos; assumption].
  Qed.
  Lemma em_ratio b k : listed_positive b -> touched k -> em b k / b k = cE es b k / s k.
  Proof.
    intros Hb T. assert (Q := s_pos k T). assert (Pb := touched_pos b k Hb T). unfold em. destruct (Req_EM_T (s k) 0) as [E|_]; [lra|]. field. lra.
  Qed.
  Lemma em_listed b : listed_positive b -> listed_positive (em b).
  Proof. intros Hb i j w Hin. destruct (listed_touched i j w Hin). split; apply em_pos; assumption. Qed.
  Lemma em_total b : listed_positive b -> rsum n (fun k => s k * em b k) = weight.
  Proof. intros Hb. rewrite <- (mass b Hb). apply rsum_ext. intros k Hk. apply em_mass; exact Hk. Qed.

  (** The distance of a point to the solution. *)
  Definition dist (a b : nat -> R) : R := rsum n (fun k => s k * kl (a k) (b k)).
  Lemma dist_term a b k : listed_positive a -> listed_positive b -> (k < n)%nat -> 0 <= s k * kl (a k) (b k).
  Proof.
    intros Ha Hb Hk. destruct (touched_dec k) as [T|T]; [|rewrite s_zero by assumption; lra].
    apply Rmult_le_pos; [apply s_nonneg; exact Hk|]. apply kl_nonneg; apply touched_pos; assumption.
  Qed.
  Lemma dist_nonneg a b : listed_positive a -> listed_positive b -> 0 <= dist a b.
  Proof. intros Ha Hb. apply rsum_nonneg. intros k Hk. apply dist_term; assumption. Qed.

  Lemma approach b : listed_positive b -> cL n s es z - cL n s es b <= dist z b - dist z (em b).
  Proof.
    intros Hb. set (r := fun k => cE es b k / s k).
    assert (Pr : forall k, touched k -> 0 < r k) by (intros k T; apply Rdiv_lt_0_compat; [apply cE_pos; assumption|apply s_pos; exact T]).
    assert (ED : dist z b - dist z (em b) = rsum n (fun k => z k * ln (r k) * cE es z k) + rsum n (fun k => s k * b k) - weight).
    { rewrite <- (em_total b Hb). unfold dist. rewrite <- rsum_minus, <- rsum_plus, <- rsum_minus. apply rsum_ext. intros k Hk.
      destruct (touched_dec k) as [T|T]; [|rewrite (s_zero k Hk T), (untouched_zero z k T); ring].
      assert (Pz := touched_pos z k HZ T). assert (Pb := touched_pos b k Hb T). assert (Pe := em_pos b k Hb T). rewrite (HS k Hk). unfold kl. rewrite !ln_div by assumption.
      replace (ln (r k)) with (ln (em b k) - ln (b k)); [ring|]. unfold r. rewrite <- (em_ratio b k Hb T), ln_div by assumption. reflexivity. }
    rewrite ED, (exchange z _ HZ). unfold cL. rewrite mass_z.
    assert (Q : esum es (fun i j w => w * ln (z i + z j)) - esum es (fun i j w => w * ln (b i + b j)) <=
                esum es (fun i j w => (z i * ln (r i) + z j * ln (r j)) * (w / (z i + z j)))); [|lra].
    assert (T0 : esum es (fun i j w => (z i / r i + z j / r j) * (w / (b i + b j))) = esum es (fun i j w => w)).
    { rewrite <- (exchange b (fun k => z k / r k) Hb). fold weight. rewrite <- mass_z. apply rsum_ext. intros k Hk. destruct (touched_dec k) as [T|T].
      - assert (P := Pr k T). assert (Ps := s_pos k T). assert (Pc := cE_pos b k Hb T). unfold r. field. lra.
      - rewrite (s_zero k Hk T), (untouched_zero b k T). ring. }
    assert (N : 0 <= esum es (fun i j w => (z i * ln (r i) + z j * ln (r j)) * (w / (z i + z j)) + ((z i / r i + z j / r j) * (w / (b i + b j)) - w) - (w * ln (z i + z j) - w * ln (b i + b j)))).
    2: { rewrite esum_minus, esum_plus, !esum_minus in N. lra. }
    apply esum_nonneg. intros i j w Hin. destruct (listed_touched i j w Hin) as [Ti Tj]. destruct (Hb i j w Hin) as [Pbi Pbj]. destruct (HZ i j w Hin) as [Pzi Pzj]. assert (Pw := HW i j w Hin).
    assert (Ri := Pr i Ti). assert (Rj := Pr j Tj). set (mz := z i + z j) in *. set (mb := b i + b j) in *. assert (Pmz : 0 < mz) by (unfold mz; lra). assert (Pmb : 0 < mb) by (unfold mb; lra).
    assert (G : forall k, 0 < r k -> ln mz - ln mb - ln (r k) <= mz / (mb * r k) - 1).
    { intros k Pk. assert (H := ProofsMainCReMa.ln_le_sub1 (mz / (mb * r k)) ltac:(apply Rdiv_lt_0_compat; nra)). rewrite ln_div, ln_mult in H by nra. lra. }
    assert (Gi := G i Ri). assert (Gj := G j Rj).
    assert (Li : z i / mz * (ln mz - ln mb - ln (r i)) <= z i / mz * (mz / (mb * r i) - 1)) by (apply Rmult_le_compat_l; [left; apply Rdiv_lt_0_compat; lra|exact Gi]).
    assert (Lj : z j / mz * (ln mz - ln mb - ln (r j)) <= z j / mz * (mz / (mb * r j) - 1)) by (apply Rmult_le_compat_l; [left; apply Rdiv_lt_0_compat; lra|exact Gj]).
    assert (E1 : z i / mz + z j / mz = 1) by (unfold mz; field; unfold mz in Pmz; lra).
    match goal with |- 0 <= ?e => replace e with (w * ((z i / mz * (mz / (mb * r i) - 1) - z i / mz * (ln mz - ln mb - ln (r i))) + (z j / mz * (mz / (mb * r j) - 1) - z j / mz * (ln mz - ln mb - ln (r j))) + (ln mz - ln mb) * (z i / mz + z j / mz - 1) + (z i / mz + z j / mz - 1))) by (field; lra) end.
    rewrite E1. apply Rmult_le_pos; lra.
  Qed.

  Lemma gain_step b : listed_positive b -> dist (em b) b <= cL n s es (em b) - cL n s es b.
  Proof.
    intros Hb. set (r := fun k => cE es b k / s k).
    assert (Pr : forall k, touched k -> 0 < r k) by (intros k T; apply Rdiv_lt_0_compat; [apply cE_pos; assumption|apply s_pos; exact T]).
    assert (Er : forall k, touched k -> em b k = r k * b k) by (intros k T; unfold r; rewrite <- (em_ratio b k Hb T); field; assert (Q := touched_pos b k Hb T); lra).
    assert (ED : dist (em b) b = rsum n (fun k => b k * ln (r k) * cE es b k) - rsum n (fun k => s k * em b k) + rsum n (fun k => s k * b k)).
    { unfold dist. rewrite <- rsum_minus, <- rsum_plus. apply rsum_ext. intros k Hk. unfold kl.
      destruct (touched_dec k) as [T|T]; [|rewrite (s_zero k Hk T), (untouched_zero b k T); ring].
      rewrite (em_ratio b k Hb T). fold (r k). replace (b k * ln (r k) * cE es b k) with (s k * em b k * ln (r k)) by (rewrite (em_mass b k Hk); ring). ring. }
    rewrite ED, (exchange b _ Hb). unfold cL.
    assert (Q : esum es (fun i j w => (b i * ln (r i) + b j * ln (r j)) * (w / (b i + b j))) <= esum es (fun i j w => w * ln (em b i + em b j)) - esum es (fun i j w => w * ln (b i + b j))); [|lra].
    rewrite <- esum_minus. apply Rminus_le. rewrite <- esum_minus.
    match goal with |- esum es ?F <= 0 => assert (N : 0 <= esum es (fun i j w => - F i j w)); [|rewrite esum_opp in N; lra] end.
    apply esum_nonneg. intros i j w Hin. destruct (listed_touched i j w Hin) as [Ti Tj]. destruct (Hb i j w Hin) as [Pbi Pbj]. assert (Pw := HW i j w Hin).
    assert (Ri := Pr i Ti). assert (Rj := Pr j Tj). rewrite (Er i Ti), (Er j Tj). set (mb := b i + b j) in *. assert (Pmb : 0 < mb) by (unfold mb; lra).
    assert (J := ln_jensen (b i / mb) (b j / mb) (r i) (r j) ltac:(left; apply Rdiv_lt_0_compat; lra) ltac:(left; apply Rdiv_lt_0_compat; lra) ltac:(unfold mb; field; unfold mb in Pmb; lra) Ri Rj).
    replace (b i / mb * r i + b j / mb * r j) with ((r i * b i + r j * b j) / mb) in J by (field; lra). rewrite ln_div in J by nra.
    match goal with |- 0 <= ?e => replace e with (w * (ln (r i * b i + r j * b j) - ln mb - (b i / mb * ln (r i) + b j / mb * ln (r j)))) by (field; lra) end.
    apply Rmult_le_pos; lra.
  Qed.

  (** * Damped steps *)
  Definition mixed (a : R) (b c : nat -> R) (k : nat) : R := (1 - a) * b k + a * c k.
  Lemma mixed_listed a b c : 0 < a <= 1 -> listed_positive b -> listed_positive c -> listed_positive (mixed a b c).
  Proof. intros Ha Hb Hc i j w Hin. destruct (Hb i j w Hin), (Hc i j w Hin). unfold mixed. split; nra. Qed.
  Lemma cL_concave a b c : 0 < a <= 1 -> listed_positive b -> listed_positive c -> (1 - a) * cL n s es b + a * cL n s es c <= cL n s es (mixed a b c).
  Proof.
    intros Ha Hb Hc. unfold cL. rewrite (rsum_ext n (fun i => s i * mixed a b c i) (fun i => (1 - a) * (s i * b i) + a * (s i * c i))) by (intros; unfold mixed; ring).
    rewrite rsum_plus, !rsum_scal_l. assert (Q : (1 - a) * esum es (fun i j w => w * ln (b i + b j)) + a * esum es (fun i j w => w * ln (c i + c j)) <= esum es (fun i j w => w * ln (mixed a b c i + mixed a b c j))); [|lra].
    rewrite <- !esum_scal, <- esum_plus. apply Rminus_le. rewrite <- esum_minus.
    match goal with |- esum es ?F <= 0 => assert (N : 0 <= esum es (fun i j w => - F i j w)); [|rewrite esum_opp in N; lra] end.
    apply esum_nonneg. intros i j w Hin. destruct (Hb i j w Hin), (Hc i j w Hin). assert (Pw := HW i j w Hin).
    assert (J := ln_jensen (1 - a) a (b i + b j) (c i + c j) ltac:(lra) ltac:(lra) ltac:(ring) ltac:(lra) ltac:(lra)).
    replace (mixed a b c i + mixed a b c j) with ((1 - a) * (b i + b j) + a * (c i + c j)) by (unfold mixed; ring). nra.
  Qed.
  Lemma dist_convex a b c : 0 < a <= 1 -> listed_positive b -> listed_positive c -> dist z (mixed a b c) <= (1 - a) * dist z b + a * dist z c.
  Proof.
    intros Ha Hb Hc. unfold dist. rewrite <- !rsum_scal_l, <- rsum_plus. apply rsum_le. intros k Hk.
    destruct (touched_dec k) as [T|T]; [|rewrite (s_zero k Hk T); lra]. assert (Ps := s_pos k T). assert (Pz := touched_pos z k HZ T). assert (Pb := touched_pos b k Hb T). assert (Pc := touched_pos c k Hc T).
    assert (J := ln_jensen (1 - a) a (b k) (c k) ltac:(lra) ltac:(lra) ltac:(ring) Pb Pc). assert (Pm : 0 < mixed a b c k) by (unfold mixed; nra). fold (mixed a b c k) in J. unfold kl. rewrite !ln_div by assumption.
    assert (z k * ((1 - a) * ln (b k) + a * ln (c k)) <= z k * ln (mixed a b c k)) by (apply Rmult_le_compat_l; lra).
    replace ((1 - a) * (s k * (z k * (ln (z k) - ln (b k)) - z k + b k)) + a * (s k * (z k * (ln (z k) - ln (c k)) - z k + c k)))
      with (s k * (z k * ln (z k) - z k * ((1 - a) * ln (b k) + a * ln (c k)) - z k + mixed a b c k)) by (unfold mixed; ring).
    apply Rmult_le_compat_l; lra.
  Qed.
  Lemma best b : listed_positive b -> cL n s es b <= cL n s es z.
  Proof.
    intros Hb. assert (D : forall c, listed_positive c -> crema_dom es c) by (intros c Hc i j w Hin; destruct (Hc i j w Hin); lra).
    assert (G := cL_gap n s es z b HB (D z HZ) (D b Hb) HS).
    assert (0 <= cL n s es z - cL n s es b); [|lra]. rewrite G. apply esum_nonneg. intros i j w Hin. destruct (Hb i j w Hin), (HZ i j w Hin). assert (Pw := HW i j w Hin).
    apply Rmult_le_pos; [lra|]. assert (H3 := ProofsMainCReMa.ln_le_sub1 ((b i + b j) / (z i + z j)) ltac:(apply Rdiv_lt_0_compat; lra)). lra.
  Qed.

  (** * Sequences of damped steps *)
  Variables (amin : R) (xs : nat -> nat -> R) (al : nat -> R).
  Hypotheses (Ham : 0 < amin <= 1) (Hal : forall t, amin <= al t <= 1) (H0 : listed_positive (xs 0%nat)).
  Hypothesis Hstep : forall t k, (k < n)%nat -> listed_positive (xs t) -> xs (S t) k = mixed (al t) (xs t) (em (xs t)) k.

  Lemma same_listed b c : (forall k, (k < n)%nat -> b k = c k) -> listed_positive b -> listed_positive c.
  Proof. intros E Hb i j w Hin. destruct (HB i j w Hin) as [Hi Hj]. rewrite <- !E by assumption. exact (Hb i j w Hin). Qed.
  Lemma same_cL b c : (forall k, (k < n)%nat -> b k = c k) -> cL n s es b = cL n s es c.
  Proof.
    intros E. unfold cL. f_equal; [f_equal; apply rsum_ext; intros k Hk; rewrite E by exact Hk; reflexivity|].
    apply esum_ext. intros i j w Hin. destruct (HB i j w Hin) as [Hi Hj]. rewrite !E by assumption. reflexivity.
  Qed.
  Lemma same_dist a b c : (forall k, (k < n)%nat -> b k = c k) -> dist a b = dist a c.
  Proof. intros E. apply rsum_ext. intros k Hk. rewrite E by exact Hk. reflexivity. Qed.
  Lemma al_range t : 0 < al t <= 1.
  Proof. specialize (Hal t). lra. Qed.
  Lemma xs_listed t : listed_positive (xs t).
  Proof.
    induction t as [|t IH]; [exact H0|]. apply (same_listed (mixed (al t) (xs t) (em (xs t)))); [intros k Hk; symmetry; apply Hstep; assumption|].
    apply mixed_listed; [apply al_range|exact IH|apply em_listed; exact IH].
  Qed.
  Lemma xs_eq t k : (k < n)%nat -> xs (S t) k = mixed (al t) (xs t) (em (xs t)) k.
  Proof. intros Hk. apply Hstep; [exact Hk|apply xs_listed]. Qed.
  Definition gap (t : nat) : R := cL n s es z - cL n s es (xs t).
  Lemma gap_nonneg t : 0 <= gap t.
  Proof. assert (H := best (xs t) (xs_listed t)). unfold gap. lra. Qed.
  Lemma gap_image t : dist (em (xs t)) (xs t) <= gap t.
  Proof. assert (H := gain_step (xs t) (xs_listed t)). assert (Q := best _ (em_listed _ (xs_listed t))). unfold gap. lra. Qed.
  Lemma ascent t : al t * dist (em (xs t)) (xs t) <= cL n s es (xs (S t)) - cL n s es (xs t).
  Proof.
    assert (H := gain_step (xs t) (xs_listed t)). rewrite (same_cL (xs (S t)) _ (xs_eq t)).
    assert (C := cL_concave (al t) (xs t) (em (xs t)) (al_range t) (xs_listed t) (em_listed _ (xs_listed t))). assert (R := al_range t). nra.
  Qed.
  Lemma gap_decreases t : gap (S t) <= gap t.
  Proof.
    assert (H := ascent t). assert (D := dist_nonneg _ _ (em_listed _ (xs_listed t)) (xs_listed t)). assert (R := al_range t).
    assert (0 <= al t * dist (em (xs t)) (xs t)) by (apply Rmult_le_pos; lra). unfold gap. lra.
  Qed.
  Lemma dist_decreases t : al t * gap t <= dist z (xs t) - dist z (xs (S t)).
  Proof.
    rewrite (same_dist z (xs (S t)) _ (xs_eq t)). assert (C := dist_convex (al t) (xs t) (em (xs t)) (al_range t) (xs_listed t) (em_listed _ (xs_listed t))).
    assert (H := approach (xs t) (xs_listed t)). fold (gap t) in H. assert (R := al_range t). nra.
  Qed.
  Lemma gap_rate t : amin * INR t * gap t <= dist z (xs 0%nat) - dist z (xs t).
  Proof.
    induction t as [|t IH]; [cbn; lra|]. rewrite S_INR. assert (D := dist_decreases t). assert (G := gap_decreases t). assert (P := gap_nonneg t). assert (N := pos_INR t). assert (Q := Hal t).
    assert (amin * gap t <= al t * gap t) by (apply Rmult_le_compat_r; lra).
    assert (amin * (INR t + 1) * gap (S t) <= amin * (INR t + 1) * gap t) by (apply Rmult_le_compat_l; [apply Rmult_le_pos; lra|exact G]). nra.
  Qed.
  Lemma dist_le t : dist z (xs t) <= dist z (xs 0%nat).
  Proof. assert (H := gap_rate t). assert (P := gap_nonneg t). assert (N := pos_INR t). assert (0 <= amin * INR t * gap t) by (apply Rmult_le_pos; [apply Rmult_le_pos; lra|exact P]). lra. Qed.
  (** Bounds for the iterates. *)
  Definition ceiling : R := weight + rsum n (fun k => s k * xs 0%nat k).
  Lemma em_ceiling b k : listed_positive b -> (k < n)%nat -> s k * em b k <= weight.
  Proof.
    intros Hb Hk. rewrite <- (em_total b Hb). rewrite (rsum_pull n k (fun k => s k * em b k)) by exact Hk.
    assert (0 <= rsum n (fun j => if Nat.eqb j k then 0 else s j * em b j)); [|lra]. apply rsum_nonneg. intros j Hj. destruct (Nat.eqb j k); [lra|].
    destruct (touched_dec j) as [T|T]; [|rewrite s_zero by assumption; lra]. assert (P := s_pos j T). assert (Q := em_pos b j Hb T). nra.
  Qed.
  Lemma start_nonneg : 0 <= rsum n (fun k => s k * xs 0%nat k).
  Proof. apply rsum_nonneg. intros j Hj. destruct (touched_dec j) as [T|T]; [|rewrite s_zero by assumption; lra]. assert (P := s_pos j T). assert (Q := touched_pos _ j H0 T). nra. Qed.
  Lemma xs_ceiling t k : (k < n)%nat -> s k * xs t k <= ceiling.
  Proof.
    intros Hk. assert (W := weight_nonneg). assert (S0 := start_nonneg). induction t as [|t IH].
    - unfold ceiling. rewrite (rsum_pull n k (fun k => s k * xs 0%nat k)) by exact Hk. assert (0 <= rsum n (fun j => if Nat.eqb j k then 0 else s j * xs 0%nat j)); [|lra].
      apply rsum_nonneg. intros j Hj. destruct (Nat.eqb j k); [lra|]. destruct (touched_dec j) as [T|T]; [|rewrite s_zero by assumption; lra]. assert (P := s_pos j T). assert (Q := touched_pos _ j H0 T). nra.
    - rewrite xs_eq by exact Hk. unfold mixed. assert (E := em_ceiling (xs t) k (xs_listed t) Hk). assert (R := al_range t). assert (weight <= ceiling) by (unfold ceiling; lra).
      replace (s k * ((1 - al t) * xs t k + al t * em (xs t) k)) with ((1 - al t) * (s k * xs t k) + al t * (s k * em (xs t) k)) by ring. nra.
  Qed.
  Lemma image_close t k : (k < n)%nat -> (s k * (em (xs t) k - xs t k)) * (s k * (em (xs t) k - xs t k)) <= 4 * ceiling * gap t.
  Proof.
    intros Hk. assert (W := weight_nonneg). assert (S0 := start_nonneg). assert (PC : 0 <= ceiling) by (unfold ceiling; lra). assert (G := gap_nonneg t).
    destruct (touched_dec k) as [T|T]; [|rewrite s_zero by assumption; assert (0 <= ceiling * gap t) by (apply Rmult_le_pos; assumption); lra].
    assert (Ps := s_pos k T). assert (Px := touched_pos _ k (xs_listed t) T). assert (Pe := em_pos _ k (xs_listed t) T).
    assert (L1 := xs_ceiling t k Hk). assert (L2 := em_ceiling (xs t) k (xs_listed t) Hk). assert (weight <= ceiling) by (unfold ceiling; lra).
    assert (B : forall v, s k * v <= ceiling -> v <= ceiling / s k) by (intros v Hv; apply Rmult_le_reg_l with (s k); [exact Ps|]; replace (s k * (ceiling / s k)) with ceiling by (field; lra); exact Hv).
    assert (Q := kl_square (em (xs t) k) (xs t k) (ceiling / s k) ltac:(split; [exact Pe|apply B; lra]) ltac:(split; [exact Px|apply B; lra])).
    assert (K : s k * kl (em (xs t) k) (xs t k) <= gap t).
    { apply Rle_trans with (2 := gap_image t). unfold dist. rewrite (rsum_pull n k (fun k => s k * kl (em (xs t) k) (xs t k))) by exact Hk.
      assert (0 <= rsum n (fun j => if Nat.eqb j k then 0 else s j * kl (em (xs t) j) (xs t j))); [|lra]. apply rsum_nonneg. intros j Hj. destruct (Nat.eqb j k); [lra|].
      apply dist_term; [apply em_listed, xs_listed|apply xs_listed|exact Hj]. }
    set (d := em (xs t) k - xs t k) in *. replace (s k * d * (s k * d)) with (s k * s k * (d * d)) by ring.
    apply Rle_trans with (s k * s k * (4 * (ceiling / s k) * kl (em (xs t) k) (xs t k))); [apply Rmult_le_compat_l; [nra|exact Q]|].
    replace (s k * s k * (4 * (ceiling / s k) * kl (em (xs t) k) (xs t k))) with (4 * ceiling * (s k * kl (em (xs t) k) (xs t k))) by (field; lra). apply Rmult_le_compat_l; lra.
  Qed.
  Definition floor (k : nat) : R := z k * exp (- (1 + dist z (xs 0%nat) / (s k * z k))).
  Lemma floor_pos k : touched k -> 0 < floor k.
  Proof. intros T. apply Rmult_lt_0_compat; [apply touched_pos; assumption|apply exp_pos]. Qed.
  Lemma xs_floor t k : touched k -> floor k <= xs t k.
  Proof.
    intros T. assert (Hk := touched_below k T). assert (Ps := s_pos k T). assert (Pz := touched_pos z k HZ T). assert (Px := touched_pos _ k (xs_listed t) T).
    assert (K : s k * kl (z k) (xs t k) <= dist z (xs 0%nat)).
    { apply Rle_trans with (2 := dist_le t). unfold dist. rewrite (rsum_pull n k (fun k => s k * kl (z k) (xs t k))) by exact Hk.
      assert (0 <= rsum n (fun j => if Nat.eqb j k then 0 else s j * kl (z j) (xs t j))); [|lra]. apply rsum_nonneg. intros j Hj. destruct (Nat.eqb j k); [lra|].
      apply dist_term; [exact HZ|apply xs_listed|exact Hj]. }
    unfold floor. rewrite <- (exp_ln (xs t k)) by exact Px. rewrite <- (exp_ln (z k) Pz) at 1. rewrite <- exp_plus. apply exp_mono.
    unfold kl in K. rewrite ln_div in K by assumption. set (D := dist z (xs 0%nat)) in *. apply Rmult_le_reg_l with (s k * z k); [nra|].
    replace (s k * z k * (ln (z k) + - (1 + D / (s k * z k)))) with (s k * z k * ln (z k) - s k * z k - D) by (field; lra). nra.
  Qed.
  Lemma cE_error t k : (k < n)%nat -> xs t k * (cE es (xs t) k - s k) = s k * (em (xs t) k - xs t k).
  Proof. intros Hk. rewrite Rmult_minus_distr_l, <- (em_mass (xs t) k Hk). ring. Qed.
  Lemma gap_bound t : INR t * gap t <= dist z (xs 0%nat) / amin.
  Proof.
    assert (H := gap_rate t). assert (D := dist_nonneg z (xs t) HZ (xs_listed t)). apply Rmult_le_reg_l with amin; [lra|].
    replace (amin * (dist z (xs 0%nat) / amin)) with (dist z (xs 0%nat)) by (field; lra). lra.
  Qed.
  Lemma start_dist : 0 <= dist z (xs 0%nat).
  Proof. apply dist_nonneg; assumption. Qed.
  Lemma ceiling_nonneg : 0 <= ceiling.
  Proof. assert (W := weight_nonneg). assert (S0 := start_nonneg). unfold ceiling. lra. Qed.
  Definition slack : R := 4 * ceiling * (dist z (xs 0%nat) / amin).
  Lemma slack_nonneg : 0 <= slack.
  Proof. assert (C := ceiling_nonneg). assert (D := start_dist). unfold slack. apply Rmult_le_pos; [lra|]. apply Rmult_le_pos; [exact D|]. left. apply Rinv_0_lt_compat. lra. Qed.
  Lemma image_rate t k : (k < n)%nat -> INR t * ((s k * (em (xs t) k - xs t k)) * (s k * (em (xs t) k - xs t k))) <= slack.
  Proof.
    intros Hk. assert (H := image_close t k Hk). assert (G := gap_bound t). assert (C := ceiling_nonneg). assert (N := pos_INR t).
    apply Rle_trans with (INR t * (4 * ceiling * gap t)); [apply Rmult_le_compat_l; assumption|]. unfold slack.
    replace (INR t * (4 * ceiling * gap t)) with (4 * ceiling * (INR t * gap t)) by ring. apply Rmult_le_compat_l; lra.
  Qed.
  Lemma error_rate k : (k < n)%nat -> exists K, 0 <= K /\ forall t, INR t * ((cE es (xs t) k - s k) * (cE es (xs t) k - s k)) <= K.
  Proof.
    intros Hk. destruct (touched_dec k) as [T|T].
    - assert (F := floor_pos k T). assert (P := slack_nonneg). exists (slack / (floor k * floor k)). split; [apply Rmult_le_pos; [exact P|left; apply Rinv_0_lt_compat; nra]|].
      intros t. assert (R := image_rate t k Hk). rewrite <- cE_error in R by exact Hk. assert (L := xs_floor t k T). assert (N := pos_INR t). set (d := cE es (xs t) k - s k) in *.
      apply Rmult_le_reg_l with (floor k * floor k); [nra|]. replace (floor k * floor k * (slack / (floor k * floor k))) with slack by (field; lra). apply Rle_trans with (2 := R).
      replace (INR t * (xs t k * d * (xs t k * d))) with (xs t k * xs t k * (INR t * (d * d))) by ring. apply Rmult_le_compat_r; [apply Rmult_le_pos; [exact N|apply Rle_0_sqr]|nra].
    - exists 0. split; [lra|]. intros t. rewrite (s_zero k Hk T), (untouched_zero (xs t) k T). lra.
  Qed.
  Lemma untouched_step t k : (k < n)%nat -> ~ touched k -> xs (S t) k = (1 - al t) * xs t k.
  Proof. intros Hk T. rewrite xs_eq by exact Hk. unfold mixed, em. rewrite (s_zero k Hk T), (untouched_zero (xs t) k T). destruct (Req_EM_T 0 0); [ring|contradiction]. Qed.
  Lemma untouched_rate t k : (k < n)%nat -> ~ touched k -> amin * INR t * Rabs (xs t k) <= Rabs (xs 0%nat k) - Rabs (xs t k).
  Proof.
    intros Hk T. induction t as [|t IH]; [cbn; lra|]. rewrite S_INR, (untouched_step t k Hk T), Rabs_mult. assert (R := Hal t). rewrite (Rabs_pos_eq (1 - al t)) by lra.
    set (v := Rabs (xs t k)) in *. assert (0 <= v) by apply Rabs_pos. assert (N := pos_INR t). set (m := INR t) in *. assert (0 <= amin * m * v * al t) by (apply Rmult_le_pos; [apply Rmult_le_pos; [apply Rmult_le_pos; lra|lra]|lra]).
    assert (amin * v <= al t * v) by (apply Rmult_le_compat_r; lra). assert (0 <= amin * (al t * v)) by (apply Rmult_le_pos; [lra|apply Rmult_le_pos; lra]).
    replace (amin * (m + 1) * ((1 - al t) * v)) with (amin * m * v - amin * m * v * al t + amin * v - amin * (al t * v)) by ring. lra.
  Qed.
  Lemma move_rate k : (k < n)%nat -> exists C, 0 <= C /\ forall t, INR t * ((xs (S t) k - xs t k) * (xs (S t) k - xs t k)) <= C.
  Proof.
    intros Hk. destruct (touched_dec k) as [T|T].
    - assert (Ps := s_pos k T). assert (P := slack_nonneg). exists (slack / (s k * s k)). split; [apply Rmult_le_pos; [exact P|left; apply Rinv_0_lt_compat; nra]|].
      intros t. assert (R := image_rate t k Hk). rewrite xs_eq by exact Hk. unfold mixed. set (d := em (xs t) k - xs t k) in *.
      replace ((1 - al t) * xs t k + al t * em (xs t) k - xs t k) with (al t * d) by (unfold d; ring). assert (N := pos_INR t). assert (A := al_range t).
      apply Rmult_le_reg_l with (s k * s k); [nra|]. replace (s k * s k * (slack / (s k * s k))) with slack by (field; lra). apply Rle_trans with (2 := R).
      replace (s k * s k * (INR t * (al t * d * (al t * d)))) with (al t * al t * (INR t * (s k * d * (s k * d)))) by ring.
      rewrite <- (Rmult_1_l (INR t * (s k * d * (s k * d)))) at 2. apply Rmult_le_compat_r; [apply Rmult_le_pos; [exact N|apply Rle_0_sqr]|nra].
    - exists (Rabs (xs 0%nat k) * Rabs (xs 0%nat k) / amin). split; [apply Rmult_le_pos; [assert (Q := Rabs_pos (xs 0%nat k)); nra|left; apply Rinv_0_lt_compat; lra]|].
      intros t. assert (R := untouched_rate t k Hk T). rewrite (untouched_step t k Hk T). replace ((1 - al t) * xs t k - xs t k) with (- (al t * xs t k)) by ring.
      assert (A := al_range t). assert (N := pos_INR t). apply Rmult_le_reg_l with amin; [lra|].
      replace (amin * (Rabs (xs 0%nat k) * Rabs (xs 0%nat k) / amin)) with (Rabs (xs 0%nat k) * Rabs (xs 0%nat k)) by (field; lra).
      assert (E : xs t k * xs t k = Rabs (xs t k) * Rabs (xs t k)) by (rewrite <- Rabs_mult; symmetry; apply Rabs_pos_eq; apply Rle_0_sqr).
      replace (amin * (INR t * (- (al t * xs t k) * - (al t * xs t k)))) with (al t * al t * (amin * INR t * (xs t k * xs t k))) by ring. rewrite E.
      set (v := Rabs (xs t k)) in *. set (u := Rabs (xs 0%nat k)) in *. assert (0 <= v) by apply Rabs_pos. assert (0 <= amin * INR t * v) by (apply Rmult_le_pos; [apply Rmult_le_pos; lra|lra]).
      apply Rle_trans with (1 * (amin * INR t * (v * v))); [apply Rmult_le_compat_r; [rewrite <- Rmult_assoc; apply Rmult_le_pos; lra|nra]|].
      replace (1 * (amin * INR t * (v * v))) with (amin * INR t * v * v) by ring. apply Rmult_le_compat; lra.
  Qed.
  Lemma moves_rate : exists C, 0 <= C /\ forall t, INR t * rsum n (fun k => (xs (S t) k - xs t k) * (xs (S t) k - xs t k)) <= C.
  Proof.
    assert (G : forall m, (m <= n)%nat -> exists C, 0 <= C /\ forall t, INR t * rsum m (fun k => (xs (S t) k - xs t k) * (xs (S t) k - xs t k)) <= C).
    { induction m as [|m IH]; intros Hm; [exists 0; split; [lra|]; intros t; cbn; lra|]. destruct (IH ltac:(lia)) as (C & PC & HC). destruct (move_rate m ltac:(lia)) as (C' & PC' & HC').
      exists (C + C'). split; [lra|]. intros t. cbn [rsum]. rewrite Rmult_plus_distr_l. apply Rplus_le_compat; [apply HC|apply HC']. }
    apply (G n (le_n n)).
  Qed.
  Lemma cE_moves t d k : (forall j, (j < n)%nat -> Rabs (xs (S t) j - xs t j) <= d) ->
    Rabs (cE es (xs (S t)) k - cE es (xs t) k) <= esum es (fun i j w => hit i j k * (w * 2 / ((floor i + floor j) * (floor i + floor j)))) * d.
  Proof.
    intros Hd. unfold cE. rewrite <- esum_minus, Rmult_comm, <- esum_scal.
    assert (G : forall i j w, In (i, j, w) es -> Rabs (hit i j k * (w / (xs (S t) i + xs (S t) j)) - hit i j k * (w / (xs t i + xs t j))) <= d * (hit i j k * (w * 2 / ((floor i + floor j) * (floor i + floor j))))).
    { intros i j w Hin. destruct (listed_touched i j w Hin) as [Ti Tj]. assert (Pw := HW i j w Hin).
      assert (F1 := floor_pos i Ti). assert (F2 := floor_pos j Tj). assert (L1 := xs_floor t i Ti). assert (L2 := xs_floor t j Tj). assert (L3 := xs_floor (S t) i Ti). assert (L4 := xs_floor (S t) j Tj).
      set (a := xs t i + xs t j) in *. set (b := xs (S t) i + xs (S t) j) in *. set (f := floor i + floor j) in *. assert (Pf : 0 < f) by (unfold f; lra). assert (La : f <= a) by (unfold f, a; lra). assert (Lb : f <= b) by (unfold f, b; lra).
      rewrite <- Rmult_minus_distr_l, Rabs_mult, (Rabs_pos_eq (hit i j k)) by apply hit_nonneg.
      replace (d * (hit i j k * (w * 2 / (f * f)))) with (hit i j k * (w * (2 * d) / (f * f))) by (unfold Rdiv; ring). apply Rmult_le_compat_l; [apply hit_nonneg|].
      replace (w / b - w / a) with (w * (a - b) * / (b * a)) by (field; lra). rewrite !Rabs_mult, (Rabs_pos_eq w) by lra. rewrite (Rabs_pos_eq (/ (b * a))) by (left; apply Rinv_0_lt_compat; nra).
      assert (M : Rabs (a - b) <= 2 * d).
      { assert (D1 := Hd i (touched_below i Ti)). assert (D2 := Hd j (touched_below j Tj)). replace (a - b) with (- ((xs (S t) i - xs t i) + (xs (S t) j - xs t j))) by (unfold a, b; ring). rewrite Rabs_Ropp.
        apply Rle_trans with (1 := Rabs_triang _ _). lra. }
      apply Rmult_le_compat; [apply Rmult_le_pos; [lra|apply Rabs_pos]|left; apply Rinv_0_lt_compat; nra|apply Rmult_le_compat_l; lra|apply Rinv_le_contravar; nra]. }
    exact (esum_abs es _ _ G).
  Qed.
  Lemma step_error k : (k < n)%nat -> exists B, 0 <= B /\ forall t d, (forall j, (j < n)%nat -> Rabs (xs (S t) j - xs t j) <= d) -> Rabs (cE es (xs (S t)) k - s k) <= B * d.
  Proof.
    intros Hk. destruct (touched_dec k) as [T|T].
    - assert (Ps := s_pos k T). assert (F := floor_pos k T). set (Q := esum es (fun i j w => hit i j k * (w * 2 / ((floor i + floor j) * (floor i + floor j))))).
      assert (PQ : 0 <= Q). { apply esum_nonneg. intros i j w Hin. destruct (listed_touched i j w Hin) as [Ti Tj]. assert (Pw := HW i j w Hin). assert (F1 := floor_pos i Ti). assert (F2 := floor_pos j Tj). apply Rmult_le_pos; [apply hit_nonneg|]. left. apply Rdiv_lt_0_compat; nra. }
      assert (PR : 0 < s k / (amin * floor k)) by (apply Rdiv_lt_0_compat; nra).
      exists (Q + s k / (amin * floor k)). split; [lra|]. intros t d Hd. replace (cE es (xs (S t)) k - s k) with ((cE es (xs (S t)) k - cE es (xs t) k) + (cE es (xs t) k - s k)) by ring.
      apply Rle_trans with (1 := Rabs_triang _ _). rewrite Rmult_plus_distr_r. apply Rplus_le_compat; [apply cE_moves; exact Hd|].
      assert (L := xs_floor t k T). assert (E := cE_error t k Hk). assert (D := Hd k Hk). rewrite xs_eq in D by exact Hk. unfold mixed in D.
      replace ((1 - al t) * xs t k + al t * em (xs t) k - xs t k) with (al t * (em (xs t) k - xs t k)) in D by ring. rewrite Rabs_mult, (Rabs_pos_eq (al t)) in D by (assert (R := al_range t); lra).
      apply (f_equal Rabs) in E. rewrite !Rabs_mult, (Rabs_pos_eq (xs t k)), (Rabs_pos_eq (s k)) in E by lra. set (e := Rabs (cE es (xs t) k - s k)) in *. set (g := Rabs (em (xs t) k - xs t k)) in *.
      assert (0 <= e) by apply Rabs_pos. assert (0 <= g) by apply Rabs_pos. assert (A := Hal t). assert (amin * g <= d) by (apply Rle_trans with (2 := D); apply Rmult_le_compat_r; lra).
      assert (floor k * e <= s k * g) by (rewrite <- E; apply Rmult_le_compat_r; lra).
      apply Rmult_le_reg_l with (amin * floor k); [nra|]. replace (amin * floor k * (s k / (amin * floor k) * d)) with (s k * d) by (field; lra).
      apply Rle_trans with (s k * (amin * g)); [|apply Rmult_le_compat_l; lra]. replace (amin * floor k * e) with (amin * (floor k * e)) by ring. replace (s k * (amin * g)) with (amin * (s k * g)) by ring. apply Rmult_le_compat_l; lra.
    - exists 0. split; [lra|]. intros t d Hd. rewrite (s_zero k Hk T), (untouched_zero (xs (S t)) k T), Rminus_0_r, Rabs_R0. lra.
  Qed.
  Lemma rises t : cL n s es (xs 0%nat) <= cL n s es (xs t).
  Proof. induction t as [|t IH]; [lra|]. assert (G := gap_decreases t). unfold gap in G. lra. Qed.
  Lemma sequence_facts : exists K B C, 0 <= K /\ 0 <= B /\ 0 <= C /\ forall t,
    listed_positive (xs t) /\ cL n s es (xs 0%nat) <= cL n s es (xs t) <= cL n s es z /\ dist z (xs t) <= dist z (xs 0%nat) /\
    INR t * (cL n s es z - cL n s es (xs t)) <= K /\ (forall k, (k < n)%nat -> INR t * ((cE es (xs t) k - s k) * (cE es (xs t) k - s k)) <= K) /\
    (forall d, 0 <= d -> (forall j, (j < n)%nat -> Rabs (xs (S t) j - xs t j) <= d) -> forall k, (k < n)%nat -> Rabs (cE es (xs (S t)) k - s k) <= B * d) /\
    INR t * rsum n (fun k => (xs (S t) k - xs t k) * (xs (S t) k - xs t k)) <= C.
  Proof.
    destruct (choose_bound n (fun k K => forall t, INR t * ((cE es (xs t) k - s k) * (cE es (xs t) k - s k)) <= K)) as (K & PK & HK); [intros k a b H L t; specialize (H t); lra|exact error_rate|].
    destruct (choose_bound n (fun k B => forall t d, 0 <= d -> (forall j, (j < n)%nat -> Rabs (xs (S t) j - xs t j) <= d) -> Rabs (cE es (xs (S t)) k - s k) <= B * d)) as (B & PB & HB').
    { intros k a b H L t d Pd Hd. apply Rle_trans with (1 := H t d Pd Hd). apply Rmult_le_compat_r; assumption. }
    { intros k Hk. destruct (step_error k Hk) as (B & PB & H). exists B. split; [exact PB|]. intros t d _. apply H. }
    destruct moves_rate as (C & PC & HC). assert (D := start_dist). assert (P0 : 0 <= dist z (xs 0%nat) / amin) by (apply Rmult_le_pos; [exact D|left; apply Rinv_0_lt_compat; lra]).
    exists (K + dist z (xs 0%nat) / amin), B, C. split; [lra|]. split; [exact PB|]. split; [exact PC|]. intros t.
    split; [apply xs_listed|]. split; [split; [apply rises|apply best, xs_listed]|]. split; [apply dist_le|]. split; [assert (G := gap_bound t); unfold gap in G; lra|].
    split; [intros k Hk; assert (Q := HK k Hk t); lra|]. split; [intros d Pd Hd k Hk; apply HB'; assumption|apply HC].
  Qed.
End Step.
