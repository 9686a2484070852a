(** A continuous function whose low values are all reached in a box has a
    minimum; sums over the two ends of a pair can be kept while the coordinates
    are brought into a box. *)
From Coq Require Import Reals List Arith Lia Lra Classical ClassicalEpsilon.
From Coquelicot Require Import Coquelicot.
From Verif Require Import Base SpecDeriv.
Import ListNotations.
Local Open Scope R_scope.

(** Continuity in the first [N] coordinates (and no dependence on the others). *)
Definition ncont (N : nat) (F : (nat -> R) -> R) : Prop :=
  forall x eps, 0 < eps -> exists d, 0 < d /\
    forall y, (forall i, (i < N)%nat -> Rabs (y i - x i) < d) -> Rabs (F y - F x) < eps.
Definition box (N : nat) (C : R) (x : nat -> R) : Prop := forall i, (i < N)%nat -> - C <= x i <= C.

(** * Minimum on a box *)
Section Min.
Variables (N : nat) (F : (nat -> R) -> R) (C : R).
Hypothesis HF : ncont N F.
Hypothesis HC : 0 <= C.

Definition coor (t : Compactness.Tn N R) : nat -> R := fun i => @coeff_Tn R N 0 t i.

Lemma coor_mk : forall n (u : nat -> R) i, (i < n)%nat -> @coeff_Tn R n 0 (mk_Tn n u) i = u i.
Proof.
  induction n as [|n IH]; intros u i Hi; [lia|]. destruct i as [|i]; [reflexivity|]. cbn. apply (IH (fun n => u (S n))). lia.
Qed.
Lemma bounded_coor : forall n (a b : R) (t : Compactness.Tn n R),
  Compactness.bounded_n n (mk_Tn n (fun _ => a)) (mk_Tn n (fun _ => b)) t <->
  (forall i, (i < n)%nat -> a <= @coeff_Tn R n 0 t i <= b).
Proof.
  induction n as [|n IH]; intros a b t; [split; [intros _ i Hi; lia|intros _; exact I]|].
  destruct t as [t1 t2]. cbn. split.
  - intros [H1 H2] i Hi. destruct i as [|i]; [exact H1|]. apply (proj1 (IH a b t2)); [exact H2|lia].
  - intros H. split; [exact (H 0%nat ltac:(lia))|]. apply (IH a b t2). intros i Hi. exact (H (S i) ltac:(lia)).
Qed.
Lemma close_coor : forall n d (x t : Compactness.Tn n R),
  Compactness.close_n n d x t -> forall i, (i < n)%nat -> Rabs (@coeff_Tn R n 0 x i - @coeff_Tn R n 0 t i) < d.
Proof.
  induction n as [|n IH]; intros d x t H i Hi; [lia|]. destruct x as [x1 x2], t as [t1 t2]. destruct H as [H1 H2].
  destruct i as [|i]; [exact H1|]. apply (IH d x2 t2 H2). lia.
Qed.

Lemma box_min : exists x, box N C x /\ forall y, box N C y -> F x <= F y.
Proof.
  apply NNPP. intros Hno.
  assert (Hy : forall x, box N C x -> exists y, box N C y /\ F y < F x).
  { intros x Hx. apply NNPP. intros Hn. apply Hno. exists x. split; [exact Hx|]. intros y Hyb.
    apply Rnot_lt_le. intros Hlt. apply Hn. exists y. split; assumption. }
  (* for every point, a better point and a radius within which it stays better *)
  assert (Hyd : forall t : Compactness.Tn N R, exists yd : (nat -> R) * posreal,
     box N C (coor t) -> box N C (fst yd) /\
     forall z, (forall i, (i < N)%nat -> Rabs (z i - coor t i) < snd yd) -> F (fst yd) < F z).
  { intros t. destruct (classic (box N C (coor t))) as [Hb|Hb].
    - destruct (Hy (coor t) Hb) as (y & Hyb & Hlt).
      destruct (HF (coor t) (F (coor t) - F y)) as (d & Hd & Hc); [lra|].
      exists (y, mkposreal d Hd). intros _. split; [exact Hyb|]. cbn. intros z Hz. specialize (Hc z Hz).
      apply Rabs_lt_between in Hc. lra.
    - exists (fun _ => 0, mkposreal 1 Rlt_0_1). intros H. contradiction. }
  assert (HS : exists f : Compactness.Tn N R -> (nat -> R) * posreal, forall t, box N C (coor t) ->
     box N C (fst (f t)) /\
     forall z, (forall i, (i < N)%nat -> Rabs (z i - coor t i) < snd (f t)) -> F (fst (f t)) < F z).
  { exists (fun t => proj1_sig (constructive_indefinite_description _ (Hyd t))).
    intros t. exact (proj2_sig (constructive_indefinite_description _ (Hyd t))). }
  destruct HS as [f Hf].
  apply (Compactness.compactness_list N (mk_Tn N (fun _ => - C)) (mk_Tn N (fun _ => C)) (fun t => snd (f t))).
  intros [l Hl].
  assert (Hcov : forall x, box N C x -> exists t, In t l /\ box N C (coor t) /\ F (fst (f t)) < F x).
  { intros x Hx. destruct (Hl (mk_Tn N x)) as (t & Hin & Hb & Hcl).
    - apply bounded_coor. intros i Hi. rewrite coor_mk by exact Hi. apply Hx; exact Hi.
    - exists t. split; [exact Hin|]. assert (Bt : box N C (coor t)) by (intros i Hi; apply (proj1 (bounded_coor N (- C) C t) Hb); exact Hi).
      split; [exact Bt|]. apply (proj2 (Hf t Bt)). intros i Hi.
      rewrite <- (coor_mk N x i Hi). apply (close_coor N (snd (f t)) (mk_Tn N x) t Hcl i Hi). }
  (* the listed points would decrease for ever *)
  assert (Hmin : forall l' : list (Compactness.Tn N R), (exists t, In t l' /\ box N C (coor t)) ->
     exists t, In t l' /\ box N C (coor t) /\ forall t', In t' l' -> box N C (coor t') -> F (fst (f t)) <= F (fst (f t'))).
  { induction l' as [|a l' IH]; intros (t & Hin & Hb); [destruct Hin|].
    destruct (classic (exists t, In t l' /\ box N C (coor t))) as [Hex|Hex].
    - destruct (IH Hex) as (t0 & H1 & H2 & H3).
      destruct (classic (box N C (coor a) /\ F (fst (f a)) < F (fst (f t0)))) as [[Ba Hlt]|Hn].
      + exists a. split; [left; reflexivity|]. split; [exact Ba|]. intros t' [<-|Hin'] Hb'; [apply Rle_refl|].
        specialize (H3 t' Hin' Hb'). lra.
      + exists t0. split; [right; exact H1|]. split; [exact H2|]. intros t' [<-|Hin'] Hb'; [|apply H3; assumption].
        apply Rnot_lt_le. intros Hlt. apply Hn. split; assumption.
    - destruct Hin as [->|Hin]; [|exfalso; apply Hex; exists t; split; assumption].
      exists t. split; [left; reflexivity|]. split; [exact Hb|]. intros t' [<-|Hin'] Hb'; [apply Rle_refl|].
      exfalso. apply Hex. exists t'. split; assumption. }
  destruct (Hmin l) as (t & Hin & Hb & Hle).
  { destruct (Hcov (fun _ => 0)) as (t & H1 & H2 & _); [intros i _; lra|]. exists t. split; assumption. }
  destruct (Hcov (fst (f t))) as (t' & Hin' & Hb' & Hlt); [apply Hf; exact Hb|].
  specialize (Hle t' Hin' Hb'). lra.
Qed.
End Min.

Lemma global_min N F C x0 : ncont N F -> 0 <= C ->
  (forall x, F x <= F x0 -> exists y, box N C y /\ F y = F x) ->
  exists x, box N C x /\ forall y, F x <= F y.
Proof.
  intros HF HC H. destruct (box_min N F C HF HC) as (x & Hb & Hx). exists x. split; [exact Hb|].
  destruct (H x0 (Rle_refl _)) as (y0 & Hb0 & E0). intros y. destruct (Rle_dec (F y) (F x0)) as [Hle|Hgt].
  - destruct (H y Hle) as (y' & Hb' & E'). rewrite <- E'. apply Hx; exact Hb'.
  - specialize (Hx y0 Hb0). rewrite E0 in Hx. lra.
Qed.

(** * Continuity of finite sums *)
Lemma ncont_const N c : ncont N (fun _ => c).
Proof. intros x eps He. exists 1. split; [lra|]. intros y _. rewrite Rminus_eq_0, Rabs_R0. exact He. Qed.
Lemma ncont_plus N F G : ncont N F -> ncont N G -> ncont N (fun x => F x + G x).
Proof.
  intros HF HG x eps He. destruct (HF x (eps / 2)) as (d1 & P1 & H1); [lra|]. destruct (HG x (eps / 2)) as (d2 & P2 & H2); [lra|].
  exists (Rmin d1 d2). split; [apply Rmin_pos; assumption|]. intros y Hy.
  assert (A1 : Rabs (F y - F x) < eps / 2) by (apply H1; intros i Hi; eapply Rlt_le_trans; [apply Hy; exact Hi|apply Rmin_l]).
  assert (A2 : Rabs (G y - G x) < eps / 2) by (apply H2; intros i Hi; eapply Rlt_le_trans; [apply Hy; exact Hi|apply Rmin_r]).
  replace (F y + G y - (F x + G x)) with ((F y - F x) + (G y - G x)) by ring.
  eapply Rle_lt_trans; [apply Rabs_triang|]. lra.
Qed.
Lemma ncont_ext N F G : (forall x, F x = G x) -> ncont N F -> ncont N G.
Proof. intros E H x eps He. destruct (H x eps He) as (d & Hd & Hc). exists d. split; [exact Hd|]. intros y Hy. rewrite <- !E. apply Hc; exact Hy. Qed.
Lemma ncont_coord N i : (i < N)%nat -> ncont N (fun x => x i).
Proof. intros Hi x eps He. exists eps. split; [exact He|]. intros y Hy. apply Hy; exact Hi. Qed.
Lemma ncont_comp N F (g : R -> R) : ncont N F -> (forall t, continuous g t) -> ncont N (fun x => g (F x)).
Proof.
  intros HF Hg x eps He.
  assert (Hc : continuity_pt g (F x)) by (apply continuity_pt_filterlim; apply Hg).
  destruct (Hc eps He) as (d & Hd & H1). destruct (HF x d Hd) as (d' & Hd' & H2). exists d'. split; [exact Hd'|].
  intros y Hy. destruct (Req_dec (F x) (F y)) as [E|E].
  - rewrite E, Rminus_eq_0, Rabs_R0. exact He.
  - apply (H1 (F y)). split; [split; [exact I|exact E]|]. apply H2. exact Hy.
Qed.
Lemma ncont_rsum N m (F : nat -> (nat -> R) -> R) : (forall j, (j < m)%nat -> ncont N (F j)) ->
  ncont N (fun x => rsum m (fun j => F j x)).
Proof.
  induction m as [|m IH]; intros H; [exact (ncont_const N 0)|]. cbn [rsum].
  apply (ncont_plus N (fun x => rsum m (fun j => F j x)) (F m)); [apply IH; intros; apply H; lia|apply H; lia].
Qed.

(** * Bringing the coordinates into a box *)
Lemma list_max (v : nat -> R) (l : list nat) : l <> [] -> exists a, In a l /\ forall b, In b l -> v b <= v a.
Proof.
  induction l as [|a l IH]; intros H; [congruence|]. destruct l as [|b l].
  - exists a. split; [left; reflexivity|]. intros b [<-|[]]. apply Rle_refl.
  - destruct IH as (c & Hin & Hc); [discriminate|]. destruct (Rle_dec (v c) (v a)) as [Hle|Hgt].
    + exists a. split; [left; reflexivity|]. intros d [<-|Hd]; [apply Rle_refl|]. specialize (Hc d Hd). lra.
    + exists c. split; [right; exact Hin|]. intros d [<-|Hd]; [lra|apply Hc; exact Hd].
Qed.
Lemma remove_length (a : nat) l : In a l -> (length (remove Nat.eq_dec a l) < length l)%nat.
Proof. apply remove_length_lt. Qed.

(** Differences smaller than [C] kept, all values brought within [length l * C]. *)
Lemma compress (v : nat -> R) C : 0 <= C -> forall m l, (length l <= m)%nat -> exists v' : nat -> R,
  (forall a b, In a l -> In b l -> Rabs (v a - v b) <= C -> v' a - v' b = v a - v b) /\
  (forall a, In a l -> Rabs (v' a) <= INR (length l) * C).
Proof.
  intros HC. induction m as [|m IH]; intros l Hl.
  - destruct l; [|cbn in Hl; lia]. exists v. split; intros a; [intros b H|intros H]; destruct H.
  - destruct (list_eq_dec Nat.eq_dec l []) as [->|Hne]; [exists v; split; intros a; [intros b H|intros H]; destruct H|].
    destruct (list_max v l Hne) as (a & Ha & Hmax). set (l' := remove Nat.eq_dec a l).
    pose proof (remove_length a l Ha) as Hlen. fold l' in Hlen.
    destruct (IH l' ltac:(lia)) as (w & Hw & Hwb).
    assert (Hl' : forall b, In b l' -> In b l /\ b <> a) by (intros b Hb; apply in_remove in Hb; exact Hb).
    assert (Hl'' : forall b, In b l -> b <> a -> In b l') by (intros b Hb Hn; apply in_in_remove; assumption).
    assert (Hlen1 : INR (length l') + 1 <= INR (length l)) by (rewrite <- S_INR; apply le_INR; lia).
    assert (Hgrow : forall b, In b l' -> Rabs (w b) <= INR (length l) * C).
    { intros b Hb. specialize (Hwb b Hb). assert (INR (length l') * C <= INR (length l) * C) by (apply Rmult_le_compat_r; lra). lra. }
    destruct (list_eq_dec Nat.eq_dec l' []) as [E|Hne'].
    + exists (fun _ => 0). split.
      * intros b c Hb Hc _. assert (Q : forall d, In d l -> d = a).
        { intros d Hd. destruct (Nat.eq_dec d a) as [|Hn]; [assumption|]. pose proof (Hl'' d Hd Hn) as H. rewrite E in H. destruct H. }
        rewrite (Q b Hb), (Q c Hc). ring.
      * intros b _. rewrite Rabs_R0. apply Rmult_le_pos; [apply pos_INR|exact HC].
    + destruct (list_max v l' Hne') as (b & Hb & Hbmax). pose proof (Hl' b Hb) as [Hbl Hba].
      set (wa := if Rle_dec (v a - v b) C then w b + (v a - v b) else w b).
      exists (fun c => if Nat.eq_dec c a then wa else w c).
      assert (Main : forall c, In c l' -> Rabs (v a - v c) <= C -> wa - w c = v a - v c).
      { intros c Hc Hac. pose proof (Hbmax c Hc) as H1. pose proof (Hmax b Hbl) as H2.
        apply Rabs_le_between in Hac. unfold wa. destruct (Rle_dec (v a - v b) C) as [Hle|Hgt]; [|lra].
        specialize (Hw b c Hb Hc). specialize (Hw ltac:(apply Rabs_le_between; lra)). lra. }
      split.
      * intros c d Hc Hd Hcd. destruct (Nat.eq_dec c a) as [->|Hca]; destruct (Nat.eq_dec d a) as [->|Hda]; [ring| | |].
        -- apply Main; [apply Hl''; assumption|exact Hcd].
        -- assert (Q : wa - w c = v a - v c) by (apply Main; [apply Hl''; assumption|rewrite Rabs_minus_sym; exact Hcd]). lra.
        -- apply Hw; [apply Hl''; assumption|apply Hl''; assumption|exact Hcd].
      * intros c Hc. destruct (Nat.eq_dec c a) as [->|Hca]; [|apply Hgrow, Hl''; assumption].
        specialize (Hwb b Hb). pose proof (Hmax b Hbl) as H2.
        assert (G : INR (length l') * C + C <= INR (length l) * C).
        { replace (INR (length l') * C + C) with ((INR (length l') + 1) * C) by ring. apply Rmult_le_compat_r; assumption. }
        apply Rabs_le_between in Hwb. apply Rabs_le_between. unfold wa. destruct (Rle_dec (v a - v b) C); lra.
Qed.

(** The two ends of a listed pair: coordinates [i] and [j + n]. *)
Lemma gauge_dir n C (E : nat -> nat -> Prop) (theta : nat -> R) : 0 <= C ->
  (forall i j, E i j -> (i < n)%nat /\ (j < n)%nat /\ Rabs (theta i + theta (j + n)%nat) <= C) ->
  exists theta', (forall i j, E i j -> theta' i + theta' (j + n)%nat = theta i + theta (j + n)%nat) /\
    box (2 * n) (INR (2 * n) * C) theta'.
Proof.
  intros HC HE. set (v := fun r => if Nat.ltb r n then theta r else - theta r).
  destruct (compress v C HC (2 * n) (seq 0 (2 * n)) ltac:(rewrite seq_length; lia)) as (v' & H1 & H2).
  exists (fun r => if Nat.ltb r n then v' r else - v' r). split.
  - intros i j Hij. destruct (HE i j Hij) as (Hi & Hj & Hle).
    rewrite (proj2 (Nat.ltb_lt i n) Hi), ltb_plus_n.
    assert (Q : v' i - v' (j + n)%nat = v i - v (j + n)%nat).
    { apply H1; [apply in_seq; lia|apply in_seq; lia|]. unfold v. rewrite (proj2 (Nat.ltb_lt i n) Hi), ltb_plus_n.
      replace (theta i - - theta (j + n)%nat) with (theta i + theta (j + n)%nat) by ring. exact Hle. }
    unfold v in Q. rewrite (proj2 (Nat.ltb_lt i n) Hi), ltb_plus_n in Q. lra.
  - intros r Hr. assert (Q : Rabs (v' r) <= INR (2 * n) * C).
    { pose proof (H2 r ltac:(apply in_seq; lia)) as H. rewrite seq_length in H. exact H. }
    apply Rabs_le_between in Q. destruct (Nat.ltb r n); lra.
Qed.

(** The two ends of a listed pair: coordinates [i] and [j]. *)
Lemma gauge_und n C (E : nat -> nat -> Prop) (theta : nat -> R) : 0 <= C ->
  (forall i j, E i j -> (i < n)%nat /\ (j < n)%nat /\ Rabs (theta i + theta j) <= C) ->
  exists theta', (forall i j, E i j -> theta' i + theta' j = theta i + theta j) /\
    box n (INR (2 * n) * C) theta'.
Proof.
  intros HC HE. set (v := fun r => if Nat.ltb r n then theta r else - theta (r - n)%nat).
  destruct (compress v C HC (2 * n) (seq 0 (2 * n)) ltac:(rewrite seq_length; lia)) as (v' & H1 & H2).
  exists (fun r => (v' r - v' (r + n)%nat) / 2). split.
  - intros i j Hij. destruct (HE i j Hij) as (Hi & Hj & Hle).
    assert (Q : forall a b, (a < n)%nat -> (b < n)%nat -> Rabs (theta a + theta b) <= C -> v' a - v' (b + n)%nat = theta a + theta b).
    { intros a b Ha Hb Hab. assert (V : v a - v (b + n)%nat = theta a + theta b).
      { unfold v. rewrite (proj2 (Nat.ltb_lt a n) Ha), ltb_plus_n, plus_n_minus. ring. }
      rewrite <- V. apply H1; [apply in_seq; lia|apply in_seq; lia|]. rewrite V. exact Hab. }
    pose proof (Q i j Hi Hj Hle). pose proof (Q j i Hj Hi ltac:(rewrite Rplus_comm; exact Hle)). lra.
  - intros r Hr. assert (Q : forall a, (a < 2 * n)%nat -> Rabs (v' a) <= INR (2 * n) * C).
    { intros a Ha. pose proof (H2 a ltac:(apply in_seq; lia)) as H. rewrite seq_length in H. exact H. }
    pose proof (Q r ltac:(lia)) as Q1. pose proof (Q (r + n)%nat ltac:(lia)) as Q2.
    apply Rabs_le_between in Q1, Q2. lra.
Qed.

(** A finite family of positive numbers has a positive lower bound. *)
Lemma pos_bound n (P : nat -> nat -> Prop) (f : nat -> nat -> R) :
  (forall i j, (i < n)%nat -> (j < n)%nat -> P i j -> 0 < f i j) ->
  exists mu, 0 < mu /\ forall i j, (i < n)%nat -> (j < n)%nat -> P i j -> mu <= f i j.
Proof.
  intros H.
  assert (One : forall m (Q : nat -> Prop) (g : nat -> R), (forall j, (j < m)%nat -> Q j -> 0 < g j) ->
     exists mu, 0 < mu /\ forall j, (j < m)%nat -> Q j -> mu <= g j).
  { induction m as [|m IH]; intros Q g Hg; [exists 1; split; [lra|intros; lia]|].
    destruct (IH Q g) as (mu & Hm & Hb); [intros; apply Hg; [lia|assumption]|].
    destruct (classic (Q m)) as [Hq|Hq].
    - exists (Rmin mu (g m)). split; [apply Rmin_pos; [exact Hm|apply Hg; [lia|exact Hq]]|].
      intros j Hj HQ. destruct (Nat.eq_dec j m) as [->|Hne]; [apply Rmin_r|].
      eapply Rle_trans; [apply Rmin_l|apply Hb; [lia|exact HQ]].
    - exists mu. split; [exact Hm|]. intros j Hj HQ. destruct (Nat.eq_dec j m) as [->|Hne]; [contradiction|].
      apply Hb; [lia|exact HQ]. }
  assert (Row : forall i, (i < n)%nat -> exists mu, 0 < mu /\ forall j, (j < n)%nat -> P i j -> mu <= f i j)
    by (intros i Hi; apply One; intros; apply H; assumption).
  assert (R2 : exists g : nat -> R, forall i, (i < n)%nat -> 0 < g i /\ forall j, (j < n)%nat -> P i j -> g i <= f i j).
  { assert (Hex : forall i, exists mu, (i < n)%nat -> 0 < mu /\ forall j, (j < n)%nat -> P i j -> mu <= f i j).
    { intros i. destruct (lt_dec i n) as [Hi|Hi]; [destruct (Row i Hi) as (mu & Hm); exists mu; auto|exists 1; intros; lia]. }
    exists (fun i => proj1_sig (constructive_indefinite_description _ (Hex i))).
    intros i Hi. exact (proj2_sig (constructive_indefinite_description _ (Hex i)) Hi). }
  destruct R2 as [g Hg]. destruct (One n (fun _ => True) g) as (mu & Hm & Hb); [intros j Hj _; apply Hg; exact Hj|].
  exists mu. split; [exact Hm|]. intros i j Hi Hj HP. eapply Rle_trans; [apply (Hb i Hi I)|apply Hg; assumption].
Qed.

(** * Stationarity *)
(** [partial F x h d] with a local minimum (in coordinate [h]) of [F] at [x]. *)
Lemma local_min_partial F x h d :
  partial F x h d -> locally (x h) (fun t => F (upd x h (x h)) <= F (upd x h t)) -> d = 0.
Proof.
  intros HP [r Hr]. unfold partial in HP.
  assert (Hd : derivable_pt_lim (fun t => F (upd x h t)) (x h) d) by (apply is_derive_Reals; exact HP).
  set (pr := exist _ d Hd : derivable_pt (fun t => F (upd x h t)) (x h)).
  change d with (derive_pt (fun t => F (upd x h t)) (x h) pr).
  apply (deriv_minimum (fun t => F (upd x h t)) (x h - r) (x h + r) (x h) pr).
  - pose proof (cond_pos r). lra.
  - pose proof (cond_pos r). lra.
  - intros t H1 H2. apply Hr. apply Rabs_lt_between'. lra.
Qed.
