(** CReMa, directed: the functions are the undirected ones on the bipartite list
    with in-nodes shifted by [n]. *)
From Coq Require Import Reals List Arith Lia Lra Bool FunctionalExtensionality.
From Coquelicot Require Import Coquelicot.
From Verif Require Import Base SpecDeriv ProofsDeriv SpecGraph ProofsGraph SpecEnsemble ProofsEnsemble.
From Verif Require Import ModelCM ModelDCM SpecDirected ProofsList ModelDECM ModelCReMa SpecCReMa.
From Verif Require Import ProofsCReMa ProofsMainCReMa ProofsSparseCReMa.
Local Open Scope R_scope.
Import ListNotations.

Definition sh (n : nat) (es : topology) : topology :=
  map (fun e => (fst (fst e), (snd (fst e) + n)%nat, snd e)) es.
Definition cat (n : nat) (a b : nat -> R) (r : nat) : R := if Nat.ltb r n then a r else b (r - n)%nat.

Lemma in_sh n es i j w : In (i, j, w) (sh n es) <-> exists j', j = (j' + n)%nat /\ In (i, j', w) es.
Proof.
  unfold sh. rewrite in_map_iff. split.
  - intros ([[a b] v] & E & Hin). simpl in E. injection E as <- <- <-. exists b. split; [reflexivity|exact Hin].
  - intros (j' & -> & Hin). exists (i, j', w). split; [reflexivity|exact Hin].
Qed.
Lemma sh_dom n es beta : crema_dom (sh n es) beta <-> crema_dir_dom n es beta.
Proof.
  split; intros H i j w Hin.
  - apply (H i (j + n)%nat w). apply in_sh. exists j; auto.
  - apply in_sh in Hin. destruct Hin as (j' & -> & Hin). apply (H i j' w Hin).
Qed.
Lemma sh_ends n es beta : ends_nonzero_dir n es beta -> ends_nonzero (sh n es) beta.
Proof. intros H i j w Hin. apply in_sh in Hin. destruct Hin as (j' & -> & Hin). apply (H i j' w Hin). Qed.
Lemma sh_below n es : pairs_below n es -> pairs_below (n + n) (sh n es).
Proof. intros H i j w Hin. apply in_sh in Hin. destruct Hin as (j' & -> & Hin). destruct (H i j' w Hin). lia. Qed.
Lemma sh_nonneg n es : nonneg_weights es -> nonneg_weights (sh n es).
Proof. intros H i j w Hin. apply in_sh in Hin. destruct Hin as (j' & -> & Hin). apply (H i j' w Hin). Qed.
Lemma sh_noself n es : pairs_below n es -> forall i j w, In (i, j, w) (sh n es) -> i <> j.
Proof. intros H i j w Hin. apply in_sh in Hin. destruct Hin as (j' & -> & Hin). destruct (H i j' w Hin). lia. Qed.
Lemma sh_simple n es : pairs_below n es -> simple_arcs es -> simple_pairs (sh n es).
Proof.
  intros HB HS. split; [apply sh_noself; exact HB|]. unfold sh. rewrite map_map. simpl.
  assert (E : map (fun e : nat * nat * R => (Nat.min (fst (fst e)) (snd (fst e) + n), Nat.max (fst (fst e)) (snd (fst e) + n))) es
    = map (fun p : nat * nat => (fst p, (snd p + n)%nat)) (map fst es)).
  { rewrite map_map. apply map_ext_in. intros [[i j] w] Hin. simpl. destruct (HB i j w Hin).
    rewrite Nat.min_l, Nat.max_r by lia. reflexivity. }
  rewrite E. apply NoDup_map_inj_in; [exact HS|]. intros [a b] [a' b'] _ _ Q. simpl in Q.
  injection Q as -> Q. f_equal. lia.
Qed.

Lemma fold_left_map {A B C} (f : A -> C -> A) (g : B -> C) l a :
  fold_left f (map g l) a = fold_left (fun a b => f a (g b)) l a.
Proof. revert a. induction l as [|b l IH]; intros a; [reflexivity|]. simpl. apply IH. Qed.
Lemma eloop_sh {A} n es (a : A) body : eloop (sh n es) a body = eloop es a (fun i j w => body i (j + n)%nat w).
Proof. unfold eloop, sh. rewrite fold_left_map. reflexivity. Qed.
Lemma eloop_ext {A} es (a : A) b1 b2 : (forall i j w f, In (i, j, w) es -> b1 i j w f = b2 i j w f) -> eloop es a b1 = eloop es a b2.
Proof.
  unfold eloop. generalize (Some a). induction es as [|[[i j] w] es IH]; intros o H; [reflexivity|]. simpl.
  assert (E : obind o (b1 i j w) = obind o (b2 i j w)) by (destruct o; [apply H; left; reflexivity|reflexivity]).
  simpl in *. rewrite E. apply IH. intros; apply H; right; assumption.
Qed.

(** * The two index loops on one array *)
Lemma lloop_upd (l : list nat) (m : nat -> nat) (h : nat -> R -> R) (f : nat -> R) :
  NoDup l -> (forall i j, m i = m j -> i = j) ->
  forall k, lloop l f (fun i f => upd f (m i) (h i (f (m i)))) k =
    fold_right (fun i v => if Nat.eqb (m i) k then h i (f k) else v) (f k) l.
Proof.
  intros Hn Hm. unfold lloop. revert f. induction l as [|i l IH]; intros f k; [reflexivity|].
  inversion Hn as [|? ? Hi Hl]; subst. simpl. rewrite IH by exact Hl.
  destruct (Nat.eqb_spec (m i) k) as [<-|Hk].
  - rewrite upd_eq. assert (G : forall l (v w : R), ~ In i l -> fold_right (fun i0 v => if Nat.eqb (m i0) (m i) then h i0 w else v) v l = v).
    { intros l'. induction l' as [|a l' IH']; intros v w Hin; [reflexivity|]. simpl.
      destruct (Nat.eqb_spec (m a) (m i)) as [E|E]; [apply Hm in E; subst; exfalso; apply Hin; left; reflexivity|].
      apply IH'. intros H; apply Hin; right; exact H. }
    apply G. exact Hi.
  - rewrite upd_neq by auto. reflexivity.
Qed.

Lemma lloop_upd_mem (l : list nat) (m : nat -> nat) (h : nat -> R -> R) f k i : NoDup l -> (forall i j, m i = m j -> i = j) -> In i l -> m i = k ->
  lloop l f (fun i f => upd f (m i) (h i (f (m i)))) k = h i (f k).
Proof.
  intros Hn Hm Hi Hk. rewrite lloop_upd by assumption. induction l as [|a l IH]; [destruct Hi|]. simpl.
  inversion Hn; subst. destruct (Nat.eqb_spec (m a) (m i)) as [E|E].
  - apply Hm in E. subst. reflexivity.
  - destruct Hi as [->|Hi]; [congruence|]. apply IH; assumption.
Qed.
Lemma lloop_upd_out (l : list nat) (m : nat -> nat) (h : nat -> R -> R) f k : NoDup l -> (forall i j, m i = m j -> i = j) -> (forall i, In i l -> m i <> k) ->
  lloop l f (fun i f => upd f (m i) (h i (f (m i)))) k = f k.
Proof.
  intros Hn Hm Hk. rewrite lloop_upd by assumption. induction l as [|a l IH]; [reflexivity|]. simpl.
  inversion Hn; subst. destruct (Nat.eqb_spec (m a) k) as [E|E]; [exfalso; apply (Hk a (or_introl eq_refl) E)|].
  apply IH; [assumption|]. intros i Hi. apply Hk. right; exact Hi.
Qed.

Section Dir.
  Variables (n : nat) (s_out s_in : nat -> R) (es : topology) (nzo nzi : list nat).
  Hypothesis Ho : nonzero_list n s_out nzo.
  Hypothesis Hi : nonzero_list n s_in nzi.
  Hypothesis HB : pairs_below n es.
  Let s := cat n s_out s_in.

  Lemma sh_inj : forall i j : nat, (i + n)%nat = (j + n)%nat -> i = j.
  Proof. intros; lia. Qed.

  Lemma two_loops (h1 h2 : nat -> R -> R) (f : nat -> R) k :
    (forall v i, s_out i = 0 -> h1 i v = v) -> (forall v i, s_in i = 0 -> h2 i v = v) ->
    lloop nzi (lloop nzo f (fun i f => upd f i (h1 i (f i)))) (fun i f => upd f (i + n)%nat (h2 i (f (i + n)%nat))) k =
    if Nat.ltb k (n + n) then (if Nat.ltb k n then h1 k (f k) else h2 (k - n)%nat (f k)) else f k.
  Proof.
    intros Z1 Z2. destruct Ho as [No Io]. destruct Hi as [Ni Ii].
    assert (F1 : lloop nzo f (fun i f => upd f i (h1 i (f i))) k = if Nat.ltb k n then h1 k (f k) else f k).
    { destruct (Nat.ltb_spec k n).
      - destruct (in_dec Nat.eq_dec k nzo) as [Hk|Hk].
        + apply (lloop_upd_mem nzo (fun i => i) h1 f k k); auto.
        + rewrite (lloop_upd_out nzo (fun i => i) h1 f k); auto; [|intros i Hin ->; contradiction].
          symmetry. apply Z1. destruct (Req_EM_T (s_out k) 0); [assumption|exfalso; apply Hk, Io; split; assumption].
      - apply (lloop_upd_out nzo (fun i => i) h1 f k); auto. intros i Hin. apply Io in Hin. lia. }
    destruct (Nat.ltb_spec k n) as [Hk|Hk].
    - rewrite (lloop_upd_out nzi (fun i => (i + n)%nat) h2); auto using sh_inj; [|intros i Hin; lia].
      rewrite F1. destruct (Nat.ltb_spec k (n + n)); [reflexivity|lia].
    - destruct (Nat.ltb_spec k (n + n)) as [Hk2|Hk2].
      + destruct (in_dec Nat.eq_dec (k - n)%nat nzi) as [Hin|Hin].
        * rewrite (lloop_upd_mem nzi (fun i => (i + n)%nat) h2 _ k (k - n)%nat); auto using sh_inj; [rewrite F1; reflexivity|lia].
        * rewrite (lloop_upd_out nzi (fun i => (i + n)%nat) h2); auto using sh_inj.
          -- rewrite F1. symmetry. apply Z2. destruct (Req_EM_T (s_in (k - n)%nat) 0); [assumption|].
             exfalso. apply Hin, Ii. split; [lia|assumption].
          -- intros i Hini E. apply Hin. replace (k - n)%nat with i by lia. exact Hini.
      + rewrite (lloop_upd_out nzi (fun i => (i + n)%nat) h2); auto using sh_inj. intros i Hin. apply Ii in Hin. lia.
  Qed.

  Lemma cat_lo i : (i < n)%nat -> s i = s_out i.
  Proof. intros H. unfold s, cat. rewrite (proj2 (Nat.ltb_lt i n) H). reflexivity. Qed.
  Lemma cat_hi i : s (i + n)%nat = s_in i.
  Proof. unfold s, cat. rewrite ltb_plus_n, plus_n_minus. reflexivity. Qed.

  Lemma cat_lo' i : (i < n)%nat -> cat n s_out s_in i = s_out i.
  Proof. exact (cat_lo i). Qed.

  Lemma lsum_nonzero (k : nat -> R) l (g : nat -> R) : nonzero_list n k l -> lsum l (fun i => k i * g i) = rsum n (fun i => k i * g i).
  Proof.
    intros H. rewrite (lsum_mask n l _ (nonzero_index _ _ _ H)). apply rsum_ext. intros i Hin.
    destruct (memb_spec i l) as [Hm|Hm]; [reflexivity|].
    destruct H as [_ H]. destruct (Req_EM_T (k i) 0) as [->|Hk]; [ring|]. exfalso. apply Hm, H. split; assumption.
  Qed.

  Lemma rsum_cat g : rsum (n + n) g = rsum n g + rsum n (fun i => g (i + n)%nat).
  Proof.
    assert (G : forall m, rsum (n + m) g = rsum n g + rsum m (fun i => g (i + n)%nat)).
    { induction m as [|m IH]; [rewrite Nat.add_0_r; simpl; ring|]. rewrite Nat.add_succ_r. simpl. rewrite IH, (Nat.add_comm m n). ring. }
    apply G.
  Qed.

  Lemma loglik_crema_dir_eq beta :
    loglikelihood_crema_directed n s_out s_in es nzo nzi beta = loglikelihood_crema_undirected (n + n) s (sh n es) beta.
  Proof.
    unfold loglikelihood_crema_directed, loglikelihood_crema_undirected, sh. rewrite fold_left_map. simpl.
    f_equal. rewrite (lloop_sub nzo 0 _ (fun i => s_out i * beta i)) by (intros; reflexivity).
    rewrite (lloop_sub nzi _ _ (fun i => s_in i * beta (i + n)%nat)) by (intros; reflexivity).
    rewrite (loop_sub (n + n) _ _ (fun i => s i * beta i)) by (intros; reflexivity).
    rewrite rsum_cat, (lsum_nonzero s_out nzo beta Ho), (lsum_nonzero s_in nzi (fun i => beta (i + n)%nat) Hi).
    rewrite (rsum_ext n (fun i => s i * beta i) (fun i => s_out i * beta i)) by (intros; rewrite cat_lo by assumption; reflexivity).
    rewrite (rsum_ext n (fun i => s (i + n)%nat * beta (i + n)%nat) (fun i => s_in i * beta (i + n)%nat)) by (intros; rewrite cat_hi; reflexivity).
    ring.
  Qed.

  Lemma prime_crema_dir_eq beta :
    loglikelihood_prime_crema_directed n s_out s_in es nzo nzi beta =
    loglikelihood_prime_crema_undirected (n + n) s (sh n es) beta.
  Proof.
    unfold loglikelihood_prime_crema_directed, loglikelihood_prime_crema_undirected. rewrite eloop_sh.
    f_equal. apply functional_extensionality. intros k.
    rewrite (two_loops (fun i v => v - s_out i) (fun i v => v - s_in i)) by (intros; lra).
    rewrite loop_upd_sub. unfold s, cat. destruct (Nat.ltb k (n + n)); [|reflexivity]. destruct (Nat.ltb k n); ring.
  Qed.

  Lemma hessian_crema_dir_eq beta :
    loglikelihood_hessian_crema_directed n es beta = loglikelihood_hessian_crema_undirected (sh n es) beta.
  Proof.
    unfold loglikelihood_hessian_crema_directed, loglikelihood_hessian_crema_undirected. rewrite eloop_sh.
    apply eloop_ext. intros i j w f Hin. destruct (HB i j w Hin) as [Hin1 Hin2].
    unfold sdiv. destruct (Req_EM_T ((beta i + beta (j + n)%nat) ^ 2) 0) as [Z|Z]; [reflexivity|]. cbn [obind]. f_equal.
    replace (- w / (beta i + beta (j + n)%nat) ^ 2) with (- (w / (beta i + beta (j + n)%nat) ^ 2)) by (field; intros Q; apply Z; rewrite Q; ring).
    generalize (- (w / (beta i + beta (j + n)%nat) ^ 2)) as v. intros v.
    apply functional_extensionality. intros k. apply functional_extensionality. intros l.
    rewrite !upd2_at.
    destruct (Nat.eqb_spec i k), (Nat.eqb_spec i l), (Nat.eqb_spec (j + n) k), (Nat.eqb_spec (j + n) l); subst; simpl; try lia;
      repeat (rewrite ?Nat.eqb_refl; rewrite ?(proj2 (Nat.eqb_neq _ _)) by lia; simpl); reflexivity.
  Qed.

  Lemma diag_crema_dir_eq beta :
    loglikelihood_hessian_diag_crema_directed n es beta = loglikelihood_hessian_diag_crema_undirected (sh n es) beta.
  Proof.
    unfold loglikelihood_hessian_diag_crema_directed, loglikelihood_hessian_diag_crema_undirected. rewrite eloop_sh. reflexivity.
  Qed.
  (** Division loops never fail. *)
  Lemma olloop_div l m (v f : nat -> R) : (forall i, In i l -> v i <> 0) ->
    olloop l f (fun i f => obind (sdiv (f (m i)) (v i)) (fun d => Some (upd f (m i) d))) =
    Some (lloop l f (fun i f => upd f (m i) (f (m i) / v i))).
  Proof.
    unfold olloop, lloop. revert f. induction l as [|a l IH]; intros f H; [reflexivity|]. simpl.
    rewrite sdiv_some by (apply H; left; reflexivity). simpl. apply IH. intros; apply H; right; assumption.
  Qed.
  Lemma olloop_ext_in l (b1 b2 : nat -> (nat -> R) -> option (nat -> R)) f :
    (forall i f, In i l -> b1 i f = b2 i f) -> olloop l f b1 = olloop l f b2.
  Proof.
    unfold olloop, lloop. generalize (Some f). induction l as [|a l IH]; intros o H; [reflexivity|]. simpl.
    assert (E : obind o (b1 a) = obind o (b2 a)) by (destruct o; [apply H; left; reflexivity|reflexivity]).
    rewrite E. apply IH. intros; apply H; right; assumption.
  Qed.
  Lemma lloop_ext_in l (b1 b2 : nat -> (nat -> R) -> (nat -> R)) f :
    (forall i f, In i l -> b1 i f = b2 i f) -> lloop l f b1 = lloop l f b2.
  Proof.
    unfold lloop. revert f. induction l as [|a l IH]; intros f H; [reflexivity|]. simpl.
    rewrite H by (left; reflexivity). apply IH. intros; apply H; right; assumption.
  Qed.

  Lemma iterative_crema_dir_eq beta :
    iterative_crema_directed n s_out s_in es nzo nzi beta = iterative_crema_undirected (n + n) s (sh n es) beta.
  Proof.
    unfold iterative_crema_directed, iterative_crema_undirected. rewrite eloop_sh.
    match goal with |- obind ?a _ = obind ?b _ => change b with a; destruct a as [f|]; [|reflexivity] end. cbn [obind].
    rewrite (olloop_div nzo (fun i => i) s_out f) by (intros i Hin; apply Ho; exact Hin). cbn [obind].
    rewrite (olloop_div nzi (fun i => (i + n)%nat) s_in) by (intros i Hin; apply Hi; exact Hin).
    destruct (oloop_pointwise (n + n) f (fun i f => if Req_EM_T (s i) 0 then Some f else obind (sdiv (f i) (s i)) (fun d => Some (upd f i d)))
      (fun i v => if Req_EM_T (s i) 0 then v else v / s i)) as (F' & E' & O').
    - intros i f' Hlt. destruct (Req_EM_T (s i) 0) as [Z|Z].
      + exists f'. split; [reflexivity|]. intros k. destruct (Nat.eqb_spec k i) as [->|]; reflexivity.
      + rewrite sdiv_some by exact Z. cbn [obind]. eexists; split; [reflexivity|].
        intros k. destruct (Nat.eqb_spec k i) as [->|Hk]; [apply upd_eq|apply upd_neq; auto].
    - rewrite E'. f_equal. apply functional_extensionality. intros k. rewrite O'.
      set (h1 := fun i v => if Req_EM_T (s_out i) 0 then v else v / s_out i).
      set (h2 := fun i v => if Req_EM_T (s_in i) 0 then v else v / s_in i).
      rewrite (lloop_ext_in nzo _ (fun i f => upd f i (h1 i (f i)))).
      2: { intros i g Hin. unfold h1. destruct (Req_EM_T (s_out i) 0); [|reflexivity]. exfalso. apply (proj1 (proj2 Ho i) Hin). assumption. }
      rewrite (lloop_ext_in nzi _ (fun i f => upd f (i + n)%nat (h2 i (f (i + n)%nat)))).
      2: { intros i g Hin. unfold h2. destruct (Req_EM_T (s_in i) 0); [|reflexivity]. exfalso. apply (proj1 (proj2 Hi i) Hin). assumption. }
      rewrite two_loops.
      + destruct (Nat.ltb k (n + n)); [|reflexivity]. unfold s, cat, h1, h2. destruct (Nat.ltb k n); reflexivity.
      + intros v i Z. unfold h1. destruct (Req_EM_T (s_out i) 0); [reflexivity|contradiction].
      + intros v i Z. unfold h2. destruct (Req_EM_T (s_in i) 0); [reflexivity|contradiction].
  Qed.

  Lemma expected_out_crema_dir beta : crema_dir_dom n es beta ->
    exists E, expected_out_strength_crema_directed n es beta = Some E /\ forall k, (k < n)%nat -> E k = cE (sh n es) beta k.
  Proof.
    intros HD. unfold expected_out_strength_crema_directed.
    match goal with |- context [eloop es ?f0 ?b] =>
      destruct (eloop_obs (fun k (f : nat -> R) => f k) es b
        (fun k i j w => (if Nat.eqb i k then 1 else 0) * (w / (beta i + beta (j + n)%nat))) f0) as (F & E & O) end.
    - intros i j w f Hin. rewrite sdiv_some by (pose proof (HD i j w Hin); lra). cbn [obind].
      eexists; split; [reflexivity|]. intros k. cbv beta.
      destruct (Nat.eqb_spec i k) as [->|Hk]; [rewrite upd_eq|rewrite upd_neq by auto]; ring.
    - exists F. split; [exact E|]. intros k Hk. rewrite O. unfold cE, esum, sh. rewrite lsum_map. rewrite Rplus_0_l.
      apply lsum_ext. intros [[i j] w] Hin. simpl. unfold hit.
      rewrite (proj2 (Nat.eqb_neq (j + n) k)) by lia. ring.
  Qed.
  Lemma expected_in_crema_dir beta : crema_dir_dom n es beta ->
    exists E, expected_in_strength_crema_directed n es beta = Some E /\ forall k, (k < n)%nat -> E k = cE (sh n es) beta (k + n).
  Proof.
    intros HD. unfold expected_in_strength_crema_directed.
    match goal with |- context [eloop es ?f0 ?b] =>
      destruct (eloop_obs (fun k (f : nat -> R) => f k) es b
        (fun k i j w => (if Nat.eqb j k then 1 else 0) * (w / (beta i + beta (j + n)%nat))) f0) as (F & E & O) end.
    - intros i j w f Hin. rewrite sdiv_some by (pose proof (HD i j w Hin); lra). cbn [obind].
      eexists; split; [reflexivity|]. intros k. cbv beta.
      destruct (Nat.eqb_spec j k) as [->|Hk]; [rewrite upd_eq|rewrite upd_neq by auto]; ring.
    - exists F. split; [exact E|]. intros k Hk. rewrite O. unfold cE, esum, sh. rewrite lsum_map. rewrite Rplus_0_l.
      apply lsum_ext. intros [[i j] w] Hin. simpl. destruct (HB i j w Hin). unfold hit.
      rewrite (proj2 (Nat.eqb_neq i (k + n))) by lia.
      destruct (Nat.eqb_spec j k), (Nat.eqb_spec (j + n) (k + n)); try lia; ring.
  Qed.
End Dir.

(** * The directed statements *)
Lemma gradient_crema_dir n s_out s_in es nzo nzi beta :
  nonzero_list n s_out nzo -> nonzero_list n s_in nzi -> crema_dir_dom n es beta ->
  exists F, loglikelihood_prime_crema_directed n s_out s_in es nzo nzi beta = Some F /\
    forall h, partial (loglikelihood_crema_directed n s_out s_in es nzo nzi) beta h (F h).
Proof.
  intros Ho Hi HD. rewrite (prime_crema_dir_eq n s_out s_in es nzo nzi Ho Hi).
  destruct (gradient_crema (n + n) (cat n s_out s_in) (sh n es) beta (proj2 (sh_dom n es beta) HD)) as (F & E & G).
  exists F. split; [exact E|]. intros h. eapply partial_ext; [|apply G].
  intros z. symmetry. apply (loglik_crema_dir_eq n s_out s_in es nzo nzi Ho Hi).
Qed.

Lemma opartial_ext F G x h d : (forall z, F z = G z) -> opartial F x h d -> opartial G x h d.
Proof.
  intros H (K & PK & LK). exists K. split; [exact PK|]. revert LK. apply filter_imp. intros t Ht. rewrite <- H. exact Ht.
Qed.

Lemma hessian_crema_dir_correct n s_out s_in es nzo nzi beta :
  nonzero_list n s_out nzo -> nonzero_list n s_in nzi -> pairs_below n es -> simple_arcs es -> crema_dir_dom n es beta ->
  exists H, loglikelihood_hessian_crema_directed n es beta = Some H /\
    forall k h, opartial (fun z => oentry (loglikelihood_prime_crema_directed n s_out s_in es nzo nzi z) k) beta h (H k h).
Proof.
  intros Ho Hi HB HS HD. rewrite (hessian_crema_dir_eq n es HB).
  destruct (hessian_crema_correct (n + n) (cat n s_out s_in) (sh n es) beta (proj2 (sh_dom n es beta) HD) (sh_simple n es HB HS)) as (H & E & G).
  exists H. split; [exact E|]. intros k h. eapply opartial_ext; [|apply G].
  intros z. cbv beta. rewrite (prime_crema_dir_eq n s_out s_in es nzo nzi Ho Hi). reflexivity.
Qed.

Lemma hessian_diag_crema_dir_correct n s_out s_in es nzo nzi beta :
  nonzero_list n s_out nzo -> nonzero_list n s_in nzi -> pairs_below n es -> crema_dir_dom n es beta ->
  exists D, loglikelihood_hessian_diag_crema_directed n es beta = Some D /\
    forall h, opartial (fun z => oentry (loglikelihood_prime_crema_directed n s_out s_in es nzo nzi z) h) beta h (D h).
Proof.
  intros Ho Hi HB HD. rewrite (diag_crema_dir_eq n es).
  destruct (hessian_diag_crema_correct (n + n) (cat n s_out s_in) (sh n es) beta (proj2 (sh_dom n es beta) HD) (sh_noself n es HB)) as (H & E & G).
  exists H. split; [exact E|]. intros h. eapply opartial_ext; [|apply G].
  intros z. cbv beta. rewrite (prime_crema_dir_eq n s_out s_in es nzo nzi Ho Hi). reflexivity.
Qed.

Lemma prime_crema_dir_entries n s_out s_in es nzo nzi beta :
  nonzero_list n s_out nzo -> nonzero_list n s_in nzi -> pairs_below n es -> crema_dir_dom n es beta ->
  exists F EO EI, loglikelihood_prime_crema_directed n s_out s_in es nzo nzi beta = Some F /\
    expected_out_strength_crema_directed n es beta = Some EO /\
    expected_in_strength_crema_directed n es beta = Some EI /\
    (forall i, (i < n)%nat -> F i = EO i - s_out i /\ F (i + n)%nat = EI i - s_in i).
Proof.
  intros Ho Hi HB HD. rewrite (prime_crema_dir_eq n s_out s_in es nzo nzi Ho Hi).
  destruct (prime_crema_some (n + n) (cat n s_out s_in) (sh n es) beta (proj2 (sh_dom n es beta) HD)) as (F & E & O).
  destruct (expected_out_crema_dir n es beta HD) as (EO & EE & OO).
  destruct (expected_in_crema_dir n es HB beta HD) as (EI & EF & OI).
  exists F, EO, EI. repeat (split; [assumption|]). intros i Hin. rewrite !O, OO, OI by exact Hin. unfold cat.
  rewrite (proj2 (Nat.ltb_lt i (n + n))), (proj2 (Nat.ltb_lt (i + n) (n + n))), (proj2 (Nat.ltb_lt i n)) by lia.
  rewrite ltb_plus_n, plus_n_minus. split; ring.
Qed.

Lemma stationary_crema_dir_iff n s_out s_in es nzo nzi beta :
  nonzero_list n s_out nzo -> nonzero_list n s_in nzi -> pairs_below n es -> crema_dir_dom n es beta ->
  exists F EO EI, loglikelihood_prime_crema_directed n s_out s_in es nzo nzi beta = Some F /\
    expected_out_strength_crema_directed n es beta = Some EO /\
    expected_in_strength_crema_directed n es beta = Some EI /\
    ((forall r, (r < n + n)%nat -> F r = 0) <-> (forall i, (i < n)%nat -> EO i = s_out i /\ EI i = s_in i)).
Proof.
  intros Ho Hi HB HD. destruct (prime_crema_dir_entries n s_out s_in es nzo nzi beta Ho Hi HB HD) as (F & EO & EI & E1 & E2 & E3 & O).
  exists F, EO, EI. repeat (split; [assumption|]). split.
  - intros H i Hin. destruct (O i Hin) as [A B]. rewrite H in A, B by lia. lra.
  - intros H r Hr. destruct (Nat.lt_ge_cases r n) as [Hl|Hl].
    + destruct (O r Hl) as [A _]. destruct (H r Hl). lra.
    + destruct (O (r - n)%nat ltac:(lia)) as [_ B]. replace (r - n + n)%nat with r in B by lia.
      destruct (H (r - n)%nat ltac:(lia)). lra.
Qed.

Lemma fixed_point_crema_dir_iff n s_out s_in es nzo nzi beta :
  nonzero_list n s_out nzo -> nonzero_list n s_in nzi -> crema_dir_dom n es beta -> ends_nonzero_dir n es beta ->
  exists F P, iterative_crema_directed n s_out s_in es nzo nzi beta = Some F /\
    loglikelihood_prime_crema_directed n s_out s_in es nzo nzi beta = Some P /\
    (forall i, (i < n)%nat -> s_out i <> 0 -> beta i <> 0 -> (- F i = beta i <-> P i = 0)) /\
    (forall i, (i < n)%nat -> s_in i <> 0 -> beta (i + n)%nat <> 0 -> (- F (i + n)%nat = beta (i + n)%nat <-> P (i + n)%nat = 0)).
Proof.
  intros Ho Hi HD HN. rewrite (prime_crema_dir_eq n s_out s_in es nzo nzi Ho Hi), (iterative_crema_dir_eq n s_out s_in es nzo nzi Ho Hi).
  destruct (fixed_point_crema_iff (n + n) (cat n s_out s_in) (sh n es) beta (proj2 (sh_dom n es beta) HD) (sh_ends n es beta HN))
    as (F & P & E1 & E2 & H & _).
  exists F, P. split; [exact E1|]. split; [exact E2|]. split; intros i Hin Hs Hb.
  - apply H; [lia| |exact Hb]. unfold cat. rewrite (proj2 (Nat.ltb_lt i n) Hin). exact Hs.
  - apply H; [lia| |exact Hb]. unfold cat. rewrite ltb_plus_n, plus_n_minus. exact Hs.
Qed.

Lemma iterative_crema_dir_zero_error n s_out s_in es nzo nzi beta i j w :
  nonzero_list n s_out nzo -> nonzero_list n s_in nzi ->
  In (i, j, w) es -> beta i = 0 \/ beta (j + n)%nat = 0 ->
  iterative_crema_directed n s_out s_in es nzo nzi beta = None.
Proof.
  intros Ho Hi Hin Hz. rewrite (iterative_crema_dir_eq n s_out s_in es nzo nzi Ho Hi).
  apply (iterative_crema_zero_error _ _ _ _ i (j + n)%nat w); [|exact Hz]. apply in_sh. exists j; auto.
Qed.

Lemma dir_solution n s_out s_in es x :
  pairs_below n es -> crema_dir_dom n es x ->
  (exists EO EI, expected_out_strength_crema_directed n es x = Some EO /\
     expected_in_strength_crema_directed n es x = Some EI /\ forall i, (i < n)%nat -> EO i = s_out i /\ EI i = s_in i) ->
  exists E, expected_strength_crema_undirected (sh n es) x = Some E /\ forall k, (k < n + n)%nat -> E k = cat n s_out s_in k.
Proof.
  intros HB HX (EO & EI & E1 & E2 & HE). destruct (expected_crema_some (sh n es) x (proj2 (sh_dom n es x) HX)) as (E & EE & OE).
  exists E. split; [exact EE|]. intros k Hk. rewrite OE.
  destruct (expected_out_crema_dir n es x HX) as (EO' & Q1 & O1). rewrite E1 in Q1. injection Q1 as <-.
  destruct (expected_in_crema_dir n es HB x HX) as (EI' & Q2 & O2). rewrite E2 in Q2. injection Q2 as <-.
  unfold cat. destruct (Nat.ltb_spec k n) as [Hl|Hl].
  - rewrite <- O1 by exact Hl. apply HE. exact Hl.
  - replace k with ((k - n) + n)%nat at 1 by lia. rewrite <- O2 by lia. apply HE. lia.
Qed.

Lemma solution_crema_dir_max n s_out s_in es nzo nzi x z :
  nonzero_list n s_out nzo -> nonzero_list n s_in nzi -> pairs_below n es -> nonneg_weights es ->
  crema_dir_dom n es x -> crema_dir_dom n es z ->
  (exists EO EI, expected_out_strength_crema_directed n es x = Some EO /\
     expected_in_strength_crema_directed n es x = Some EI /\ forall i, (i < n)%nat -> EO i = s_out i /\ EI i = s_in i) ->
  loglikelihood_crema_directed n s_out s_in es nzo nzi z <= loglikelihood_crema_directed n s_out s_in es nzo nzi x.
Proof.
  intros Ho Hi HB HW HX HZ HE. rewrite !(loglik_crema_dir_eq n s_out s_in es nzo nzi Ho Hi).
  apply solution_crema_max; [apply sh_below|apply sh_nonneg|apply sh_dom|apply sh_dom|apply dir_solution]; assumption.
Qed.

Lemma solution_crema_dir_unique n s_out s_in es x z :
  pairs_below n es -> nonneg_weights es ->
  crema_dir_dom n es x -> crema_dir_dom n es z ->
  (exists EO EI, expected_out_strength_crema_directed n es x = Some EO /\
     expected_in_strength_crema_directed n es x = Some EI /\ forall i, (i < n)%nat -> EO i = s_out i /\ EI i = s_in i) ->
  (exists EO EI, expected_out_strength_crema_directed n es z = Some EO /\
     expected_in_strength_crema_directed n es z = Some EI /\ forall i, (i < n)%nat -> EO i = s_out i /\ EI i = s_in i) ->
  forall i j w, In (i, j, w) es -> w <> 0 -> / (z i + z (j + n)%nat) = / (x i + x (j + n)%nat).
Proof.
  intros HB HW HX HZ H1 H2 i j w Hin Hw.
  apply (solution_crema_unique (n + n) (cat n s_out s_in) (sh n es)) with (w := w); auto.
  - apply sh_below; assumption.
  - apply sh_nonneg; assumption.
  - apply sh_dom; assumption.
  - apply sh_dom; assumption.
  - apply dir_solution; assumption.
  - apply dir_solution; assumption.
  - apply in_sh. exists j; auto.
Qed.
