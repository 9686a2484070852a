(** Averages over independent links. *)
From Coq Require Import Reals List Arith Lia Lra Bool Permutation.
From Verif Require Import Base SpecGraph SpecEnsemble.
Local Open Scope R_scope.
Import ListNotations.

(** * Sums and products over lists *)

Lemma lsum_ext {A} (l : list A) f g : (forall a, In a l -> f a = g a) -> lsum l f = lsum l g.
Proof.
  induction l as [|a l IH]; intros H; [reflexivity|]. simpl.
  rewrite H by (left; reflexivity). rewrite IH; [reflexivity|]. intros; apply H; right; assumption.
Qed.

Lemma lsum_plus {A} (l : list A) f g : lsum l (fun a => f a + g a) = lsum l f + lsum l g.
Proof. induction l as [|a l IH]; simpl; [ring|]. rewrite IH; ring. Qed.

Lemma lsum_minus {A} (l : list A) f g : lsum l (fun a => f a - g a) = lsum l f - lsum l g.
Proof. induction l as [|a l IH]; simpl; [ring|]. rewrite IH; ring. Qed.

Lemma lsum_scal {A} (l : list A) c f : lsum l (fun a => c * f a) = c * lsum l f.
Proof. induction l as [|a l IH]; simpl; [ring|]. rewrite IH; ring. Qed.

Lemma lsum_zero {A} (l : list A) f : (forall a, In a l -> f a = 0) -> lsum l f = 0.
Proof.
  induction l as [|a l IH]; intros H; [reflexivity|]. simpl.
  rewrite H by (left; reflexivity). rewrite IH; [ring|]. intros; apply H; right; assumption.
Qed.

Lemma lsum_app {A} (l1 l2 : list A) f : lsum (l1 ++ l2) f = lsum l1 f + lsum l2 f.
Proof. induction l1 as [|a l IH]; simpl; [ring|]. rewrite IH; ring. Qed.

Lemma lsum_map {A B} (g : A -> B) l f : lsum (map g l) f = lsum l (fun a => f (g a)).
Proof. induction l as [|a l IH]; simpl; [reflexivity|]. rewrite IH; reflexivity. Qed.

Lemma lsum_flat_map {A B} (g : A -> list B) l f :
  lsum (flat_map g l) f = lsum l (fun a => lsum (g a) f).
Proof. induction l as [|a l IH]; simpl; [reflexivity|]. rewrite lsum_app, IH; reflexivity. Qed.

Lemma lsum_swap {A B} (l : list A) (l' : list B) f :
  lsum l (fun a => lsum l' (fun b => f a b)) = lsum l' (fun b => lsum l (fun a => f a b)).
Proof.
  induction l as [|a l IH]; simpl.
  - symmetry. apply lsum_zero. reflexivity.
  - rewrite IH, <- lsum_plus. reflexivity.
Qed.

Lemma lsum_rsum_swap {A} (l : list A) n f :
  lsum l (fun a => rsum n (fun i => f a i)) = rsum n (fun i => lsum l (fun a => f a i)).
Proof.
  induction l as [|a l IH]; simpl.
  - symmetry. apply rsum_zero. reflexivity.
  - rewrite IH, <- rsum_plus. reflexivity.
Qed.

Lemma lsum_seq n f : lsum (seq 0 n) f = rsum n f.
Proof.
  induction n as [|n IH]; [reflexivity|]. rewrite seq_S, lsum_app, IH. simpl. ring.
Qed.

Lemma lprod_ext {A} (l : list A) f g : (forall a, In a l -> f a = g a) -> lprod l f = lprod l g.
Proof.
  induction l as [|a l IH]; intros H; [reflexivity|]. simpl.
  rewrite H by (left; reflexivity). rewrite IH; [reflexivity|]. intros; apply H; right; assumption.
Qed.

Lemma lprod_app {A} (l1 l2 : list A) f : lprod (l1 ++ l2) f = lprod l1 f * lprod l2 f.
Proof. induction l1 as [|a l IH]; simpl; [ring|]. rewrite IH; ring. Qed.

Lemma lprod_mult {A} (l : list A) f g : lprod l (fun a => f a * g a) = lprod l f * lprod l g.
Proof. induction l as [|a l IH]; simpl; [ring|]. rewrite IH; ring. Qed.

Lemma lprod_map {A B} (g : A -> B) l f : lprod (map g l) f = lprod l (fun a => f (g a)).
Proof. induction l as [|a l IH]; simpl; [reflexivity|]. rewrite IH; reflexivity. Qed.

Lemma lprod_flat_map {A B} (g : A -> list B) l f :
  lprod (flat_map g l) f = lprod l (fun a => lprod (g a) f).
Proof. induction l as [|a l IH]; simpl; [reflexivity|]. rewrite lprod_app, IH; reflexivity. Qed.

Lemma lprod_seq n f : lprod (seq 0 n) f = rprod n f.
Proof.
  induction n as [|n IH]; [reflexivity|]. rewrite seq_S, lprod_app, IH. simpl. ring.
Qed.

Lemma lprod_filter {A} (b : A -> bool) l f :
  lprod (filter b l) f = lprod l (fun a => if b a then f a else 1).
Proof.
  induction l as [|a l IH]; simpl; [reflexivity|]. destruct (b a); simpl; rewrite IH; ring.
Qed.

Lemma lprod_perm {A} (l l' : list A) f : Permutation l l' -> lprod l f = lprod l' f.
Proof.
  induction 1; simpl; try congruence; ring.
Qed.

Lemma lprod_one {A} (l : list A) f : (forall a, In a l -> f a = 1) -> lprod l f = 1.
Proof.
  induction l as [|a l IH]; intros H; [reflexivity|]. simpl.
  rewrite H by (left; reflexivity). rewrite IH; [ring|]. intros; apply H; right; assumption.
Qed.

Lemma NoDup_incl_split {A} (S l : list A) :
  NoDup S -> incl S l -> exists r, Permutation l (S ++ r).
Proof.
  revert l. induction S as [|a S IH]; intros l HS Hin.
  - exists l. apply Permutation_refl.
  - inversion HS as [|? ? Ha HS']; subst.
    destruct (in_split a l) as [l1 [l2 ->]]; [apply Hin; left; reflexivity|].
    destruct (IH (l1 ++ l2) HS') as [r Hr].
    { intros b Hb. assert (Hb' := Hin b (or_intror Hb)).
      rewrite in_app_iff in *. destruct Hb' as [|[<-|]]; auto. contradiction. }
    exists r. simpl. apply Permutation_sym.
    apply Permutation_cons_app. apply Permutation_sym. exact Hr.
Qed.

(** A product over [l] of factors equal to 1 outside [S]. *)
Lemma lprod_support {A} (S l : list A) f :
  NoDup S -> NoDup l -> incl S l ->
  (forall a, In a l -> ~ In a S -> f a = 1) ->
  lprod l f = lprod S f.
Proof.
  intros HS Hl Hin H1. destruct (NoDup_incl_split S l HS Hin) as [r Hr].
  rewrite (lprod_perm _ _ f Hr), lprod_app, (lprod_one r); [ring|].
  intros a Ha. apply H1.
  - apply (Permutation_in _ (Permutation_sym Hr)). apply in_or_app. right; exact Ha.
  - intros HaS. pose proof (Permutation_NoDup Hr Hl) as HN.
    clear - HN Ha HaS. induction S as [|b S IH]; [exact HaS|].
    simpl in HN. inversion HN; subst. destruct HaS as [<-|HaS].
    + apply H1. apply in_or_app. right; exact Ha.
    + apply IH; assumption.
Qed.

(** * Graphs over a list of pairs *)

Definition weight (l : list (nat * nat)) (p : nat -> nat -> R) (a : nat -> nat -> bool) : R :=
  lprod l (fun e => if a (fst e) (snd e) then p (fst e) (snd e) else 1 - p (fst e) (snd e)).

Definition mean_on l p (f : (nat -> nat -> bool) -> R) : R :=
  lsum (graphs_on l) (fun a => weight l p a * f a).

Lemma graphs_on_absent l a i j : In a (graphs_on l) -> ~ In (i, j) l -> a i j = false.
Proof.
  revert a. induction l as [|[u v] l IH]; simpl; intros a Ha Hn.
  - destruct Ha as [<-|[]]. reflexivity.
  - apply in_flat_map in Ha. destruct Ha as [b [Hb Ha]].
    destruct Ha as [<-|[<-|[]]].
    + apply IH; auto.
    + unfold add_link. simpl.
      destruct (Nat.eqb_spec i u) as [->|]; simpl; [|apply IH; auto].
      destruct (Nat.eqb_spec j v) as [->|]; [|apply IH; auto].
      exfalso. apply Hn. left. reflexivity.
Qed.

Lemma add_link_same a i j : add_link a i j i j = true.
Proof. unfold add_link. rewrite !Nat.eqb_refl. reflexivity. Qed.

Lemma add_link_other a i j u v : (u, v) <> (i, j) -> add_link a i j u v = a u v.
Proof.
  intros H. unfold add_link.
  destruct (Nat.eqb_spec u i) as [->|]; simpl; [|reflexivity].
  destruct (Nat.eqb_spec v j) as [->|]; [congruence|reflexivity].
Qed.

Lemma weight_add_link l p a i j : ~ In (i, j) l -> weight l p (add_link a i j) = weight l p a.
Proof.
  intros H. unfold weight. apply lprod_ext. intros [u v] Huv. simpl.
  rewrite add_link_other; [reflexivity|]. intros E. rewrite E in Huv. contradiction.
Qed.

Lemma mean_on_cons e l p f :
  ~ In e l ->
  mean_on (e :: l) p f =
    (1 - p (fst e) (snd e)) * mean_on l p f
    + p (fst e) (snd e) * mean_on l p (fun a => f (add_link a (fst e) (snd e))).
Proof.
  intros He. destruct e as [i j]. simpl. unfold mean_on. simpl.
  rewrite lsum_flat_map, <- !lsum_scal, <- lsum_plus. apply lsum_ext. intros a Ha.
  simpl. unfold weight at 1 2. simpl. rewrite add_link_same.
  rewrite (graphs_on_absent l a i j Ha He).
  fold (weight l p a). fold (weight l p (add_link a i j)).
  rewrite weight_add_link by exact He. ring.
Qed.

(** Product observables factorise. *)
Lemma mean_on_prod l p (phi : nat * nat -> bool -> R) :
  NoDup l ->
  mean_on l p (fun a => lprod l (fun e => phi e (a (fst e) (snd e)))) =
  lprod l (fun e => p (fst e) (snd e) * phi e true + (1 - p (fst e) (snd e)) * phi e false).
Proof.
  induction l as [|e l IH]; intros Hl.
  - unfold mean_on, weight. simpl. ring.
  - inversion Hl as [|? ? He Hl']; subst. rewrite mean_on_cons by exact He.
    simpl. rewrite <- IH by exact Hl'. rewrite Rmult_plus_distr_r.
    assert (E0 : mean_on l p (fun a => phi e (a (fst e) (snd e)) *
               lprod l (fun e => phi e (a (fst e) (snd e))))
       = phi e false * mean_on l p (fun a => lprod l (fun e => phi e (a (fst e) (snd e))))).
    { unfold mean_on. rewrite <- lsum_scal. apply lsum_ext. intros a Ha.
      rewrite (graphs_on_absent l a (fst e) (snd e) Ha) by (destruct e; exact He). ring. }
    assert (E1 : mean_on l p (fun a => phi e (add_link a (fst e) (snd e) (fst e) (snd e)) *
               lprod l (fun e0 => phi e0 (add_link a (fst e) (snd e) (fst e0) (snd e0))))
       = phi e true * mean_on l p (fun a => lprod l (fun e => phi e (a (fst e) (snd e))))).
    { unfold mean_on. rewrite <- lsum_scal. apply lsum_ext. intros a Ha.
      rewrite add_link_same.
      rewrite (lprod_ext l _ (fun e0 => phi e0 (a (fst e0) (snd e0)))); [ring|].
      intros [u v] Huv. simpl. rewrite add_link_other; [reflexivity|].
      destruct e as [i j]; simpl. intros E. rewrite E in Huv. contradiction. }
    rewrite E0, E1. ring.
Qed.

Lemma mean_on_prod_sub S l p (phi : nat * nat -> bool -> R) :
  NoDup S -> NoDup l -> incl S l ->
  mean_on l p (fun a => lprod S (fun e => phi e (a (fst e) (snd e)))) =
  lprod S (fun e => p (fst e) (snd e) * phi e true + (1 - p (fst e) (snd e)) * phi e false).
Proof.
  intros HS Hl Hin.
  assert (dec : forall e f : nat * nat, {e = f} + {e <> f}).
  { decide equality; apply Nat.eq_dec. }
  set (psi := fun e b => if in_dec dec e S then phi e b else 1).
  transitivity (mean_on l p (fun a => lprod l (fun e => psi e (a (fst e) (snd e))))).
  - unfold mean_on. apply lsum_ext. intros a _. f_equal.
    rewrite (lprod_support S l (fun e => psi e (a (fst e) (snd e)))); auto.
    + apply lprod_ext. intros e He. unfold psi. destruct (in_dec dec e S); [reflexivity|contradiction].
    + intros e _ He. unfold psi. destruct (in_dec dec e S); [contradiction|reflexivity].
  - rewrite mean_on_prod by exact Hl.
    rewrite (lprod_support S l); auto.
    + apply lprod_ext. intros e He. unfold psi. destruct (in_dec dec e S); [reflexivity|contradiction].
    + intros e _ He. unfold psi. destruct (in_dec dec e S); [contradiction|ring].
Qed.

(** * The pair lists *)

Lemma in_upairs n i j : In (i, j) (upairs n) <-> (i < j < n)%nat.
Proof.
  unfold upairs. rewrite in_flat_map. split.
  - intros [k [Hk H]]. apply in_map_iff in H. destruct H as [v [E Hv]].
    inversion E; subst. apply in_seq in Hk, Hv. lia.
  - intros H. exists j. split; [apply in_seq; lia|]. apply in_map_iff. exists i.
    split; [reflexivity|apply in_seq; lia].
Qed.

Lemma in_dpairs n i j : In (i, j) (dpairs n) <-> (i < n)%nat /\ (j < n)%nat /\ i <> j.
Proof.
  unfold dpairs. rewrite in_flat_map. split.
  - intros [k [Hk H]]. apply in_map_iff in H. destruct H as [v [E Hv]].
    inversion E; subst. apply filter_In in Hv. destruct Hv as [Hv Hb].
    apply in_seq in Hk, Hv. destruct (Nat.eqb_spec i j); [discriminate|]. lia.
  - intros [Hi [Hj Hij]]. exists i. split; [apply in_seq; lia|]. apply in_map_iff. exists j.
    split; [reflexivity|]. apply filter_In. split; [apply in_seq; lia|].
    destruct (Nat.eqb_spec i j); [contradiction|reflexivity].
Qed.

Lemma NoDup_flat_map_key {A B} (g : A -> list B) (key : B -> A) l :
  NoDup l -> (forall a, In a l -> NoDup (g a)) ->
  (forall a b, In b (g a) -> key b = a) -> NoDup (flat_map g l).
Proof.
  intros Hl Hg Hk. induction l as [|a l IH]; simpl; [constructor|].
  inversion Hl; subst.
  assert (Hr : NoDup (flat_map g l)).
  { apply IH; [assumption|]. intros b Hb. apply Hg. right; exact Hb. }
  assert (Ha : NoDup (g a)) by (apply Hg; left; reflexivity).
  assert (Hd : forall b, In b (g a) -> ~ In b (flat_map g l)).
  { intros b Hb Hb'. apply in_flat_map in Hb'. destruct Hb' as [a' [Ha' Hb']].
    rewrite <- (Hk a' b Hb') in Ha'. rewrite (Hk a b Hb) in Ha'. contradiction. }
  clear - Hr Ha Hd. induction (g a) as [|b l' IH]; simpl; [exact Hr|].
  inversion Ha; subst. constructor.
  - rewrite in_app_iff. intros [H|H]; [contradiction|]. apply (Hd b (or_introl eq_refl) H).
  - apply IH; [assumption|]. intros b' Hb'. apply Hd. right; exact Hb'.
Qed.

Lemma NoDup_upairs n : NoDup (upairs n).
Proof.
  unfold upairs. apply (NoDup_flat_map_key _ snd).
  - apply seq_NoDup.
  - intros i _. apply FinFun.Injective_map_NoDup; [|apply seq_NoDup].
    intros a b E. inversion E; reflexivity.
  - intros i [u v] H. apply in_map_iff in H. destruct H as [w [E _]]. inversion E; reflexivity.
Qed.

Lemma NoDup_dpairs n : NoDup (dpairs n).
Proof.
  unfold dpairs. apply (NoDup_flat_map_key _ fst).
  - apply seq_NoDup.
  - intros i _. apply FinFun.Injective_map_NoDup; [|apply NoDup_filter, seq_NoDup].
    intros a b E. inversion E; reflexivity.
  - intros i [u v] H. apply in_map_iff in H. destruct H as [w [E _]]. inversion E; reflexivity.
Qed.

Lemma weight_upairs n p a : weight (upairs n) p a = prob_undirected n p a.
Proof.
  unfold weight, upairs, prob_undirected.
  rewrite lprod_flat_map, lprod_seq. apply rprod_ext. intros i _.
  rewrite lprod_map, lprod_seq. reflexivity.
Qed.

Lemma weight_dpairs n p a : weight (dpairs n) p a = prob_directed n p a.
Proof.
  unfold weight, dpairs, prob_directed.
  rewrite lprod_flat_map, lprod_seq. apply rprod_ext. intros i _.
  rewrite lprod_map, lprod_filter, lprod_seq. apply rprod_ext. intros j _. simpl.
  destruct (Nat.eqb i j); reflexivity.
Qed.

Lemma weight_und l p a : (forall i j, In (i, j) l -> (i < j)%nat) -> weight l p (und a) = weight l p a.
Proof.
  intros H. unfold weight. apply lprod_ext. intros [i j] Hij. simpl. unfold und.
  apply H in Hij. apply Nat.ltb_lt in Hij. rewrite Hij. reflexivity.
Qed.

Lemma mean_undirected_on n p f :
  mean_undirected n p f = mean_on (upairs n) p (fun a => f (und a)).
Proof.
  unfold mean_undirected, all_ugraphs, mean_on. rewrite lsum_map. apply lsum_ext.
  intros a _. rewrite <- weight_upairs, weight_und; [reflexivity|].
  intros i j H. apply in_upairs in H. lia.
Qed.

Lemma mean_directed_on n p f : mean_directed n p f = mean_on (dpairs n) p f.
Proof.
  unfold mean_directed, all_digraphs, mean_on. apply lsum_ext.
  intros a _. rewrite weight_dpairs. reflexivity.
Qed.

(** * Linearity *)

Lemma mean_on_plus l p f g : mean_on l p (fun a => f a + g a) = mean_on l p f + mean_on l p g.
Proof.
  unfold mean_on. rewrite <- lsum_plus. apply lsum_ext. intros; ring.
Qed.

Lemma mean_on_minus l p f g : mean_on l p (fun a => f a - g a) = mean_on l p f - mean_on l p g.
Proof.
  unfold mean_on. rewrite <- lsum_minus. apply lsum_ext. intros; ring.
Qed.

Lemma mean_on_scal l p c f : mean_on l p (fun a => c * f a) = c * mean_on l p f.
Proof.
  unfold mean_on. rewrite <- lsum_scal. apply lsum_ext. intros; ring.
Qed.

Lemma mean_on_rsum l p n f :
  mean_on l p (fun a => rsum n (fun i => f a i)) = rsum n (fun i => mean_on l p (fun a => f a i)).
Proof.
  unfold mean_on. rewrite <- lsum_rsum_swap. apply lsum_ext. intros a _.
  rewrite rsum_scal_l. reflexivity.
Qed.

Lemma mean_on_ext l p f g : (forall a, In a (graphs_on l) -> f a = g a) -> mean_on l p f = mean_on l p g.
Proof. intros H. unfold mean_on. apply lsum_ext. intros a Ha. rewrite H by exact Ha. reflexivity. Qed.

Lemma mean_on_one l p : NoDup l -> mean_on l p (fun _ => 1) = 1.
Proof.
  intros Hl. pose proof (mean_on_prod_sub [] l p (fun _ _ => 1)) as H. simpl in H.
  apply H; [constructor|exact Hl|]. intros e [].
Qed.

Lemma mean_on_const l p c : NoDup l -> mean_on l p (fun _ => c) = c.
Proof.
  intros Hl. rewrite (mean_on_ext l p _ (fun _ => c * 1)) by (intros; ring).
  rewrite mean_on_scal, mean_on_one by exact Hl. ring.
Qed.

Lemma mean_on_link l p i j : NoDup l -> In (i, j) l -> mean_on l p (fun a => ind (a i j)) = p i j.
Proof.
  intros Hl Hin.
  pose proof (mean_on_prod_sub [(i, j)] l p (fun _ b => ind b)) as H. simpl in H.
  rewrite (mean_on_ext l p _ (fun a => ind (a i j) * 1)) by (intros; ring).
  rewrite H; [ring|constructor; [intros []|constructor]|exact Hl|].
  intros e [<-|[]]. exact Hin.
Qed.

(** * Undirected ensemble *)

Lemma mean_undirected_one n p : mean_undirected n p (fun _ => 1) = 1.
Proof. rewrite mean_undirected_on. apply mean_on_one, NoDup_upairs. Qed.

Lemma mean_directed_one n p : mean_directed n p (fun _ => 1) = 1.
Proof. rewrite mean_directed_on. apply mean_on_one, NoDup_dpairs. Qed.

Lemma mean_undirected_link n p i j :
  (i < n)%nat -> (j < n)%nat -> (forall u v, p u v = p v u) ->
  mean_undirected n p (fun a => ind (a i j)) = if Nat.eqb i j then 0 else p i j.
Proof.
  intros Hi Hj Hp. rewrite mean_undirected_on.
  destruct (Nat.eqb_spec i j) as [<-|Hij].
  - rewrite (mean_on_ext _ _ _ (fun _ => 0)); [apply mean_on_const, NoDup_upairs|].
    intros a _. unfold und. rewrite Nat.ltb_irrefl. reflexivity.
  - destruct (Nat.lt_ge_cases i j) as [L|L].
    + rewrite (mean_on_ext _ _ _ (fun a => ind (a i j))).
      * apply mean_on_link; [apply NoDup_upairs|apply in_upairs; lia].
      * intros a _. unfold und. apply Nat.ltb_lt in L. rewrite L. reflexivity.
    + rewrite (mean_on_ext _ _ _ (fun a => ind (a j i))).
      * rewrite Hp. apply mean_on_link; [apply NoDup_upairs|apply in_upairs; lia].
      * intros a _. unfold und. destruct (Nat.ltb_spec i j); [lia|].
        destruct (Nat.ltb_spec j i); [reflexivity|lia].
Qed.

Lemma mean_directed_link n p i j :
  (i < n)%nat -> (j < n)%nat ->
  mean_directed n p (fun a => ind (a i j)) = if Nat.eqb i j then 0 else p i j.
Proof.
  intros Hi Hj. rewrite mean_directed_on.
  destruct (Nat.eqb_spec i j) as [<-|Hij].
  - rewrite (mean_on_ext _ _ _ (fun _ => 0)); [apply mean_on_const, NoDup_dpairs|].
    intros a Ha. rewrite (graphs_on_absent _ _ i i Ha); [reflexivity|].
    rewrite in_dpairs. lia.
  - apply mean_on_link; [apply NoDup_dpairs|apply in_dpairs; lia].
Qed.

Lemma mean_undirected_deg n p i :
  (i < n)%nat -> (forall u v, p u v = p v u) ->
  mean_undirected n p (fun a => deg n a i) = rsum n (fun j => if Nat.eqb i j then 0 else p i j).
Proof.
  intros Hi Hp. unfold deg. rewrite mean_undirected_on.
  rewrite (mean_on_rsum _ _ n (fun a j => ind (und a i j))).
  apply rsum_ext. intros j Hj.
  rewrite <- mean_undirected_on with (f := fun a => ind (a i j)).
  apply mean_undirected_link; assumption.
Qed.

Lemma mean_directed_deg n p i :
  (i < n)%nat ->
  mean_directed n p (fun a => deg n a i) = rsum n (fun j => if Nat.eqb i j then 0 else p i j).
Proof.
  intros Hi. unfold deg. rewrite mean_directed_on.
  rewrite (mean_on_rsum _ _ n (fun a j => ind (a i j))).
  apply rsum_ext. intros j Hj.
  rewrite <- mean_directed_on. apply mean_directed_link; assumption.
Qed.

Lemma mean_directed_indeg n p j :
  (j < n)%nat ->
  mean_directed n p (fun a => indeg n a j) = rsum n (fun i => if Nat.eqb i j then 0 else p i j).
Proof.
  intros Hj. unfold indeg. rewrite mean_directed_on.
  rewrite (mean_on_rsum _ _ n (fun a i => ind (a i j))).
  apply rsum_ext. intros i Hi.
  rewrite <- mean_directed_on. apply mean_directed_link; assumption.
Qed.

(** * The enumeration is exact: every graph occurs once *)

Lemma graphs_on_length l : length (graphs_on l) = Nat.pow 2 (length l).
Proof.
  induction l as [|e l IH]; [reflexivity|]. simpl.
  assert (H : forall (X : list (nat -> nat -> bool)),
    length (flat_map (fun a => [a; add_link a (fst e) (snd e)]) X) = (2 * length X)%nat).
  { induction X as [|a X IHX]; [reflexivity|]. simpl. rewrite IHX. lia. }
  rewrite H, IH. lia.
Qed.

Lemma graphs_on_complete l (b : nat -> nat -> bool) :
  exists a, In a (graphs_on l) /\ forall i j, In (i, j) l -> a i j = b i j.
Proof.
  induction l as [|[u v] l [a [Ha Hab]]].
  - exists (fun _ _ => false). split; [left; reflexivity|]. intros i j [].
  - destruct (b u v) eqn:E.
    + exists (add_link a u v). split.
      * simpl. apply in_flat_map. exists a. split; [exact Ha|]. right; left; reflexivity.
      * intros i j Hin.
        assert (D : (i, j) = (u, v) \/ (i, j) <> (u, v)).
        { destruct (Nat.eq_dec i u), (Nat.eq_dec j v); subst; auto; right; congruence. }
        destruct D as [D|D].
        -- inversion D; subst. rewrite add_link_same, E. reflexivity.
        -- rewrite add_link_other by exact D. apply Hab. destruct Hin as [F|F]; [congruence|exact F].
    + assert (dec : forall e f : nat * nat, {e = f} + {e <> f}).
      { decide equality; apply Nat.eq_dec. }
      destruct (in_dec dec (u, v) l) as [Hi|Hi].
      * exists a. split.
        -- simpl. apply in_flat_map. exists a. split; [exact Ha|left; reflexivity].
        -- intros i j [F|F]; [inversion F; subst; apply Hab; exact Hi|apply Hab; exact F].
      * exists a. split.
        -- simpl. apply in_flat_map. exists a. split; [exact Ha|left; reflexivity].
        -- intros i j [F|F]; [|apply Hab; exact F]. inversion F; subst.
           rewrite E. apply (graphs_on_absent l); assumption.
Qed.

Lemma all_ugraphs_complete n b :
  simple_graph n b ->
  exists a, In a (all_ugraphs n) /\ forall i j, (i < n)%nat -> (j < n)%nat -> a i j = b i j.
Proof.
  intros [Hs Hh]. destruct (graphs_on_complete (upairs n) b) as [a [Ha Hab]].
  exists (und a). split; [apply in_map; exact Ha|].
  intros i j Hi Hj. unfold und. destruct (Nat.ltb_spec i j).
  - apply Hab. apply in_upairs. lia.
  - destruct (Nat.ltb_spec j i).
    + rewrite Hs by assumption. apply Hab. apply in_upairs. lia.
    + assert (i = j) by lia. subst. symmetry. apply Hh. exact Hj.
Qed.

Lemma all_digraphs_complete n b :
  loopless n b ->
  exists a, In a (all_digraphs n) /\ forall i j, (i < n)%nat -> (j < n)%nat -> a i j = b i j.
Proof.
  intros Hh. destruct (graphs_on_complete (dpairs n) b) as [a [Ha Hab]].
  exists a. split; [exact Ha|].
  intros i j Hi Hj. destruct (Nat.eq_dec i j) as [<-|Hij].
  - rewrite Hh by exact Hi. apply (graphs_on_absent (dpairs n)); [exact Ha|]. rewrite in_dpairs. lia.
  - apply Hab. apply in_dpairs. lia.
Qed.

(** Two positions of the enumeration hold graphs that differ on a listed pair. *)
Lemma graphs_on_distinct l :
  NoDup l ->
  ForallOrdPairs (fun a b => exists i j, In (i, j) l /\ a i j <> b i j) (graphs_on l).
Proof.
  induction l as [|[u v] l IH]; intros Hl; simpl.
  - repeat constructor.
  - inversion Hl as [|? ? He Hl']; subst. specialize (IH Hl').
    assert (Habs : forall a, In a (graphs_on l) -> a u v = false).
    { intros a Ha. apply (graphs_on_absent l); assumption. }
    induction IH as [|a X Ha HX IHX]; simpl; [constructor|].
    assert (Hau : a u v = false) by (apply Habs; left; reflexivity).
    assert (HXu : forall b, In b X -> b u v = false) by (intros; apply Habs; right; assumption).
    rewrite Forall_forall in Ha.
    constructor; [|constructor].
    + constructor.
      * exists u, v. split; [left; reflexivity|]. rewrite add_link_same, Hau. discriminate.
      * apply Forall_forall. intros b Hb. apply in_flat_map in Hb. destruct Hb as [b0 [Hb0 Hb]].
        destruct (Ha b0 Hb0) as [i [j [Hij Hd]]].
        assert ((i, j) <> (u, v)) by (intros E; rewrite E in Hij; contradiction).
        exists i, j. split; [right; exact Hij|].
        destruct Hb as [<-|[<-|[]]]; [exact Hd|]. rewrite add_link_other by assumption. exact Hd.
    + apply Forall_forall. intros b Hb. apply in_flat_map in Hb. destruct Hb as [b0 [Hb0 Hb]].
      destruct (Ha b0 Hb0) as [i [j [Hij Hd]]].
      assert ((i, j) <> (u, v)) by (intros E; rewrite E in Hij; contradiction).
      exists i, j. split; [right; exact Hij|]. rewrite add_link_other by assumption.
      destruct Hb as [<-|[<-|[]]]; [exact Hd|]. rewrite add_link_other by assumption. exact Hd.
    + apply IHX. intros b Hb. apply HXu; exact Hb.
Qed.
