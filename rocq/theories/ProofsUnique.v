(** numpy.unique on totally ordered keys; sums over relabelled nodes. *)
From Coq Require Import Reals List Arith Bool Lia Lra Sorting.Permutation Sorting.Sorted.
From Verif Require Import Base ModelNetwork SpecNetwork.
Import ListNotations.

Section Unique.
Context {K : Type}.
Variables (leb eqb : K -> K -> bool).
Hypothesis H : total_order leb eqb.
Let le (a b : K) : Prop := leb a b = true.
Let lt (a b : K) : Prop := leb a b = true /\ a <> b.

Lemma eqb_true a b : eqb a b = true <-> a = b. Proof. apply H. Qed.
Lemma eqb_false a b : eqb a b = false <-> a <> b.
Proof. rewrite <- eqb_true. destruct (eqb a b); split; congruence. Qed.
Lemma eqb_refl a : eqb a a = true. Proof. apply eqb_true. reflexivity. Qed.
Lemma eqb_sym a b : eqb a b = eqb b a.
Proof. destruct (eqb b a) eqn:E; [apply eqb_true; symmetry; apply eqb_true; exact E|]. apply eqb_false. apply eqb_false in E. congruence. Qed.
Lemma le_total a b : le a b \/ le b a. Proof. apply H. Qed.
Lemma le_antisym a b : le a b -> le b a -> a = b. Proof. apply H. Qed.
Lemma le_trans a b c : le a b -> le b c -> le a c. Proof. apply H. Qed.

Lemma insert_perm v l : Permutation (insert leb v l) (v :: l).
Proof.
  induction l as [|u t IH]; simpl; [reflexivity|]. destruct (leb v u); [reflexivity|].
  rewrite IH. apply perm_swap.
Qed.
Lemma isort_perm l : Permutation (isort leb l) l.
Proof. induction l as [|v t IH]; simpl; [reflexivity|]. rewrite insert_perm, IH. reflexivity. Qed.

Lemma insert_sorted v l : StronglySorted le l -> StronglySorted le (insert leb v l).
Proof.
  induction 1 as [|u t HS IH HF]; simpl; [repeat constructor|]. destruct (leb v u) eqn:E.
  - constructor; [constructor; assumption|]. constructor; [exact E|].
    rewrite Forall_forall in *. intros w Hw. apply le_trans with u; [exact E|apply HF; exact Hw].
  - constructor; [exact IH|]. rewrite Forall_forall in *. intros w Hw.
    apply (Permutation_in _ (insert_perm v t)) in Hw. destruct Hw as [<-|Hw]; [|apply HF; exact Hw].
    destruct (le_total u v) as [L|L]; [exact L|]. unfold le in L. congruence.
Qed.
Lemma isort_sorted l : StronglySorted le (isort leb l).
Proof. induction l as [|v t IH]; simpl; [constructor|apply insert_sorted; exact IH]. Qed.

Lemma runs_head v t : exists c r, runs eqb (v :: t) = (v, c) :: r.
Proof.
  simpl. destruct (runs eqb t) as [|[u c] r]; [eauto|]. destruct (eqb v u) eqn:E; [|eauto].
  apply eqb_true in E. subst. eauto.
Qed.
Lemma runs_keys l v : In v (map fst (runs eqb l)) <-> In v l.
Proof.
  induction l as [|w t IH]; [reflexivity|]. simpl. destruct (runs eqb t) as [|[u c] r].
  - simpl in *. tauto.
  - destruct (eqb w u) eqn:E; simpl in *.
    + apply eqb_true in E. subst. tauto.
    + tauto.
Qed.
Lemma runs_total l : list_sum (map snd (runs eqb l)) = length l.
Proof.
  induction l as [|w t IH]; [reflexivity|]. simpl. destruct (runs eqb t) as [|[u c] r]; simpl in *; [lia|].
  destruct (eqb w u); simpl; lia.
Qed.

Lemma count_cons (P : K -> bool) v l : count P (v :: l) = (if P v then 1 else 0) + count P l.
Proof. unfold count. simpl. destruct (P v); reflexivity. Qed.
Lemma count_none (P : K -> bool) l : (forall a, In a l -> P a = false) -> count P l = 0.
Proof.
  induction l as [|a l IH]; intros HP; [reflexivity|]. rewrite count_cons, (HP a), IH; [reflexivity| |left; reflexivity].
  intros; apply HP; right; assumption.
Qed.
Lemma runs_facts l : StronglySorted le l ->
  StronglySorted lt (map fst (runs eqb l)) /\
  forall v c, In (v, c) (runs eqb l) -> c = count (fun a => eqb a v) l.
Proof.
  induction 1 as [|v t HS IH HF]; [split; [constructor|intros v c []]|].
  destruct IH as [IS IC]. rewrite Forall_forall in HF. simpl.
  pose proof (runs_keys t) as KT. destruct t as [|w t'].
  - simpl. split; [repeat constructor|]. intros v' c [E|[]]. injection E as <- <-.
    unfold count. simpl. rewrite eqb_refl. reflexivity.
  - destruct (runs_head w t') as (c & r & E). rewrite E in *. simpl map in *.
    apply StronglySorted_inv in IS. destruct IS as [IS IF]. rewrite Forall_forall in IF.
    assert (WV : le v w) by (apply HF; left; reflexivity).
    destruct (eqb v w) eqn:EV.
    + apply eqb_true in EV. subst w. simpl. split; [constructor; [exact IS|rewrite Forall_forall; exact IF]|].
      intros v' c' [E'|Hin].
      * injection E' as <- <-. rewrite (IC v c) by (left; reflexivity). unfold count. simpl. rewrite eqb_refl. reflexivity.
      * rewrite (IC v' c') by (right; exact Hin). unfold count. simpl.
        assert (NE : lt v v') by (apply IF; apply in_map_iff; exists (v', c'); auto).
        destruct NE as [_ NE]. apply eqb_false in NE. rewrite NE. reflexivity.
    + apply eqb_false in EV.
      assert (NV : ~ In v (w :: t')).
      { intros [Hi|Hi]; [congruence|]. apply EV. apply le_antisym; [exact WV|].
        apply StronglySorted_inv in HS. destruct HS as [_ HW]. rewrite Forall_forall in HW. apply HW. exact Hi. }
      simpl. split.
      * constructor; [constructor; [exact IS|rewrite Forall_forall; exact IF]|].
        rewrite Forall_forall. intros k Hk. change (In k (w :: map fst r)) in Hk.
        assert (Hin : In k (w :: t')) by (apply KT; exact Hk).
        split; [apply HF; exact Hin|]. intros ->. apply NV. exact Hin.
      * intros v' c' [E'|Hin].
        -- injection E' as <- <-. rewrite count_cons, eqb_refl, count_none; [reflexivity|].
           intros a Ha. apply eqb_false. intros ->. contradiction.
        -- rewrite (IC v' c') by exact Hin. rewrite (count_cons _ v).
           assert (Hk : In v' (w :: t')) by (apply KT; change (In v' (map fst ((w, c) :: r))); apply in_map_iff; exists (v', c'); auto).
           assert (NE : v <> v') by (intros ->; apply NV; exact Hk). apply eqb_false in NE. rewrite NE. reflexivity.
Qed.

Lemma count_perm P (l l' : list K) : Permutation l l' -> count P l = count P l'.
Proof.
  unfold count. induction 1; simpl; try congruence.
  - destruct (P x); simpl; congruence.
  - destruct (P x), (P y); reflexivity.
Qed.

Lemma sorted_increasing l : StronglySorted lt l -> increasing leb l.
Proof.
  induction 1 as [|v t HS IH HF]; intros i j a b Hij Ha Hb.
  - destruct i; discriminate.
  - rewrite Forall_forall in HF. destruct j as [|j]; [lia|]. destruct i as [|i]; simpl in *.
    + injection Ha as <-. apply HF. eapply nth_error_In. exact Hb.
    + apply (IH i j a b); [lia|assumption|assumption].
Qed.
Lemma increasing_nodup l : increasing leb l -> NoDup l.
Proof.
  intros HI. apply NoDup_nth_error. intros i j Hi E.
  destruct (nth_error l i) as [a|] eqn:Ea; [|apply nth_error_None in Ea; lia]. symmetry in E.
  destruct (Nat.lt_trichotomy i j) as [L|[L|L]]; [|exact L|].
  - destruct (HI i j a a L Ea E) as [_ X]. congruence.
  - destruct (HI j i a a L E Ea) as [_ X]. congruence.
Qed.

Lemma unique_increasing l : increasing leb (np_unique leb eqb l).
Proof. apply sorted_increasing, runs_facts, isort_sorted. Qed.
Lemma unique_nodup l : NoDup (np_unique leb eqb l).
Proof. apply increasing_nodup, unique_increasing. Qed.
Lemma unique_in l v : In v (np_unique leb eqb l) <-> In v l.
Proof.
  unfold np_unique. rewrite runs_keys. split; intros Hi; [apply (Permutation_in _ (isort_perm l))|apply (Permutation_in _ (Permutation_sym (isort_perm l)))]; exact Hi.
Qed.
Lemma counts_length l : length (np_counts leb eqb l) = length (np_unique leb eqb l).
Proof. unfold np_counts, np_unique. rewrite !map_length. reflexivity. Qed.
Lemma counts_nth l i v : nth_error (np_unique leb eqb l) i = Some v ->
  nth_error (np_counts leb eqb l) i = Some (count (fun a => eqb a v) l).
Proof.
  unfold np_unique, np_counts. rewrite !nth_error_map. destruct (nth_error (runs eqb (isort leb l)) i) as [[u c]|] eqn:E; [|discriminate].
  simpl. intros Hv. injection Hv as ->. f_equal. apply nth_error_In in E.
  rewrite (proj2 (runs_facts _ (isort_sorted l)) v c E). apply count_perm, isort_perm.
Qed.
Lemma counts_total l : list_sum (np_counts leb eqb l) = length l.
Proof. unfold np_counts. rewrite runs_total. apply Permutation_length, isort_perm. Qed.

Lemma position_nth v l : In v l -> nth_error l (position eqb v l) = Some v.
Proof.
  induction l as [|u t IH]; [intros []|]. simpl. intros Hi. destruct (eqb u v) eqn:E.
  - apply eqb_true in E. subst. reflexivity.
  - apply IH. destruct Hi as [->|Hi]; [rewrite eqb_refl in E; discriminate|exact Hi].
Qed.
Lemma position_first v l i : nth_error l i = Some v -> position eqb v l <= i.
Proof.
  revert i. induction l as [|u t IH]; intros i Hi; [destruct i; discriminate|]. simpl.
  destruct (eqb u v) eqn:E; [lia|]. destruct i as [|i]; simpl in Hi.
  - injection Hi as ->. rewrite eqb_refl in E. discriminate.
  - specialize (IH i Hi). lia.
Qed.
Lemma position_lt v l : In v l -> position eqb v l < length l.
Proof. intros Hi. apply nth_error_Some. rewrite (position_nth v l Hi). discriminate. Qed.

Lemma inv_dict_nth nodes v i : NoDup nodes -> nth_error nodes i = Some v -> inv_nodes_dict eqb nodes v = Some i.
Proof.
  unfold inv_nodes_dict. intros HN Hi.
  assert (G : forall k acc l, NoDup l -> forall i, nth_error l i = Some v ->
    fold_left (fun acc kv => if eqb (snd kv) v then Some (fst kv) else acc) (combine (seq k (length l)) l) acc = Some (k + i)).
  { intros k acc l. revert k acc. induction l as [|u t IH]; intros k acc HD j Hj; [destruct j; discriminate|]. simpl.
    inversion HD as [|? ? Hu Ht]; subst. destruct j as [|j]; simpl in Hj.
    - injection Hj as ->. rewrite eqb_refl. clear IH HD Ht. rewrite Nat.add_0_r.
      assert (forall k0 a, fold_left (fun acc kv => if eqb (snd kv) v then Some (fst kv) else acc) (combine (seq k0 (length t)) t) a = a).
      { induction t as [|w t IH]; intros k0 a; [reflexivity|]. simpl.
        destruct (eqb w v) eqn:E; [exfalso; apply Hu; left; apply eqb_true; exact E|].
        apply IH. intros Hi2. apply Hu. right. exact Hi2. }
      apply H0.
    - rewrite (IH (S k) _ Ht j Hj). f_equal. lia. }
  apply (G 0 None nodes HN i Hi).
Qed.
End Unique.

Lemma nat_order : total_order Nat.leb Nat.eqb.
Proof.
  split; [apply Nat.eqb_eq|]. split; [intros a b; rewrite !Nat.leb_le; lia|].
  split; [intros a b; rewrite !Nat.leb_le; lia|intros a b c; rewrite !Nat.leb_le; lia].
Qed.
Lemma pair_order : total_order pair_leb pair_eqb.
Proof.
  unfold pair_leb, pair_eqb. split.
  { intros [a b] [c d]. simpl. rewrite andb_true_iff, !Nat.eqb_eq. split; [intros [-> ->]; reflexivity|intros E; injection E; auto]. }
  split; [|split].
  - intros [a b] [c d]. simpl. rewrite !orb_true_iff, !andb_true_iff, !Nat.ltb_lt, !Nat.eqb_eq, !Nat.leb_le. lia.
  - intros [a b] [c d]. simpl. rewrite !orb_true_iff, !andb_true_iff, !Nat.ltb_lt, !Nat.eqb_eq, !Nat.leb_le.
    intros. f_equal; lia.
  - intros [a b] [c d] [e f]. simpl. rewrite !orb_true_iff, !andb_true_iff, !Nat.ltb_lt, !Nat.eqb_eq, !Nat.leb_le. lia.
Qed.

(** * Sums over lists *)
Lemma rsum_list n f : rsum n f = total (map f (seq 0 n)).
Proof.
  induction n as [|n IH]; [reflexivity|]. rewrite seq_S, map_app. simpl. rewrite IH.
  generalize (map f (seq 0 n)). intros l. induction l as [|v l IHl]; simpl; [ring|]. rewrite <- IHl. ring.
Qed.
Lemma total_perm l l' : Permutation l l' -> total l = total l'.
Proof. induction 1; simpl; lra. Qed.
Lemma nsum_list n f : nsum n f = list_sum (map f (seq 0 n)).
Proof. induction n as [|n IH]; [reflexivity|]. rewrite seq_S, map_app, list_sum_app. simpl. rewrite IH. lia. Qed.
Lemma list_sum_perm l l' : Permutation l l' -> list_sum l = list_sum l'.
Proof. induction 1; simpl in *; lia. Qed.

Lemma relabelling_perm n p : relabelling n p -> Permutation (map p (seq 0 n)) (seq 0 n).
Proof.
  intros [H1 H2]. apply Permutation_sym. apply NoDup_Permutation_bis.
  - apply seq_NoDup.
  - rewrite map_length. lia.
  - intros v Hv. apply in_seq in Hv.
    assert (HP : incl (seq 0 n) (map p (seq 0 n))).
    { apply NoDup_length_incl.
      - assert (G : forall l, (forall i, In i l -> i < n) -> NoDup l -> NoDup (map p l)).
        { induction l as [|i l IH]; intros HB HN; simpl; [constructor|]. inversion HN; subst. constructor.
          - intros Hi. apply in_map_iff in Hi. destruct Hi as (j & E & Hj). apply H3.
            rewrite (H2 i j); [exact Hj|apply HB; left; reflexivity|apply HB; right; exact Hj|auto].
          - apply IH; [intros; apply HB; right; assumption|assumption]. }
        apply G; [|apply seq_NoDup]. intros i Hi. apply in_seq in Hi. lia.
      - rewrite map_length. lia.
      - intros w Hw. apply in_map_iff in Hw. destruct Hw as (i & <- & Hi). apply in_seq in Hi. apply in_seq.
        split; [lia|]. apply H1. lia. }
    apply HP. apply in_seq. lia.
Qed.
Lemma rsum_relabel n p f : relabelling n p -> rsum n (fun i => f (p i)) = rsum n f.
Proof.
  intros HP. rewrite !rsum_list. rewrite <- (map_map p f). apply total_perm, Permutation_map, relabelling_perm. exact HP.
Qed.
Lemma nsum_relabel n p f : relabelling n p -> nsum n (fun i => f (p i)) = nsum n f.
Proof.
  intros HP. rewrite !nsum_list. rewrite <- (map_map p f). apply list_sum_perm, Permutation_map, relabelling_perm. exact HP.
Qed.
