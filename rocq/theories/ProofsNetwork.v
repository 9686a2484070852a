(** Degrees and strengths of matrices; edge lists; adjacency; degree classes. *)
From Coq Require Import Reals List Arith Bool Lia Lra Sorting.Permutation.
From Verif Require Import Base SpecGraph SpecDirected ModelNetwork SpecNetwork ProofsUnique.
Import ListNotations.

(** * Integer sums *)
Lemma nsum_ext n f g : (forall i, i < n -> f i = g i) -> nsum n f = nsum n g.
Proof. induction n as [|n IH]; intros E; [reflexivity|]. simpl. rewrite IH by (intros; apply E; lia). rewrite E by lia. reflexivity. Qed.
Lemma nsum_plus n f g : nsum n (fun i => f i + g i) = nsum n f + nsum n g.
Proof. induction n as [|n IH]; [reflexivity|]. simpl. rewrite IH. lia. Qed.
Lemma nsum_swap n m f : nsum n (fun i => nsum m (fun j => f i j)) = nsum m (fun j => nsum n (fun i => f i j)).
Proof.
  induction n as [|n IH]; simpl.
  - induction m as [|m IHm]; [reflexivity|]. simpl. lia.
  - rewrite IH, <- nsum_plus. reflexivity.
Qed.
Lemma nsum_le_1 n f : (forall i, i < n -> f i <= 1) -> nsum n f <= n.
Proof. induction n as [|n IH]; intros HF; simpl; [lia|]. specialize (IH ltac:(intros; apply HF; lia)). specialize (HF n ltac:(lia)). lia. Qed.
Lemma nsum_le_skip n f k : k < n -> f k = 0 -> (forall i, i < n -> f i <= 1) -> nsum n f <= n - 1.
Proof.
  induction n as [|n IH]; intros Hk E HF; [lia|]. simpl. destruct (Nat.eq_dec k n) as [->|Hne].
  - pose proof (nsum_le_1 n f ltac:(intros; apply HF; lia)). lia.
  - specialize (IH ltac:(lia) E ltac:(intros; apply HF; lia)). specialize (HF n ltac:(lia)). lia.
Qed.
Lemma count_app {A} (P : A -> bool) l l' : count P (l ++ l') = count P l + count P l'.
Proof. unfold count. rewrite filter_app, app_length. reflexivity. Qed.
Lemma count_cons' {A} (P : A -> bool) v l : count P (v :: l) = (if P v then 1 else 0) + count P l.
Proof. unfold count. simpl. destruct (P v); reflexivity. Qed.
Lemma count_map {A B} (P : B -> bool) (f : A -> B) l : count P (map f l) = count (fun a => P (f a)) l.
Proof. induction l as [|a l IH]; [reflexivity|]. simpl map. rewrite !count_cons', IH. reflexivity. Qed.
Lemma count_ext {A} (P Q : A -> bool) l : (forall a, In a l -> P a = Q a) -> count P l = count Q l.
Proof.
  induction l as [|a l IH]; intros E; [reflexivity|]. rewrite !count_cons', E, IH; [reflexivity| |left; reflexivity].
  intros; apply E; right; assumption.
Qed.
Lemma nsum_count n P : nsum n (fun i => if (P i : bool) then 1 else 0) = count P (seq 0 n).
Proof. induction n as [|n IH]; [reflexivity|]. rewrite seq_S, count_app. simpl nsum. rewrite IH, count_cons'. unfold count. simpl. destruct (P n); reflexivity. Qed.

Lemma count_positive_nsum n v : count_positive n v = nsum n (fun j => if positiveb (v j) then 1 else 0).
Proof.
  unfold count_positive. induction n as [|n IH]; [reflexivity|]. rewrite loop_S, IH. simpl. unfold positiveb.
  destruct (Rlt_dec 0 (v n)); lia.
Qed.
Lemma count_positive_count n v : count_positive n v = count (fun j => positiveb (v j)) (seq 0 n).
Proof. rewrite count_positive_nsum. apply (nsum_count n (fun j => positiveb (v j))). Qed.
Lemma np_sum_rsum n v : np_sum n v = rsum n v.
Proof. unfold np_sum. induction n as [|n IH]; [reflexivity|]. rewrite loop_S, IH. reflexivity. Qed.

(** * C41 *)
Lemma sequences_meaning k n a : k <> OtherKind ->
  (exists f, out_degree k n a = Some f /\ forall i, f i = count (fun j => positiveb (a i j)) (seq 0 n)) /\
  (exists f, in_degree k n a = Some f /\ forall j, f j = count (fun i => positiveb (a i j)) (seq 0 n)) /\
  (exists f, degree k n a = Some f /\ forall i, f i = count (fun j => positiveb (a i j)) (seq 0 n)) /\
  (exists f, out_strength k n a = Some f /\ forall i, f i = rsum n (fun j => a i j)) /\
  (exists f, in_strength k n a = Some f /\ forall j, f j = rsum n (fun i => a i j)) /\
  (exists f, strength k n a = Some f /\ forall i, f i = rsum n (fun j => a i j)).
Proof.
  intros Hk. unfold out_degree, in_degree, degree, out_strength, in_strength, strength.
  destruct k; try congruence; simpl;
    repeat match goal with |- _ /\ _ => split end; eexists; (split; [reflexivity|]); intros;
    try apply count_positive_count; apply np_sum_rsum.
Qed.
Lemma sequences_other n a : out_degree OtherKind n a = None /\ in_degree OtherKind n a = None /\ degree OtherKind n a = None /\
  out_strength OtherKind n a = None /\ in_strength OtherKind n a = None /\ strength OtherKind n a = None.
Proof. repeat split. Qed.

Lemma count_prod {A B} (P : A * B -> bool) l m : count P (list_prod l m) = list_sum (map (fun i => count (fun j => P (i, j)) m) l).
Proof. induction l as [|i l IH]; [reflexivity|]. simpl. rewrite count_app, count_map, IH. reflexivity. Qed.
Lemma degree_totals k n a ko ki : out_degree k n a = Some ko -> in_degree k n a = Some ki ->
  nsum n ko = nsum n ki /\ nsum n ko = count (fun ij => positiveb (a (fst ij) (snd ij))) (node_pairs n).
Proof.
  unfold out_degree, in_degree. destruct k; simpl; intros Ho Hi; try discriminate; injection Ho as <-; injection Hi as <-.
  all: (split;
    [rewrite (nsum_ext n (fun i => count_positive n (fun j => a i j)) _ (fun i _ => count_positive_nsum n _)), nsum_swap;
     apply nsum_ext; intros; symmetry; apply count_positive_nsum|]);
    unfold node_pairs; rewrite count_prod, nsum_list; f_equal; apply map_ext; intros; apply count_positive_count.
Qed.
Lemma strength_totals k n a so si : out_strength k n a = Some so -> in_strength k n a = Some si -> rsum n so = rsum n si.
Proof.
  unfold out_strength, in_strength. destruct k; simpl; intros Ho Hi; try discriminate; injection Ho as <-; injection Hi as <-;
    rewrite (rsum_ext n _ (fun i => rsum n (fun j => a i j))) by (intros; apply np_sum_rsum); rewrite rsum_swap; apply rsum_ext; intros; symmetry; apply np_sum_rsum.
Qed.
Lemma count_positive_ext n u v : (forall j, j < n -> u j = v j) -> count_positive n u = count_positive n v.
Proof. intros E. rewrite !count_positive_nsum. apply nsum_ext. intros j Hj. rewrite E by exact Hj. reflexivity. Qed.
Lemma symmetric_sequences k n a ko ki d so si s :
  (forall i j, i < n -> j < n -> a i j = a j i) ->
  out_degree k n a = Some ko -> in_degree k n a = Some ki -> degree k n a = Some d ->
  out_strength k n a = Some so -> in_strength k n a = Some si -> strength k n a = Some s ->
  forall i, i < n -> ko i = ki i /\ d i = ko i /\ so i = si i /\ s i = so i.
Proof.
  intros HS. unfold out_degree, in_degree, degree, out_strength, in_strength, strength. destruct k; simpl; try discriminate;
    intros H1 H2 H3 H4 H5 H6; injection H1 as <-; injection H2 as <-; injection H3 as <-; injection H4 as <-; injection H5 as <-; injection H6 as <-;
    intros i Hi; (split; [apply count_positive_ext; intros; apply HS; assumption|]); (split; [reflexivity|]);
    (split; [rewrite !np_sum_rsum; apply rsum_ext; intros; apply HS; assumption|reflexivity]).
Qed.
Lemma hollow_degrees k n a ko ki : (forall i, i < n -> a i i = 0%R) ->
  out_degree k n a = Some ko -> in_degree k n a = Some ki -> forall i, i < n -> ko i <= n - 1 /\ ki i <= n - 1.
Proof.
  intros HH. unfold out_degree, in_degree. destruct k; simpl; try discriminate;
    intros H1 H2; injection H1 as <-; injection H2 as <-; intros i Hi; rewrite !count_positive_nsum;
    split; (apply (nsum_le_skip n _ i Hi);
     [unfold positiveb; rewrite HH by exact Hi; destruct (Rlt_dec 0 0); [lra|reflexivity]|intros j _; destruct (positiveb _); lia]).
Qed.
Lemma relabel_sequences k n a p ko ki so si ko' ki' so' si' : relabelling n p ->
  out_degree k n a = Some ko -> in_degree k n a = Some ki -> out_strength k n a = Some so -> in_strength k n a = Some si ->
  out_degree k n (fun i j => a (p i) (p j)) = Some ko' -> in_degree k n (fun i j => a (p i) (p j)) = Some ki' ->
  out_strength k n (fun i j => a (p i) (p j)) = Some so' -> in_strength k n (fun i j => a (p i) (p j)) = Some si' ->
  forall i, i < n -> ko' i = ko (p i) /\ ki' i = ki (p i) /\ so' i = so (p i) /\ si' i = si (p i).
Proof.
  intros HP. unfold out_degree, in_degree, out_strength, in_strength. destruct k; simpl; try discriminate;
    intros H1 H2 H3 H4 H5 H6 H7 H8; injection H1 as <-; injection H2 as <-; injection H3 as <-; injection H4 as <-;
    injection H5 as <-; injection H6 as <-; injection H7 as <-; injection H8 as <-; intros i Hi; rewrite !count_positive_nsum, !np_sum_rsum;
    (split; [apply (nsum_relabel n p (fun j => if positiveb (a (p i) j) then 1 else 0) HP)|]);
    (split; [apply (nsum_relabel n p (fun j => if positiveb (a j (p i)) then 1 else 0) HP)|]);
    (split; [apply (rsum_relabel n p (fun j => a (p i) j) HP)|apply (rsum_relabel n p (fun j => a j (p i)) HP)]).
Qed.

(** * C42 *)
Lemma omap_forall2 {A B} (f : A -> option B) (R : A -> B -> Prop) l :
  (forall a, In a l -> exists b, f a = Some b /\ R a b) -> exists l', omap f l = Some l' /\ Forall2 R l l'.
Proof.
  induction l as [|a l IH]; intros HF; [exists []; split; [reflexivity|constructor]|].
  destruct (HF a ltac:(left; reflexivity)) as (b & Eb & Rb).
  destruct IH as (l' & El & Rl); [intros; apply HF; right; assumption|].
  exists (b :: l'). simpl. rewrite Eb, El. split; [reflexivity|constructor; assumption].
Qed.
Lemma forall2_length {A B} (R : A -> B -> Prop) l l' : Forall2 R l l' -> length l = length l'.
Proof. induction 1; simpl; congruence. Qed.
Lemma forall2_count {A B} (R : A -> B -> Prop) P Q l l' : Forall2 R l l' -> (forall a b, R a b -> P a = Q b) -> count P l = count Q l'.
Proof. intros HR E. induction HR as [|a b l l' Hab HR IH]; [reflexivity|]. rewrite !count_cons', IH, (E a b Hab). reflexivity. Qed.
Lemma forall2_map {A B} (R : A -> B -> Prop) g l l' : Forall2 R l l' -> (forall a b, R a b -> g b = Some a) -> map g l' = map Some l.
Proof. intros HR E. induction HR as [|a b l l' Hab HR IH]; [reflexivity|]. simpl. rewrite IH, (E a b Hab). reflexivity. Qed.

Lemma forall2_in_r {A B} (R : A -> B -> Prop) l l' b : Forall2 R l l' -> In b l' -> exists a, In a l /\ R a b.
Proof.
  induction 1 as [|a c l l' Hac HR IH]; intros Hi; [destruct Hi|]. destruct Hi as [->|Hi]; [exists a; split; [left; reflexivity|exact Hac]|].
  destruct (IH Hi) as (a' & Ha & Ra). exists a'. split; [right; exact Ha|exact Ra].
Qed.
Lemma forall2_in_l {A B} (R : A -> B -> Prop) l l' a : Forall2 R l l' -> In a l -> exists b, In b l' /\ R a b.
Proof.
  induction 1 as [|c b l l' Hcb HR IH]; intros Hi; [destruct Hi|]. destruct Hi as [->|Hi]; [exists b; split; [left; reflexivity|exact Hcb]|].
  destruct (IH Hi) as (b' & Hb & Rb). exists b'. split; [right; exact Hb|exact Rb].
Qed.

Lemma seq_nth_error n i : i < n -> nth_error (seq 0 n) i = Some i.
Proof. intros Hi. rewrite (nth_error_nth' _ 0) by (rewrite seq_length; exact Hi). rewrite seq_nth by exact Hi. reflexivity. Qed.

Section Edges.
Context {K : Type}.
Variables (leb eqb : K -> K -> bool).
Hypothesis H : total_order leb eqb.

Lemma count_ends v (es : list (K * K)) :
  count (fun a => eqb a v) (map fst es ++ map snd es) = incidences eqb v es.
Proof.
  rewrite count_app, !count_map. induction es as [|e es IH]; [reflexivity|]. rewrite !count_cons'. unfold incidences in *. simpl.
  rewrite <- IH. unfold ends_at. lia.
Qed.
Lemma in_ends v (es : list (K * K)) : In v (map fst es ++ map snd es) <-> is_end v es.
Proof.
  rewrite in_app_iff, !in_map_iff. unfold is_end. split.
  - intros [(e & E & Hi)|(e & E & Hi)]; exists e; auto.
  - intros (e & Hi & [E|E]); [left|right]; exists e; auto.
Qed.
Lemma relabel_new nodes (es : list (K * K)) : NoDup nodes -> (forall v, is_end v es -> In v nodes) ->
  forall e, In e es -> exists e', new_edge eqb nodes e = Some e' /\ relabel nodes e' = Some e.
Proof.
  intros HN HE e Hi.
  destruct (In_nth_error nodes (fst e) (HE _ (ex_intro _ e (conj Hi (or_introl eq_refl))))) as [s Es].
  destruct (In_nth_error nodes (snd e) (HE _ (ex_intro _ e (conj Hi (or_intror eq_refl))))) as [t Et].
  exists (s, t). unfold new_edge, relabel. rewrite (inv_dict_nth leb eqb H nodes _ s HN Es), (inv_dict_nth leb eqb H nodes _ t HN Et). simpl.
  rewrite Es, Et. destruct e; split; reflexivity.
Qed.
Lemma relabel_eq nodes e e' i v : NoDup nodes -> nth_error nodes i = Some v -> relabel nodes e' = Some e ->
  Nat.eqb (fst e') i = eqb (fst e) v /\ Nat.eqb (snd e') i = eqb (snd e) v.
Proof.
  intros HN Hi. unfold relabel. destruct (nth_error nodes (fst e')) as [a|] eqn:Ea; [|discriminate].
  destruct (nth_error nodes (snd e')) as [b|] eqn:Eb; [|discriminate]. intros E. injection E as <-. simpl.
  assert (G : forall k a, nth_error nodes k = Some a -> Nat.eqb k i = eqb a v).
  { intros k c Hk. destruct (eqb c v) eqn:E.
    - apply (eqb_true leb eqb H) in E. subst. apply Nat.eqb_eq. apply (proj1 (NoDup_nth_error nodes) HN); [apply nth_error_Some; congruence|congruence].
    - apply (eqb_false leb eqb H) in E. apply Nat.eqb_neq. intros ->. congruence. }
  split; apply G; assumption.
Qed.

Definition nodes_of (es : list (K * K)) : list K := np_unique leb eqb (map fst es ++ map snd es).
Lemma nodes_of_facts es : increasing leb (nodes_of es) /\ NoDup (nodes_of es) /\ forall v, In v (nodes_of es) <-> is_end v es.
Proof.
  split; [apply unique_increasing; exact H|]. split; [apply (unique_nodup leb eqb H)|].
  intros v. unfold nodes_of. rewrite (unique_in leb eqb H). apply in_ends.
Qed.
Lemma new_edges es : exists es', omap (new_edge eqb (nodes_of es)) es = Some es' /\
  Forall2 (fun e e' => relabel (nodes_of es) e' = Some e) es es'.
Proof.
  destruct (nodes_of_facts es) as (_ & HN & HI). apply omap_forall2. intros e He. apply relabel_new with es; auto.
  intros v Hv. apply HI. exact Hv.
Qed.
Lemma new_gapless es es' : Forall2 (fun e e' => relabel (nodes_of es) e' = Some e) es es' -> gapless (length (nodes_of es)) es'.
Proof.
  intros HF. destruct (nodes_of_facts es) as (_ & HN & HI). intros k. split.
  - intros (e' & Hi & He). destruct (forall2_in_r _ _ _ e' HF Hi) as (e & _ & Hef).
    unfold relabel in Hef. apply nth_error_Some. destruct He as [<-|<-].
    + destruct (nth_error (nodes_of es) (fst e')); discriminate.
    + destruct (nth_error (nodes_of es) (fst e')); [|discriminate]. destruct (nth_error (nodes_of es) (snd e')); discriminate.
  - intros Hk. destruct (nth_error (nodes_of es) k) as [v|] eqn:Ev; [|apply nth_error_None in Ev; lia].
    assert (Hv : is_end v es) by (apply HI; eapply nth_error_In; exact Ev).
    destruct Hv as (e & Hi & He). destruct (forall2_in_l _ _ _ e HF Hi) as (f & Hf & Ef). exists f. split; [exact Hf|].
    destruct (relabel_eq _ e f k v HN Ev Ef) as [E1 E2]. destruct He as [<-|<-]; [left|right]; apply Nat.eqb_eq.
    + rewrite E1. apply (eqb_refl leb eqb H).
    + rewrite E2. apply (eqb_refl leb eqb H).
Qed.

(** Undirected, unweighted. *)
Lemma edgelist_undirected es : es <> [] -> exists es' deg nodes,
  edgelist_from_edgelist_undirected leb eqb es = Some (es', deg, nodes) /\
  increasing leb nodes /\ (forall v, In v nodes <-> is_end v es) /\
  map (relabel nodes) es' = map Some es /\ gapless (length nodes) es' /\
  length deg = length nodes /\
  (forall i v, nth_error nodes i = Some v -> nth_error deg i = Some (incidences eqb v es)) /\
  list_sum deg = 2 * length es.
Proof.
  intros HN. destruct (new_edges es) as (es' & Em & HF). destruct (nodes_of_facts es) as (HI & ND & HE).
  exists es', (np_counts leb eqb (map fst es ++ map snd es)), (nodes_of es).
  split. { unfold edgelist_from_edgelist_undirected. destruct es as [|e es]; [congruence|]. unfold nodes_of in Em. rewrite Em. reflexivity. }
  split; [exact HI|]. split; [exact HE|]. split; [apply (forall2_map _ _ _ _ HF); auto|]. split; [apply new_gapless; exact HF|].
  split; [apply counts_length|]. split.
  - intros i v Hv. rewrite (counts_nth leb eqb H _ i v Hv), count_ends. reflexivity.
  - rewrite counts_total. rewrite app_length, !map_length. lia.
Qed.

(** [arr[indices] = counts] on distinct indices. *)
Lemma scatter_nth {A} (idx : list nat) (vals : list A) arr : NoDup idx -> length idx = length vals ->
  (forall i k v, nth_error idx k = Some i -> nth_error vals k = Some v -> scatter idx vals arr i = v) /\
  (forall i, ~ In i idx -> scatter idx vals arr i = arr i).
Proof.
  unfold scatter. revert vals arr. induction idx as [|j idx IH]; intros vals arr HN HL.
  - split; [intros i k v Hk; destruct k; discriminate|reflexivity].
  - destruct vals as [|w vals]; [discriminate|]. inversion HN as [|? ? Hj HN']; subst. simpl.
    destruct (IH vals (upd arr j w) HN' ltac:(simpl in HL; lia)) as [I1 I2]. split.
    + intros i k v Hk Hv. destruct k as [|k]; simpl in *.
      * injection Hk as ->. injection Hv as ->. rewrite I2 by exact Hj. unfold upd. rewrite Nat.eqb_refl. reflexivity.
      * apply (I1 i k v Hk Hv).
    + intros i Hi. rewrite I2 by (intros Hx; apply Hi; right; exact Hx). unfold upd.
      destruct (Nat.eqb_spec i j); [exfalso; apply Hi; left; auto|reflexivity].
Qed.
Lemma degrees_at_nth n ends i : i < n -> nth_error (degrees_at n ends) i = Some (count (fun e => Nat.eqb e i) ends).
Proof.
  intros Hi. unfold degrees_at. rewrite nth_error_map.
  rewrite (seq_nth_error n i Hi).
  simpl. f_equal.
  pose proof (unique_nodup Nat.leb Nat.eqb nat_order ends) as ND.
  destruct (scatter_nth (np_unique Nat.leb Nat.eqb ends) (np_counts Nat.leb Nat.eqb ends) (fun _ => 0) ND
     (eq_sym (counts_length Nat.leb Nat.eqb ends))) as [S1 S2].
  destruct (in_dec Nat.eq_dec i (np_unique Nat.leb Nat.eqb ends)) as [Hin|Hin].
  - apply In_nth_error in Hin. destruct Hin as [k Hk]. apply (S1 i k); [exact Hk|]. apply counts_nth; [exact nat_order|exact Hk].
  - rewrite S2 by exact Hin. rewrite (unique_in Nat.leb Nat.eqb nat_order) in Hin. symmetry. apply count_none.
    intros a Ha. apply Nat.eqb_neq. intros ->. contradiction.
Qed.
Lemma degrees_at_length n ends : length (degrees_at n ends) = n.
Proof. unfold degrees_at. rewrite map_length, seq_length. reflexivity. Qed.
Lemma list_sum_seq (l : list nat) n f : length l = n -> (forall i, i < n -> nth_error l i = Some (f i)) -> list_sum l = nsum n f.
Proof.
  revert n f. induction l as [|v l IH] using rev_ind; intros n f HL HE; [subst; reflexivity|].
  rewrite app_length in HL. simpl in HL. destruct n as [|n]; [lia|]. rewrite list_sum_app. simpl.
  rewrite (IH n f); [|lia|].
  - specialize (HE n ltac:(lia)). rewrite nth_error_app2 in HE by lia. replace (n - length l) with 0 in HE by lia. injection HE as ->. lia.
  - intros i Hi. specialize (HE i ltac:(lia)). rewrite nth_error_app1 in HE by lia. exact HE.
Qed.
Lemma nsum_zero n : nsum n (fun _ => 0) = 0. Proof. induction n; simpl; lia. Qed.
Lemma nsum_single n k : k < n -> nsum n (fun i => if Nat.eqb k i then 1 else 0) = 1.
Proof.
  induction n as [|n IH]; intros Hk; [lia|]. simpl. destruct (Nat.eqb_spec k n) as [->|Hne].
  - rewrite (nsum_ext n _ (fun _ => 0)); [rewrite nsum_zero; reflexivity|]. intros i Hi. destruct (Nat.eqb_spec n i); [lia|reflexivity].
  - rewrite IH by lia. lia.
Qed.
Lemma count_total n ends : (forall e, In e ends -> e < n) -> nsum n (fun i => count (fun e => Nat.eqb e i) ends) = length ends.
Proof.
  induction ends as [|e ends IH]; intros HB.
  - rewrite (nsum_ext n _ (fun _ => 0)) by reflexivity. rewrite nsum_zero. reflexivity.
  - rewrite (nsum_ext n _ (fun i => (if Nat.eqb e i then 1 else 0) + count (fun e => Nat.eqb e i) ends)) by (intros; exact (count_cons' (fun e => Nat.eqb e i) e ends)).
    rewrite nsum_plus, IH, nsum_single by (try (intros; apply HB; right; assumption); apply HB; left; reflexivity). reflexivity.
Qed.

Lemma edgelist_directed es : es <> [] -> exists es' dout din nodes,
  edgelist_from_edgelist_directed leb eqb es = Some (es', dout, din, nodes) /\
  increasing leb nodes /\ (forall v, In v nodes <-> is_end v es) /\
  map (relabel nodes) es' = map Some es /\ gapless (length nodes) es' /\
  length dout = length nodes /\ length din = length nodes /\
  (forall i v, nth_error nodes i = Some v ->
     nth_error dout i = Some (count (fun e => eqb (fst e) v) es) /\ nth_error din i = Some (count (fun e => eqb (snd e) v) es)) /\
  list_sum dout = length es /\ list_sum din = length es.
Proof.
  intros HN. destruct (new_edges es) as (es' & Em & HF). destruct (nodes_of_facts es) as (HI & ND & HE).
  pose proof (new_gapless es es' HF) as HG.
  exists es', (degrees_at (length (nodes_of es)) (map fst es')), (degrees_at (length (nodes_of es)) (map snd es')), (nodes_of es).
  split. { unfold edgelist_from_edgelist_directed. destruct es as [|e es]; [congruence|]. unfold nodes_of in Em. rewrite Em. reflexivity. }
  split; [exact HI|]. split; [exact HE|]. split; [apply (forall2_map _ _ _ _ HF); auto|]. split; [exact HG|].
  split; [apply degrees_at_length|]. split; [apply degrees_at_length|]. split.
  - intros i v Hv. assert (Hi : i < length (nodes_of es)) by (apply nth_error_Some; congruence).
    rewrite !degrees_at_nth by exact Hi. rewrite !count_map.
    split; f_equal; symmetry; apply (forall2_count _ _ _ _ _ HF); intros e e' Hee; symmetry; apply (relabel_eq _ e e' i v ND Hv Hee).
  - assert (HB : forall e, In e es' -> fst e < length (nodes_of es) /\ snd e < length (nodes_of es)).
    { intros e Hi. split; apply HG; exists e; auto. }
    rewrite (forall2_length _ _ _ HF).
    split; (erewrite list_sum_seq; [|apply degrees_at_length|intros; apply degrees_at_nth; assumption]); rewrite count_total, map_length;
      try reflexivity; intros e Hi; apply in_map_iff in Hi; destruct Hi as (f & <- & Hf); apply HB; exact Hf.
Qed.

(** * Weighted lists *)
Lemma sum_list_total l : sum_list l = total l.
Proof. induction l as [|v l IH]; [reflexivity|]. simpl. rewrite <- IH. reflexivity. Qed.
Lemma sum_filter ends ws i : length ends = length ws ->
  sum_list (map snd (filter (fun aw => Nat.eqb (fst aw) i) (combine ends ws))) =
  weight_of (fun aw => Nat.eqb (fst aw) i) snd (combine ends ws).
Proof.
  intros _. generalize (combine ends ws). intros l. induction l as [|a l IH]; [reflexivity|]. simpl. destruct (Nat.eqb (fst a) i); simpl; rewrite IH; lra.
Qed.
Lemma weight_combine_map {A} (f : A -> nat) (w : A -> R) i l :
  weight_of (fun aw => Nat.eqb (fst aw) i) snd (combine (map f l) (map w l)) = weight_of (fun a => Nat.eqb (f a) i) w l.
Proof. induction l as [|a l IH]; [reflexivity|]. simpl. rewrite IH. reflexivity. Qed.
Lemma weight_app {A} P (w : A -> R) l l' : weight_of P w (l ++ l') = (weight_of P w l + weight_of P w l')%R.
Proof. induction l as [|a l IH]; simpl; [lra|]. rewrite IH. lra. Qed.
Lemma combine_app {A B} (a a' : list A) (b b' : list B) : length a = length b -> combine (a ++ a') (b ++ b') = combine a b ++ combine a' b'.
Proof.
  revert b. induction a as [|x a IH]; intros [|y b] HL; try discriminate; [reflexivity|]. simpl. rewrite IH; [reflexivity|simpl in HL; lia].
Qed.
Lemma forall2_weight {A B} (R : A -> B -> Prop) P Q u w l l' : Forall2 R l l' -> (forall a b, R a b -> P a = Q b /\ u a = w b) ->
  weight_of P u l = weight_of Q w l'.
Proof. intros HR E. induction HR as [|a b l l' Hab HR IH]; [reflexivity|]. simpl. destruct (E a b Hab) as [-> ->]. rewrite IH. reflexivity. Qed.

Lemma strengths_at_nth {A} n (f : A -> nat) (w : A -> R) (l : list A) i : i < n ->
  nth_error (strengths_at n (map f l) (map w l)) i = Some (weight_of (fun a => Nat.eqb (f a) i) w l).
Proof.
  intros Hi. unfold strengths_at. rewrite nth_error_map.
  rewrite (seq_nth_error n i Hi).
  simpl. f_equal. pose proof (unique_nodup Nat.leb Nat.eqb nat_order (map f l)) as ND.
  set (g := fun i => sum_list (map snd (filter (fun ew => Nat.eqb (fst ew) i) (combine (map f l) (map w l))))).
  destruct (scatter_nth (np_unique Nat.leb Nat.eqb (map f l)) (map g (np_unique Nat.leb Nat.eqb (map f l))) (fun _ => 0%R) ND
     ltac:(rewrite map_length; reflexivity)) as [S1 S2].
  destruct (in_dec Nat.eq_dec i (np_unique Nat.leb Nat.eqb (map f l))) as [Hin|Hin].
  - apply In_nth_error in Hin. destruct Hin as [k Hk]. apply (S1 i k); [exact Hk|]. rewrite nth_error_map, Hk. simpl. f_equal.
    unfold g. rewrite sum_filter by (rewrite !map_length; reflexivity). apply weight_combine_map.
  - rewrite S2 by exact Hin. rewrite (unique_in Nat.leb Nat.eqb nat_order) in Hin.
    clear - Hin. induction l as [|a l IH]; [reflexivity|]. simpl. simpl in Hin.
    destruct (Nat.eqb_spec (f a) i) as [E|E]; [exfalso; apply Hin; left; exact E|].
    rewrite <- IH; [ring|]. intros Hx. apply Hin. right. exact Hx.
Qed.
Lemma strengths_at_length n ends ws : length (strengths_at n ends ws) = n.
Proof. unfold strengths_at. rewrite map_length, seq_length. reflexivity. Qed.
Lemma total_seq (l : list R) n f : length l = n -> (forall i, i < n -> nth_error l i = Some (f i)) -> total l = rsum n f.
Proof.
  intros HL HE. rewrite rsum_list. f_equal.
  revert n f HL HE. induction l as [|v l IH]; intros n f HL HE; simpl in HL; subst; [reflexivity|].
  simpl. rewrite <- seq_shift, map_map. f_equal; [specialize (HE 0 ltac:(lia)); injection HE as ->; reflexivity|].
  apply IH; [reflexivity|]. intros i Hi. apply (HE (S i)). lia.
Qed.
Lemma weight_total {A} n (f : A -> nat) (w : A -> R) l : (forall a, In a l -> f a < n) ->
  rsum n (fun i => weight_of (fun a => Nat.eqb (f a) i) w l) = total (map w l).
Proof.
  induction l as [|a l IH]; intros HB; simpl; [apply rsum_zero; reflexivity|].
  rewrite rsum_plus, IH by (intros; apply HB; right; assumption). f_equal.
  rewrite (rsum_ext n _ (fun i => if Nat.eqb i (f a) then w a else 0%R)) by (intros; rewrite Nat.eqb_sym; reflexivity).
  rewrite (rsum_single n (f a) (fun _ => w a)); [reflexivity|apply HB; left; reflexivity].
Qed.

Lemma new_wedges es : exists es', omap (new_wedge eqb (nodes_of (map fst es))) es = Some es' /\
  Forall2 (fun e e' => relabel (nodes_of (map fst es)) (fst e') = Some (fst e) /\ snd e' = snd e) es es'.
Proof.
  destruct (nodes_of_facts (map fst es)) as (_ & HN & HI). apply omap_forall2. intros e He.
  destruct (relabel_new _ (map fst es) HN (fun v => proj2 (HI v)) (fst e) (in_map fst _ _ He)) as (st & E1 & E2).
  exists (st, snd e : R). unfold new_wedge. rewrite E1. auto.
Qed.
Lemma wedges_forall2 nodes es es' : Forall2 (fun (e : K * K * R) (e' : nat * nat * R) => relabel nodes (fst e') = Some (fst e) /\ snd e' = snd e) es es' ->
  Forall2 (fun e e' => relabel nodes e' = Some e) (map fst es) (map fst es').
Proof. induction 1 as [|e e' es es' [E _] HF IH]; simpl; constructor; assumption. Qed.
Lemma wedges_total nodes es es' : Forall2 (fun (e : K * K * R) (e' : nat * nat * R) => relabel nodes (fst e') = Some (fst e) /\ snd e' = snd e) es es' ->
  total (map snd es') = total (map snd es).
Proof. induction 1 as [|e e' es es' [_ E] HF IH]; simpl; [reflexivity|]. rewrite E, IH. reflexivity. Qed.
Lemma wedges_labels nodes es es' : Forall2 (fun (e : K * K * R) (e' : nat * nat * R) => relabel nodes (fst e') = Some (fst e) /\ snd e' = snd e) es es' ->
  map (fun e => relabel nodes (fst e)) es' = map (fun e => Some (fst e)) es.
Proof. induction 1 as [|e e' es es' [E _] HF IH]; simpl; [reflexivity|]. rewrite E, IH. reflexivity. Qed.
Lemma wedges_weights nodes es es' : Forall2 (fun (e : K * K * R) (e' : nat * nat * R) => relabel nodes (fst e') = Some (fst e) /\ snd e' = snd e) es es' ->
  map snd es' = map snd es.
Proof. induction 1 as [|e e' es es' [_ E] HF IH]; simpl; [reflexivity|]. rewrite E, IH. reflexivity. Qed.
Lemma weight_ends v (es : list (K * K * R)) :
  (weight_of (fun e => eqb (fst (fst e)) v) snd es + weight_of (fun e => eqb (snd (fst e)) v) snd es = incident_weight eqb v es)%R.
Proof.
  unfold incident_weight. induction es as [|e es IH]; simpl; [lra|]. rewrite <- IH. unfold ends_at.
  destruct (eqb (fst (fst e)) v), (eqb (snd (fst e)) v); simpl; lra.
Qed.

Lemma edgelist_directed_w es : es <> [] -> exists es' dout din sout sin nodes,
  edgelist_from_edgelist_directed_w leb eqb es = Some (es', dout, din, sout, sin, nodes) /\
  increasing leb nodes /\ (forall v, In v nodes <-> is_end v (map fst es)) /\
  map (fun e => relabel nodes (fst e)) es' = map (fun e => Some (fst e)) es /\ map snd es' = map snd es /\
  gapless (length nodes) (map fst es') /\
  length dout = length nodes /\ length din = length nodes /\ length sout = length nodes /\ length sin = length nodes /\
  (forall i v, nth_error nodes i = Some v ->
     nth_error dout i = Some (count (fun e => eqb (fst (fst e)) v) es) /\ nth_error din i = Some (count (fun e => eqb (snd (fst e)) v) es) /\
     nth_error sout i = Some (weight_of (fun e => eqb (fst (fst e)) v) snd es) /\
     nth_error sin i = Some (weight_of (fun e => eqb (snd (fst e)) v) snd es)) /\
  list_sum dout = length es /\ list_sum din = length es /\ total sout = total (map snd es) /\ total sin = total (map snd es).
Proof.
  intros HN. destruct (new_wedges es) as (es' & Em & HF). destruct (nodes_of_facts (map fst es)) as (HI & ND & HE).
  set (nodes := nodes_of (map fst es)) in *.
  pose proof (wedges_forall2 _ _ _ HF) as HF1. pose proof (new_gapless (map fst es) (map fst es') HF1) as HG. fold nodes in HG.
  exists es', (degrees_at (length nodes) (map (fun e => fst (fst e)) es')), (degrees_at (length nodes) (map (fun e => snd (fst e)) es')),
    (strengths_at (length nodes) (map (fun e => fst (fst e)) es') (map snd es')),
    (strengths_at (length nodes) (map (fun e => snd (fst e)) es') (map snd es')), nodes.
  split. { unfold edgelist_from_edgelist_directed_w. destruct es as [|e es]; [congruence|].
    unfold nodes, nodes_of in *. rewrite !map_map in *. rewrite Em. reflexivity. }
  split; [exact HI|]. split; [exact HE|].
  split; [exact (wedges_labels _ _ _ HF)|].
  split; [exact (wedges_weights _ _ _ HF)|].
  split; [exact HG|]. split; [apply degrees_at_length|]. split; [apply degrees_at_length|].
  split; [apply strengths_at_length|]. split; [apply strengths_at_length|].
  assert (HB : forall e, In e es' -> fst (fst e) < length nodes /\ snd (fst e) < length nodes).
  { intros e Hi. split; apply HG; exists (fst e); (split; [apply in_map; exact Hi|auto]). }
  split.
  - intros i v Hv. assert (Hi : i < length nodes) by (apply nth_error_Some; congruence).
    rewrite !degrees_at_nth, !strengths_at_nth by exact Hi. rewrite !count_map.
    repeat split; f_equal; symmetry; try (apply (forall2_count _ _ _ _ _ HF); intros e e' [Hee _]; symmetry; apply (relabel_eq _ (fst e) (fst e') i v ND Hv Hee));
      apply (forall2_weight _ _ _ _ _ _ _ HF); intros e e' [Hee Ew]; (split; [symmetry; apply (relabel_eq _ (fst e) (fst e') i v ND Hv Hee)|auto]).
  - rewrite (forall2_length _ _ _ HF). rewrite <- (wedges_total _ _ _ HF).
    repeat split;
      try (erewrite list_sum_seq; [|apply degrees_at_length|intros; apply degrees_at_nth; assumption]; rewrite count_total, map_length;
           [reflexivity|]; intros e Hi; apply in_map_iff in Hi; destruct Hi as (f & <- & Hf); apply HB; exact Hf);
      (erewrite total_seq; [|apply strengths_at_length|intros; apply strengths_at_nth; assumption]; apply weight_total; intros e Hi; apply HB; exact Hi).
Qed.

Lemma edgelist_undirected_w es : es <> [] -> exists es' deg st nodes,
  edgelist_from_edgelist_undirected_w leb eqb es = Some (es', deg, st, nodes) /\
  increasing leb nodes /\ (forall v, In v nodes <-> is_end v (map fst es)) /\
  map (fun e => relabel nodes (fst e)) es' = map (fun e => Some (fst e)) es /\ map snd es' = map snd es /\
  gapless (length nodes) (map fst es') /\
  length deg = length nodes /\ length st = length nodes /\
  (forall i v, nth_error nodes i = Some v ->
     nth_error deg i = Some (incidences eqb v (map fst es)) /\ nth_error st i = Some (incident_weight eqb v es)) /\
  list_sum deg = 2 * length es /\ total st = (2 * total (map snd es))%R.
Proof.
  intros HN. destruct (new_wedges es) as (es' & Em & HF). destruct (nodes_of_facts (map fst es)) as (HI & ND & HE).
  set (nodes := nodes_of (map fst es)) in *.
  pose proof (wedges_forall2 _ _ _ HF) as HF1. pose proof (new_gapless (map fst es) (map fst es') HF1) as HG. fold nodes in HG.
  set (st := map (fun i => sum_list (map snd (filter (fun aw => Nat.eqb (fst aw) i)
     (combine (map (fun e => fst (fst e)) es' ++ map (fun e => snd (fst e)) es') (map snd es' ++ map snd es'))))) (seq 0 (length nodes))).
  assert (HB : forall e, In e es' -> fst (fst e) < length nodes /\ snd (fst e) < length nodes).
  { intros e Hi. split; apply HG; exists (fst e); (split; [apply in_map; exact Hi|auto]). }
  assert (Hst : forall i, i < length nodes -> nth_error st i =
     Some (weight_of (fun e => Nat.eqb (fst (fst e)) i) snd es' + weight_of (fun e => Nat.eqb (snd (fst e)) i) snd es')%R).
  { intros i Hi. unfold st. rewrite nth_error_map.
    rewrite (seq_nth_error _ i Hi).
    simpl. f_equal. rewrite sum_filter by (rewrite !app_length, !map_length; reflexivity).
    rewrite combine_app by (rewrite !map_length; reflexivity). rewrite weight_app, !weight_combine_map. reflexivity. }
  assert (Lst : length st = length nodes) by (unfold st; rewrite map_length, seq_length; reflexivity).
  exists es', (np_counts leb eqb (map (fun e => fst (fst e)) es ++ map (fun e => snd (fst e)) es)), st, nodes.
  split. { unfold edgelist_from_edgelist_undirected_w. destruct es as [|e es]; [congruence|].
    unfold nodes, nodes_of in *. unfold st. rewrite !map_map in *. rewrite Em. reflexivity. }
  split; [exact HI|]. split; [exact HE|].
  split; [exact (wedges_labels _ _ _ HF)|].
  split; [exact (wedges_weights _ _ _ HF)|].
  split; [exact HG|].
  assert (EN : nodes = np_unique leb eqb (map (fun e => fst (fst e)) es ++ map (fun e => snd (fst e)) es)).
  { unfold nodes, nodes_of. rewrite !map_map. reflexivity. }
  split; [rewrite counts_length, EN; reflexivity|]. split; [exact Lst|]. split.
  - intros i v Hv. split.
    + rewrite EN in Hv. rewrite (counts_nth leb eqb H _ i v Hv). rewrite <- count_ends, !map_map. reflexivity.
    + rewrite Hst by (apply nth_error_Some; congruence). f_equal. rewrite <- weight_ends.
      f_equal; symmetry; apply (forall2_weight _ _ _ _ _ _ _ HF); intros e e' [Hee Ew]; (split; [symmetry; apply (relabel_eq _ (fst e) (fst e') i v ND Hv Hee)|auto]).
  - split; [rewrite counts_total, app_length, !map_length; lia|].
    rewrite (total_seq st (length nodes) _ Lst Hst), rsum_plus, !weight_total by (intros e Hi; apply HB; exact Hi).
    rewrite (wedges_total _ _ _ HF). lra.
Qed.
End Edges.

Lemma edgelist_empty (K : Type) (leb eqb : K -> K -> bool) :
  edgelist_from_edgelist_undirected leb eqb [] = None /\ edgelist_from_edgelist_undirected_w leb eqb [] = None /\
  edgelist_from_edgelist_directed leb eqb [] = None /\ edgelist_from_edgelist_directed_w leb eqb [] = None.
Proof. repeat split. Qed.

Lemma edgelist_undirected_closed (K : Type) (leb eqb : K -> K -> bool) (es : list (K * K)) : total_order leb eqb -> es <> [] -> exists es' deg nodes,
  edgelist_from_edgelist_undirected leb eqb es = Some (es', deg, nodes) /\
  increasing leb nodes /\ (forall v, In v nodes <-> is_end v es) /\
  map (relabel nodes) es' = map Some es /\ gapless (length nodes) es' /\
  length deg = length nodes /\
  (forall i v, nth_error nodes i = Some v -> nth_error deg i = Some (incidences eqb v es)) /\
  list_sum deg = 2 * length es.
Proof. intros H. apply (edgelist_undirected leb eqb H). Qed.
Lemma edgelist_undirected_w_closed (K : Type) (leb eqb : K -> K -> bool) (es : list (K * K * R)) : total_order leb eqb -> es <> [] -> exists es' deg st nodes,
  edgelist_from_edgelist_undirected_w leb eqb es = Some (es', deg, st, nodes) /\
  increasing leb nodes /\ (forall v, In v nodes <-> is_end v (map fst es)) /\
  map (fun e => relabel nodes (fst e)) es' = map (fun e => Some (fst e)) es /\ map snd es' = map snd es /\
  gapless (length nodes) (map fst es') /\
  length deg = length nodes /\ length st = length nodes /\
  (forall i v, nth_error nodes i = Some v ->
     nth_error deg i = Some (incidences eqb v (map fst es)) /\ nth_error st i = Some (incident_weight eqb v es)) /\
  list_sum deg = 2 * length es /\ total st = (2 * total (map snd es))%R.
Proof. intros H. apply (edgelist_undirected_w leb eqb H). Qed.
Lemma edgelist_directed_closed (K : Type) (leb eqb : K -> K -> bool) (es : list (K * K)) : total_order leb eqb -> es <> [] -> exists es' dout din nodes,
  edgelist_from_edgelist_directed leb eqb es = Some (es', dout, din, nodes) /\
  increasing leb nodes /\ (forall v, In v nodes <-> is_end v es) /\
  map (relabel nodes) es' = map Some es /\ gapless (length nodes) es' /\
  length dout = length nodes /\ length din = length nodes /\
  (forall i v, nth_error nodes i = Some v ->
     nth_error dout i = Some (count (fun e => eqb (fst e) v) es) /\ nth_error din i = Some (count (fun e => eqb (snd e) v) es)) /\
  list_sum dout = length es /\ list_sum din = length es.
Proof. intros H. apply (edgelist_directed leb eqb H). Qed.
Lemma edgelist_directed_w_closed (K : Type) (leb eqb : K -> K -> bool) (es : list (K * K * R)) : total_order leb eqb -> es <> [] -> exists es' dout din sout sin nodes,
  edgelist_from_edgelist_directed_w leb eqb es = Some (es', dout, din, sout, sin, nodes) /\
  increasing leb nodes /\ (forall v, In v nodes <-> is_end v (map fst es)) /\
  map (fun e => relabel nodes (fst e)) es' = map (fun e => Some (fst e)) es /\ map snd es' = map snd es /\
  gapless (length nodes) (map fst es') /\
  length dout = length nodes /\ length din = length nodes /\ length sout = length nodes /\ length sin = length nodes /\
  (forall i v, nth_error nodes i = Some v ->
     nth_error dout i = Some (count (fun e => eqb (fst (fst e)) v) es) /\ nth_error din i = Some (count (fun e => eqb (snd (fst e)) v) es) /\
     nth_error sout i = Some (weight_of (fun e => eqb (fst (fst e)) v) snd es) /\
     nth_error sin i = Some (weight_of (fun e => eqb (snd (fst e)) v) snd es)) /\
  list_sum dout = length es /\ list_sum din = length es /\ total sout = total (map snd es) /\ total sin = total (map snd es).
Proof. intros H. apply (edgelist_directed_w leb eqb H). Qed.
