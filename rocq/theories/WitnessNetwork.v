(** Concrete networks used beside the theorems about matrices and edge lists. *)
From Coq Require Import Reals List Arith Bool Lia Lra.
From Verif Require Import Base SpecGraph SpecDirected ModelNetwork SpecNetwork ProofsUnique ProofsNetwork ProofsAdjacency.
Import ListNotations.

(** A relabelled list always has an adjacency matrix, whose degrees are the returned ones when edges are simple. *)
Lemma relabel_in {K} (nodes : list K) es' es : map (relabel nodes) es' = map Some es ->
  forall e', In e' es' -> exists e, relabel nodes e' = Some e /\ In e es.
Proof.
  intros HR e' He. assert (Hin : In (relabel nodes e') (map Some es)) by (rewrite <- HR; apply in_map; exact He).
  apply in_map_iff in Hin. destruct Hin as (e & E & Hi). exists e. auto.
Qed.
Lemma relabel_simple {K} d (nodes : list K) es' es : map (relabel nodes) es' = map Some es -> simple_edges d es -> simple_edges d es'.
Proof.
  intros HR (HL & HN & HO). split; [|split].
  - intros i Hi. destruct (relabel_in _ _ _ HR _ Hi) as (e & E & He). unfold relabel in E. simpl in E.
    destruct (nth_error nodes i) as [a|]; [|discriminate]. injection E as <-. apply (HL a He).
  - apply (NoDup_map_inv (relabel nodes)). rewrite HR. apply FinFun.Injective_map_NoDup; [intros a b E; congruence|exact HN].
  - intros Hd i j Hi Hj. destruct (relabel_in _ _ _ HR _ Hi) as (e & E & He). destruct (relabel_in _ _ _ HR _ Hj) as (f & F & Hf).
    unfold relabel in E, F. simpl in E, F. destruct (nth_error nodes i) as [a|], (nth_error nodes j) as [b|]; try discriminate.
    injection E as <-. injection F as <-. apply (HO Hd a b He Hf).
Qed.
Lemma relabel_incidences {K} (leb eqb : K -> K -> bool) (nodes : list K) es' es i v : total_order leb eqb -> increasing leb nodes ->
  map (relabel nodes) es' = map Some es -> nth_error nodes i = Some v -> incidences Nat.eqb i es' = incidences eqb v es.
Proof.
  intros H HI HR Hv.
  assert (HU : forall a b, nth_error nodes a = Some b -> Nat.eqb a i = eqb b v).
  { intros a b Hb. destruct (Nat.eqb_spec a i) as [->|NE].
    - symmetry. apply (proj1 H). congruence.
    - symmetry. apply (eqb_false leb eqb H). intros ->. destruct (Nat.lt_trichotomy a i) as [L|[L|L]]; [|congruence|].
      + destruct (HI a i v v L Hb Hv). congruence.
      + destruct (HI i a v v L Hv Hb). congruence. }
  revert es HR. induction es' as [|[a b] es' IH]; intros [|[u w] es] HR; try discriminate; [reflexivity|].
  simpl in HR. injection HR as HE HR. unfold incidences. simpl. fold (incidences Nat.eqb i es') (incidences eqb v es). rewrite (IH es HR). f_equal.
  unfold relabel in HE. simpl in HE. destruct (nth_error nodes a) as [p|] eqn:Ea; [|discriminate]. destruct (nth_error nodes b) as [q|] eqn:Eb; [|discriminate].
  injection HE as -> ->. unfold ends_at. simpl. rewrite (HU _ _ Ea), (HU _ _ Eb). reflexivity.
Qed.
Lemma relabelled_adjacency (K : Type) (leb eqb : K -> K -> bool) (es : list (K * K)) es' deg nodes :
  total_order leb eqb -> edgelist_from_edgelist_undirected leb eqb es = Some (es', deg, nodes) ->
  exists a, build_adjacency_fast es' false = Adj (length nodes) a /\
  (simple_edges false es -> exists k, degree Ndarray (length nodes) a = Some k /\
     forall i, i < length nodes -> nth_error deg i = Some (k i)).
Proof.
  intros H HE. assert (HN : es <> []) by (intros ->; discriminate HE).
  destruct (edgelist_undirected leb eqb H es HN) as (es2 & deg2 & nodes2 & E2 & HI & _ & HR & HG & HL & HD & _).
  rewrite HE in E2. injection E2 as <- <- <-.
  destruct (adjacency_gapless es' false _ HG) as (a & Ea). exists a. split; [exact Ea|]. intros HS.
  eexists. split; [reflexivity|]. intros i Hi. destruct (nth_error nodes i) as [v|] eqn:Ev; [|apply nth_error_None in Ev; lia].
  rewrite (HD i v Ev). f_equal. rewrite (adjacency_degrees_und es' _ a _ (relabel_simple _ _ _ _ HR HS) Ea eq_refl i Hi).
  symmetry. apply (relabel_incidences leb eqb nodes); assumption.
Qed.

(** Labels 7, 3, 9: the list 7-3, 3-9, 7-9, 3-3. *)
Definition sample_edges : list (nat * nat) := [(7, 3); (3, 9); (7, 9); (3, 3)].
Lemma sample_edges_und : edgelist_from_edgelist_undirected Nat.leb Nat.eqb sample_edges =
  Some ([(1, 0); (0, 2); (1, 2); (0, 0)], [4; 2; 2], [3; 7; 9]).
Proof. reflexivity. Qed.
Lemma sample_edges_dir : edgelist_from_edgelist_directed Nat.leb Nat.eqb sample_edges =
  Some ([(1, 0); (0, 2); (1, 2); (0, 0)], [2; 2; 0], [2; 0; 2], [3; 7; 9]).
Proof. reflexivity. Qed.
Lemma sample_order : total_order Nat.leb Nat.eqb /\ sample_edges <> [].
Proof. split; [exact nat_order|discriminate]. Qed.

Lemma sample_gapless : gapless 3 [(0, 1); (1, 2)] /\ simple_edges false [(0, 1); (1, 2)] /\ simple_edges true [(0, 1); (1, 2); (1, 0)] /\
  gapless 3 [(0, 1); (1, 2); (1, 0)].
Proof.
  split; [|split; [|split]].
  - intros v. split.
    + intros (e & [<-|[<-|[]]] & [E|E]); simpl in E; lia.
    + intros Hv. assert (HV : v = 0 \/ v = 1 \/ v = 2) by lia. destruct HV as [->|[->| ->]]; [exists (0, 1)|exists (0, 1)|exists (1, 2)]; simpl; auto.
  - split; [intros i [E|[E|[]]]; congruence|]. split; [repeat constructor; simpl; intuition congruence|].
    intros _ i j [E|[E|[]]] [F|[F|[]]]; congruence.
  - split; [intros i [E|[E|[E|[]]]]; congruence|]. split; [repeat constructor; simpl; intuition congruence|discriminate].
  - intros v. split.
    + intros (e & [<-|[<-|[<-|[]]]] & [E|E]); simpl in E; lia.
    + intros Hv. assert (HV : v = 0 \/ v = 1 \/ v = 2) by lia. destruct HV as [->|[->| ->]]; [exists (0, 1)|exists (0, 1)|exists (1, 2)]; simpl; auto.
Qed.

(** Degrees 2, 0, 2, 1, 2. *)
Lemma sample_reduction : degree_reduction_und [2; 0; 2; 1; 2] = ([0; 1; 2], [1; 3; 0], [2; 0; 2; 1; 2], [1; 1; 3]).
Proof. reflexivity. Qed.
Lemma sample_reduction_dir : let R := degree_reduction_dir [1; 0; 1; 1] [1; 2; 1; 0] in
  r_dseq R = [(0, 2); (1, 0); (1, 1)] /\ r_invert_dseq R = [2; 0; 2; 1] /\ r_multiplicity R = [1; 1; 2] /\
  nz_index_out R = [1; 2] /\ nz_index_in R = [0; 2].
Proof. repeat split. Qed.

(** A 3-node matrix with a self-loop on node 2. *)
Definition sample_matrix : matrix := fun i j =>
  if Nat.eqb i 0 && Nat.eqb j 1 then 1%R else if Nat.eqb i 0 && Nat.eqb j 2 then 3%R else if Nat.eqb i 2 && Nat.eqb j 2 then 2%R else 0%R.
Lemma sample_sequences : exists ko ki so, out_degree Csr 3 sample_matrix = Some ko /\ in_degree Csr 3 sample_matrix = Some ki /\
  out_strength Csr 3 sample_matrix = Some so /\ map ko [0; 1; 2] = [2; 0; 1] /\ map ki [0; 1; 2] = [0; 1; 2] /\ so 0 = 4%R.
Proof.
  eexists _, _, _. split; [reflexivity|]. split; [reflexivity|]. split; [reflexivity|].
  assert (P0 : positiveb 0 = false) by apply (positiveb_ind false). assert (P1 : positiveb 1 = true) by apply (positiveb_ind true).
  assert (P3 : positiveb 3 = true) by (unfold positiveb; destruct (Rlt_dec 0 3); [reflexivity|lra]).
  assert (P2 : positiveb 2 = true) by (unfold positiveb; destruct (Rlt_dec 0 2); [reflexivity|lra]).
  cbn [map]. rewrite !count_positive_nsum, np_sum_rsum. unfold sample_matrix. simpl. rewrite P0, P1, P2, P3. repeat split. lra.
Qed.
Lemma sample_relabelling : relabelling 3 (fun i => 2 - i).
Proof. split; [intros; lia|]. intros i j Hi Hj E. lia. Qed.
