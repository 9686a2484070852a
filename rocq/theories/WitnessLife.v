(** Closed statements and concrete objects for the life cycle. *)
From Coq Require Import Reals List Arith Bool Lia Lra.
From Verif Require Import Base ProofsList SpecGraph SpecNetwork ModelNetwork ProofsUnique ProofsNetwork ProofsAdjacency WitnessNetwork ModelLife SpecLife ProofsLife ProofsLifeDir ProofsLifeForms.
Import ListNotations.
Local Open Scope R_scope.

(** * Closed forms *)
Lemma u_noop (L : Type) (leb eqb : L -> L -> bool) (g : @ugraph L) (c : @call L) :
  u_is_initialized g = true -> c <> CleanEdges -> u_call leb eqb g c = (g, None).
Proof. apply u_set_initialised. Qed.
Lemma d_noop (L : Type) (leb eqb : L -> L -> bool) (g : @dgraph L) (c : @call L) :
  d_is_initialized g = true -> c <> CleanEdges -> d_call leb eqb g c = (g, None).
Proof. apply d_set_initialised. Qed.
Lemma u_histories (L : Type) (leb eqb : L -> L -> bool) (g : @ugraph L) (cs : list (@call L)) (o : option call) :
  total_order leb eqb -> u_is_initialized g = false -> current u_accepted cs o ->
  match o with
  | None => u_is_initialized (u_calls leb eqb g cs) = false
  | Some c => u_is_initialized (u_calls leb eqb g cs) = true /\ exists d, u_describes leb eqb c d /\
      u_n_nodes (u_calls leb eqb g cs) = Some (length d) /\ u_dseq (u_calls leb eqb g cs) = Some d /\
      u_n_edges (u_calls leb eqb g cs) = Some (total d / 2)
  end.
Proof. intros Ho. apply u_history. exact Ho. Qed.
Lemma d_histories (L : Type) (leb eqb : L -> L -> bool) (g : @dgraph L) (cs : list (@call L)) (o : option call) :
  total_order leb eqb -> d_is_initialized g = false -> current d_accepted cs o ->
  match o with
  | None => d_is_initialized (d_calls leb eqb g cs) = false
  | Some c => d_is_initialized (d_calls leb eqb g cs) = true /\ exists do di, d_describes leb eqb c do di /\
      d_n_nodes (d_calls leb eqb g cs) = Some (length do) /\ d_dseq_out (d_calls leb eqb g cs) = Some do /\
      d_dseq_in (d_calls leb eqb g cs) = Some di /\ d_n_edges (d_calls leb eqb g cs) = Some (total do)
  end.
Proof. intros Ho. apply d_history. exact Ho. Qed.

(** Every history has an argument in force, and only one. *)
Lemma current_snoc_inv {L} (acc : @call L -> Prop) cs c o : current acc (cs ++ [c]) o ->
  (c = CleanEdges /\ o = None) \/ (exists c', current acc cs (Some c') /\ c <> CleanEdges /\ o = Some c') \/
  (current acc cs None /\ acc c /\ o = Some c) \/ (current acc cs None /\ c <> CleanEdges /\ ~ acc c /\ o = None).
Proof.
  intros H. inversion H as [E|cs' o' H' E|cs' c' c'' H' N E|cs' c' H' A E|cs' c' H' N A E].
  - symmetry in E. apply app_eq_nil in E. destruct E; discriminate.
  - apply app_inj_tail in E. destruct E as [-> <-]. left; auto.
  - apply app_inj_tail in E. destruct E as [-> <-]. right; left. exists c'. auto.
  - apply app_inj_tail in E. destruct E as [-> <-]. right; right; left. auto.
  - apply app_inj_tail in E. destruct E as [-> <-]. right; right; right. auto.
Qed.
Lemma current_nil_inv {L} (acc : @call L -> Prop) o : current acc [] o -> o = None.
Proof.
  intros H. remember [] as l eqn:El. destruct H as [|? ? ?|? ? ? ? ?|? ? ? ?|? ? ? ? ?]; [reflexivity| | | |];
  apply app_eq_nil in El; destruct El; discriminate.
Qed.
Lemma u_accepted_dec {L} (c : @call L) : u_accepted c \/ ~ u_accepted c.
Proof.
  destruct c as [[|n a|k stored n a|n a|]|[|es|es| |]|[|v|v| |]|]; simpl; try (right; intros []; fail).
  - destruct n as [|n]; [right; lia|]. destruct (has_negative (S n) a) eqn:E; [right|left].
    + intros [_ H]. apply has_negative_spec in H. congruence.
    + split; [lia|apply has_negative_spec; exact E].
  - destruct k; [| | |right; intros [H _]; apply H; reflexivity]; (destruct stored as [|stored]; [right; lia|]);
      (destruct (has_negative n a) eqn:E; [right; intros (_ & _ & H); apply has_negative_spec in H; congruence|left]);
      (split; [discriminate|]); (split; [lia|apply has_negative_spec; exact E]).
  - destruct es; [right; intros H; apply H; reflexivity|left; discriminate].
  - destruct es; [right; intros H; apply H; reflexivity|left; discriminate].
  - destruct v as [|r v]; [right; intros [H _]; apply H; reflexivity|].
    destruct (list_has_negative (r :: v)) eqn:E; [right; intros [_ H]; apply list_has_negative_spec in H; congruence|left].
    split; [discriminate|apply list_has_negative_spec; exact E].
Qed.
Lemma d_accepted_dec {L} (c : @call L) : d_accepted c \/ ~ d_accepted c.
Proof.
  assert (Q : forall v, (v <> [] /\ nonneg_list v /\ Nat.Even (length v)) \/ ~ (v <> [] /\ nonneg_list v /\ Nat.Even (length v))).
  { intros v. destruct v as [|r v]; [right; intros [H _]; apply H; reflexivity|].
    destruct (list_has_negative (r :: v)) eqn:E; [right; intros (_ & H & _); apply list_has_negative_spec in H; congruence|].
    destruct (Nat.Even_or_Odd (length (r :: v))) as [H|H]; [left|right].
    - split; [discriminate|]. split; [apply list_has_negative_spec; exact E|exact H].
    - intros (_ & _ & H'). destruct (Nat.Even_Odd_False _ H' H). }
  destruct c as [a|e|[|v|v| |]|]; [exact (u_accepted_dec (SetAdjacency a))|exact (u_accepted_dec (SetEdgelist e))| |exact (Q v)|exact (Q v)| | |];
    right; simpl; intros H; exact H.
Qed.
Lemma current_exists {L} (acc : @call L -> Prop) : (forall c, acc c \/ ~ acc c) -> forall cs, exists o, current acc cs o.
Proof.
  intros HD cs. induction cs as [|c cs [o IH]] using rev_ind; [exists None; constructor|].
  assert (C : c = CleanEdges \/ c <> CleanEdges) by (destruct c; [right; discriminate|right; discriminate|right; discriminate|left; reflexivity]).
  destruct C as [->|C]; [exists None; econstructor; exact IH|].
  destruct o as [c'|]; [exists (Some c'); constructor; assumption|].
  destruct (HD c) as [A|A]; [exists (Some c)|exists None]; constructor; assumption.
Qed.
Lemma history_defined (L : Type) (cs : list (@call L)) : (exists o, current u_accepted cs o) /\ (exists o, current d_accepted cs o).
Proof. split; apply current_exists; [apply u_accepted_dec|apply d_accepted_dec]. Qed.
Lemma current_function (L : Type) (acc : @call L -> Prop) (cs : list call) : ~ acc CleanEdges ->
  forall o o', current acc cs o -> current acc cs o' -> o = o'.
Proof.
  intros HC. induction cs as [|c cs IH] using rev_ind; intros o o' H H'.
  - rewrite (current_nil_inv acc o H), (current_nil_inv acc o' H'). reflexivity.
  - apply current_snoc_inv in H, H'.
    destruct H as [[-> ->]|[(c1 & A1 & B1 & ->)|[(A1 & B1 & ->)|(A1 & B1 & C1 & ->)]]],
      H' as [[E ->]|[(c2 & A2 & B2 & ->)|[(A2 & B2 & ->)|(A2 & B2 & C2 & ->)]]]; try reflexivity; try contradiction; try congruence.
    + exact (IH _ _ A1 A2).
    + discriminate (IH _ _ A1 A2).
    + discriminate (IH _ _ A1 A2).
    + discriminate (IH _ _ A1 A2).
    + discriminate (IH _ _ A1 A2).
Qed.

Lemma u_raising (L : Type) (leb eqb : L -> L -> bool) (g g' : @ugraph L) (c : @call L) (ex : pyexn) :
  u_call leb eqb g c = (g', Some ex) -> u_is_initialized g' = false.
Proof. apply u_raise. Qed.
Lemma d_raising (L : Type) (leb eqb : L -> L -> bool) (g g' : @dgraph L) (c : @call L) (ex : pyexn) :
  d_call leb eqb g c = (g', Some ex) -> d_is_initialized g' = false.
Proof. apply d_raise. Qed.
Lemma u_invalid_raises (L : Type) (leb eqb : L -> L -> bool) (c : @call L) (ex : pyexn) : invalid c (Some ex) ->
  u_new leb eqb c = inr ex /\ forall g, u_is_initialized g = false -> snd (u_call leb eqb g c) = Some ex.
Proof. intros H. split; [apply u_constructed_invalid; exact H|]. intros g Hi. exact (u_invalid leb eqb g c (Some ex) Hi H). Qed.
Lemma d_invalid_raises (L : Type) (leb eqb : L -> L -> bool) (c : @call L) (ex : pyexn) : invalid c (Some ex) ->
  d_new leb eqb c = inr ex /\ forall g, d_is_initialized g = false -> snd (d_call leb eqb g c) = Some ex.
Proof. intros H. split; [apply d_constructed_invalid; exact H|]. intros g Hi. exact (d_invalid leb eqb g c (Some ex) Hi H). Qed.
Lemma d_odd_raises (L : Type) (leb eqb : L -> L -> bool) (g : @dgraph L) (v : list R) : d_is_initialized g = false -> v <> [] -> ~ Nat.Even (length v) ->
  snd (d_call leb eqb g (SetDegrees (SeqArray v))) = Some ValueError.
Proof. apply d_odd. Qed.
Lemma u_priority (L : Type) (leb eqb : L -> L -> bool) adj e d s e' d' s' :
  (adj <> NoAdj -> u_construct leb eqb adj e d s = u_construct leb eqb adj e' d' s') /\
  (e <> NoEdges -> u_construct leb eqb NoAdj e d s = u_construct leb eqb NoAdj e d' s').
Proof. split; intros H; [apply u_precedence|apply u_precedence_edges]; exact H. Qed.
Lemma d_priority (L : Type) (leb eqb : L -> L -> bool) adj e d s e' d' s' :
  (adj <> NoAdj -> d_construct leb eqb adj e d s = d_construct leb eqb adj e' d' s') /\
  (e <> NoEdges -> d_construct leb eqb NoAdj e d s = d_construct leb eqb NoAdj e d' s').
Proof. split; intros H; [apply d_precedence|apply d_precedence_edges]; exact H. Qed.
Lemma u_both_sequences (L : Type) (leb eqb : L -> L -> bool) (v w : list R) : v <> [] -> w <> [] -> nonneg_list v -> nonneg_list w ->
  if Nat.eqb (length v) (length w) then
    exists g, u_construct leb eqb NoAdj NoEdges (SeqArray v) (SeqArray w) = inl g /\ u_is_initialized g = true /\
      u_is_weighted g = true /\ u_n_nodes g = Some (length v) /\ u_n_edges g = Some (total v / 2) /\
      u_dseq g = Some v /\ u_strength g = Some w
  else u_construct leb eqb NoAdj NoEdges (SeqArray v) (SeqArray w) = inr ValueError.
Proof. apply u_sequences. Qed.
Lemma u_reset_partial (L : Type) (leb eqb : L -> L -> bool) (g f : @ugraph L) (c : @call L) : u_accepted c -> u_new leb eqb c = inl f ->
  exists g', u_call leb eqb (fst (u_call leb eqb g CleanEdges)) c = (g', None) /\
    u_is_initialized g' = u_is_initialized f /\ u_n_nodes g' = u_n_nodes f /\ u_n_edges g' = u_n_edges f /\
    u_dseq g' = u_dseq f /\ u_adjacency g' = u_adjacency f /\ u_edgelist g' = u_edgelist f /\
    (u_is_weighted f = true -> u_is_weighted g' = true /\ u_strength g' = u_strength f).
Proof. intros Ha Hf. exact (u_reinstall leb eqb g c f Ha Hf). Qed.
Lemma d_reset_partial (L : Type) (leb eqb : L -> L -> bool) (g f : @dgraph L) (c : @call L) : d_accepted c -> d_new leb eqb c = inl f ->
  exists g', d_call leb eqb (fst (d_call leb eqb g CleanEdges)) c = (g', None) /\
    d_is_initialized g' = d_is_initialized f /\ d_n_nodes g' = d_n_nodes f /\ d_n_edges g' = d_n_edges f /\
    d_dseq_out g' = d_dseq_out f /\ d_dseq_in g' = d_dseq_in f /\ d_adjacency g' = d_adjacency f /\ d_edgelist g' = d_edgelist f /\
    (d_is_weighted f = true -> d_is_weighted g' = true /\ d_out_strength g' = d_out_strength f /\ d_in_strength g' = d_in_strength f).
Proof. intros Ha Hf. exact (d_reinstall leb eqb g c f Ha Hf). Qed.
Lemma u_weighted_test (L : Type) (leb eqb : L -> L -> bool) n a e d s : (0 < n)%nat -> nonneg_matrix n a ->
  exists g : @ugraph L, u_construct leb eqb (ArrayAdj n a) e d s = inl g /\ u_is_initialized g = true /\
    (u_is_weighted g = true <-> excess n a <> 0) /\
    (u_strength g = if Req_EM_T (excess n a) 0 then None else Some (row_strengths n a)).
Proof. apply u_weighted_flag. Qed.
Lemma d_weighted_test (L : Type) (leb eqb : L -> L -> bool) n a e d s : (0 < n)%nat -> nonneg_matrix n a ->
  exists g : @dgraph L, d_construct leb eqb (ArrayAdj n a) e d s = inl g /\ d_is_initialized g = true /\
    (d_is_weighted g = true <-> excess n a <> 0) /\
    (d_out_strength g = if Req_EM_T (excess n a) 0 then None else Some (row_strengths n a)) /\
    (d_in_strength g = if Req_EM_T (excess n a) 0 then None else Some (col_strengths n a)).
Proof. apply d_weighted_flag. Qed.
(** Entries that are 0 or at least 1 (counts), or at most 1. *)
Lemma weighted_recognised (L : Type) (leb eqb : L -> L -> bool) n a e d s : (0 < n)%nat -> nonneg_matrix n a ->
  (forall i j, (i < n)%nat -> (j < n)%nat -> a i j = 0 \/ 1 <= a i j) \/ (forall i j, (i < n)%nat -> (j < n)%nat -> a i j <= 1) ->
  (exists g : @ugraph L, u_construct leb eqb (ArrayAdj n a) e d s = inl g /\ (u_is_weighted g = true <-> weighted_matrix n a)) /\
  (exists g : @dgraph L, d_construct leb eqb (ArrayAdj n a) e d s = inl g /\ (d_is_weighted g = true <-> weighted_matrix n a)).
Proof.
  intros Hn Ha Hk.
  assert (X : excess n a = 0 <-> ~ weighted_matrix n a) by (destruct Hk as [Hk|Hk]; [apply excess_integer|apply excess_fraction]; exact Hk).
  assert (Y : excess n a <> 0 <-> weighted_matrix n a).
  { split; intros Q; [|intros E; apply X in E; contradiction].
    destruct (Req_EM_T (excess n a) 0) as [E|E]; [contradiction|].
    (* a finite search *)
    destruct (existsb (fun i => existsb (fun j => if Req_EM_T (a i j) 0 then false else if Req_EM_T (a i j) 1 then false else true) (seq 0 n)) (seq 0 n)) eqn:F.
    - apply existsb_exists in F. destruct F as (i & Hi & F). apply existsb_exists in F. destruct F as (j & Hj & F). apply in_seq in Hi, Hj.
      destruct (Req_EM_T (a i j) 0), (Req_EM_T (a i j) 1); try discriminate. exists i, j. repeat split; auto; lia.
    - exfalso. apply E, X. intros (i & j & Hi & Hj & N0 & N1).
      assert (T : existsb (fun i => existsb (fun j => if Req_EM_T (a i j) 0 then false else if Req_EM_T (a i j) 1 then false else true) (seq 0 n)) (seq 0 n) = true); [|congruence].
      apply existsb_exists. exists i. split; [apply in_seq; lia|]. apply existsb_exists. exists j. split; [apply in_seq; lia|].
      destruct (Req_EM_T (a i j) 0), (Req_EM_T (a i j) 1); try contradiction; reflexivity. }
  split.
  - destruct (u_weighted_flag leb eqb n a e d s Hn Ha) as (g & E & _ & W & _). exists g. split; [exact E|]. rewrite W. exact Y.
  - destruct (d_weighted_flag leb eqb n a e d s Hn Ha) as (g & E & _ & W & _). exists g. split; [exact E|]. rewrite W. exact Y.
Qed.
Lemma binary_not_weighted (L : Type) (leb eqb : L -> L -> bool) n a e d s : (0 < n)%nat -> binary_matrix n a ->
  (exists g : @ugraph L, u_construct leb eqb (ArrayAdj n a) e d s = inl g /\ u_is_weighted g = false /\ u_strength g = None) /\
  (exists g : @dgraph L, d_construct leb eqb (ArrayAdj n a) e d s = inl g /\ d_is_weighted g = false /\ d_out_strength g = None /\ d_in_strength g = None).
Proof.
  intros Hn Hb. assert (Ha : nonneg_matrix n a) by (intros i j Hi Hj; destruct (Hb i j Hi Hj); lra). pose proof (excess_binary n a Hb) as X.
  split.
  - destruct (u_weighted_flag leb eqb n a e d s Hn Ha) as (g & E & _ & W & S). exists g. split; [exact E|].
    destruct (Req_EM_T (excess n a) 0); [|contradiction]. split; [|exact S]. destruct (u_is_weighted g); [|reflexivity]. elim (proj1 W eq_refl X).
  - destruct (d_weighted_flag leb eqb n a e d s Hn Ha) as (g & E & _ & W & S & S'). exists g. split; [exact E|].
    destruct (Req_EM_T (excess n a) 0); [|contradiction]. split; [|split; assumption]. destruct (d_is_weighted g); [|reflexivity]. elim (proj1 W eq_refl X).
Qed.

(** * Findings *)
(** Weights 1/2 and 3/2: the sum of the entries equals their number. *)
Definition half_weights : matrix := fun i j =>
  match i, j with 0%nat, 1%nat | 1%nat, 0%nat => 1 / 2 | 1%nat, 2%nat | 2%nat, 1%nat => 3 / 2 | _, _ => 0 end.
Lemma half_weights_nonneg : nonneg_matrix 3 half_weights.
Proof. intros i j _ _. unfold half_weights. destruct i as [|[|[|i]]], j as [|[|[|j]]]; lra. Qed.
Lemma half_weights_excess : excess 3 half_weights = 0.
Proof. unfold excess, half_weights. simpl. repeat (destruct (Req_EM_T _ 0); try lra). Qed.
Lemma weighted_refuted : exists n a, (0 < n)%nat /\ nonneg_matrix n a /\ (forall i j, a i j = a j i) /\ weighted_matrix n a /\
  (exists g : @ugraph nat, u_construct Nat.leb Nat.eqb (ArrayAdj n a) NoEdges NoSeq NoSeq = inl g /\ u_is_weighted g = false /\ u_strength g = None) /\
  (exists g : @dgraph nat, d_construct Nat.leb Nat.eqb (ArrayAdj n a) NoEdges NoSeq NoSeq = inl g /\ d_is_weighted g = false /\ d_out_strength g = None).
Proof.
  exists 3%nat, half_weights. split; [lia|]. split; [exact half_weights_nonneg|].
  split; [intros i j; destruct i as [|[|[|i]]], j as [|[|[|j]]]; reflexivity|].
  split; [exists 0%nat, 1%nat; repeat split; try lia; unfold half_weights; lra|].
  pose proof half_weights_excess as X. split.
  - destruct (u_weighted_flag Nat.leb Nat.eqb 3 half_weights NoEdges NoSeq NoSeq ltac:(lia) half_weights_nonneg) as (g & E & _ & W & S).
    exists g. split; [exact E|]. destruct (Req_EM_T (excess 3 half_weights) 0); [|contradiction]. split; [|exact S].
    destruct (u_is_weighted g); [|reflexivity]. elim (proj1 W eq_refl X).
  - destruct (d_weighted_flag Nat.leb Nat.eqb 3 half_weights NoEdges NoSeq NoSeq ltac:(lia) half_weights_nonneg) as (g & E & _ & W & S & _).
    exists g. split; [exact E|]. destruct (Req_EM_T (excess 3 half_weights) 0); [|contradiction]. split; [|exact S].
    destruct (d_is_weighted g); [|reflexivity]. elim (proj1 W eq_refl X).
Qed.

(** One link of weight 2 between nodes 0 and 1. *)
Definition link2 : matrix := fun i j => match i, j with 0%nat, 1%nat | 1%nat, 0%nat => 2 | _, _ => 0 end.
Lemma link2_nonneg : nonneg_matrix 2 link2.
Proof. intros i j _ _. unfold link2. destruct i as [|[|i]], j as [|[|j]]; lra. Qed.
Lemma link2_excess : excess 2 link2 <> 0.
Proof. unfold excess, link2. simpl. repeat (destruct (Req_EM_T _ 0); try lra). Qed.
(** [clean_edges] keeps the strengths of the old network. *)
Lemma u_clean_refuted : exists (g f : @ugraph nat) c g', u_construct Nat.leb Nat.eqb (ArrayAdj 2 link2) NoEdges NoSeq NoSeq = inl g /\
  u_accepted c /\ u_new Nat.leb Nat.eqb c = inl f /\ u_call Nat.leb Nat.eqb (fst (u_call Nat.leb Nat.eqb g CleanEdges)) c = (g', None) /\
  u_is_weighted f = false /\ u_strength f = None /\ u_is_weighted g' = true /\ u_strength g' = Some [2; 2] /\ u_dseq g' = Some [1; 1; 2].
Proof.
  destruct (u_weighted_flag Nat.leb Nat.eqb 2 link2 NoEdges NoSeq NoSeq ltac:(lia) link2_nonneg) as (g & E & _ & W & S).
  pose proof link2_excess as X. destruct (Req_EM_T (excess 2 link2) 0); [contradiction|]. apply W in X.
  assert (P : nonneg_list [1; 1; 2]) by (intros r [<-|[<-|[<-|[]]]]; lra).
  assert (N := proj2 (list_has_negative_spec [1; 1; 2]) P).
  exists g. eexists. exists (SetDegrees (SeqArray [1; 1; 2])). eexists.
  split; [exact E|]. split; [split; [discriminate|exact P]|].
  split; [unfold u_new, u_construct; cbn [u_initialize u_init_degrees]; rewrite N; reflexivity|].
  split; [cbn [u_call u_initialize u_init_degrees]; simpl u_is_initialized; cbn iota; cbn [u_initialize u_init_degrees]; rewrite N; reflexivity|].
  simpl. rewrite X, S. repeat split. f_equal. unfold row_strengths, link2. simpl. repeat (f_equal; try lra).
Qed.
Lemma d_clean_refuted : exists (g f : @dgraph nat) c g', d_construct Nat.leb Nat.eqb (ArrayAdj 2 link2) NoEdges NoSeq NoSeq = inl g /\
  d_accepted c /\ d_new Nat.leb Nat.eqb c = inl f /\ d_call Nat.leb Nat.eqb (fst (d_call Nat.leb Nat.eqb g CleanEdges)) c = (g', None) /\
  d_is_weighted f = false /\ d_out_strength f = None /\ d_is_weighted g' = true /\ d_out_strength g' = Some [2; 2] /\ d_dseq_out g' = Some [1; 0; 1].
Proof.
  destruct (d_weighted_flag Nat.leb Nat.eqb 2 link2 NoEdges NoSeq NoSeq ltac:(lia) link2_nonneg) as (g & E & _ & W & S & _).
  pose proof link2_excess as X. destruct (Req_EM_T (excess 2 link2) 0); [contradiction|]. apply W in X.
  assert (P : nonneg_list [1; 0; 1; 0; 1; 1]) by (intros r [<-|[<-|[<-|[<-|[<-|[<-|[]]]]]]]; lra).
  assert (N := proj2 (list_has_negative_spec [1; 0; 1; 0; 1; 1]) P).
  exists g. eexists. exists (SetDegrees (SeqArray [1; 0; 1; 0; 1; 1])). eexists.
  split; [exact E|]. split; [split; [discriminate|split; [exact P|exists 3%nat; reflexivity]]|].
  split; [unfold d_new, d_construct; cbn [d_initialize d_init_degrees]; rewrite N; reflexivity|].
  split; [cbn [d_call d_initialize d_init_degrees]; simpl d_is_initialized; cbn iota; cbn [d_initialize d_init_degrees]; rewrite N; reflexivity|].
  simpl. rewrite X, S. repeat split. f_equal. unfold row_strengths, link2. simpl. repeat (f_equal; try lra).
Qed.
(** Lists are documented for matrices and degrees; they always raise. *)
Lemma lists_raise (L : Type) (leb eqb : L -> L -> bool) n a v d s : v <> [] -> nonneg_list v ->
  u_construct leb eqb (ListAdj n a) NoEdges d s = inr AttributeError /\
  d_construct leb eqb (ListAdj n a) NoEdges d s = inr AttributeError /\
  u_construct leb eqb NoAdj NoEdges (SeqList v) s = inr AttributeError.
Proof.
  intros Hv P. split; [reflexivity|]. split; [reflexivity|]. destruct v as [|r v]; [contradiction Hv; reflexivity|].
  unfold u_construct. cbn [u_initialize u_init_degrees]. rewrite (proj2 (list_has_negative_spec _) P). reflexivity.
Qed.
(** A sparse matrix that is neither csr nor coo raises, and the matrix stays in the object:
    the next [set_edgelist] then leaves a matrix and an edge list of different networks. *)
Lemma other_sparse_refuted : exists (g : @ugraph nat) c1 c2 g1 g2, u_construct Nat.leb Nat.eqb NoAdj NoEdges NoSeq NoSeq = inl g /\
  u_call Nat.leb Nat.eqb g c1 = (g1, Some AttributeError) /\ u_call Nat.leb Nat.eqb g1 c2 = (g2, None) /\
  u_adjacency g2 = Some (2%nat, link2) /\ u_edgelist g2 <> None /\ u_n_nodes g2 = Some 3%nat /\ u_is_sparse g2 = true.
Proof.
  assert (N := proj2 (has_negative_spec 2 link2) link2_nonneg).
  eexists. exists (SetAdjacency (SparseAdj OtherKind 2 2 link2)), (SetEdgelist (PairEdges [(0, 1); (1, 2)]%nat)).
  eexists _, _. split; [reflexivity|].
  split; [simpl; unfold u_from_matrix; rewrite N; reflexivity|]. split; [reflexivity|]. simpl. repeat split; discriminate.
Qed.
(** DirectedGraph accepts degrees and strengths of different lengths. *)
Lemma d_lengths_refuted : exists v w (g : @dgraph nat), nonneg_list v /\ nonneg_list w /\
  d_construct Nat.leb Nat.eqb NoAdj NoEdges (SeqArray v) (SeqArray w) = inl g /\ d_is_initialized g = true /\
  d_n_nodes g = Some 1%nat /\ d_dseq_out g = Some [1; 1] /\ d_dseq_in g = Some [1; 1] /\ d_out_strength g = Some [3] /\ d_in_strength g = Some [3].
Proof.
  assert (P : nonneg_list [1; 1; 1; 1]) by (intros r [<-|[<-|[<-|[<-|[]]]]]; lra).
  assert (Q : nonneg_list [3; 3]) by (intros r [<-|[<-|[]]]; lra).
  exists [1; 1; 1; 1], [3; 3]. eexists. split; [exact P|]. split; [exact Q|].
  split; [unfold d_construct; cbn [d_initialize d_init_degrees]; rewrite (proj2 (list_has_negative_spec _) P); cbn [d_init_strengths Nat.modulo Nat.divmod length];
    cbn -[list_has_negative]; rewrite (proj2 (list_has_negative_spec _) Q); reflexivity|].
  simpl. repeat split.
Qed.

(** * Concrete histories *)
Lemma sample_history : current u_accepted
  [SetDegrees (SeqArray [-1]); SetAdjacency (ArrayAdj 2 link2); SetDegrees (SeqArray [1; 1]); CleanEdges; SetEdgelist (PairEdges [(5, 9); (9, 7)]%nat)]
  (Some (SetEdgelist (PairEdges [(5, 9); (9, 7)]%nat))).
Proof.
  apply (cur_new u_accepted [SetDegrees (SeqArray [-1]); SetAdjacency (ArrayAdj 2 link2); SetDegrees (SeqArray [1; 1]); CleanEdges]); [|discriminate].
  apply (cur_clean u_accepted [SetDegrees (SeqArray [-1]); SetAdjacency (ArrayAdj 2 link2); SetDegrees (SeqArray [1; 1])] (Some (SetAdjacency (ArrayAdj 2 link2)))).
  apply (cur_keep u_accepted [SetDegrees (SeqArray [-1]); SetAdjacency (ArrayAdj 2 link2)]); [|discriminate].
  apply (cur_new u_accepted [SetDegrees (SeqArray [-1])]).
  - apply (cur_rejected u_accepted []); [constructor|discriminate|]. intros [_ H]. specialize (H (-1) (or_introl eq_refl)). lra.
  - split; [lia|exact link2_nonneg].
Qed.
Lemma sample_history_d : current d_accepted
  [SetDegrees (SeqArray [1; 0; 1]); SetDegrees (SeqArray [1; 0; 0; 1])] (Some (@SetDegrees nat (SeqArray [1; 0; 0; 1]))).
Proof.
  apply (cur_new d_accepted [SetDegrees (SeqArray [1; 0; 1])]).
  - apply (cur_rejected d_accepted []); [constructor|discriminate|]. intros [_ [_ [m H]]]. simpl in H. lia.
  - split; [discriminate|]. split; [intros r [<-|[<-|[<-|[<-|[]]]]]; lra|exists 2%nat; reflexivity].
Qed.
Lemma sample_weighted : (0 < 2)%nat /\ nonneg_matrix 2 link2 /\ (forall i j, (i < 2)%nat -> (j < 2)%nat -> link2 i j = 0 \/ 1 <= link2 i j) /\ weighted_matrix 2 link2.
Proof.
  split; [lia|]. split; [exact link2_nonneg|]. split.
  - intros i j _ _. unfold link2. destruct i as [|[|i]], j as [|[|j]]; lra.
  - exists 0%nat, 1%nat. repeat split; try lia; unfold link2; lra.
Qed.
Lemma sample_invalid : @invalid nat (SetDegrees (SeqArray [1; -2])) (Some ValueError) /\ @invalid nat (SetAdjacency (ArrayAdj 1 (fun _ _ => -1))) (Some TypeError).
Proof.
  split; split; auto.
  - intros H. specialize (H (-2) ltac:(right; left; reflexivity)). lra.
  - intros H. specialize (H 0%nat 0%nat ltac:(lia) ltac:(lia)). simpl in H. lra.
Qed.
(** Labels 5, 7, 9 with weights. *)
Definition sample_list : list (nat * nat * R) := [(9%nat, 5%nat, 2); (5%nat, 7%nat, 1); (7%nat, 9%nat, 3)].
Lemma sample_triples : sample_list <> [] /\ simple_edges false (map fst sample_list) /\ simple_edges true (map fst sample_list) /\ forall e, In e sample_list -> 0 < snd e.
Proof.
  unfold sample_list. assert (N : NoDup [(9%nat, 5%nat); (5%nat, 7%nat); (7%nat, 9%nat)]) by (repeat constructor; simpl; intuition congruence).
  split; [discriminate|]. simpl map.
  split; [|split; [|intros e [<-|[<-|[<-|[]]]]; simpl; lra]];
    (split; [intros i [E|[E|[E|[]]]]; congruence|]); (split; [exact N|]); intros _ i j [E|[E|[E|[]]]] [F|[F|[F|[]]]]; congruence.
Qed.
