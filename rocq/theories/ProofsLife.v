(** Proofs about the life cycle of the graph objects. *)
From Coq Require Import Reals List Arith Bool Lia Lra.
From Verif Require Import Base ProofsList SpecGraph SpecNetwork ModelNetwork ProofsUnique ProofsNetwork ProofsAdjacency ModelLife SpecLife.
Import ListNotations.
Local Open Scope R_scope.

(** * Helpers *)
Lemma has_negative_spec n a : has_negative n a = false <-> nonneg_matrix n a.
Proof.
  unfold has_negative, nonneg_matrix. split.
  - intros H i j Hi Hj.
    destruct (Rle_dec 0 (a i j)) as [|N]; [assumption|exfalso].
    assert (E : existsb (fun i => existsb (fun j => negb_entry (a i j)) (seq 0 n)) (seq 0 n) = true).
    { apply existsb_exists. exists i. split; [apply in_seq; lia|]. apply existsb_exists. exists j.
      split; [apply in_seq; lia|]. unfold negb_entry. destruct (Rlt_dec (a i j) 0); [reflexivity|lra]. }
    congruence.
  - intros H. destruct (existsb _ _) eqn:E; [exfalso|reflexivity].
    apply existsb_exists in E. destruct E as [i [Hi E]]. apply existsb_exists in E. destruct E as [j [Hj E]].
    apply in_seq in Hi, Hj. unfold negb_entry in E. destruct (Rlt_dec (a i j) 0); [|discriminate].
    specialize (H i j ltac:(lia) ltac:(lia)). lra.
Qed.

Lemma list_has_negative_spec v : list_has_negative v = false <-> nonneg_list v.
Proof.
  unfold list_has_negative, nonneg_list. split.
  - intros H r Hr. destruct (Rle_dec 0 r) as [|N]; [assumption|exfalso].
    assert (E : existsb negb_entry v = true).
    { apply existsb_exists. exists r. split; [assumption|]. unfold negb_entry. destruct (Rlt_dec r 0); [reflexivity|lra]. }
    congruence.
  - intros H. destruct (existsb _ _) eqn:E; [exfalso|reflexivity].
    apply existsb_exists in E. destruct E as [r [Hr E]]. unfold negb_entry in E.
    destruct (Rlt_dec r 0); [|discriminate]. specialize (H r Hr). lra.
Qed.

Lemma to_array_length n f : length (to_array n f) = n.
Proof. unfold to_array. rewrite map_length, seq_length. reflexivity. Qed.

Lemma list_by_nth {A B} (nodes : list A) (l : list B) (f : A -> B) :
  length l = length nodes -> (forall i v, nth_error nodes i = Some v -> nth_error l i = Some (f v)) -> l = map f nodes.
Proof.
  revert l. induction nodes as [|v nodes IH]; intros [|b l] H E; try discriminate; [reflexivity|].
  simpl. pose proof (E 0%nat v eq_refl) as E0. simpl in E0. injection E0 as ->. f_equal.
  apply IH; [simpl in H; lia|]. intros i w Hi. exact (E (S i) w Hi).
Qed.

Lemma map_INR_by_nth {A} (nodes : list A) (l : list nat) (f : A -> nat) :
  length l = length nodes -> (forall i v, nth_error nodes i = Some v -> nth_error l i = Some (f v)) ->
  map INR l = map (fun v => INR (f v)) nodes.
Proof. intros H E. rewrite (list_by_nth nodes l f H E), map_map. reflexivity. Qed.

Lemma list_total_total v : list_total v = total v.
Proof. induction v as [|r v IH]; simpl; [reflexivity|]. unfold list_total in *. simpl. rewrite IH. reflexivity. Qed.

Lemma to_array_degrees n a d : (forall i, d i = count (fun j => positiveb (a i j)) (seq 0 n)) ->
  to_array n (fun i => INR (d i)) = row_degrees n a.
Proof. intros H. unfold to_array, row_degrees. apply map_ext. intros i. rewrite H. reflexivity. Qed.
Lemma to_array_in_degrees n (a : matrix) d : (forall j, d j = count (fun i => positiveb (a i j)) (seq 0 n)) ->
  to_array n (fun i => INR (d i)) = col_degrees n a.
Proof. intros H. unfold to_array, col_degrees. apply map_ext. intros i. rewrite H. reflexivity. Qed.
Lemma to_array_strengths n (a : matrix) s : (forall i, s i = rsum n (fun j => a i j)) -> to_array n s = row_strengths n a.
Proof. intros H. unfold to_array, row_strengths. apply map_ext. intros i. apply H. Qed.
Lemma to_array_in_strengths n (a : matrix) s : (forall j, s j = rsum n (fun i => a i j)) -> to_array n s = col_strengths n a.
Proof. intros H. unfold to_array, col_strengths. apply map_ext. intros i. apply H. Qed.

Lemma row_degrees_length n a : length (row_degrees n a) = n.
Proof. unfold row_degrees. rewrite map_length, seq_length. reflexivity. Qed.

Lemma sum_test n a : {total_sum n a = INR (total_positive n a)} + {total_sum n a <> INR (total_positive n a)}.
Proof. apply Req_EM_T. Qed.

(** * Undirected *)
Section Und.
  Context {L : Type}.
  Variables (leb eqb : L -> L -> bool).
  Hypothesis Ho : total_order leb eqb.
  Local Notation call := (@call L).
  Local Notation u_new := (u_new leb eqb).

  Lemma u_set_initialised g (c : call) : u_is_initialized g = true -> c <> CleanEdges -> u_call leb eqb g c = (g, None).
  Proof. intros H N. destruct c; simpl; try rewrite H; try reflexivity. contradiction N; reflexivity. Qed.

  Lemma u_from_matrix_ok g k sparse n a : k <> OtherKind -> nonneg_matrix n a ->
    exists g', @u_from_matrix L g k sparse n a = (g', None) /\ u_is_initialized g' = true /\
      u_n_nodes g' = Some n /\ u_dseq g' = Some (row_degrees n a) /\
      u_n_edges g' = Some (total (row_degrees n a) / 2) /\ u_adjacency g' = Some (n, a) /\ u_edgelist g' = u_edgelist g /\
      u_is_sparse g' = (sparse || u_is_sparse g)%bool /\
      (total_sum n a <> INR (total_positive n a) -> u_is_weighted g' = true /\ u_strength g' = Some (row_strengths n a)) /\
      (total_sum n a = INR (total_positive n a) -> u_is_weighted g' = u_is_weighted g /\ u_strength g' = u_strength g).
  Proof.
    intros Hk Hn. destruct (sequences_meaning k n a Hk) as (_ & _ & (d & Ed & Hd) & _ & _ & (s & Es & Hs)).
    unfold u_from_matrix. rewrite (proj2 (has_negative_spec n a) Hn), Ed, Es.
    assert (Esp : (if sparse then true else u_is_sparse g) = (sparse || u_is_sparse g)%bool) by (destruct sparse; reflexivity).
    destruct (Req_EM_T (total_sum n a) (INR (total_positive n a))) as [E|E]; eexists; (split; [reflexivity|]); simpl;
      rewrite (to_array_degrees n a d Hd), list_total_total, row_degrees_length; repeat split; auto; try contradiction;
      intros; try contradiction; try (rewrite (to_array_strengths n a s Hs)); repeat split; auto; contradiction.
  Qed.

  Lemma u_accept g (c : call) : u_is_initialized g = false -> u_accepted c ->
    exists g' d, u_call leb eqb g c = (g', None) /\ u_is_initialized g' = true /\ u_describes leb eqb c d /\
      u_n_nodes g' = Some (length d) /\ u_dseq g' = Some d /\ u_n_edges g' = Some (total d / 2).
  Proof.
    intros Hi Ha. destruct c as [a|e|s|]; [| | |contradiction].
    - destruct a as [|n a|k stored n a|n a|]; try contradiction.
      + destruct Ha as [Hn Ha]. destruct (u_from_matrix_ok g Ndarray false n a ltac:(discriminate) Ha) as (g' & E & I & N & D & M & _).
        exists g', (row_degrees n a). simpl. rewrite Hi. destruct n as [|n]; [lia|]. change (0 <? S n * S n)%nat with true.
        rewrite row_degrees_length. rewrite E. repeat split; auto.
      + destruct Ha as [Hk [Hs Ha]]. destruct (u_from_matrix_ok g k true n a Hk Ha) as (g' & E & I & N & D & M & _).
        exists g', (row_degrees n a). simpl. rewrite Hi, (proj2 (Nat.ltb_lt 0 stored) Hs).
        rewrite row_degrees_length. rewrite E. repeat split; auto.
    - destruct e as [|es|es| |]; try contradiction.
      + simpl in Ha. destruct (edgelist_undirected_closed L leb eqb es Ho Ha) as (es' & deg & nodes & E & In_ & Hn & _ & _ & Hl & Hd & _).
        simpl. rewrite Hi. destruct es as [|e0 es]; [contradiction Ha; reflexivity|].
        cbn [u_initialize u_init_edges]. rewrite E.
        eexists. exists (map (fun v => INR (incidences eqb v (e0 :: es))) nodes). split; [reflexivity|].
        rewrite <- (map_INR_by_nth nodes deg (fun v => incidences eqb v (e0 :: es)) Hl Hd).
        simpl. rewrite list_total_total. split; [reflexivity|]. split; [|repeat split; reflexivity].
        exists nodes. split; [assumption|]. split; [assumption|].
        exact (map_INR_by_nth nodes deg (fun v => incidences eqb v (e0 :: es)) Hl Hd).
      + simpl in Ha. destruct (edgelist_undirected_w_closed L leb eqb es Ho Ha) as (es' & deg & st & nodes & E & In_ & Hn & _ & _ & _ & Hl & _ & Hd & _).
        simpl. rewrite Hi. destruct es as [|e0 es]; [contradiction Ha; reflexivity|].
        cbn [u_initialize u_init_edges]. rewrite E.
        pose proof (map_INR_by_nth nodes deg (fun v => incidences eqb v (map fst (e0 :: es))) Hl (fun i v H => proj1 (Hd i v H))) as Em.
        eexists. exists (map INR deg). split; [reflexivity|]. simpl. rewrite list_total_total. split; [reflexivity|].
        split; [|repeat split; reflexivity]. exists nodes. split; [assumption|]. split; [assumption|]. exact Em.
    - destruct s as [|v|v| |]; try contradiction. destruct Ha as [Hv Hp].
      simpl. rewrite Hi. destruct v as [|r v]; [contradiction Hv; reflexivity|].
      rewrite (proj2 (list_has_negative_spec _) Hp). eexists. exists (r :: v). split; [reflexivity|]. simpl.
      repeat split; auto.
  Qed.

  Lemma u_from_matrix_err g k sparse n a g' ex : @u_from_matrix L g k sparse n a = (g', Some ex) -> u_is_initialized g' = u_is_initialized g.
  Proof.
    unfold u_from_matrix. destruct (has_negative n a); [intros [= <- _]; reflexivity|].
    destruct (degree k n a) as [d|]; [|intros [= <- _]; reflexivity].
    destruct (Req_EM_T _ _); [discriminate|]. destruct (strength k n a); [discriminate|]. intros [= <- _]; reflexivity.
  Qed.

  (** A call that raises leaves the object uninitialised. *)
  Lemma u_raise g (c : call) g' ex : u_call leb eqb g c = (g', Some ex) -> u_is_initialized g' = false.
  Proof.
    destruct (u_is_initialized g) eqn:Hi.
    - destruct c; simpl; rewrite ?Hi; discriminate.
    - destruct c as [a|e|s|]; cbn [u_call]; rewrite ?Hi; [| | |discriminate].
      + destruct a as [|n a|k stored n a|n a|]; cbn [u_initialize u_init_strengths u_init_adjacency]; try (intros [= <- _]; assumption); try discriminate.
        * destruct (0 <? n * n)%nat; [|discriminate]. intros H. rewrite (u_from_matrix_err _ _ _ _ _ _ _ H). assumption.
        * destruct (0 <? stored)%nat; [|discriminate]. intros H. rewrite (u_from_matrix_err _ _ _ _ _ _ _ H). assumption.
      + destruct e as [|[|e es]|[|e es]| |]; cbn [u_initialize u_init_strengths u_init_edges]; try (intros [= <- _]; assumption); try discriminate.
        * destruct (edgelist_from_edgelist_undirected leb eqb (e :: es)) as [[[? ?] ?]|]; [discriminate|]. intros [= <- _]; assumption.
        * destruct (edgelist_from_edgelist_undirected_w leb eqb (e :: es)) as [[[[? ?] ?] ?]|]; [discriminate|]. intros [= <- _]; assumption.
      + destruct s as [|[|r v]|[|r v]| |]; cbn [u_initialize u_init_degrees u_init_strengths u_init_strengths_with];
          try (intros [= <- _]; assumption); try discriminate.
        * destruct (list_has_negative (r :: v)); [intros [= <- _]; assumption|discriminate].
        * destruct (list_has_negative (r :: v)); intros [= <- _]; assumption.
  Qed.

  Lemma u_not_accepted g (c : call) : u_is_initialized g = false -> c <> CleanEdges -> ~ u_accepted c ->
    u_is_initialized (fst (u_call leb eqb g c)) = false.
  Proof.
    intros Hi Hc Ha. destruct (u_call leb eqb g c) as [g' [ex|]] eqn:E; [exact (u_raise g c g' ex E)|].
    cbn [fst]. destruct c as [a|e|s|]; [| | |contradiction Hc; reflexivity].
    - destruct a as [|n a|k stored n a|n a|]; simpl in E; rewrite Hi in E; try (injection E as <-; assumption); try discriminate.
      + destruct n as [|n]; [injection E as <-; assumption|]. change (0 <? S n * S n)%nat with true in E. simpl in Ha.
        destruct (has_negative (S n) a) eqn:Hn; [unfold u_from_matrix in E; rewrite Hn in E; discriminate|].
        exfalso. apply Ha. split; [lia|]. apply has_negative_spec. assumption.
      + destruct (0 <? stored)%nat eqn:Hs; [|injection E as <-; assumption]. simpl in Ha. apply Nat.ltb_lt in Hs.
        unfold u_from_matrix in E. destruct (has_negative n a) eqn:Hn; [discriminate|]. apply has_negative_spec in Hn.
        destruct k; try discriminate E; exfalso; apply Ha; repeat split; auto; intros ?; discriminate.
    - destruct e as [|[|e es]|[|e es]| |]; simpl in E; rewrite Hi in E; try (injection E as <-; assumption); try discriminate;
        exfalso; apply Ha; simpl; discriminate.
    - destruct s as [|[|r v]|[|r v]| |]; cbn [u_call] in E; rewrite Hi in E; try (injection E as <-; assumption); try discriminate;
        cbn [u_initialize u_init_degrees] in E; destruct (list_has_negative (r :: v)) eqn:Hn; try discriminate.
      exfalso. apply Ha. split; [discriminate|]. apply list_has_negative_spec. assumption.
  Qed.

  (** Invalid arguments raise the exception announced. *)
  Lemma u_invalid g (c : call) ex : u_is_initialized g = false -> invalid c ex -> snd (u_call leb eqb g c) = ex.
  Proof.
    intros Hi H. destruct c as [a|e|s|]; [| | |contradiction].
    - destruct a as [|n a|k stored n a|n a|]; simpl in *; rewrite Hi; try contradiction; simpl.
      + destruct H as [H ->]. destruct (has_negative n a) eqn:Hn; [|contradiction H; apply has_negative_spec; assumption].
        destruct n as [|n]; [discriminate|]. change (0 <? S n * S n)%nat with true. unfold u_from_matrix. rewrite Hn. reflexivity.
      + destruct H as [Hs [H ->]]. destruct (has_negative n a) eqn:Hn; [|contradiction H; apply has_negative_spec; assumption].
        rewrite (proj2 (Nat.ltb_lt 0 stored) Hs). unfold u_from_matrix. rewrite Hn. reflexivity.
      + symmetry; assumption.
    - destruct e; simpl in *; rewrite Hi; try contradiction; symmetry; assumption.
    - destruct s as [|v|v| |]; cbn [u_call invalid u_initialize u_init_degrees] in *; rewrite Hi; try contradiction; try (symmetry; assumption);
        destruct H as [H ->]; (destruct (list_has_negative v) eqn:Hn; [|contradiction H; apply list_has_negative_spec; assumption]);
        (destruct v as [|r v]; [discriminate Hn|]); reflexivity.
  Qed.

  Lemma u_calls_snoc g cs (c : call) : u_calls leb eqb g (cs ++ [c]) = fst (u_call leb eqb (u_calls leb eqb g cs) c).
  Proof. unfold u_calls. rewrite fold_left_app. reflexivity. Qed.

  Lemma u_history g cs o : u_is_initialized g = false -> current u_accepted cs o ->
    match o with
    | None => u_is_initialized (u_calls leb eqb g cs) = false
    | Some c => u_is_initialized (u_calls leb eqb g cs) = true /\ exists d, u_describes leb eqb c d /\
        u_n_nodes (u_calls leb eqb g cs) = Some (length d) /\ u_dseq (u_calls leb eqb g cs) = Some d /\
        u_n_edges (u_calls leb eqb g cs) = Some (total d / 2)
    end.
  Proof.
    intros Hi H. induction H as [|cs o H IH|cs c c' H IH Hc|cs c H IH Ha|cs c H IH Hc Ha]; rewrite ?u_calls_snoc.
    - exact Hi.
    - reflexivity.
    - destruct IH as [I IH]. rewrite (u_set_initialised _ c' I Hc). split; assumption.
    - destruct (u_accept _ c IH Ha) as (g' & d & E & I & D & N & Q & M). rewrite E. split; [assumption|]. exists d. auto.
    - apply u_not_accepted; assumption.
  Qed.


  Lemma u_reinstall g (c : call) f : u_accepted c -> u_new c = inl f ->
    exists g', u_call leb eqb (fst (u_call leb eqb g CleanEdges)) c = (g', None) /\
      u_is_initialized g' = u_is_initialized f /\ u_n_nodes g' = u_n_nodes f /\ u_n_edges g' = u_n_edges f /\
      u_dseq g' = u_dseq f /\ u_adjacency g' = u_adjacency f /\ u_edgelist g' = u_edgelist f /\
      (u_is_weighted f = true -> u_is_weighted g' = true /\ u_strength g' = u_strength f).
  Proof.
    intros Ha Hf. unfold SpecLife.u_new in Hf. destruct c as [a|e|s|]; [| | |contradiction].
    - destruct a as [|n a|k stored n a|n a|]; try contradiction.
      + destruct Ha as [Hn Ha]. destruct n as [|n]; [lia|]. simpl in Hf. unfold u_construct in Hf.
        cbn [u_initialize u_init_adjacency] in Hf. change (0 <? S n * S n)%nat with true in Hf. cbn iota in Hf.
        set (g0 := fst (u_call leb eqb g CleanEdges)).
        destruct (u_from_matrix_ok g0 Ndarray false (S n) a ltac:(discriminate) Ha) as (g' & E & I & N & D & M & A & Eg & _ & Hw & _).
        destruct (u_from_matrix_ok u_blank Ndarray false (S n) a ltac:(discriminate) Ha) as (f' & E' & I' & N' & D' & M' & A' & Eg' & _ & Hw' & Hu').
        rewrite E' in Hf. injection Hf as <-. exists g'. split.
        { change (u_from_matrix g0 Ndarray false (S n) a = (g', None)). exact E. }
        simpl. rewrite I, I', N, N', D, D', M, M', A, A', Eg, Eg'. do 6 (split; [reflexivity|]).
        intros W. destruct (sum_test (S n) a) as [T|T]; [rewrite (proj1 (Hu' T)) in W; discriminate|].
        split; [apply Hw; assumption|]. rewrite (proj2 (Hw T)), (proj2 (Hw' T)). reflexivity.
      + destruct Ha as [Hk [Hs Ha]]. simpl in Hf. unfold u_construct in Hf.
        cbn [u_initialize u_init_adjacency] in Hf. rewrite (proj2 (Nat.ltb_lt 0 stored) Hs) in Hf.
        set (g0 := fst (u_call leb eqb g CleanEdges)).
        destruct (u_from_matrix_ok g0 k true n a Hk Ha) as (g' & E & I & N & D & M & A & Eg & _ & Hw & _).
        destruct (u_from_matrix_ok u_blank k true n a Hk Ha) as (f' & E' & I' & N' & D' & M' & A' & Eg' & _ & Hw' & Hu').
        rewrite E' in Hf. injection Hf as <-. exists g'. split.
        { cbn [u_call u_initialize u_init_adjacency]. change (u_is_initialized g0) with false. cbn iota.
          rewrite (proj2 (Nat.ltb_lt 0 stored) Hs). exact E. }
        simpl. rewrite I, I', N, N', D, D', M, M', A, A', Eg, Eg'. do 6 (split; [reflexivity|]).
        intros W. destruct (sum_test n a) as [T|T]; [rewrite (proj1 (Hu' T)) in W; discriminate|].
        split; [apply Hw; assumption|]. rewrite (proj2 (Hw T)), (proj2 (Hw' T)). reflexivity.
    - destruct e as [|es|es| |]; try contradiction.
      + destruct es as [|e0 es]; [contradiction Ha; reflexivity|].
        unfold u_construct in Hf. cbn [u_call u_initialize u_init_edges] in Hf |- *.
        destruct (edgelist_from_edgelist_undirected leb eqb (e0 :: es)) as [[[es' deg] nodes]|]; [|discriminate].
        injection Hf as <-. eexists. split; [reflexivity|]. simpl. repeat split; discriminate.
      + destruct es as [|e0 es]; [contradiction Ha; reflexivity|].
        unfold u_construct in Hf. cbn [u_call u_initialize u_init_edges] in Hf |- *.
        destruct (edgelist_from_edgelist_undirected_w leb eqb (e0 :: es)) as [[[[es' deg] st] nodes]|]; [|discriminate].
        injection Hf as <-. eexists. split; [reflexivity|]. simpl. repeat split; discriminate.
    - destruct s as [|v|v| |]; try contradiction. destruct Ha as [Hv Hp]. destruct v as [|r v]; [contradiction Hv; reflexivity|].
      unfold u_construct in Hf. cbn [u_call u_initialize u_init_degrees] in Hf |- *.
      rewrite (proj2 (list_has_negative_spec _) Hp) in Hf |- *.
      injection Hf as <-. eexists. split; [reflexivity|]. simpl. repeat split; discriminate.
  Qed.

  (** * Constructor *)
  Lemma u_precedence adj e d s e' d' s' : adj <> NoAdj -> u_construct leb eqb adj e d s = u_construct leb eqb adj e' d' s'.
  Proof. intros H. unfold u_construct. destruct adj; [contradiction H; reflexivity| | | |]; reflexivity. Qed.
  Lemma u_precedence_edges e d s d' s' : e <> NoEdges -> u_construct leb eqb NoAdj e d s = u_construct leb eqb NoAdj e d' s'.
  Proof. intros H. unfold u_construct. destruct e; [contradiction H; reflexivity| | | |]; reflexivity. Qed.

  Lemma u_sequences v w : v <> [] -> w <> [] -> nonneg_list v -> nonneg_list w ->
    if Nat.eqb (length v) (length w) then
      exists g, u_construct leb eqb NoAdj NoEdges (SeqArray v) (SeqArray w) = inl g /\ u_is_initialized g = true /\
        u_is_weighted g = true /\ u_n_nodes g = Some (length v) /\ u_n_edges g = Some (total v / 2) /\
        u_dseq g = Some v /\ u_strength g = Some w
    else u_construct leb eqb NoAdj NoEdges (SeqArray v) (SeqArray w) = inr ValueError.
  Proof.
    intros Hv Hw Pv Pw. destruct v as [|r v]; [contradiction Hv; reflexivity|]. destruct w as [|t w]; [contradiction Hw; reflexivity|].
    unfold u_construct. cbn [u_initialize u_init_degrees]. rewrite (proj2 (list_has_negative_spec _) Pv).
    cbn [u_init_strengths_with]. rewrite (proj2 (list_has_negative_spec _) Pw).
    destruct (Nat.eqb (length (r :: v)) (length (t :: w))) eqn:E.
    - apply Nat.eqb_eq in E. rewrite E, Nat.eqb_refl. eexists. split; [reflexivity|]. repeat split; auto.
    - rewrite Nat.eqb_sym, E. reflexivity.
  Qed.
  Lemma u_constructed_invalid (c : call) ex : invalid c (Some ex) -> u_new c = inr ex.
  Proof.
    intros H. pose proof (u_invalid u_blank c (Some ex) eq_refl H) as E. unfold SpecLife.u_new, u_construct.
    destruct c as [a|e|s|]; [| | |contradiction]; cbn [u_call] in E; change (u_is_initialized (@u_blank L)) with false in E; cbn iota in E;
      destruct (u_initialize leb eqb u_blank _ _ _ _) as [g o]; simpl in E; subst o; reflexivity.
  Qed.
End Und.

(** * Weighted or not *)
Lemma total_sum_positive n (a : matrix) : nonneg_matrix n a ->
  total_sum n a - INR (total_positive n a) = rsum n (fun i => rsum n (fun j => if Req_EM_T (a i j) 0 then 0 else a i j - 1)).
Proof.
  intros H. unfold total_sum, total_positive. rewrite np_sum_rsum.
  assert (E : forall m, (m <= n)%nat -> INR (loop m 0%nat (fun i s => (s + count_positive n (a i))%nat)) =
    rsum m (fun i => rsum n (fun j => if Req_EM_T (a i j) 0 then 0 else 1))).
  { induction m as [|m IH]; intros Hm; [reflexivity|]. rewrite loop_S, plus_INR, IH by lia. simpl. f_equal.
    rewrite count_positive_nsum. assert (Q : forall q, (q <= n)%nat -> INR (nsum q (fun j => if positiveb (a m j) then 1%nat else 0%nat)) =
      rsum q (fun j => if Req_EM_T (a m j) 0 then 0 else 1)).
    { induction q as [|q IQ]; intros Hq; [reflexivity|]. simpl. rewrite plus_INR, IQ by lia. f_equal.
      unfold positiveb. specialize (H m q ltac:(lia) ltac:(lia)). destruct (Rlt_dec 0 (a m q)), (Req_EM_T (a m q) 0); simpl; lra. }
    apply Q; lia. }
  rewrite E by lia. rewrite <- rsum_minus. apply rsum_ext. intros i Hi. rewrite np_sum_rsum, <- rsum_minus.
  apply rsum_ext. intros j Hj. destruct (Req_EM_T (a i j) 0); lra.
Qed.


Lemma test_excess n a : nonneg_matrix n a -> (total_sum n a = INR (total_positive n a) <-> excess n a = 0).
Proof. intros H. pose proof (total_sum_positive n a H) as E. fold (excess n a) in E. split; intros; lra. Qed.

Lemma excess_binary n a : binary_matrix n a -> excess n a = 0.
Proof.
  intros H. unfold excess. apply rsum_zero. intros i Hi. apply rsum_zero. intros j Hj.
  destruct (Req_EM_T (a i j) 0); [reflexivity|]. destruct (H i j Hi Hj); lra.
Qed.

Lemma rsum2_zero n (f : nat -> nat -> R) : (forall i j, (i < n)%nat -> (j < n)%nat -> 0 <= f i j) ->
  rsum n (fun i => rsum n (f i)) = 0 -> forall i j, (i < n)%nat -> (j < n)%nat -> f i j = 0.
Proof.
  intros H E i j Hi Hj.
  assert (R1 : forall q, (q < n)%nat -> rsum n (f q) = 0).
  { apply (rsum_nonneg_zero n (fun i => rsum n (f i))); [|assumption]. intros q Hq. apply rsum_nonneg. intros; apply H; assumption. }
  exact (rsum_nonneg_zero n (f i) (fun q Hq => H i q Hi Hq) (R1 i Hi) j Hj).
Qed.

(** Entries are zero or at least one: integer weights in particular. *)
Lemma excess_integer n a : (forall i j, (i < n)%nat -> (j < n)%nat -> a i j = 0 \/ 1 <= a i j) ->
  (excess n a = 0 <-> ~ weighted_matrix n a).
Proof.
  intros H. split.
  - intros E (i & j & Hi & Hj & N0 & N1).
    pose proof (rsum2_zero n (fun i j => if Req_EM_T (a i j) 0 then 0 else a i j - 1)
      ltac:(intros p q Hp Hq; simpl; destruct (Req_EM_T (a p q) 0); [lra|]; destruct (H p q Hp Hq); lra) E i j Hi Hj) as Q.
    simpl in Q. destruct (Req_EM_T (a i j) 0); [contradiction|]. apply N1. lra.
  - intros W. apply excess_binary. intros i j Hi Hj. destruct (Req_EM_T (a i j) 0) as [Z|Z]; [left; exact Z|].
    destruct (Req_EM_T (a i j) 1) as [O|O]; [right; exact O|]. contradiction W. exists i, j. auto.
Qed.
(** Entries at most one: probabilities. *)
Lemma excess_fraction n a : (forall i j, (i < n)%nat -> (j < n)%nat -> a i j <= 1) ->
  (excess n a = 0 <-> ~ weighted_matrix n a).
Proof.
  intros H. split.
  - intros E (i & j & Hi & Hj & N0 & N1).
    pose proof (rsum2_zero n (fun i j => if Req_EM_T (a i j) 0 then 0 else 1 - a i j)
      ltac:(intros p q Hp Hq; simpl; destruct (Req_EM_T (a p q) 0); [lra|]; specialize (H p q Hp Hq); lra)) as Q.
    assert (E' : rsum n (fun i => rsum n (fun j => if Req_EM_T (a i j) 0 then 0 else 1 - a i j)) = 0).
    { transitivity (- excess n a); [|lra]. unfold excess. rewrite <- rsum_opp. apply rsum_ext. intros p _. rewrite <- rsum_opp.
      apply rsum_ext. intros q _. destruct (Req_EM_T (a p q) 0); lra. }
    specialize (Q E' i j Hi Hj). simpl in Q. destruct (Req_EM_T (a i j) 0); [contradiction|]. apply N1. lra.
  - intros W. apply excess_binary. intros i j Hi Hj. destruct (Req_EM_T (a i j) 0) as [Z|Z]; [left; exact Z|].
    destruct (Req_EM_T (a i j) 1) as [O|O]; [right; exact O|]. contradiction W. exists i, j. auto.
Qed.

Section Weighted.
  Context {L : Type}.
  Variables (leb eqb : L -> L -> bool).
  Lemma u_weighted_flag n a e d s : (0 < n)%nat -> nonneg_matrix n a ->
    exists g, u_construct leb eqb (ArrayAdj n a) e d s = inl g /\ u_is_initialized g = true /\
      (u_is_weighted g = true <-> excess n a <> 0) /\
      (u_strength g = if Req_EM_T (excess n a) 0 then None else Some (row_strengths n a)).
  Proof.
    intros Hn H. destruct (u_from_matrix_ok (@u_blank L) Ndarray false n a ltac:(discriminate) H) as (g & E & I & _ & _ & _ & _ & _ & _ & W & U).
    unfold u_construct. cbn [u_initialize u_init_adjacency]. destruct n as [|n]; [lia|]. change (0 <? S n * S n)%nat with true. cbn iota.
    rewrite E. eexists. split; [reflexivity|]. simpl. split; [exact I|]. pose proof (test_excess (S n) a H) as T.
    destruct (sum_test (S n) a) as [Z|Z].
    - destruct (U Z) as [-> ->]. simpl. split; [split; [discriminate|intros N; elim N; apply T; exact Z]|].
      destruct (Req_EM_T (excess (S n) a) 0) as [|N]; [reflexivity|]. elim N. apply T. exact Z.
    - destruct (W Z) as [-> ->]. split; [split; [intros _ Q; apply Z, T; exact Q|reflexivity]|].
      destruct (Req_EM_T (excess (S n) a) 0) as [Q|]; [|reflexivity]. elim Z. apply T. exact Q.
  Qed.
End Weighted.
