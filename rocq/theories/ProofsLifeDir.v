(** Life cycle of DirectedGraph. *)
From Coq Require Import Reals List Arith Bool Lia Lra.
From Verif Require Import Base ProofsList SpecGraph SpecNetwork ModelNetwork ProofsUnique ProofsNetwork ProofsAdjacency ModelLife SpecLife ProofsLife.
Import ListNotations.
Local Open Scope R_scope.

Lemma even_half {A} (v : list A) : Nat.Even (length v) -> (length v mod 2 = 0)%nat /\ length (firstn (length v / 2) v) = length (skipn (length v / 2) v) /\
  length (firstn (length v / 2) v) = (length v / 2)%nat.
Proof.
  intros [m Hm]. assert (E : (length v / 2 = m)%nat) by (rewrite Hm, Nat.mul_comm; apply Nat.div_mul; lia).
  rewrite E. split; [rewrite Hm, Nat.mul_comm; apply Nat.mod_mul; lia|].
  rewrite firstn_length, skipn_length. lia.
Qed.
Lemma odd_half {A} (v : list A) : (length v mod 2 = 0)%nat -> Nat.Even (length v).
Proof. intros H. exists (length v / 2)%nat. apply Nat.div_exact in H; lia. Qed.

Section Dir.
  Context {L : Type}.
  Variables (leb eqb : L -> L -> bool).
  Hypothesis Ho : total_order leb eqb.
  Local Notation call := (@call L).
  Local Notation d_new := (d_new leb eqb).

  Lemma d_set_initialised g (c : call) : d_is_initialized g = true -> c <> CleanEdges -> d_call leb eqb g c = (g, None).
  Proof. intros H N. destruct c; simpl; try rewrite H; try reflexivity. contradiction N; reflexivity. Qed.

  Lemma d_from_matrix_ok g k sparse n a : k <> OtherKind -> nonneg_matrix n a ->
    exists g', @d_from_matrix L g k sparse n a = (g', None) /\ d_is_initialized g' = true /\
      d_n_nodes g' = Some n /\ d_dseq_out g' = Some (row_degrees n a) /\ d_dseq_in g' = Some (col_degrees n a) /\
      d_n_edges g' = Some (total (row_degrees n a)) /\ d_adjacency g' = Some (n, a) /\ d_edgelist g' = d_edgelist g /\
      (total_sum n a <> INR (total_positive n a) -> d_is_weighted g' = true /\ d_out_strength g' = Some (row_strengths n a) /\
         d_in_strength g' = Some (col_strengths n a) /\ d_nz_sout g' = Some (nonzero_reals (row_strengths n a)) /\
         d_nz_sin g' = Some (nonzero_reals (col_strengths n a))) /\
      (total_sum n a = INR (total_positive n a) -> d_is_weighted g' = d_is_weighted g /\ d_out_strength g' = d_out_strength g /\
         d_in_strength g' = d_in_strength g).
  Proof.
    intros Hk Hn. destruct (sequences_meaning k n a Hk) as ((ko & Eo & Hko) & (ki & Ei & Hki) & _ & (so & Es & Hso) & (si & Et & Hsi) & _).
    unfold d_from_matrix. rewrite (proj2 (has_negative_spec n a) Hn), Eo, Ei, Es, Et.
    destruct (Req_EM_T (total_sum n a) (INR (total_positive n a))) as [E|E]; eexists; (split; [reflexivity|]); simpl;
      rewrite (to_array_degrees n a ko Hko), (to_array_in_degrees n a ki Hki), list_total_total, row_degrees_length; repeat split; auto; try contradiction;
      intros; try contradiction; try (rewrite (to_array_strengths n a so Hso)); try (rewrite (to_array_in_strengths n a si Hsi)); repeat split; auto; contradiction.
  Qed.

  Lemma d_accept g (c : call) : d_is_initialized g = false -> d_accepted c ->
    exists g' o i, d_call leb eqb g c = (g', None) /\ d_is_initialized g' = true /\ d_describes leb eqb c o i /\
      d_n_nodes g' = Some (length o) /\ d_dseq_out g' = Some o /\ d_dseq_in g' = Some i /\ d_n_edges g' = Some (total o).
  Proof.
    intros Hi Ha. destruct c as [a|e|s|]; [| | |contradiction].
    - destruct a as [|n a|k stored n a|n a|]; try contradiction.
      + destruct Ha as [Hn Ha]. destruct (d_from_matrix_ok g Ndarray false n a ltac:(discriminate) Ha) as (g' & E & I & N & D & D' & M & _).
        exists g', (row_degrees n a), (col_degrees n a). simpl. rewrite Hi. destruct n as [|n]; [lia|]. change (0 <? S n * S n)%nat with true.
        rewrite row_degrees_length, E. repeat split; auto.
      + destruct Ha as [Hk [Hs Ha]]. destruct (d_from_matrix_ok g k true n a Hk Ha) as (g' & E & I & N & D & D' & M & _).
        exists g', (row_degrees n a), (col_degrees n a). simpl. rewrite Hi, (proj2 (Nat.ltb_lt 0 stored) Hs).
        rewrite row_degrees_length, E. repeat split; auto.
    - destruct e as [|es|es| |]; try contradiction.
      + simpl in Ha. destruct (edgelist_directed_closed L leb eqb es Ho Ha) as (es' & dout & din & nodes & E & In_ & Hn & _ & _ & Hl & Hl' & Hd & _).
        simpl. rewrite Hi. destruct es as [|e0 es]; [contradiction Ha; reflexivity|].
        cbn [d_initialize d_init_edges]. rewrite E.
        eexists. exists (map INR dout), (map INR din). split; [reflexivity|]. simpl. rewrite list_total_total. split; [reflexivity|].
        split; [|repeat split; reflexivity].
        exists nodes. split; [assumption|]. split; [assumption|]. split.
        * exact (map_INR_by_nth nodes dout (fun v => count (fun e => eqb (fst e) v) (e0 :: es)) Hl (fun i v H => proj1 (Hd i v H))).
        * exact (map_INR_by_nth nodes din (fun v => count (fun e => eqb (snd e) v) (e0 :: es)) Hl' (fun i v H => proj2 (Hd i v H))).
      + simpl in Ha. destruct (edgelist_directed_w_closed L leb eqb es Ho Ha) as (es' & dout & din & so & si & nodes & E & In_ & Hn & _ & _ & _ & Hl & Hl' & _ & _ & Hd & _).
        simpl. rewrite Hi. destruct es as [|e0 es]; [contradiction Ha; reflexivity|].
        cbn [d_initialize d_init_edges]. rewrite E.
        eexists. exists (map INR dout), (map INR din). split; [reflexivity|]. simpl. rewrite list_total_total. split; [reflexivity|].
        split; [|repeat split; reflexivity].
        exists nodes. split; [assumption|]. split; [assumption|]. split.
        * exact (map_INR_by_nth nodes dout (fun v => count (fun e => eqb (fst (fst e)) v) (e0 :: es)) Hl (fun i v H => proj1 (Hd i v H))).
        * exact (map_INR_by_nth nodes din (fun v => count (fun e => eqb (snd (fst e)) v) (e0 :: es)) Hl' (fun i v H => proj1 (proj2 (Hd i v H)))).
    - assert (Q : forall v w, w = SeqArray v \/ w = SeqList v -> v <> [] -> nonneg_list v -> Nat.Even (length v) ->
        exists g' o i, d_init_degrees g w NoSeq = (g', None) /\
          d_is_initialized g' = true /\ (length o = length i /\ v = o ++ i) /\
          d_n_nodes g' = Some (length o) /\ d_dseq_out g' = Some o /\ d_dseq_in g' = Some i /\ d_n_edges g' = Some (total o)).
      { intros v w Hw Hv Hp He. destruct (even_half v He) as [Hm [Hl Hh]].
        destruct v as [|r v]; [contradiction Hv; reflexivity|].
        destruct Hw as [-> | ->]; cbn [d_init_degrees]; rewrite (proj2 (list_has_negative_spec _) Hp), Hm;
        eexists; exists (firstn (length (r :: v) / 2) (r :: v)), (skipn (length (r :: v) / 2) (r :: v));
        (split; [reflexivity|]); rewrite Hh; cbn [d_init_strengths]; (split; [reflexivity|]);
        (split; [split; [congruence|symmetry; apply firstn_skipn]|]); repeat split; auto. }
      destruct s as [|v|v| |]; try contradiction; destruct Ha as [Hv [Hp He]];
        match goal with |- context [SetDegrees ?w] => destruct (Q v w ltac:(auto) Hv Hp He) as (g' & o & i & E1 & R1 & R2 & R3) end;
        exists g', o, i; cbn [d_call d_initialize]; rewrite Hi, ?E1; repeat split; try apply R3; try apply R2; assumption.
  Qed.

  Lemma d_from_matrix_err g k sparse n a g' ex : @d_from_matrix L g k sparse n a = (g', Some ex) -> d_is_initialized g' = d_is_initialized g.
  Proof.
    unfold d_from_matrix. destruct (has_negative n a); [intros [= <- _]; reflexivity|].
    destruct (in_degree k n a) as [ki|]; [|intros [= <- _]; reflexivity].
    destruct (out_degree k n a) as [ko|]; [|intros [= <- _]; reflexivity].
    destruct (Req_EM_T _ _); [discriminate|]. destruct (in_strength k n a); [|intros [= <- _]; reflexivity].
    destruct (out_strength k n a); [discriminate|]. intros [= <- _]; reflexivity.
  Qed.

  Lemma d_degrees_err g v g' ex : d_init_degrees g v NoSeq = (g', Some ex) -> @d_is_initialized L g' = d_is_initialized g.
  Proof.
    destruct v as [|[|r v]|[|r v]| |]; cbn [d_init_degrees]; try discriminate; try (intros [= <- _]; reflexivity);
      destruct (list_has_negative (r :: v)); try (intros [= <- _]; reflexivity);
      destruct (negb (Nat.eqb (length (r :: v) mod 2) 0)); try (intros [= <- _]; reflexivity); discriminate.
  Qed.

  Lemma d_raise g (c : call) g' ex : d_call leb eqb g c = (g', Some ex) -> d_is_initialized g' = false.
  Proof.
    destruct (d_is_initialized g) eqn:Hi.
    - destruct c; simpl; rewrite ?Hi; discriminate.
    - destruct c as [a|e|s|]; cbn [d_call]; rewrite ?Hi; [| | |discriminate].
      + destruct a as [|n a|k stored n a|n a|]; cbn [d_initialize d_init_strengths d_init_adjacency]; try (intros [= <- _]; assumption); try discriminate.
        * destruct (0 <? n * n)%nat; [|discriminate]. intros H. rewrite (d_from_matrix_err _ _ _ _ _ _ _ H). assumption.
        * destruct (0 <? stored)%nat; [|discriminate]. intros H. rewrite (d_from_matrix_err _ _ _ _ _ _ _ H). assumption.
      + destruct e as [|[|e es]|[|e es]| |]; cbn [d_initialize d_init_strengths d_init_edges]; try (intros [= <- _]; assumption); try discriminate.
        * destruct (edgelist_from_edgelist_directed leb eqb (e :: es)) as [[[[? ?] ?] ?]|]; [discriminate|]. intros [= <- _]; assumption.
        * destruct (edgelist_from_edgelist_directed_w leb eqb (e :: es)) as [[[[[[? ?] ?] ?] ?] ?]|]; [discriminate|]. intros [= <- _]; assumption.
      + destruct s as [|v|v| |]; cbn [d_initialize d_init_strengths]; try discriminate; intros H; rewrite (d_degrees_err _ _ _ _ H); assumption.
  Qed.

  Lemma d_not_accepted g (c : call) : d_is_initialized g = false -> c <> CleanEdges -> ~ d_accepted c ->
    d_is_initialized (fst (d_call leb eqb g c)) = false.
  Proof.
    intros Hi Hc Ha. destruct (d_call leb eqb g c) as [g' [ex|]] eqn:E; [exact (d_raise g c g' ex E)|].
    cbn [fst]. destruct c as [a|e|s|]; [| | |contradiction Hc; reflexivity].
    - destruct a as [|n a|k stored n a|n a|]; simpl in E; rewrite Hi in E; try (injection E as <-; assumption); try discriminate.
      + destruct n as [|n]; [injection E as <-; assumption|]. change (0 <? S n * S n)%nat with true in E. simpl in Ha.
        destruct (has_negative (S n) a) eqn:Hn; [unfold d_from_matrix in E; rewrite Hn in E; discriminate|].
        exfalso. apply Ha. split; [lia|]. apply has_negative_spec. assumption.
      + destruct (0 <? stored)%nat eqn:Hs; [|injection E as <-; assumption]. simpl in Ha. apply Nat.ltb_lt in Hs.
        unfold d_from_matrix in E. destruct (has_negative n a) eqn:Hn; [discriminate|]. apply has_negative_spec in Hn.
        destruct k; try discriminate E; exfalso; apply Ha; repeat split; auto; intros ?; discriminate.
    - destruct e as [|[|e es]|[|e es]| |]; simpl in E; rewrite Hi in E; try (injection E as <-; assumption); try discriminate;
        exfalso; apply Ha; simpl; discriminate.
    - destruct s as [|[|r v]|[|r v]| |]; cbn [d_call] in E; rewrite Hi in E; try (injection E as <-; assumption); try discriminate;
        cbn [d_initialize d_init_degrees] in E; (destruct (list_has_negative (r :: v)) eqn:Hn; [discriminate|]);
        (destruct (negb (Nat.eqb (length (r :: v) mod 2) 0)) eqn:He; [discriminate|]); apply negb_false_iff, Nat.eqb_eq in He;
        exfalso; apply Ha; (split; [discriminate|]); (split; [apply list_has_negative_spec; assumption|apply odd_half; assumption]).
  Qed.

  Lemma d_invalid g (c : call) ex : d_is_initialized g = false -> invalid c ex -> snd (d_call leb eqb g c) = ex.
  Proof.
    intros Hi H. destruct c as [a|e|s|]; [| | |contradiction].
    - destruct a as [|n a|k stored n a|n a|]; simpl in *; rewrite Hi; try contradiction; simpl.
      + destruct H as [H ->]. destruct (has_negative n a) eqn:Hn; [|contradiction H; apply has_negative_spec; assumption].
        destruct n as [|n]; [discriminate|]. change (0 <? S n * S n)%nat with true. unfold d_from_matrix. rewrite Hn. reflexivity.
      + destruct H as [Hs [H ->]]. destruct (has_negative n a) eqn:Hn; [|contradiction H; apply has_negative_spec; assumption].
        rewrite (proj2 (Nat.ltb_lt 0 stored) Hs). unfold d_from_matrix. rewrite Hn. reflexivity.
      + symmetry; assumption.
    - destruct e; simpl in *; rewrite Hi; try contradiction; symmetry; assumption.
    - destruct s as [|v|v| |]; cbn [d_call invalid d_initialize d_init_degrees] in *; rewrite Hi; try contradiction; try (symmetry; assumption);
        destruct H as [H ->]; (destruct (list_has_negative v) eqn:Hn; [|contradiction H; apply list_has_negative_spec; assumption]);
        (destruct v as [|r v]; [discriminate Hn|]); reflexivity.
  Qed.
  (** An odd number of degrees raises. *)
  Lemma d_odd g v : d_is_initialized g = false -> v <> [] -> ~ Nat.Even (length v) ->
    snd (d_call leb eqb g (SetDegrees (SeqArray v))) = Some ValueError.
  Proof.
    intros Hi Hv Ho'. destruct v as [|r v]; [contradiction Hv; reflexivity|]. cbn [d_call d_initialize d_init_degrees]. rewrite Hi.
    destruct (list_has_negative (r :: v)); [reflexivity|].
    destruct (Nat.eqb (length (r :: v) mod 2) 0) eqn:E; [|reflexivity]. apply Nat.eqb_eq in E. elim Ho'. apply odd_half. exact E.
  Qed.

  Lemma d_calls_snoc g cs (c : call) : d_calls leb eqb g (cs ++ [c]) = fst (d_call leb eqb (d_calls leb eqb g cs) c).
  Proof. unfold d_calls. rewrite fold_left_app. reflexivity. Qed.

  Lemma d_history g cs o : d_is_initialized g = false -> current d_accepted cs o ->
    match o with
    | None => d_is_initialized (d_calls leb eqb g cs) = false
    | Some c => d_is_initialized (d_calls leb eqb g cs) = true /\ exists do di, d_describes leb eqb c do di /\
        d_n_nodes (d_calls leb eqb g cs) = Some (length do) /\ d_dseq_out (d_calls leb eqb g cs) = Some do /\
        d_dseq_in (d_calls leb eqb g cs) = Some di /\ d_n_edges (d_calls leb eqb g cs) = Some (total do)
    end.
  Proof.
    intros Hi H. induction H as [|cs o H IH|cs c c' H IH Hc|cs c H IH Ha|cs c H IH Hc Ha]; rewrite ?d_calls_snoc.
    - exact Hi.
    - reflexivity.
    - destruct IH as [I IH]. rewrite (d_set_initialised _ c' I Hc). split; assumption.
    - destruct (d_accept _ c IH Ha) as (g' & d & i & E & I & D & N & Q & M & T). rewrite E. split; [assumption|]. exists d, i. auto.
    - apply d_not_accepted; assumption.
  Qed.

  Lemma d_precedence adj e d s e' d' s' : adj <> NoAdj -> d_construct leb eqb adj e d s = d_construct leb eqb adj e' d' s'.
  Proof. intros H. unfold d_construct. destruct adj; [contradiction H; reflexivity| | | |]; reflexivity. Qed.
  Lemma d_precedence_edges e d s d' s' : e <> NoEdges -> d_construct leb eqb NoAdj e d s = d_construct leb eqb NoAdj e d' s'.
  Proof. intros H. unfold d_construct. destruct e; [contradiction H; reflexivity| | | |]; reflexivity. Qed.
  Lemma d_constructed_invalid (c : call) ex : invalid c (Some ex) -> d_new c = inr ex.
  Proof.
    intros H. pose proof (d_invalid d_blank c (Some ex) eq_refl H) as E. unfold SpecLife.d_new, d_construct.
    destruct c as [a|e|s|]; [| | |contradiction]; cbn [d_call] in E; change (d_is_initialized (@d_blank L)) with false in E; cbn iota in E;
      destruct (d_initialize leb eqb d_blank _ _ _ _) as [g o]; simpl in E; subst o; reflexivity.
  Qed.

  Lemma d_reinstall g (c : call) f : d_accepted c -> d_new c = inl f ->
    exists g', d_call leb eqb (fst (d_call leb eqb g CleanEdges)) c = (g', None) /\
      d_is_initialized g' = d_is_initialized f /\ d_n_nodes g' = d_n_nodes f /\ d_n_edges g' = d_n_edges f /\
      d_dseq_out g' = d_dseq_out f /\ d_dseq_in g' = d_dseq_in f /\ d_adjacency g' = d_adjacency f /\ d_edgelist g' = d_edgelist f /\
      (d_is_weighted f = true -> d_is_weighted g' = true /\ d_out_strength g' = d_out_strength f /\ d_in_strength g' = d_in_strength f).
  Proof.
    intros Ha Hf. unfold SpecLife.d_new in Hf. destruct c as [a|e|s|]; [| | |contradiction].
    - destruct a as [|n a|k stored n a|n a|]; try contradiction.
      + destruct Ha as [Hn Ha]. destruct n as [|n]; [lia|]. simpl in Hf. unfold d_construct in Hf.
        cbn [d_initialize d_init_adjacency] in Hf. change (0 <? S n * S n)%nat with true in Hf. cbn iota in Hf.
        set (g0 := fst (d_call leb eqb g CleanEdges)).
        destruct (d_from_matrix_ok g0 Ndarray false (S n) a ltac:(discriminate) Ha) as (g' & E & I & N & D & D2 & M & A & Eg & Hw & _).
        destruct (d_from_matrix_ok d_blank Ndarray false (S n) a ltac:(discriminate) Ha) as (f' & E' & I' & N' & D' & D2' & M' & A' & Eg' & Hw' & Hu').
        rewrite E' in Hf. injection Hf as <-. exists g'. split.
        { change (d_from_matrix g0 Ndarray false (S n) a = (g', None)). exact E. }
        rewrite I, I', N, N', D, D', D2, D2', M, M', A, A', Eg, Eg'. do 7 (split; [reflexivity|]).
        intros W. destruct (sum_test (S n) a) as [T|T]; [rewrite (proj1 (Hu' T)) in W; discriminate|].
        destruct (Hw T) as (-> & -> & -> & _), (Hw' T) as (_ & -> & -> & _). repeat split.
      + destruct Ha as [Hk [Hs Ha]]. simpl in Hf. unfold d_construct in Hf.
        cbn [d_initialize d_init_adjacency] in Hf. rewrite (proj2 (Nat.ltb_lt 0 stored) Hs) in Hf.
        set (g0 := fst (d_call leb eqb g CleanEdges)).
        destruct (d_from_matrix_ok g0 k true n a Hk Ha) as (g' & E & I & N & D & D2 & M & A & Eg & Hw & _).
        destruct (d_from_matrix_ok d_blank k true n a Hk Ha) as (f' & E' & I' & N' & D' & D2' & M' & A' & Eg' & Hw' & Hu').
        rewrite E' in Hf. injection Hf as <-. exists g'. split.
        { cbn [d_call d_initialize d_init_adjacency]. change (d_is_initialized g0) with false. cbn iota.
          rewrite (proj2 (Nat.ltb_lt 0 stored) Hs). exact E. }
        rewrite I, I', N, N', D, D', D2, D2', M, M', A, A', Eg, Eg'. do 7 (split; [reflexivity|]).
        intros W. destruct (sum_test n a) as [T|T]; [rewrite (proj1 (Hu' T)) in W; discriminate|].
        destruct (Hw T) as (-> & -> & -> & _), (Hw' T) as (_ & -> & -> & _). repeat split.
    - destruct e as [|es|es| |]; try contradiction.
      + destruct es as [|e0 es]; [contradiction Ha; reflexivity|].
        unfold d_construct in Hf. cbn [d_call d_initialize d_init_edges] in Hf |- *.
        destruct (edgelist_from_edgelist_directed leb eqb (e0 :: es)) as [[[[es' do] di] nodes]|]; [|discriminate].
        injection Hf as <-. eexists. split; [reflexivity|]. simpl. repeat split; discriminate.
      + destruct es as [|e0 es]; [contradiction Ha; reflexivity|].
        unfold d_construct in Hf. cbn [d_call d_initialize d_init_edges] in Hf |- *.
        destruct (edgelist_from_edgelist_directed_w leb eqb (e0 :: es)) as [[[[[[es' do] di] so] si] nodes]|]; [|discriminate].
        injection Hf as <-. eexists. split; [reflexivity|]. simpl. repeat split; discriminate.
    - destruct s as [|v|v| |]; try contradiction; destruct Ha as [Hv [Hp He]]; (destruct v as [|r v]; [contradiction Hv; reflexivity|]);
      unfold d_construct in Hf; cbn [d_call d_initialize d_init_degrees] in Hf |- *;
      rewrite (proj2 (list_has_negative_spec _) Hp), (proj1 (even_half _ He)) in Hf |- *;
      cbn [negb Nat.eqb d_init_strengths] in Hf |- *;
      injection Hf as <-; eexists; (split; [reflexivity|]); simpl; repeat split; discriminate.
  Qed.

  Lemma d_weighted_flag n a e d s : (0 < n)%nat -> nonneg_matrix n a ->
    exists g, d_construct leb eqb (ArrayAdj n a) e d s = inl g /\ d_is_initialized g = true /\
      (d_is_weighted g = true <-> excess n a <> 0) /\
      (d_out_strength g = if Req_EM_T (excess n a) 0 then None else Some (row_strengths n a)) /\
      (d_in_strength g = if Req_EM_T (excess n a) 0 then None else Some (col_strengths n a)).
  Proof.
    intros Hn H. destruct (d_from_matrix_ok (@d_blank L) Ndarray false n a ltac:(discriminate) H) as (g & E & I & _ & _ & _ & _ & _ & _ & W & U).
    unfold d_construct. cbn [d_initialize d_init_adjacency]. destruct n as [|n]; [lia|]. change (0 <? S n * S n)%nat with true. cbn iota.
    rewrite E. eexists. split; [reflexivity|]. split; [exact I|]. pose proof (test_excess (S n) a H) as T.
    destruct (sum_test (S n) a) as [Z|Z].
    - destruct (U Z) as (-> & -> & ->). simpl. split; [split; [discriminate|intros N; elim N; apply T; exact Z]|].
      destruct (Req_EM_T (excess (S n) a) 0) as [|N]; [split; reflexivity|]. elim N. apply T. exact Z.
    - destruct (W Z) as (-> & -> & -> & _). split; [split; [intros _ Q; apply Z, T; exact Q|reflexivity]|].
      destruct (Req_EM_T (excess (S n) a) 0) as [Q|]; [|split; reflexivity]. elim Z. apply T. exact Q.
  Qed.
End Dir.
