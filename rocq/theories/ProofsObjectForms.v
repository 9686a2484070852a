(** The same network given in different ways: the first call of [solve_tool]. *)
From Coq Require Import Reals List Arith Bool ZArith String Lia Lra.
From Verif Require Import Base SpecGraph SpecEnsemble SpecNetwork SpecLife SpecSolve SpecTool
  ModelCM ModelECM ModelDCM ModelDECM ModelCReMa ModelNetwork ModelLife ModelSolver ModelDispatch ModelGuess ModelRun ModelSolve ModelTool ModelObject SpecObject.
From Verif Require Import ProofsNetwork ProofsAdjacency ProofsLife ProofsLifeDir ProofsLifeForms ProofsSolve ProofsSolveU ProofsSolveD ProofsTool ProofsToolD ProofsObject.
Import ListNotations.
Local Open Scope R_scope.

Ltac u_kinds :=
  match goal with |- u_str_kind ?g = u_str_kind ?g' => transitivity Numbers; [|symmetry];
    (eapply u_numbers; [|eassumption]; intros v; try destruct (Req_EM_T _ _); discriminate) end.

(** * Objects from a directed matrix *)
Lemma d_matrix_object (L : Type) (leb eqb : L -> L -> bool) k sparse n a (g : @dgraph L) : k <> OtherKind -> nonneg_matrix n a ->
  d_from_matrix d_blank k sparse n a = (g, None) ->
  d_dseq_out g = Some (row_degrees n a) /\ d_dseq_in g = Some (col_degrees n a) /\
  (excess n a = 0 -> d_out_strength g = None /\ d_in_strength g = None /\ d_index g = None) /\
  (excess n a <> 0 -> d_out_strength g = Some (row_strengths n a) /\ d_in_strength g = Some (col_strengths n a) /\
     d_index g = Some (nonzero_reals (row_strengths n a), nonzero_reals (col_strengths n a))).
Proof.
  intros Hk Ha E. destruct (d_from_matrix_ok (@d_blank L) k sparse n a Hk Ha) as (g' & E' & _ & _ & D & D2 & _ & _ & _ & W & U).
  rewrite E in E'. injection E' as <-. split; [exact D|]. split; [exact D2|]. split; intros X.
  - pose proof (proj2 (test_excess n a Ha) X) as T. destruct (U T) as (_ & U1 & U2). split; [exact U1|]. split; [exact U2|].
    unfold d_from_matrix in E. destruct (has_negative n a); [discriminate|]. destruct (in_degree k n a); [|discriminate]. destruct (out_degree k n a); [|discriminate].
    destruct (Req_EM_T _ _); [|contradiction]. injection E as <-. reflexivity.
  - destruct (W ltac:(intros T; apply X, (test_excess n a Ha); exact T)) as (_ & W1 & W2 & W3 & W4). split; [exact W1|]. split; [exact W2|].
    unfold d_index. rewrite W3, W4. reflexivity.
Qed.
Lemma d_array_object (L : Type) (leb eqb : L -> L -> bool) n a (g : @dgraph L) : (0 < n)%nat -> nonneg_matrix n a ->
  d_construct leb eqb (ArrayAdj n a) NoEdges NoSeq NoSeq = inl g -> d_from_matrix d_blank Ndarray false n a = (g, None).
Proof.
  intros Hn Ha E. unfold d_construct in E. cbn [ModelLife.d_initialize d_init_adjacency] in E. rewrite (proj2 (Nat.ltb_lt 0 (n * n)) ltac:(nia)) in E.
  destruct (d_from_matrix d_blank Ndarray false n a) as [g' [ex|]]; [discriminate|]. injection E as <-. reflexivity.
Qed.

(** * Undirected *)
Lemma object_u_matrix (L : Type) (leb eqb : L -> L -> bool) k stored n a : k <> OtherKind -> (0 < stored)%nat -> (0 < n)%nat -> nonneg_matrix n a ->
  exists g g', u_construct leb eqb (ArrayAdj n a) NoEdges NoSeq NoSeq = inl g /\ u_construct leb eqb (SparseAdj k stored n a) NoEdges NoSeq NoSeq = inl g' /\
    forall e t, u_alike (u_new_tool e g t) (u_new_tool e g' t).
Proof.
  intros Hk Hs Hn Ha. destruct (u_matrix_forms L leb eqb k stored n a Hk Hs Hn Ha) as (g & g' & E & E' & _ & _ & D & S & _).
  exists g, g'. split; [exact E|]. split; [exact E'|]. intros e t. apply u_same_data; [u_kinds|symmetry; assumption|symmetry; assumption].
Qed.
Lemma object_u_edges (L : Type) (leb eqb : L -> L -> bool) (es : list (L * L)) : total_order leb eqb -> es <> [] -> simple_edges false es ->
  exists g es' n a g', u_construct leb eqb NoAdj (PairEdges es) NoSeq NoSeq = inl g /\
    u_edgelist g = Some (map (fun e => (e, None)) es') /\ build_adjacency_fast es' false = Adj n a /\
    u_construct leb eqb (ArrayAdj n a) NoEdges NoSeq NoSeq = inl g' /\ forall e t, u_alike (u_new_tool e g t) (u_new_tool e g' t).
Proof.
  intros Ho HN HS. destruct (u_edges_form L leb eqb es Ho HN HS) as (g & es' & n & a & g' & E & El & B & E' & _ & _ & D & _ & _ & S1 & S2).
  exists g, es', n, a, g'. do 4 (split; [assumption|]). intros e t. apply u_same_data; [u_kinds|congruence|congruence].
Qed.
Lemma object_u_weighted_edges (L : Type) (leb eqb : L -> L -> bool) (es : list (L * L * R)) : total_order leb eqb -> es <> [] ->
  simple_edges false (map fst es) -> (forall e, In e es -> 0 < snd e) ->
  exists g es' n a g', u_construct leb eqb NoAdj (TripleEdges es) NoSeq NoSeq = inl g /\
    u_edgelist g = Some (map (fun e => (fst e, Some (snd e))) es') /\ build_adjacency_fast_weighted es' false = Adj n a /\
    u_construct leb eqb (ArrayAdj n a) NoEdges NoSeq NoSeq = inl g' /\
    (excess n a <> 0 -> forall e t, u_alike (u_new_tool e g t) (u_new_tool e g' t)).
Proof.
  intros Ho HN HS HP. destruct (u_weighted_edges_form L leb eqb es Ho HN HS HP) as (g & es' & n & a & g' & E & El & B & E' & _ & _ & D & _ & _ & X).
  exists g, es', n, a, g'. do 4 (split; [assumption|]). intros HX e t. destruct (X HX) as [S _]. apply u_same_data; [u_kinds|congruence|congruence].
Qed.
Lemma object_u_sequences (L : Type) (leb eqb : L -> L -> bool) n a : (0 < n)%nat -> nonneg_matrix n a ->
  exists g g', u_construct leb eqb (ArrayAdj n a) NoEdges NoSeq NoSeq = inl g /\
    u_construct leb eqb NoAdj NoEdges (SeqArray (row_degrees n a)) (if Req_EM_T (excess n a) 0 then NoSeq else SeqArray (row_strengths n a)) = inl g' /\
    forall e t, u_alike (u_new_tool e g t) (u_new_tool e g' t).
Proof.
  intros Hn Ha. destruct (u_sequence_form L leb eqb n a Hn Ha) as (g & g' & E & E' & _ & _ & D & S & _).
  exists g, g'. split; [exact E|]. split; [exact E'|]. intros e t. apply u_same_data; [u_kinds|symmetry; assumption|symmetry; assumption].
Qed.

(** * Directed *)
Lemma object_d_matrix (L : Type) (leb eqb : L -> L -> bool) k stored n a : k <> OtherKind -> (0 < stored)%nat -> (0 < n)%nat -> nonneg_matrix n a ->
  exists g g', d_construct leb eqb (ArrayAdj n a) NoEdges NoSeq NoSeq = inl g /\ d_construct leb eqb (SparseAdj k stored n a) NoEdges NoSeq NoSeq = inl g' /\
    forall e t, d_alike (d_new_tool e g t) (d_new_tool e g' t).
Proof.
  intros Hk Hs Hn Ha. destruct (d_matrix_forms L leb eqb k stored n a Hk Hs Hn Ha) as (g & g' & E & E' & _).
  exists g, g'. split; [exact E|]. split; [exact E'|]. intros e t.
  destruct (d_matrix_numbers L leb eqb _ g E ltac:(discriminate)) as [Z1 Z2]. destruct (d_matrix_numbers L leb eqb _ g' E' ltac:(discriminate)) as [Z3 Z4].
  apply (d_array_object L leb eqb n a g Hn Ha) in E.
  destruct (d_matrix_object L leb eqb Ndarray false n a g ltac:(discriminate) Ha E) as (D1 & D2 & D3 & D4).
  unfold d_construct in E'. cbn [ModelLife.d_initialize d_init_adjacency] in E'. rewrite (proj2 (Nat.ltb_lt 0 stored) Hs) in E'.
  destruct (d_from_matrix d_blank k true n a) as [g2 [ex|]] eqn:E2; [discriminate|]. injection E' as <-.
  destruct (d_matrix_object L leb eqb k true n a g2 Hk Ha E2) as (D1' & D2' & D3' & D4').
  destruct (Req_EM_T (excess n a) 0) as [X|X].
  - destruct (D3 X) as (? & ? & ?), (D3' X) as (? & ? & ?). apply d_same_data; try assumption; try (left; split; assumption); try left; congruence.
  - destruct (D4 X) as (? & ? & ?), (D4' X) as (? & ? & ?). apply d_same_data; try assumption; try (left; split; assumption); try left; congruence.
Qed.
Lemma object_d_edges (L : Type) (leb eqb : L -> L -> bool) (es : list (L * L)) : total_order leb eqb -> es <> [] -> simple_edges true es ->
  exists g es' n a g', d_construct leb eqb NoAdj (PairEdges es) NoSeq NoSeq = inl g /\
    d_edgelist g = Some (map (fun e => (e, None)) es') /\ build_adjacency_fast es' true = Adj n a /\
    d_construct leb eqb (ArrayAdj n a) NoEdges NoSeq NoSeq = inl g' /\ forall e t, d_alike (d_new_tool e g t) (d_new_tool e g' t).
Proof.
  intros Ho HN HS. destruct (d_edges_form L leb eqb es Ho HN HS) as (g & es' & n & a & g' & E & El & B & E' & N1 & _ & D & D2 & _).
  exists g, es', n, a, g'. do 4 (split; [assumption|]). intros e t. destruct (binary_nonneg _ _ _ _ B) as (P & X & _).
  assert (Hn : (0 < n)%nat).
  { destruct (edgelist_directed_closed L leb eqb es Ho HN) as (es1 & dout & din & nodes & E1 & _ & _ & HR & HG & _).
    pose proof E as E0. unfold d_construct in E0. destruct es as [|e0 es]; [contradiction HN; reflexivity|]. cbn [ModelLife.d_initialize d_init_edges] in E0. rewrite E1 in E0.
    injection E0 as <-. cbn in El. injection El as El. assert (Q : es1 = es').
    { clear - El. revert es' El. induction es1 as [|x es1 IH]; intros [|y es'] H; try discriminate; [reflexivity|]. injection H as -> H. f_equal. apply IH. exact H. }
    subst es1. pose proof (adjacency_gapless es' true _ HG) as (b & HB). rewrite B in HB. injection HB as -> _.
    apply (gapless_pos _ nodes es' (e0 :: es) HR ltac:(discriminate) HG). }
  pose proof (d_array_object L leb eqb n a g' Hn P E') as E2.
  destruct (d_matrix_object L leb eqb Ndarray false n a g' ltac:(discriminate) P E2) as (_ & _ & D3 & _). destruct (D3 X) as (S1 & S2 & S3).
  assert (K : d_out_strength g = None /\ d_in_strength g = None /\ d_index g = None).
  { unfold d_construct in E. destruct es as [|e0 es]; [contradiction HN; reflexivity|]. cbn [ModelLife.d_initialize d_init_edges] in E.
    destruct (edgelist_from_edgelist_directed leb eqb (e0 :: es)) as [[[[? ?] ?] ?]|]; [|discriminate]. injection E as <-. repeat split. }
  destruct K as (K1 & K2 & K3). destruct (d_matrix_numbers L leb eqb _ g' E' ltac:(discriminate)) as [_ Z]. pose proof (d_edges_objects L leb eqb _ g (or_introl (ex_intro _ es (conj eq_refl HN))) E) as [_ Z'].
  apply d_same_data; try assumption; try (right; right; assumption); try left; congruence.
Qed.
Lemma object_d_weighted_edges (L : Type) (leb eqb : L -> L -> bool) (es : list (L * L * R)) : total_order leb eqb -> es <> [] ->
  simple_edges true (map fst es) -> (forall e, In e es -> 0 < snd e) ->
  exists g es' n a g', d_construct leb eqb NoAdj (TripleEdges es) NoSeq NoSeq = inl g /\
    d_edgelist g = Some (map (fun e => (fst e, Some (snd e))) es') /\ build_adjacency_fast_weighted es' true = Adj n a /\
    d_construct leb eqb (ArrayAdj n a) NoEdges NoSeq NoSeq = inl g' /\
    (excess n a <> 0 -> forall e t, In (t_model t) ["dcm"; "dcm_exp"]%string \/ t_model t = "crema-sparse"%string /\ t_method t = "fixed-point"%string /\ t_verbose t = false ->
      d_alike (d_new_tool e g t) (d_new_tool e g' t)).
Proof.
  intros Ho HN HS HP. destruct (d_weighted_edges_form L leb eqb es Ho HN HS HP) as (g & es' & n & a & g' & E & El & B & E' & _ & _ & D & D2 & S1 & S2 & _ & _ & _ & X).
  exists g, es', n, a, g'. do 4 (split; [assumption|]). intros HX e t Hm. destruct (X HX) as (S3 & S4 & _).
  destruct (d_matrix_numbers L leb eqb _ g' E' ltac:(discriminate)) as [_ Z]. pose proof (d_edges_objects L leb eqb _ g (or_intror (ex_intro _ es (conj eq_refl HN))) E) as [_ Z'].
  apply d_same_result; try (symmetry; assumption); try assumption.
  - right. left. destruct Hm as [[<-|[<-|[]]]|[-> _]]; reflexivity.
  - intros net o. destruct Hm as [Hm|(Hm & HM & HV)]; [|apply sparse_fixed_noindex; assumption]. apply d_result_noindex. destruct Hm as [<-|[<-|[]]]; reflexivity.
Qed.
Lemma halves {A} n (u v : list A) : List.length u = n -> List.length v = n ->
  Nat.eqb (List.length (u ++ v) mod 2) 0 = true /\ (List.length (u ++ v) / 2)%nat = n /\ firstn n (u ++ v) = u /\ skipn n (u ++ v) = v.
Proof.
  intros Hu Hv. rewrite app_length, Hu, Hv. replace (n + n)%nat with (n * 2)%nat by lia. rewrite Nat.mod_mul, Nat.div_mul by lia. subst n.
  rewrite firstn_app, skipn_app, Nat.sub_diag, firstn_all, skipn_all. cbn. rewrite app_nil_r. repeat split.
Qed.
Lemma no_negative n (f : nat -> R) : (forall i, (i < n)%nat -> 0 <= f i) -> forall r, In r (map f (seq 0 n)) -> 0 <= r.
Proof. intros H r Hr. apply in_map_iff in Hr. destruct Hr as (i & <- & Hi). apply in_seq in Hi. apply H. lia. Qed.
Lemma object_d_sequences (L : Type) (leb eqb : L -> L -> bool) n a : (0 < n)%nat -> nonneg_matrix n a ->
  exists g g', d_construct leb eqb (ArrayAdj n a) NoEdges NoSeq NoSeq = inl g /\
    d_construct leb eqb NoAdj NoEdges (SeqArray (row_degrees n a ++ col_degrees n a))
      (if Req_EM_T (excess n a) 0 then NoSeq else SeqArray (row_strengths n a ++ col_strengths n a)) = inl g' /\
    forall e t, d_alike (d_new_tool e g t) (d_new_tool e g' t).
Proof.
  intros Hn Ha. destruct (d_from_matrix_ok (@d_blank L) Ndarray false n a ltac:(discriminate) Ha) as (g & E & _).
  destruct (d_matrix_object L leb eqb Ndarray false n a g ltac:(discriminate) Ha E) as (D1 & D2 & D3 & D4).
  destruct (d_from_matrix_kind L d_blank _ _ _ _ _ eq_refl E) as [Z1 Z2].
  exists g. unfold d_construct at 1. cbn [ModelLife.d_initialize d_init_adjacency]. rewrite (proj2 (Nat.ltb_lt 0 (n * n)) ltac:(nia)), E.
  assert (L1 : List.length (row_degrees n a) = n) by apply row_degrees_length.
  assert (L2 : List.length (col_degrees n a) = n) by (unfold col_degrees; rewrite map_length, seq_length; reflexivity).
  assert (L3 : List.length (row_strengths n a) = n) by (unfold row_strengths; rewrite map_length, seq_length; reflexivity).
  assert (L4 : List.length (col_strengths n a) = n) by (unfold col_strengths; rewrite map_length, seq_length; reflexivity).
  assert (ND : list_has_negative (row_degrees n a ++ col_degrees n a) = false).
  { apply list_has_negative_spec. intros r Hr. apply in_app_iff in Hr. destruct Hr as [Hr|Hr]; apply in_map_iff in Hr; destruct Hr as (i & <- & _); apply pos_INR. }
  assert (NS : list_has_negative (row_strengths n a ++ col_strengths n a) = false).
  { apply list_has_negative_spec. intros r Hr. apply in_app_iff in Hr. destruct Hr as [Hr|Hr]; apply in_map_iff in Hr; destruct Hr as (i & <- & Hi); apply in_seq in Hi;
      apply rsum_nonneg; intros j Hj; apply Ha; lia. }
  destruct (halves n _ _ L1 L2) as (H1 & H2 & H3 & H4). destruct (halves n _ _ L3 L4) as (I1 & I2 & I3 & I4).
  unfold d_construct. cbn [ModelLife.d_initialize]. unfold d_init_degrees.
  destruct (row_degrees n a ++ col_degrees n a) as [|r rd] eqn:Er; [cbn in H2; lia|]. rewrite <- Er in *. rewrite ND, H1, H2, H3, H4. cbn [negb].
  destruct (Req_EM_T (excess n a) 0) as [X|X]; unfold d_init_strengths.
  - eexists. split; [reflexivity|]. split; [reflexivity|]. intros e t. destruct (D3 X) as (S1 & S2 & S3).
    apply d_same_data; try assumption; try (left; split; [assumption|reflexivity]); try left; cbn; try congruence.
  - destruct (row_strengths n a ++ col_strengths n a) as [|s sd] eqn:Es; [cbn in I2; lia|]. rewrite <- Es in *. rewrite NS, I1, I2, I3, I4. cbn [negb].
    eexists. split; [reflexivity|]. split; [reflexivity|]. intros e t. destruct (D4 X) as (S1 & S2 & S3).
    apply d_same_data; try assumption; try (left; split; [assumption|reflexivity]); try left; cbn; try congruence.
Qed.

(** * The network behind a weighted matrix *)
Lemma strengths_nth n (f : nat -> R) i : (i < n)%nat -> at_reals (map f (seq 0 n)) i = f i.
Proof. intros H. unfold at_reals. rewrite (nth_indep _ 0 (f O)) by (rewrite map_length, seq_length; exact H). rewrite map_nth, seq_nth by exact H. reflexivity. Qed.
Lemma object_u_net (L : Type) (leb eqb : L -> L -> bool) n a : (0 < n)%nat -> nonneg_matrix n a -> excess n a <> 0 ->
  exists g net, u_construct leb eqb (ArrayAdj n a) NoEdges NoSeq NoSeq = inl g /\ map INR (un_dseq net) = row_degrees n a /\
    (forall i, (i < n)%nat -> un_str net i = rsum n (a i)) /\
    forall e t, u_new_tool e g t = Run (u_tool e net t (u_fresh false)) (u_report e net t (u_fresh false)).
Proof.
  intros Hn Ha X. destruct (u_from_matrix_ok (@u_blank L) Ndarray false n a ltac:(discriminate) Ha) as (g & E & I & N & D & M & A & _ & S & W & _).
  destruct (W ltac:(intros T; apply X, (test_excess n a Ha); exact T)) as [_ W2].
  unfold u_construct. cbn [ModelLife.u_initialize u_init_adjacency]. rewrite (proj2 (Nat.ltb_lt 0 (n * n)) ltac:(nia)), E. eexists.
  destruct (row_naturals n a) as (k & Ek & _). exists {| un_dseq := k; un_str := at_reals (row_strengths n a) |}. split; [reflexivity|]. cbn [un_dseq un_str].
  split; [symmetry; apply naturals_inv; exact Ek|]. split; [intros i Hi; apply (strengths_nth n (fun i => rsum n (a i)) i Hi)|].
  intros e t. unfold u_new_tool, u_object_tool. cbn [u_dseq u_strength u_is_sparse u_str_kind]. rewrite D, W2, S, Ek.
  replace (u_str_kind g) with Numbers; [reflexivity|]. symmetry. apply (u_numbers L leb eqb (ArrayAdj n a) NoEdges NoSeq NoSeq {| u_n_nodes := u_n_nodes g; u_n_edges := u_n_edges g; u_adjacency := u_adjacency g;
    u_is_sparse := u_is_sparse g; u_edgelist := u_edgelist g; u_dseq := u_dseq g; u_strength := u_strength g; u_nodes_dict := u_nodes_dict g; u_nz_index := None; u_is_initialized := u_is_initialized g;
    u_is_weighted := u_is_weighted g; u_str_kind := u_str_kind g |}); [discriminate|].
  unfold u_construct. cbn [ModelLife.u_initialize u_init_adjacency]. rewrite (proj2 (Nat.ltb_lt 0 (n * n)) ltac:(nia)), E. reflexivity.
Qed.
Lemma object_d_net (L : Type) (leb eqb : L -> L -> bool) n a : (0 < n)%nat -> nonneg_matrix n a -> excess n a <> 0 ->
  exists g net, d_construct leb eqb (ArrayAdj n a) NoEdges NoSeq NoSeq = inl g /\
    map INR (dn_out net) = row_degrees n a /\ map INR (dn_in net) = col_degrees n a /\
    (forall i, (i < n)%nat -> dn_sout net i = rsum n (a i)) /\ (forall i, (i < n)%nat -> dn_sin net i = rsum n (fun j => a j i)) /\
    forall e t, d_new_tool e g t = Run (d_tool e net t (d_fresh false)) (d_report e net t (d_fresh false)).
Proof.
  intros Hn Ha X. destruct (d_from_matrix_ok (@d_blank L) Ndarray false n a ltac:(discriminate) Ha) as (g & E & _).
  destruct (d_matrix_object L leb eqb Ndarray false n a g ltac:(discriminate) Ha E) as (D1 & D2 & _ & D4). destruct (D4 X) as (S1 & S2 & S3).
  destruct (d_from_matrix_kind L d_blank _ _ _ _ _ eq_refl E) as [Z1 Z2].
  assert (SP : d_is_sparse g = false).
  { unfold d_from_matrix in E. destruct (has_negative n a); [discriminate|]. destruct (in_degree Ndarray n a); [|discriminate]. destruct (out_degree Ndarray n a); [|discriminate].
    destruct (Req_EM_T _ _); [injection E as <-; reflexivity|]. destruct (in_strength Ndarray n a); [|discriminate]. destruct (out_strength Ndarray n a); [|discriminate]. injection E as <-. reflexivity. }
  unfold d_construct. cbn [ModelLife.d_initialize d_init_adjacency]. rewrite (proj2 (Nat.ltb_lt 0 (n * n)) ltac:(nia)), E.
  destruct (row_naturals n a) as (ko & Eo & Lo), (col_naturals n a) as (ki & Ei & Li).
  exists g, {| dn_out := ko; dn_in := ki; dn_sout := at_reals (row_strengths n a); dn_sin := at_reals (col_strengths n a) |}. split; [reflexivity|]. cbn [dn_out dn_in dn_sout dn_sin].
  split; [symmetry; apply naturals_inv; exact Eo|]. split; [symmetry; apply naturals_inv; exact Ei|].
  split; [intros i Hi; apply (strengths_nth n (fun i => rsum n (a i)) i Hi)|]. split; [intros i Hi; apply (strengths_nth n (fun i => rsum n (fun j => a j i)) i Hi)|].
  intros e t. unfold d_new_tool, d_object_tool. rewrite Z1, Z2, D1, D2, S1, S2, S3, SP, Eo, Ei. cbn [listed andb]. set (net := {| dn_out := ko; dn_in := ki; dn_sout := _; dn_sin := _ |}).
  destruct (d_tool_indexed e net t (d_fresh false)) as [T1 T2]. unfold d_report.
  assert (N1 : nonzero_reals (row_strengths n a) = nz_real (dn_n net) (dn_sout net)).
  { rewrite nonzero_nz. change (dn_n net) with (List.length ko). rewrite Lo. unfold row_strengths at 1. rewrite map_length, seq_length. reflexivity. }
  assert (N2 : nonzero_reals (col_strengths n a) = nz_real (dn_n net) (dn_sin net)).
  { rewrite nonzero_nz. change (dn_n net) with (List.length ko). rewrite Lo. unfold col_strengths at 1. rewrite map_length, seq_length. reflexivity. }
  rewrite N1, N2, T1, T2. destruct (reads_degrees _); reflexivity.
Qed.
