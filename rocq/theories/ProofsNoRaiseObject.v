(** Calls that raise on isolated nodes and calls that cannot raise: objects built from the
    user's data. *)
From Coq Require Import Reals List Arith Bool ZArith String Lia Lra.
From Verif Require Import Base SpecGraph SpecDirected SpecEnsemble SpecNetwork SpecLife SpecLinsearch SpecSolver SpecDispatch SpecGuess SpecRun SpecSolve SpecTool SpecReach SpecReachTool SpecIsolated
  ModelCM ModelDCM ModelNetwork ModelLife ModelSolver ModelDispatch ModelGuess ModelRun ModelSolve ModelTool ModelObject SpecObject.
From Verif Require Import ProofsUnique ProofsGraph ProofsNetwork ProofsAdjacency WitnessNetwork ProofsLife ProofsLifeDir ProofsLifeForms ProofsSolve ProofsSolveU ProofsSolveD ProofsTool ProofsToolD
  ProofsObject ProofsObjectForms ProofsObjectLabels ProofsReachTool ProofsReachObject ProofsEvaluates ProofsNoRaise.
Import ListNotations.
Local Open Scope R_scope.
#[local] Opaque u_dispatch d_dispatch lookup.

(** The network that a call in a binary model reads. *)
Lemma u_object_binary (L : Type) e (g : @ugraph L) t n a : u_dseq g = Some (row_degrees n a) -> In (t_model t) ["cm"; "cm_exp"]%string ->
  exists net, un_n net = n /\ map INR (un_dseq net) = row_degrees n a /\
    u_new_tool e g t = Run (u_tool e net t (u_fresh (u_is_sparse g))) (u_report e net t (u_fresh (u_is_sparse g))).
Proof.
  intros ED Hm. destruct (row_naturals n a) as (k & Ek & Lk). pose proof (naturals_inv _ _ Ek) as EK.
  exists {| un_dseq := k; un_str := match u_strength g with Some s => at_reals s | None => fun _ => 0 end |}. split; [exact Lk|]. split; [symmetry; exact EK|].
  unfold u_new_tool, u_object_tool. rewrite ED, Ek. replace (reads_strengths (t_model t)) with false by (destruct Hm as [<-|[<-|[]]]; reflexivity). rewrite andb_false_r. destruct (u_strength g); reflexivity.
Qed.
Lemma u_length_distinct net m n a ds : In m ["cm"; "cm_exp"]%string -> map INR (un_dseq net) = row_degrees n a -> distinct (row_degrees n a) ds -> u_length net m = List.length ds.
Proof.
  intros Hm E HD. symmetry. replace (u_length net m) with (List.length (np_unique Nat.leb Nat.eqb (un_dseq net))) by (destruct Hm as [<-|[<-|[]]]; reflexivity).
  apply (distinct_length INR (un_dseq net) _ ds); [exact INR_eq|apply unique_nodup; exact nat_order| |rewrite E; exact HD]. intros v. apply unique_in. exact nat_order.
Qed.
(** A node without a positive entry has degree zero. *)
Lemma row_degree_zero net n a i : un_n net = n -> map INR (un_dseq net) = row_degrees n a -> (i < n)%nat -> (nth i (un_dseq net) O = O <-> ~ exists j, (j < n)%nat /\ 0 < a i j).
Proof.
  intros En E Hi. pose proof (from_map n _ (un_dseq net) i E Hi) as Q. unfold at_list in Q. apply INR_eq in Q. rewrite Q. unfold count. split.
  - intros Z (j & Hj & P). assert (In j (filter (fun j => positiveb (a i j)) (seq 0 n))) as F.
    { apply filter_In. split; [apply in_seq; lia|]. unfold positiveb. destruct (Rlt_dec 0 (a i j)); [reflexivity|contradiction]. }
    destruct (filter _ _); [destruct F|discriminate].
  - intros H. destruct (filter _ _) as [|j l] eqn:F; [reflexivity|]. exfalso. apply H. exists j. assert (In j (filter (fun j => positiveb (a i j)) (seq 0 n))) as G by (rewrite F; left; reflexivity).
    apply filter_In in G as [G1 G2]. apply in_seq in G1. split; [lia|]. unfold positiveb in G2. destruct (Rlt_dec 0 (a i j)); [assumption|discriminate].
Qed.
Lemma fresh_beta b : us_beta (u_fresh b) = None. Proof. reflexivity. Qed.

Lemma object_cm_raises (L : Type) e (g : @ugraph L) nm n a t : u_dseq g = Some (row_degrees n a) -> In nm binary_names -> draws (v_rnd e) ->
  t_model t = "cm"%string -> In (t_method t) descent_methods -> t_guess t = GStr nm -> ~ none_isolated n a -> raises (u_new_tool e g t) ESolver.
Proof.
  intros ED Hnm Hr Hm Hme Hg HI. destruct (u_object_binary L e g t n a ED ltac:(rewrite Hm; cbn; tauto)) as (net & En & Ek & ER).
  assert (HZ : exists i, (i < un_n net)%nat /\ nth i (un_dseq net) O = O).
  { destruct (existsb (fun i => Nat.eqb (nth i (un_dseq net) O) O) (seq 0 n)) eqn:X.
    - apply existsb_exists in X. destruct X as (i & Hi & Z). apply in_seq in Hi. exists i. split; [lia|]. apply Nat.eqb_eq. exact Z.
    - exfalso. apply HI. intros i Hi. assert (N : nth i (un_dseq net) O <> O).
      { intros Z. assert (Y : existsb (fun i => Nat.eqb (nth i (un_dseq net) O) O) (seq 0 n) = true) by (apply existsb_exists; exists i; split; [apply in_seq; lia|apply Nat.eqb_eq; exact Z]). congruence. }
      destruct (Classical_Prop.classic (exists j, (j < n)%nat /\ 0 < a i j)) as [Y|Y]; [exact Y|]. exfalso. apply N. apply (row_degree_zero net n a i En Ek Hi). exact Y. }
  pose proof (isolated_raises_cm e net t (u_fresh (u_is_sparse g)) nm Hm Hme Hg Hnm Hr HZ) as Q.
  destruct (u_tool e net t (u_fresh (u_is_sparse g))) as [o x]. cbn [snd] in Q. subst x. eexists. eexists. exact ER.
Qed.
(** Whatever the starting point, also one given as an array. *)
Lemma zero_degree net n a : un_n net = n -> map INR (un_dseq net) = row_degrees n a -> ~ none_isolated n a -> exists i, (i < un_n net)%nat /\ nth i (un_dseq net) O = O.
Proof.
  intros En Ek HI. apply Classical_Prop.NNPP. intros K. apply HI. intros i Hi. apply Classical_Prop.NNPP. intros Z. apply K. exists i. split; [lia|].
  apply (row_degree_zero net n a i En Ek Hi). exact Z.
Qed.
Lemma object_cm_never (L : Type) e (g : @ugraph L) n a t : u_dseq g = Some (row_degrees n a) ->
  t_model t = "cm"%string -> In (t_method t) descent_methods -> ~ none_isolated n a -> forall o', ~ returned (u_new_tool e g t) o'.
Proof.
  intros ED Hm Hme HI o' (rep & R). destruct (u_object_binary L e g t n a ED ltac:(rewrite Hm; cbn; tauto)) as (net & En & Ek & ER).
  apply (isolated_never_returns e net t (u_fresh (u_is_sparse g)) Hm Hme (zero_degree net n a En Ek HI)). rewrite ER in R. injection R as R _. rewrite R. reflexivity.
Qed.
Lemma object_cm_returns (L : Type) e (g : @ugraph L) nm n a ds t : u_dseq g = Some (row_degrees n a) -> distinct (row_degrees n a) ds -> numpy_answers (List.length ds) t e ->
  In nm binary_names -> draws (v_rnd e) -> named_call "cm" nm e t -> t_linsearch t = true -> none_isolated n a -> exists o', returned (u_new_tool e g t) o'.
Proof.
  intros ED HD HN Hnm Hr (Hm & Hme & Hg & Ht & Hq) Hls HI. destruct (u_object_binary L e g t n a ED ltac:(rewrite Hm; cbn; tauto)) as (net & En & Ek & ER).
  rewrite <- (u_length_distinct net "cm" n a ds ltac:(cbn; tauto) Ek HD) in HN.
  destruct (tool_cm_completes e net t (u_fresh (u_is_sparse g)) nm Hm Hme Hls Hg Hnm Hr Ht Hq HN (fresh_beta _)) as (o' & R).
  { rewrite En. intros i Hi Z. exact (proj1 (row_degree_zero net n a i En Ek Hi) Z (HI i Hi)). }
  exists o'. eexists. rewrite ER, R. reflexivity.
Qed.
(** The call returns exactly when no node is isolated. *)
Lemma object_cm_iff (L : Type) e (g : @ugraph L) nm n a ds t : u_dseq g = Some (row_degrees n a) -> distinct (row_degrees n a) ds -> numpy_answers (List.length ds) t e ->
  In nm binary_names -> draws (v_rnd e) -> named_call "cm" nm e t -> t_linsearch t = true -> ((exists o', returned (u_new_tool e g t) o') <-> none_isolated n a).
Proof.
  intros ED HD HN Hnm Hr HC Hls. split.
  - intros (o' & rep & R). apply Classical_Prop.NNPP. intros HI. destruct HC as (Hm & Hme & Hg & _).
    destruct (object_cm_raises L e g nm n a t ED Hnm Hr Hm Hme Hg HI) as (o & rep' & R'). congruence.
  - exact (object_cm_returns L e g nm n a ds t ED HD HN Hnm Hr HC Hls).
Qed.
Lemma object_cm_exp_returns (L : Type) e (g : @ugraph L) nm n a ds t : u_dseq g = Some (row_degrees n a) -> distinct (row_degrees n a) ds -> numpy_answers (List.length ds) t e ->
  In nm binary_names -> draws (v_rnd e) -> named_call "cm_exp" nm e t -> exists o', returned (u_new_tool e g t) o'.
Proof.
  intros ED HD HN Hnm Hr (Hm & Hme & Hg & Ht & Hq). destruct (u_object_binary L e g t n a ED ltac:(rewrite Hm; cbn; tauto)) as (net & En & Ek & ER).
  rewrite <- (u_length_distinct net "cm_exp" n a ds ltac:(cbn; tauto) Ek HD) in HN. destruct (start_cm_exp net (v_rnd e) nm Hnm Hr) as (z & Hz). rewrite <- Hg in Hz.
  destruct (tool_cm_exp_completes e net t (u_fresh (u_is_sparse g)) z Hm Hme Hz Ht Hq HN (fresh_beta _)) as (o' & R). exists o'. eexists. rewrite ER, R. reflexivity.
Qed.
(** From a matrix. *)
Lemma matrix_degrees (L : Type) (leb eqb : L -> L -> bool) n a : (0 < n)%nat -> nonneg_matrix n a ->
  exists g, u_construct leb eqb (ArrayAdj n a) NoEdges NoSeq NoSeq = inl g /\ u_dseq g = Some (row_degrees n a).
Proof.
  intros Hn Ha. destruct (u_from_matrix_ok (@u_blank L) Ndarray false n a ltac:(discriminate) Ha) as (g & E & _ & _ & D & _).
  unfold u_construct. cbn [ModelLife.u_initialize u_init_adjacency]. rewrite (proj2 (Nat.ltb_lt 0 (n * n)) ltac:(nia)), E. eexists. split; [reflexivity|exact D].
Qed.
Lemma matrix_cm (L : Type) (leb eqb : L -> L -> bool) e nm n a ds t : (0 < n)%nat -> nonneg_matrix n a -> distinct (row_degrees n a) ds -> numpy_answers (List.length ds) t e ->
  In nm binary_names -> draws (v_rnd e) -> named_call "cm" nm e t -> t_linsearch t = true ->
  exists g, u_construct leb eqb (ArrayAdj n a) NoEdges NoSeq NoSeq = inl g /\
    (none_isolated n a -> exists o', returned (u_new_tool e g t) o') /\ (~ none_isolated n a -> raises (u_new_tool e g t) ESolver).
Proof.
  intros Hn Ha HD HN Hnm Hr HC Hls. destruct (matrix_degrees L leb eqb n a Hn Ha) as (g & E & ED). exists g. split; [exact E|]. split.
  - exact (object_cm_returns L e g nm n a ds t ED HD HN Hnm Hr HC Hls).
  - destruct HC as (Hm & Hme & Hg & _). exact (object_cm_raises L e g nm n a t ED Hnm Hr Hm Hme Hg).
Qed.
Lemma matrix_cm_exp (L : Type) (leb eqb : L -> L -> bool) e nm n a ds t : (0 < n)%nat -> nonneg_matrix n a -> distinct (row_degrees n a) ds -> numpy_answers (List.length ds) t e ->
  In nm binary_names -> draws (v_rnd e) -> named_call "cm_exp" nm e t ->
  exists g, u_construct leb eqb (ArrayAdj n a) NoEdges NoSeq NoSeq = inl g /\ exists o', returned (u_new_tool e g t) o'.
Proof.
  intros Hn Ha HD HN Hnm Hr HC. destruct (matrix_degrees L leb eqb n a Hn Ha) as (g & E & ED). exists g. split; [exact E|].
  exact (object_cm_exp_returns L e g nm n a ds t ED HD HN Hnm Hr HC).
Qed.
Lemma incidences_pos {L} (leb eqb : L -> L -> bool) es v : total_order leb eqb -> is_end v es -> (0 < incidences eqb v es)%nat.
Proof.
  intros (Heq & _) (x & Hx & Hv). induction es as [|y es IH]; [destruct Hx|]. change (incidences eqb v (y :: es)) with (ends_at eqb v y + incidences eqb v es)%nat.
  destruct Hx as [->|Hx]; [|specialize (IH Hx); lia]. unfold ends_at. destruct Hv as [<-|<-].
  - rewrite (proj2 (Heq (fst x) (fst x)) eq_refl). lia.
  - rewrite (proj2 (Heq (snd x) (snd x)) eq_refl). lia.
Qed.
(** From an edge list: every node has a link. *)
Lemma edges_binary (L : Type) (leb eqb : L -> L -> bool) (es : list (L * L)) g e nm ds t : total_order leb eqb -> es <> [] -> simple_edges false es ->
  u_construct leb eqb NoAdj (PairEdges es) NoSeq NoSeq = inl g ->
  NoDup ds -> (forall d, In d ds <-> exists v, is_end v es /\ d = INR (incidences eqb v es)) -> numpy_answers (List.length ds) t e ->
  In nm binary_names -> draws (v_rnd e) -> named_call "cm" nm e t /\ t_linsearch t = true \/ named_call "cm_exp" nm e t -> exists o', returned (u_new_tool e g t) o'.
Proof.
  intros Ho HN HS EC Hds Hin Hnp Hnm Hr HC. destruct (edges_matrix L leb eqb es g Ho HN HS EC) as (nodes & a & Hpos & Hnd & Hn & ED & Hsy & Hdi & ER).
  assert (HD : distinct (row_degrees (List.length nodes) a) ds).
  { split; [exact Hds|]. intros d. rewrite Hin, ER, in_map_iff. split; intros (v & H1 & H2); exists v; split; auto; apply Hn; assumption. }
  destruct HC as [[HC Hls]|HC]; [|exact (object_cm_exp_returns L e g nm _ a ds t ED HD Hnp Hnm Hr HC)].
  apply (object_cm_returns L e g nm _ a ds t ED HD Hnp Hnm Hr HC Hls). intros i Hi.
  assert (Ev : exists v, nth_error nodes i = Some v) by (destruct (nth_error nodes i) as [v|] eqn:Ev; [eauto|]; apply nth_error_None in Ev; lia). destruct Ev as (v & Ev).
  destruct (u_object_binary L e g t (List.length nodes) a ED ltac:(destruct HC as (-> & _); cbn; tauto)) as (net & En & Ek & _).
  apply Classical_Prop.NNPP. intros Z. apply (row_degree_zero net _ a i En Ek Hi) in Z.
  assert (Q : nth_error (map INR (un_dseq net)) i = Some (INR (incidences eqb v es))) by (rewrite Ek, ER, nth_error_map, Ev; reflexivity).
  rewrite nth_error_map, (nth_error_nth' _ O) in Q by (fold (un_n net); lia). cbn [option_map] in Q. rewrite Z in Q. injection Q as Q.
  assert (P : 0 < INR (incidences eqb v es)); [|rewrite <- Q in P; lra].
  apply lt_0_INR. exact (incidences_pos leb eqb es v Ho (proj1 (Hn v) (nth_error_In _ _ Ev))).
Qed.

(** * DirectedGraph *)
Lemma d_object_binary (L : Type) e (g : @dgraph L) t n a : d_dseq_out g = Some (row_degrees n a) -> d_dseq_in g = Some (col_degrees n a) -> In (t_model t) ["dcm"; "dcm_exp"]%string ->
  exists net rep, dn_n net = n /\ d_paired net /\ map INR (dn_out net) = row_degrees n a /\ map INR (dn_in net) = col_degrees n a /\
    d_new_tool e g t = Run (d_tool e net t (d_fresh (d_is_sparse g))) rep.
Proof.
  intros EO EI Hm. destruct (row_naturals n a) as (k & Ek & Lk). pose proof (naturals_inv _ _ Ek) as EK.
  destruct (col_naturals n a) as (k' & Ek' & Lk'). pose proof (naturals_inv _ _ Ek') as EK'.
  remember (match d_out_strength g, d_in_strength g with
              | Some so, Some si => {| dn_out := k; dn_in := k'; dn_sout := at_reals so; dn_sin := at_reals si |}
              | _, _ => {| dn_out := k; dn_in := k'; dn_sout := fun _ => 0; dn_sin := fun _ => 0 |} end) as net eqn:Hnet.
  assert (E1 : dn_out net = k) by (rewrite Hnet; destruct (d_out_strength g), (d_in_strength g); reflexivity).
  assert (E2 : dn_in net = k') by (rewrite Hnet; destruct (d_out_strength g), (d_in_strength g); reflexivity).
  assert (TI : forall nz, d_tool_index e net nz t (d_fresh (d_is_sparse g)) = d_tool e net t (d_fresh (d_is_sparse g))).
  { intros nz. rewrite <- (proj1 (d_tool_indexed e net t (d_fresh (d_is_sparse g)))). unfold d_tool_index. f_equal. f_equal. f_equal. apply d_result_noindex. destruct Hm as [<-|[<-|[]]]; reflexivity. }
  exists net. eexists. split; [unfold dn_n; rewrite E1; exact Lk|]. split; [unfold d_paired; rewrite E1, E2, Lk, Lk'; reflexivity|].
  split; [rewrite E1; symmetry; exact EK|]. split; [rewrite E2; symmetry; exact EK'|]. rewrite <- (TI (d_index g)).
  unfold d_new_tool, d_object_tool. rewrite EO, EI, Ek, Ek'. replace (reads_strengths (t_model t)) with false by (destruct Hm as [<-|[<-|[]]]; reflexivity).
  rewrite andb_false_r. replace (reads_degrees (t_model t)) with false by (destruct Hm as [<-|[<-|[]]]; reflexivity).
  rewrite Hnet. destruct (d_out_strength g), (d_in_strength g); reflexivity.
Qed.
Lemma d_length_distinct net m n a ds : In m ["dcm"; "dcm_exp"]%string -> map INR (dn_out net) = row_degrees n a -> map INR (dn_in net) = col_degrees n a ->
  distinct (combine (row_degrees n a) (col_degrees n a)) ds -> d_length net m = (2 * List.length ds)%nat.
Proof.
  intros Hm EK EK' HD. replace (d_length net m) with (2 * List.length (map fst (np_unique pair_leb pair_eqb (combine (dn_out net) (dn_in net)))))%nat by (destruct Hm as [<-|[<-|[]]]; reflexivity).
  f_equal. rewrite map_length. symmetry.
  apply (distinct_length (fun p : nat * nat => (INR (fst p), INR (snd p))) (combine (dn_out net) (dn_in net)) _ ds).
  - intros [u v] [u' v'] Q. injection Q as Q1 Q2. apply INR_eq in Q1, Q2. subst. reflexivity.
  - apply unique_nodup. exact pair_order.
  - intros v. apply unique_in. exact pair_order.
  - rewrite <- combine_INR, EK, EK'. exact HD.
Qed.
Lemma net_balanced net n a : dn_n net = n -> d_paired net -> map INR (dn_out net) = row_degrees n a -> map INR (dn_in net) = col_degrees n a -> balanced (dn_out net) (dn_in net).
Proof.
  intros En HP EO EI. apply (digraph_balanced net (links a) HP); rewrite En; intros i Hi; [exact (row_deg n a _ i EO Hi)|exact (col_deg n a _ i EI Hi)].
Qed.
Lemma object_dcm_returns (L : Type) e (g : @dgraph L) nm n a ds t : d_dseq_out g = Some (row_degrees n a) -> d_dseq_in g = Some (col_degrees n a) ->
  distinct (combine (row_degrees n a) (col_degrees n a)) ds -> numpy_answers (2 * List.length ds) t e -> In nm binary_names -> draws (v_rnd e) ->
  named_call "dcm" nm e t /\ t_linsearch t = true \/ named_call "dcm_exp" nm e t -> exists o', returned (d_new_tool e g t) o'.
Proof.
  intros EO EI HD HN Hnm Hr HC. assert (Hm : In (t_model t) ["dcm"; "dcm_exp"]%string) by (destruct HC as [[(-> & _) _]|(-> & _)]; cbn; tauto).
  destruct (d_object_binary L e g t n a EO EI Hm) as (net & rep & En & HP & Ek & Ek' & ER). rewrite <- (d_length_distinct net (t_model t) n a ds Hm Ek Ek' HD) in HN.
  pose proof (net_balanced net n a En HP Ek Ek') as HB.
  assert (R : exists o', d_tool e net t (d_fresh (d_is_sparse g)) = (o', None)).
  { destruct HC as [[(M & Hme & Hg & Ht & Hq) Hls]|(M & Hme & Hg & Ht & Hq)]; rewrite M in HN.
    - exact (tool_dcm_completes e net t (d_fresh (d_is_sparse g)) nm HP HB M Hme Hls Hg Hnm Hr Ht Hq HN eq_refl).
    - destruct (start_dcm_exp net (v_rnd e) nm HP Hnm Hr HB) as (z & Hz). rewrite <- Hg in Hz. exact (tool_dcm_exp_completes e net t (d_fresh (d_is_sparse g)) z HP M Hme Hz Ht Hq HN eq_refl). }
  destruct R as (o' & R). exists o'. exists rep. rewrite ER, R. reflexivity.
Qed.
Lemma matrix_dcm (L : Type) (leb eqb : L -> L -> bool) e nm n a ds t : (0 < n)%nat -> nonneg_matrix n a -> distinct (combine (row_degrees n a) (col_degrees n a)) ds ->
  numpy_answers (2 * List.length ds) t e -> In nm binary_names -> draws (v_rnd e) -> named_call "dcm" nm e t /\ t_linsearch t = true \/ named_call "dcm_exp" nm e t ->
  exists g, d_construct leb eqb (ArrayAdj n a) NoEdges NoSeq NoSeq = inl g /\ exists o', returned (d_new_tool e g t) o'.
Proof.
  intros Hn Ha HD HN Hnm Hr HC. destruct (d_from_matrix_ok (@d_blank L) Ndarray false n a ltac:(discriminate) Ha) as (g & E & _).
  destruct (d_matrix_object L leb eqb Ndarray false n a g ltac:(discriminate) Ha E) as (D1 & D2 & _).
  unfold d_construct. cbn [ModelLife.d_initialize d_init_adjacency]. rewrite (proj2 (Nat.ltb_lt 0 (n * n)) ltac:(nia)), E. exists g. split; [reflexivity|].
  exact (object_dcm_returns L e g nm n a ds t D1 D2 HD HN Hnm Hr HC).
Qed.
Lemma edges_binary_dir (L : Type) (leb eqb : L -> L -> bool) (es : list (L * L)) g e nm ds t : total_order leb eqb -> es <> [] -> simple_edges true es ->
  d_construct leb eqb NoAdj (PairEdges es) NoSeq NoSeq = inl g ->
  NoDup ds -> (forall d, In d ds <-> exists v, is_end v es /\ d = (INR (count (fun e => eqb (fst e) v) es), INR (count (fun e => eqb (snd e) v) es))) ->
  numpy_answers (2 * List.length ds) t e -> In nm binary_names -> draws (v_rnd e) ->
  named_call "dcm" nm e t /\ t_linsearch t = true \/ named_call "dcm_exp" nm e t -> exists o', returned (d_new_tool e g t) o'.
Proof.
  intros Ho HN HS EC Hds Hin Hnp Hnm Hr HC. destruct (edges_matrix_dir L leb eqb es g Ho HN HS EC) as (nodes & a & Hpos & Hnd & Hn & D1 & D2 & _ & R1 & R2).
  assert (HD : distinct (combine (row_degrees (List.length nodes) a) (col_degrees (List.length nodes) a)) ds).
  { split; [exact Hds|]. intros d. rewrite Hin, R1, R2, combine_map, in_map_iff. split; intros (v & H1 & H2); exists v; split; auto; apply Hn; assumption. }
  exact (object_dcm_returns L e g nm _ a ds t D1 D2 HD Hnp Hnm Hr HC).
Qed.

(** * Weighted models of an UndirectedGraph *)
Lemma strengths_row n a i : (i < n)%nat -> at_reals (row_strengths n a) i = rsum n (fun j => a i j).
Proof.
  intros Hi. unfold at_reals. apply nth_error_nth. unfold row_strengths. rewrite nth_error_map, (nth_error_nth' _ O) by (rewrite seq_length; exact Hi). rewrite seq_nth by exact Hi. reflexivity.
Qed.
Lemma u_object_weighted (L : Type) e (g : @ugraph L) t n a : nonneg_matrix n a -> u_dseq g = Some (row_degrees n a) -> u_strength g = Some (row_strengths n a) -> u_str_kind g = Numbers ->
  exists net, un_n net = n /\ map INR (un_dseq net) = row_degrees n a /\ nonneg n (un_str net) /\
    (forall i, (i < n)%nat -> ~ (exists j, (j < n)%nat /\ 0 < a i j) -> nth i (un_dseq net) O = O /\ un_str net i = 0) /\
    u_new_tool e g t = Run (u_tool e net t (u_fresh (u_is_sparse g))) (u_report e net t (u_fresh (u_is_sparse g))).
Proof.
  intros Ha ED ES EK0. destruct (row_naturals n a) as (k & Ek & Lk). pose proof (naturals_inv _ _ Ek) as EK.
  set (net := {| un_dseq := k; un_str := at_reals (row_strengths n a) |}). exists net.
  assert (En : un_n net = n) by exact Lk. assert (Em : map INR (un_dseq net) = row_degrees n a) by (symmetry; exact EK).
  split; [exact En|]. split; [exact Em|]. split; [|split].
  - intros i Hi. change (un_str net i) with (at_reals (row_strengths n a) i). rewrite strengths_row by exact Hi. apply rsum_nonneg. intros j Hj. apply Ha; assumption.
  - intros i Hi Z. split; [apply (row_degree_zero net n a i En Em Hi); exact Z|]. change (un_str net i) with (at_reals (row_strengths n a) i). rewrite strengths_row by exact Hi.
    apply rsum_zero. intros j Hj. destruct (Rtotal_order (a i j) 0) as [Q|[Q|Q]]; [specialize (Ha i j Hi Hj); lra|exact Q|exfalso; apply Z; exists j; split; assumption].
  - unfold u_new_tool, u_object_tool. rewrite ED, Ek, ES, EK0. reflexivity.
Qed.
Lemma raises_run {L} e (g : @ugraph L) net t x : u_new_tool e g t = Run (u_tool e net t (u_fresh (u_is_sparse g))) (u_report e net t (u_fresh (u_is_sparse g))) ->
  snd (u_tool e net t (u_fresh (u_is_sparse g))) = Some x -> raises (u_new_tool e g t) x.
Proof. intros ER Q. destruct (u_tool e net t (u_fresh (u_is_sparse g))) as [o y]. cbn [snd] in Q. subst y. eexists. eexists. exact ER. Qed.
Lemma isolated_node n a : ~ none_isolated n a -> exists i, no_link n a i.
Proof.
  intros H. apply Classical_Prop.NNPP. intros K. apply H. intros i Hi. apply Classical_Prop.NNPP. intros Z. apply K. exists i. split; assumption.
Qed.
Lemma object_ecm_raises (L : Type) e (g : @ugraph L) nm n a t : nonneg_matrix n a -> u_dseq g = Some (row_degrees n a) -> u_strength g = Some (row_strengths n a) -> u_str_kind g = Numbers ->
  In nm weighted_names -> draws (v_rnd e) -> t_model t = "ecm"%string -> In (t_method t) descent_methods -> t_guess t = GStr nm -> ~ none_isolated n a -> raises (u_new_tool e g t) ESolver.
Proof.
  intros Ha ED ES EK Hnm Hr Hm Hme Hg HI. destruct (isolated_node n a HI) as (i & Hi & Z).
  destruct (u_object_weighted L e g t n a Ha ED ES EK) as (net & En & _ & Hs & HZ & ER). apply (raises_run e g net t _ ER).
  apply (isolated_raises_ecm e net t _ nm Hm Hme Hg Hnm Hr); [rewrite En; exact Hs|]. exists i. rewrite En. split; [exact Hi|left; apply HZ; assumption].
Qed.
Lemma object_ecm_exp_raises (L : Type) e (g : @ugraph L) nm n a t i j : nonneg_matrix n a -> u_dseq g = Some (row_degrees n a) -> u_strength g = Some (row_strengths n a) -> u_str_kind g = Numbers ->
  In nm weighted_names -> draws (v_rnd e) -> t_model t = "ecm_exp"%string -> In (t_method t) descent_methods -> t_guess t = GStr nm ->
  no_link n a i -> no_link n a j -> i <> j -> raises (u_new_tool e g t) ESolver.
Proof.
  intros Ha ED ES EK Hnm Hr Hm Hme Hg [Hi Zi] [Hj Zj] Hij.
  destruct (u_object_weighted L e g t n a Ha ED ES EK) as (net & En & _ & Hs & HZ & ER). apply (raises_run e g net t _ ER).
  apply (isolated_raises_ecm_exp e net t _ nm Hm Hme Hg Hnm Hr); [rewrite En; exact Hs|]. exists i, j. rewrite En. repeat split; try assumption; apply HZ; assumption.
Qed.
Lemma object_crema_raises (L : Type) e (g : @ugraph L) nm n a t : nonneg_matrix n a -> u_dseq g = Some (row_degrees n a) -> u_strength g = Some (row_strengths n a) -> u_str_kind g = Numbers ->
  In nm binary_names -> draws (v_rnd_adjacency e) -> In (t_model t) ["crema"; "crema-sparse"]%string -> t_adjacency t = AdjName "cm" -> In (t_method_adjacency t) descent_methods ->
  t_guess_adjacency t = GStr nm -> ~ none_isolated n a -> raises (u_new_tool e g t) ESolver.
Proof.
  intros Ha ED ES EK Hnm Hr Hm Had Hme Hg HI. destruct (isolated_node n a HI) as (i & Hi & Z).
  destruct (u_object_weighted L e g t n a Ha ED ES EK) as (net & En & _ & Hs & HZ & ER). apply (raises_run e g net t _ ER).
  apply (isolated_raises_crema e net t _ nm Hm Had Hme Hg Hnm Hr). exists i. rewrite En. split; [exact Hi|apply HZ; assumption].
Qed.
(** From a weighted matrix. *)
Lemma matrix_weighted (L : Type) (leb eqb : L -> L -> bool) n a : (0 < n)%nat -> nonneg_matrix n a -> excess n a <> 0 ->
  exists g, u_construct leb eqb (ArrayAdj n a) NoEdges NoSeq NoSeq = inl g /\ u_dseq g = Some (row_degrees n a) /\ u_strength g = Some (row_strengths n a) /\ u_str_kind g = Numbers.
Proof.
  intros Hn Ha Hx. destruct (matrix_degrees L leb eqb n a Hn Ha) as (g & E & ED). exists g. split; [exact E|]. split; [exact ED|]. split; [|eapply u_numbers; [|exact E]; discriminate].
  destruct (u_weighted_flag leb eqb n a NoEdges NoSeq NoSeq Hn Ha) as (g' & E' & _ & _ & S). rewrite E in E'. injection E' as <-. rewrite S.
  destruct (Req_EM_T (excess n a) 0); [contradiction|reflexivity].
Qed.
Lemma matrix_weighted_raises (L : Type) (leb eqb : L -> L -> bool) e nm n a t : (0 < n)%nat -> nonneg_matrix n a -> excess n a <> 0 -> ~ none_isolated n a ->
  exists g, u_construct leb eqb (ArrayAdj n a) NoEdges NoSeq NoSeq = inl g /\
  (t_model t = "ecm"%string -> In (t_method t) descent_methods -> t_guess t = GStr nm -> In nm weighted_names -> draws (v_rnd e) -> raises (u_new_tool e g t) ESolver) /\
  (t_model t = "ecm_exp"%string -> In (t_method t) descent_methods -> t_guess t = GStr nm -> In nm weighted_names -> draws (v_rnd e) ->
     (exists i j, no_link n a i /\ no_link n a j /\ i <> j) -> raises (u_new_tool e g t) ESolver) /\
  (In (t_model t) ["crema"; "crema-sparse"]%string -> t_adjacency t = AdjName "cm" -> In (t_method_adjacency t) descent_methods -> t_guess_adjacency t = GStr nm ->
     In nm binary_names -> draws (v_rnd_adjacency e) -> raises (u_new_tool e g t) ESolver).
Proof.
  intros Hn Ha Hx HI. destruct (matrix_weighted L leb eqb n a Hn Ha Hx) as (g & E & ED & ES & EK). exists g. split; [exact E|]. split; [|split].
  - intros Hm Hme Hg Hnm Hr. exact (object_ecm_raises L e g nm n a t Ha ED ES EK Hnm Hr Hm Hme Hg HI).
  - intros Hm Hme Hg Hnm Hr (i & j & Zi & Zj & Hij). exact (object_ecm_exp_raises L e g nm n a t i j Ha ED ES EK Hnm Hr Hm Hme Hg Zi Zj Hij).
  - intros Hm Had Hme Hg Hnm Hr. exact (object_crema_raises L e g nm n a t Ha ED ES EK Hnm Hr Hm Had Hme Hg HI).
Qed.
