(** Runs that are bound to reach their tolerance: objects built from the user's data. *)
From Coq Require Import Reals List Arith Bool ZArith String Lia Lra Permutation.
From Verif Require Import Base SpecGraph SpecDirected SpecEnsemble SpecNetwork SpecLife SpecLinsearch SpecSolver SpecDispatch SpecGuess SpecRun SpecSolve SpecTool SpecReach SpecReachTool
  ModelCM ModelDCM ModelNetwork ModelLife ModelSolver ModelDispatch ModelGuess ModelRun ModelSolve ModelTool ModelObject SpecObject.
From Verif Require Import ProofsUnique ProofsGraph ProofsNetwork ProofsAdjacency WitnessNetwork ProofsLife ProofsLifeDir ProofsLifeForms ProofsSolve ProofsSolveU ProofsSolveD ProofsTool ProofsToolD
  ProofsObject ProofsObjectForms ProofsObjectLabels ProofsReachTool.
Import ListNotations.
Local Open Scope R_scope.
#[local] Opaque u_dispatch d_dispatch lookup.

Lemma distinct_length {A B} (f : A -> B) (l : list A) u (ds : list B) : (forall x y, f x = f y -> x = y) -> NoDup u -> (forall v, In v u <-> In v l) -> distinct (map f l) ds ->
  List.length ds = List.length u.
Proof.
  intros Hf Hu Hi [Hd HI]. rewrite <- (map_length f u). apply Permutation_length, NoDup_Permutation; [exact Hd| |].
  - clear -Hf Hu. induction Hu as [|x l Hx Hu IH]; cbn; constructor; [|exact IH]. intros Q. apply in_map_iff in Q. destruct Q as (y & E & Q). apply Hf in E. subst. contradiction.
  - intros v. rewrite HI, !in_map_iff. split; intros (x & E & H); exists x; split; try exact E; apply Hi; exact H.
Qed.
Lemma count_ind n b : INR (count b (seq 0 n)) = rsum n (fun j => ind (b j)).
Proof.
  rewrite <- (seq_length n 0) at 2. symmetry. apply count_rsum. intros i v H. 
  assert (L : (i < List.length (seq 0 n))%nat) by (apply nth_error_Some; congruence). rewrite seq_length in L.
  rewrite (nth_error_nth' _ O) in H by (rewrite seq_length; exact L). rewrite seq_nth in H by exact L. injection H as <-. reflexivity.
Qed.
Lemma from_map n (f : nat -> R) k i : map INR k = map f (seq 0 n) -> (i < n)%nat -> at_list k i = f i.
Proof.
  intros E Hi. assert (L : List.length k = n) by (rewrite <- (map_length INR k), E, map_length, seq_length; reflexivity).
  assert (Q : nth_error (map INR k) i = Some (f i)).
  { rewrite E, nth_error_map, (nth_error_nth' _ O) by (rewrite seq_length; exact Hi). rewrite seq_nth by exact Hi. reflexivity. }
  rewrite nth_error_map, (nth_error_nth' _ O) in Q by lia. injection Q as Q. exact Q.
Qed.
Lemma row_deg n a k i : map INR k = row_degrees n a -> (i < n)%nat -> at_list k i = deg n (links a) i.
Proof. intros E Hi. rewrite (from_map n _ k i E Hi). apply count_ind. Qed.
Lemma col_deg n a k i : map INR k = col_degrees n a -> (i < n)%nat -> at_list k i = indeg n (links a) i.
Proof. intros E Hi. rewrite (from_map n _ k i E Hi). apply count_ind. Qed.
Lemma links_simple n a : symmetric n a -> (forall i, (i < n)%nat -> a i i = 0) -> simple_graph n (links a).
Proof.
  intros Hs Hd. split; intros i; [intros j Hi Hj|intros Hi]; unfold links; [rewrite (Hs i j Hi Hj); reflexivity|].
  rewrite (Hd i Hi). unfold positiveb. destruct (Rlt_dec 0 0); [lra|reflexivity].
Qed.
Lemma links_loopless n a : (forall i, (i < n)%nat -> a i i = 0) -> loopless n (links a).
Proof. intros Hd i Hi. unfold links. rewrite (Hd i Hi). unfold positiveb. destruct (Rlt_dec 0 0); [lra|reflexivity]. Qed.

(** * UndirectedGraph *)
Lemma object_cm_exp_data (L : Type) e (g : @ugraph L) nm tol n a ds : (0 < n)%nat -> INR n <= 10 ^ 22 -> u_dseq g = Some (row_degrees n a) ->
  symmetric n a -> (forall i, (i < n)%nat -> a i i = 0) -> distinct (row_degrees n a) ds -> sound_numpy (List.length ds) e -> In nm binary_names -> 0 < tol ->
  eventually (fun M eps => forall t, exp_call "cm_exp" nm e tol M eps t -> exists o', returned (u_new_tool e g t) o' /\ u_fitted n (links a) tol o').
Proof.
  intros Hn Hb ED Hs Hd HD (HL & HS & HE & Hr) Hnm Ht. destruct (row_naturals n a) as (k & Ek & Lk). pose proof (naturals_inv _ _ Ek) as EK.
  set (net := {| un_dseq := k; un_str := match u_strength g with Some s => at_reals s | None => fun _ => 0 end |}).
  assert (EN : un_n net = n) by exact Lk.
  assert (EL : u_length net "cm_exp" = List.length ds).
  { symmetry. change (u_length net "cm_exp") with (List.length (np_unique Nat.leb Nat.eqb k)). apply (distinct_length INR k _ ds); [exact INR_eq|apply unique_nodup; exact nat_order| |rewrite <- EK; exact HD].
    intros v. apply unique_in. exact nat_order. }
  rewrite <- EL in HL, HS, HE.
  destruct (tool_cm_exp_named e net (links a) tol nm ltac:(rewrite EN; exact Hn) ltac:(rewrite EN; exact Hb) ltac:(rewrite EN; apply links_simple; assumption)
    ltac:(intros i Hi; rewrite EN in Hi |- *; apply (row_deg n a k i (eq_sym EK) Hi)) HL HS HE Hnm Hr Ht) as (M & e0 & He0 & H).
  exists M, e0. split; [exact He0|]. intros M' eps HM He t (T1 & T2 & T3 & T4 & T5 & T6 & T7 & T8).
  destruct (H M' eps HM He t (u_fresh (u_is_sparse g)) T1 T2 T3 T4 T5 T6 T7 T8 eq_refl) as (o' & R & F). rewrite EN in F. exists o'. split; [|exact F].
  exists (u_report e net t (u_fresh (u_is_sparse g))). rewrite <- R. unfold u_new_tool, u_object_tool. rewrite ED, Ek, T1. unfold net.
  change (reads_strengths "cm_exp") with false. rewrite andb_false_r. destruct (u_strength g); reflexivity.
Qed.
Lemma object_cm_exp (L : Type) (leb eqb : L -> L -> bool) e nm tol n a ds : (0 < n)%nat -> INR n <= 10 ^ 22 -> nonneg_matrix n a ->
  symmetric n a -> (forall i, (i < n)%nat -> a i i = 0) -> distinct (row_degrees n a) ds -> sound_numpy (List.length ds) e -> In nm binary_names -> 0 < tol ->
  exists g, u_construct leb eqb (ArrayAdj n a) NoEdges NoSeq NoSeq = inl g /\
    eventually (fun M eps => forall t, exp_call "cm_exp" nm e tol M eps t -> exists o', returned (u_new_tool e g t) o' /\ u_fitted n (links a) tol o').
Proof.
  intros Hn Hb Ha Hs Hd HD HN Hnm Ht. destruct (u_from_matrix_ok (@u_blank L) Ndarray false n a ltac:(discriminate) Ha) as (g & E & _ & _ & D & _).
  unfold u_construct. cbn [ModelLife.u_initialize u_init_adjacency]. rewrite (proj2 (Nat.ltb_lt 0 (n * n)) ltac:(nia)), E. eexists. split; [reflexivity|].
  apply (object_cm_exp_data L e _ nm tol n a ds); assumption.
Qed.

(** * DirectedGraph *)
Lemma combine_INR k k' : combine (map INR k) (map INR k') = map (fun p : nat * nat => (INR (fst p), INR (snd p))) (combine k k').
Proof. revert k'. induction k as [|x k IH]; intros [|y k']; cbn; try reflexivity. f_equal. apply IH. Qed.
Lemma object_dcm_exp_data (L : Type) e (g : @dgraph L) nm tol n a ds : (0 < n)%nat -> INR n <= 10 ^ 21 -> d_dseq_out g = Some (row_degrees n a) -> d_dseq_in g = Some (col_degrees n a) ->
  (forall i, (i < n)%nat -> a i i = 0) -> distinct (combine (row_degrees n a) (col_degrees n a)) ds -> sound_numpy (2 * List.length ds) e -> In nm binary_names -> 0 < tol ->
  eventually (fun M eps => forall t, exp_call "dcm_exp" nm e tol M eps t -> exists o', returned (d_new_tool e g t) o' /\ d_fitted n (links a) tol o').
Proof.
  intros Hn Hb EO EI Hd HD (HL & HS & HE & Hr) Hnm Ht. destruct (row_naturals n a) as (k & Ek & Lk). pose proof (naturals_inv _ _ Ek) as EK.
  destruct (col_naturals n a) as (k' & Ek' & Lk'). pose proof (naturals_inv _ _ Ek') as EK'.
  remember (match d_out_strength g, d_in_strength g with
              | Some so, Some si => {| dn_out := k; dn_in := k'; dn_sout := at_reals so; dn_sin := at_reals si |}
              | _, _ => {| dn_out := k; dn_in := k'; dn_sout := fun _ => 0; dn_sin := fun _ => 0 |} end) as net eqn:Hnet.
  assert (E1 : dn_out net = k) by (rewrite Hnet; destruct (d_out_strength g), (d_in_strength g); reflexivity).
  assert (E2 : dn_in net = k') by (rewrite Hnet; destruct (d_out_strength g), (d_in_strength g); reflexivity).
  assert (EN : dn_n net = n) by (unfold dn_n; rewrite E1; exact Lk).
  assert (HP : d_paired net) by (unfold d_paired; rewrite E1, E2, Lk, Lk'; reflexivity).
  assert (EL : d_length net "dcm_exp" = (2 * List.length ds)%nat).
  { change (d_length net "dcm_exp") with (2 * List.length (map fst (np_unique pair_leb pair_eqb (combine (dn_out net) (dn_in net)))))%nat. f_equal. rewrite E1, E2, map_length. symmetry.
    apply (distinct_length (fun p : nat * nat => (INR (fst p), INR (snd p))) (combine k k') _ ds).
    - intros [u v] [u' v'] Q. injection Q as Q1 Q2. apply INR_eq in Q1, Q2. subst. reflexivity.
    - apply unique_nodup. exact pair_order.
    - intros v. apply unique_in. exact pair_order.
    - replace (map (fun p : nat * nat => (INR (fst p), INR (snd p))) (combine k k')) with (combine (map INR k) (map INR k')); [rewrite <- EK, <- EK'; exact HD|].
      apply combine_INR. }
  rewrite <- EL in HL, HS, HE.
  destruct (tool_dcm_exp_named e net (links a) tol nm ltac:(rewrite EN; exact Hn) ltac:(rewrite EN; exact Hb) HP ltac:(rewrite EN; apply links_loopless; assumption)
    ltac:(intros i Hi; rewrite EN in Hi |- *; rewrite E1; apply (row_deg n a k i (eq_sym EK) Hi)) ltac:(intros i Hi; rewrite EN in Hi |- *; rewrite E2; apply (col_deg n a k' i (eq_sym EK') Hi)) HL HS HE Hnm Hr Ht) as (M & e0 & He0 & H).
  exists M, e0. split; [exact He0|]. intros M' eps HM He t (T1 & T2 & T3 & T4 & T5 & T6 & T7 & T8).
  destruct (H M' eps HM He t (d_fresh (d_is_sparse g)) T1 T2 T3 T4 T5 T6 T7 T8 eq_refl) as (o' & R & F). rewrite EN in F. exists o'. split; [|exact F].
  assert (TI : forall nz, d_tool_index e net nz t (d_fresh (d_is_sparse g)) = d_tool e net t (d_fresh (d_is_sparse g))).
  { intros nz. rewrite <- (proj1 (d_tool_indexed e net t (d_fresh (d_is_sparse g)))). unfold d_tool_index. f_equal. f_equal. f_equal. apply d_result_noindex. rewrite T1. reflexivity. }
  exists (report_of (d_result_index e net (d_index g) t (d_fresh (d_is_sparse g)))). rewrite <- R, <- (TI (d_index g)).
  unfold d_new_tool, d_object_tool. rewrite EO, EI, Ek, Ek', T1. change (reads_strengths "dcm_exp") with false. rewrite andb_false_r. change (reads_degrees "dcm_exp") with false. rewrite Hnet. destruct (d_out_strength g), (d_in_strength g); reflexivity.
Qed.
Lemma object_dcm_exp (L : Type) (leb eqb : L -> L -> bool) e nm tol n a ds : (0 < n)%nat -> INR n <= 10 ^ 21 -> nonneg_matrix n a ->
  (forall i, (i < n)%nat -> a i i = 0) -> distinct (combine (row_degrees n a) (col_degrees n a)) ds -> sound_numpy (2 * List.length ds) e -> In nm binary_names -> 0 < tol ->
  exists g, d_construct leb eqb (ArrayAdj n a) NoEdges NoSeq NoSeq = inl g /\
    eventually (fun M eps => forall t, exp_call "dcm_exp" nm e tol M eps t -> exists o', returned (d_new_tool e g t) o' /\ d_fitted n (links a) tol o').
Proof.
  intros Hn Hb Ha Hd HD HN Hnm Ht. destruct (d_from_matrix_ok (@d_blank L) Ndarray false n a ltac:(discriminate) Ha) as (g & E & _).
  destruct (d_matrix_object L leb eqb Ndarray false n a g ltac:(discriminate) Ha E) as (D1 & D2 & _).
  unfold d_construct. cbn [ModelLife.d_initialize d_init_adjacency]. rewrite (proj2 (Nat.ltb_lt 0 (n * n)) ltac:(nia)), E. exists g. split; [reflexivity|].
  eapply object_dcm_exp_data; eassumption.
Qed.

(** * Edge lists *)
Lemma combine_map {A B C} (f : A -> B) (g : A -> C) l : combine (map f l) (map g l) = map (fun v => (f v, g v)) l.
Proof. induction l as [|x l IH]; cbn; [reflexivity|]. f_equal. exact IH. Qed.
Lemma count_some {A} (P : A -> bool) l x : In x l -> P x = true -> 0 < INR (count P l).
Proof.
  intros Hx Hp. apply lt_0_INR. unfold count. destruct (filter P l) eqn:E; [|cbn; lia]. assert (In x (filter P l)) as Q by (apply filter_In; auto). rewrite E in Q. destruct Q.
Qed.
Lemma nth_row n (f : nat -> R) i r : nth_error (map f (seq 0 n)) i = Some r -> (i < n)%nat -> r = f i.
Proof. intros H Hi. rewrite nth_error_map, (nth_error_nth' _ O) in H by (rewrite seq_length; exact Hi). rewrite seq_nth in H by exact Hi. injection H as <-. reflexivity. Qed.
Lemma degrees_of_nodes {L} (k : L -> nat) (nodes : list L) (deg : list nat) : List.length deg = List.length nodes -> (forall i v, nth_error nodes i = Some v -> nth_error deg i = Some (k v)) ->
  map INR deg = map (fun v => INR (k v)) nodes.
Proof.
  revert deg. induction nodes as [|v nodes IH]; intros [|d deg] HL HD; try discriminate; [reflexivity|]. cbn. f_equal.
  - specialize (HD O v eq_refl). injection HD as ->. reflexivity.
  - apply IH; [cbn in HL; lia|]. intros i w Hw. exact (HD (S i) w Hw).
Qed.
Lemma existsb_diagonal d i (es : list (nat * nat)) : (forall i, ~ In (i, i) es) -> existsb (covers d i i) es = false.
Proof.
  intros H. destruct (existsb (covers d i i) es) eqn:E; [exfalso|reflexivity]. apply existsb_exists in E. destruct E as ([u v] & Hin & C). unfold covers in C. cbn in C.
  assert (u = i /\ v = i) as [-> ->]. { apply orb_prop in C. destruct C as [C|C]; [|apply andb_prop in C; destruct C as [_ C]]; apply andb_prop in C; destruct C as [C1 C2]; apply Nat.eqb_eq in C1, C2; auto. }
  exact (H i Hin).
Qed.
Lemma node_count {L} (nodes : list L) (es : list (L * L)) : NoDup nodes -> (forall v, In v nodes <-> is_end v es) -> (List.length nodes <= 2 * List.length es)%nat.
Proof.
  intros Hd Hn. apply Nat.le_trans with (List.length (flat_map (fun e : L * L => [fst e; snd e]) es)).
  - apply NoDup_incl_length; [exact Hd|]. intros v Hv. apply Hn in Hv. destruct Hv as (e & He & H). apply in_flat_map. exists e. split; [exact He|]. destruct H as [<-|<-]; [left|right; left]; reflexivity.
  - clear. induction es as [|e es IH]; cbn in *; lia.
Qed.
Lemma edges_matrix (L : Type) (leb eqb : L -> L -> bool) (es : list (L * L)) g : total_order leb eqb -> es <> [] -> simple_edges false es ->
  u_construct leb eqb NoAdj (PairEdges es) NoSeq NoSeq = inl g ->
  exists nodes a, (0 < List.length nodes)%nat /\ NoDup nodes /\ (forall v, In v nodes <-> is_end v es) /\ u_dseq g = Some (row_degrees (List.length nodes) a) /\
    symmetric (List.length nodes) a /\ (forall i, (i < List.length nodes)%nat -> a i i = 0) /\ row_degrees (List.length nodes) a = map (fun v => INR (incidences eqb v es)) nodes.
Proof.
  intros Ho HN HS EC. destruct (edgelist_undirected_closed L leb eqb es Ho HN) as (es' & deg & nodes & E & In_ & Hn & HR & HG & HL & HD & _).
  destruct (relabelled_adjacency L leb eqb es es' deg nodes Ho E) as (a & HA & HK). destruct (HK HS) as (k & Hk & Hd). clear HK.
  pose proof (gapless_pos _ nodes es' es HR HN HG) as Hpos.
  assert (Q : map INR deg = row_degrees (List.length nodes) a).
  { apply (degrees_as_rows _ a deg k HL Hd). intros i _. unfold degree in Hk. simpl in Hk. injection Hk as <-. reflexivity. }
  exists nodes, a. split; [exact Hpos|]. split; [exact (increasing_nodup leb nodes In_)|]. split; [exact Hn|]. split.
  { unfold u_construct in EC. destruct es as [|e0 es]; [contradiction HN; reflexivity|]. cbn [ModelLife.u_initialize u_init_edges] in EC. rewrite E in EC. rewrite <- Q.
    injection EC as <-. reflexivity. }
  pose proof (adjacency_binary es' false) as HB. rewrite HA in HB. destruct HB as (_ & HV & HSY).
  split; [intros i j _ _; apply HSY; reflexivity|]. split.
  { intros i _. rewrite HV, existsb_diagonal; [reflexivity|]. apply (relabel_simple false nodes es' es HR HS). }
  rewrite <- Q. apply (degrees_of_nodes (fun v => incidences eqb v es)); assumption.
Qed.
Lemma edges_cm_exp (L : Type) (leb eqb : L -> L -> bool) (es : list (L * L)) g e nm tol ds : total_order leb eqb -> es <> [] -> simple_edges false es -> INR (List.length es) <= 10 ^ 21 ->
  u_construct leb eqb NoAdj (PairEdges es) NoSeq NoSeq = inl g ->
  NoDup ds -> (forall d, In d ds <-> exists v, is_end v es /\ d = INR (incidences eqb v es)) -> sound_numpy (List.length ds) e -> In nm binary_names -> 0 < tol ->
  eventually (fun M eps => forall t, exp_call "cm_exp" nm e tol M eps t ->
    exists o' nodes ob x err, returned (u_new_tool e g t) o' /\ u_nodes_dict g = Some nodes /\ (forall v, In v nodes <-> is_end v es) /\
      observed nodes (fun v => INR (incidences eqb v es)) ob /\ us_x o' = Some x /\ us_err o' = Some err /\
      sup_dev (List.length nodes) (fun i => mean_undirected (List.length nodes) (p_ubcm x) (fun a => deg (List.length nodes) a i)) ob err /\ err <= tol).
Proof.
  intros Ho HN HS Hb EC Hds Hin Hnp Hnm Ht. destruct (edges_matrix L leb eqb es g Ho HN HS EC) as (nodes & a & Hpos & Hnd & Hn & ED & Hsy & Hdi & ER).
  assert (Hsz : INR (List.length nodes) <= 10 ^ 22).
  { pose proof (le_INR _ _ (node_count nodes es Hnd Hn)) as Q. rewrite mult_INR in Q. simpl (INR 2) in Q. simpl pow in *. lra. }
  assert (HD : distinct (row_degrees (List.length nodes) a) ds).
  { split; [exact Hds|]. intros d. rewrite Hin, ER, in_map_iff. split; intros (v & H1 & H2); exists v; split; auto; apply Hn; assumption. }
  destruct (object_cm_exp_data L e g nm tol _ a ds Hpos Hsz ED Hsy Hdi HD Hnp Hnm Ht) as (M & e0 & He0 & H). exists M, e0. split; [exact He0|]. intros M' eps HM He t Hc.
  destruct (H M' eps HM He t Hc) as (o' & R & x & err & X & Er & _ & Hle & _).
  destruct (labels_cm L leb eqb es g e t o' Ho HN EC ltac:(destruct Hc as [-> _]; cbn; tauto) R) as (nodes' & ob & x' & err' & N1 & _ & N2 & N3 & N4 & N5 & _ & N6).
  rewrite Er in N5. injection N5 as <-. exists o', nodes', ob, x', err. do 8 (split; try assumption).
Qed.
Lemma edges_matrix_dir (L : Type) (leb eqb : L -> L -> bool) (es : list (L * L)) g : total_order leb eqb -> es <> [] -> simple_edges true es ->
  d_construct leb eqb NoAdj (PairEdges es) NoSeq NoSeq = inl g ->
  exists nodes a, (0 < List.length nodes)%nat /\ NoDup nodes /\ (forall v, In v nodes <-> is_end v es) /\
    d_dseq_out g = Some (row_degrees (List.length nodes) a) /\ d_dseq_in g = Some (col_degrees (List.length nodes) a) /\
    (forall i, (i < List.length nodes)%nat -> a i i = 0) /\ row_degrees (List.length nodes) a = map (fun v => INR (count (fun e => eqb (fst e) v) es)) nodes /\
    col_degrees (List.length nodes) a = map (fun v => INR (count (fun e => eqb (snd e) v) es)) nodes.
Proof.
  intros Ho HN HS EC. destruct (edgelist_directed_closed L leb eqb es Ho HN) as (es' & dout & din & nodes & E & In_ & Hn & HR & HG & HL & HL' & HD & _).
  pose proof (relabel_simple true nodes es' es HR HS) as HS'.
  destruct (adjacency_gapless es' true _ HG) as (a & HA). 
  pose proof (gapless_pos _ nodes es' es HR HN HG) as Hpos.
  assert (HV : forall i, (i < List.length nodes)%nat -> exists v, nth_error nodes i = Some v).
  { intros i Hi. destruct (nth_error nodes i) as [v|] eqn:Ev; [eauto|]. apply nth_error_None in Ev. lia. }
  assert (Q : map INR dout = row_degrees (List.length nodes) a).
  { apply (degrees_as_rows _ a dout (fun i => count (fun e => Nat.eqb (fst e) i) es') HL).
    - intros i Hi. destruct (HV i Hi) as [v Ev]. rewrite (proj1 (HD i v Ev)). f_equal. symmetry. apply (relabel_counts leb eqb nodes i v Ho In_ Ev es' es HR).
    - intros i Hi. symmetry. apply (adjacency_degrees_dir es' _ a _ _ HS' HA eq_refl eq_refl i Hi). }
  assert (Q2 : map INR din = col_degrees (List.length nodes) a).
  { apply (degrees_as_cols _ a din (fun i => count (fun e => Nat.eqb (snd e) i) es') HL').
    - intros i Hi. destruct (HV i Hi) as [v Ev]. rewrite (proj2 (HD i v Ev)). f_equal. symmetry. apply (relabel_counts leb eqb nodes i v Ho In_ Ev es' es HR).
    - intros i Hi. symmetry. apply (adjacency_degrees_dir es' _ a _ _ HS' HA eq_refl eq_refl i Hi). }
  exists nodes, a. split; [exact Hpos|]. split; [exact (increasing_nodup leb nodes In_)|]. split; [exact Hn|].
  assert (K : d_dseq_out g = Some (map INR dout) /\ d_dseq_in g = Some (map INR din)).
  { unfold d_construct in EC. destruct es as [|e0 es]; [contradiction HN; reflexivity|]. cbn [ModelLife.d_initialize d_init_edges] in EC. rewrite E in EC. injection EC as <-. split; reflexivity. }
  rewrite <- Q, <- Q2. split; [apply K|]. split; [apply K|].
  pose proof (adjacency_binary es' true) as HB. rewrite HA in HB. destruct HB as (_ & HW & _). split.
  { intros i _. rewrite HW, existsb_diagonal; [reflexivity|]. apply HS'. }
  split; [apply (degrees_of_nodes (fun v => count (fun e => eqb (fst e) v) es)); [exact HL|intros i v Hv; apply (HD i v Hv)]|].
  apply (degrees_of_nodes (fun v => count (fun e => eqb (snd e) v) es)); [exact HL'|intros i v Hv; apply (HD i v Hv)].
Qed.
Lemma edges_dcm_exp (L : Type) (leb eqb : L -> L -> bool) (es : list (L * L)) g e nm tol ds : total_order leb eqb -> es <> [] -> simple_edges true es -> INR (List.length es) <= 10 ^ 20 ->
  d_construct leb eqb NoAdj (PairEdges es) NoSeq NoSeq = inl g ->
  NoDup ds -> (forall d, In d ds <-> exists v, is_end v es /\ d = (INR (count (fun e => eqb (fst e) v) es), INR (count (fun e => eqb (snd e) v) es))) ->
  sound_numpy (2 * List.length ds) e -> In nm binary_names -> 0 < tol ->
  eventually (fun M eps => forall t, exp_call "dcm_exp" nm e tol M eps t ->
    exists o' nodes oo oi x y e1 e2, returned (d_new_tool e g t) o' /\ d_nodes_dict g = Some nodes /\ (forall v, In v nodes <-> is_end v es) /\
      observed nodes (fun v => INR (count (fun e => eqb (fst e) v) es)) oo /\ observed nodes (fun v => INR (count (fun e => eqb (snd e) v) es)) oi /\
      ds_x o' = Some x /\ ds_y o' = Some y /\ ds_err o' = Some (Rmax e1 e2) /\
      sup_dev (List.length nodes) (fun i => mean_directed (List.length nodes) (p_dbcm x y) (fun a => deg (List.length nodes) a i)) oo e1 /\
      sup_dev (List.length nodes) (fun i => mean_directed (List.length nodes) (p_dbcm x y) (fun a => indeg (List.length nodes) a i)) oi e2 /\
      ((forall v, is_end v es -> (exists u, In (u, v) es) /\ (exists u, In (v, u) es)) -> e1 <= tol /\ e2 <= tol)).
Proof.
  intros Ho HN HS Hb EC Hds Hin Hnp Hnm Ht. destruct (edges_matrix_dir L leb eqb es g Ho HN HS EC) as (nodes & a & Hpos & Hnd & Hn & ED & ED2 & Hdi & ER & ER2).
  assert (Hsz : INR (List.length nodes) <= 10 ^ 21).
  { pose proof (le_INR _ _ (node_count nodes es Hnd Hn)) as Q. rewrite mult_INR in Q. simpl (INR 2) in Q. simpl pow in *. lra. }
  assert (HD : distinct (combine (row_degrees (List.length nodes) a) (col_degrees (List.length nodes) a)) ds).
  { split; [exact Hds|]. intros d. rewrite Hin, ER, ER2, combine_map, in_map_iff. split; intros (v & H1 & H2); exists v; split; auto; apply Hn; assumption. }
  destruct (object_dcm_exp_data L e g nm tol _ a ds Hpos Hsz ED ED2 Hdi HD Hnp Hnm Ht) as (M & e0 & He0 & H). exists M, e0. split; [exact He0|]. intros M' eps HM He t Hc.
  destruct (H M' eps HM He t Hc) as (o' & R & x & y & err & X & Y & Er & _ & _ & Hle).
  destruct (labels_dcm L leb eqb es g e t o' Ho HN EC ltac:(destruct Hc as [-> _]; cbn; tauto) R) as (nodes' & oo & oi & x' & y' & e1 & e2 & N1 & _ & N2 & N3 & N4 & N5 & N6 & N7 & _ & N8 & N9).
  rewrite Er in N7. injection N7 as ->. exists o', nodes', oo, oi, x', y', e1, e2. do 10 (split; [assumption|]). intros Hboth.
  assert (Q : Rmax e1 e2 <= tol).
  { apply Hle. intros i Hi. destruct (nth_error nodes i) as [v|] eqn:Ev; [|apply nth_error_None in Ev; lia].
    assert (Hv : is_end v es) by (apply Hn; apply nth_error_In with (1 := Ev)). destruct (Hboth v Hv) as [[u U] [w W]].
    assert (EB : forall u, eqb u u = true) by (intros u'; apply Ho; reflexivity).
    assert (K1 : INR (count (fun e => eqb (fst e) v) es) = deg (List.length nodes) (links a) i).
    { unfold deg. rewrite <- (count_ind (List.length nodes) (links a i)). apply (nth_row (List.length nodes) (fun i => INR (count (links a i) (seq 0 (List.length nodes)))) i); [|exact Hi].
      change (map (fun i => INR (count (links a i) (seq 0 (List.length nodes)))) (seq 0 (List.length nodes))) with (row_degrees (List.length nodes) a). rewrite ER, nth_error_map, Ev. reflexivity. }
    assert (K2 : INR (count (fun e => eqb (snd e) v) es) = indeg (List.length nodes) (links a) i).
    { unfold indeg. rewrite <- (count_ind (List.length nodes) (fun j => links a j i)). apply (nth_row (List.length nodes) (fun i => INR (count (fun j => links a j i) (seq 0 (List.length nodes)))) i); [|exact Hi].
      change (map (fun i => INR (count (fun j => links a j i) (seq 0 (List.length nodes)))) (seq 0 (List.length nodes))) with (col_degrees (List.length nodes) a). rewrite ER2, nth_error_map, Ev. reflexivity. }
    rewrite <- K1, <- K2. split; [apply (count_some _ _ (v, w) W)|apply (count_some _ _ (u, v) U)]; apply EB. }
  split; [apply Rle_trans with (2 := Q); apply Rmax_l|apply Rle_trans with (2 := Q); apply Rmax_r].
Qed.
