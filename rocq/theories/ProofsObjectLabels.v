(** An object built from an edge list: what its first call of [solve_tool] reports, in terms
    of the user's labels. *)
From Coq Require Import Reals List Arith Bool ZArith String Lia Lra.
From Verif Require Import Base SpecGraph SpecEnsemble SpecWeighted SpecNetwork SpecLife SpecSolve SpecTool
  ModelCM ModelECM ModelDCM ModelDECM ModelCReMa ModelNetwork ModelLife ModelSolver ModelDispatch ModelGuess ModelRun ModelSolve ModelTool ModelObject SpecObject.
From Verif Require Import ProofsNetwork ProofsLife ProofsLifeDir ProofsLifeForms ProofsSolve ProofsSolveU ProofsSolveD ProofsTool ProofsToolD ProofsObject.
Import ListNotations.
Local Open Scope R_scope.

Lemma observed_degrees {L} (nodes : list L) (deg : list nat) (k : L -> nat) :
  (forall i v, nth_error nodes i = Some v -> nth_error deg i = Some (k v)) -> observed nodes (fun v => INR (k v)) (at_list deg).
Proof. intros H i v Hi. unfold at_list. rewrite (nth_error_nth deg i O (H i v Hi)). reflexivity. Qed.
Lemma observed_reals {L} (nodes : list L) (s : list R) (k : L -> R) :
  (forall i v, nth_error nodes i = Some v -> nth_error s i = Some (k v)) -> observed nodes k (at_reals s).
Proof. intros H i v Hi. apply (nth_error_nth s i 0 (H i v Hi)). Qed.
Lemma nodes_positive {K L} (nodes : list L) (es : list K) (is : L -> Prop) : (forall v, In v nodes <-> is v) -> (exists v, is v) -> (0 < List.length nodes)%nat.
Proof. intros H [v Hv]. apply H in Hv. destruct nodes; [destruct Hv|cbn; lia]. Qed.
Lemma has_end {L} (es : list (L * L)) : es <> [] -> exists v, is_end v es.
Proof. destruct es as [|[u v] es]; [contradiction|]. intros _. exists u. unfold is_end. exists (u, v). split; [left; reflexivity|]. left. reflexivity. Qed.

Lemma labels_cm (L : Type) (leb eqb : L -> L -> bool) (es : list (L * L)) g e t o' : total_order leb eqb -> es <> [] ->
  u_construct leb eqb NoAdj (PairEdges es) NoSeq NoSeq = inl g -> In (t_model t) ["cm"; "cm_exp"]%string -> returned (u_new_tool e g t) o' ->
  exists nodes ob x err, u_nodes_dict g = Some nodes /\ increasing leb nodes /\ (forall v, In v nodes <-> is_end v es) /\
    observed nodes (fun v => INR (incidences eqb v es)) ob /\ us_x o' = Some x /\ us_err o' = Some err /\
    (forall i j, (i < List.length nodes)%nat -> (j < List.length nodes)%nat -> ob i = ob j -> x i = x j) /\
    sup_dev (List.length nodes) (fun i => mean_undirected (List.length nodes) (p_ubcm x) (fun a => deg (List.length nodes) a i)) ob err.
Proof.
  intros Ho HN E Hm [rep HR]. destruct (edgelist_undirected_closed L leb eqb es Ho HN) as (es' & deg & nodes & EE & In_ & Hn & _ & _ & HL & HD & _).
  unfold u_construct in E. destruct es as [|e0 es]; [contradiction HN; reflexivity|]. cbn [ModelLife.u_initialize u_init_edges] in E. rewrite EE in E.
  assert (A : u_dseq g = Some (map INR deg) /\ u_strength g = None /\ u_nodes_dict g = Some nodes) by (injection E as <-; repeat split). destruct A as (A1 & A2 & A3).
  unfold u_new_tool, u_object_tool in HR. rewrite A1, A2, naturals_map in HR.
  replace (reads_strengths (t_model t)) with false in HR by (destruct Hm as [<-|[<-|[]]]; reflexivity). injection HR as HT _.
  set (net := {| un_dseq := deg; un_str := fun _ => 0 |}) in *.
  assert (Hpos : (0 < un_n net)%nat) by (change (0 < List.length deg)%nat; rewrite HL; apply (nodes_positive (K := L * L) nodes [] _ Hn), has_end; discriminate).
  unfold u_tool in HT. destruct (u_error_cm net (u_call e net t (u_fresh (u_is_sparse g))) (u_fresh (u_is_sparse g)) o' Hpos ltac:(reflexivity) ltac:(exact Hm) HT) as (v & cls & x & err & Ev & Ex & Ee & Hc & Hx & SD).
  exists nodes, (at_list deg), x, err. split; [exact A3|]. split; [exact In_|]. split; [exact Hn|]. split; [apply (observed_degrees nodes deg (fun v => incidences eqb v (e0 :: es))); exact HD|].
  split; [exact Ex|]. split; [exact Ee|]. change (un_n net) with (List.length deg) in *. rewrite HL in *. split.
  - intros i j Hi Hj Eij. rewrite !Hx. replace (cls j) with (cls i); [reflexivity|]. apply (Hc i j Hi Hj). apply INR_eq. exact Eij.
  - exact SD.
Qed.
Lemma labels_ecm (L : Type) (leb eqb : L -> L -> bool) (es : list (L * L * R)) g e t o' : total_order leb eqb -> es <> [] ->
  u_construct leb eqb NoAdj (TripleEdges es) NoSeq NoSeq = inl g -> In (t_model t) ["ecm"; "ecm_exp"]%string -> returned (u_new_tool e g t) o' ->
  exists nodes ok os x y ek es', u_nodes_dict g = Some nodes /\ increasing leb nodes /\ (forall v, In v nodes <-> is_end v (map fst es)) /\
    observed nodes (fun v => INR (incidences eqb v (map fst es))) ok /\ observed nodes (fun v => incident_weight eqb v es) os /\
    us_x o' = Some x /\ us_y o' = Some y /\ us_err o' = Some (Rmax es' ek) /\
    sup_dev (List.length nodes) (mean_deg_und (List.length nodes) x y) ok ek /\ sup_dev (List.length nodes) (mean_str_und (List.length nodes) x y) os es'.
Proof.
  intros Ho HN E Hm [rep HR]. destruct (edgelist_undirected_w_closed L leb eqb es Ho HN) as (es' & deg & st & nodes & EE & In_ & Hn & _ & _ & _ & HL & HLs & HD & _).
  unfold u_construct in E. destruct es as [|e0 es]; [contradiction HN; reflexivity|]. cbn [ModelLife.u_initialize u_init_edges] in E. rewrite EE in E.
  assert (A : u_dseq g = Some (map INR deg) /\ u_strength g = Some st /\ u_nodes_dict g = Some nodes /\ u_str_kind g = Numbers) by (injection E as <-; repeat split). destruct A as (A1 & A2 & A3 & A4).
  unfold u_new_tool, u_object_tool in HR. rewrite A1, A2, A4, naturals_map in HR. injection HR as HT _.
  set (net := {| un_dseq := deg; un_str := at_reals st |}) in *.
  assert (Hpos : (0 < un_n net)%nat) by (change (0 < List.length deg)%nat; rewrite HL; apply (nodes_positive (K := L * L) nodes [] _ Hn), has_end; discriminate).
  unfold u_tool in HT. destruct (u_error_ecm net (u_call e net t (u_fresh (u_is_sparse g))) (u_fresh (u_is_sparse g)) o' Hpos ltac:(exact Hm) HT) as (v & x & y & ek & es1 & Ev & Ex & Ey & Ee & _ & _ & S1 & S2).
  exists nodes, (at_list deg), (at_reals st), x, y, ek, es1. split; [exact A3|]. split; [exact In_|]. split; [exact Hn|].
  split; [apply (observed_degrees nodes deg (fun v => incidences eqb v (map fst (e0 :: es)))); intros i v' Hv; apply (HD i v' Hv)|].
  split; [apply observed_reals; intros i v' Hv; apply (HD i v' Hv)|]. split; [exact Ex|]. split; [exact Ey|]. split; [exact Ee|].
  change (un_n net) with (List.length deg) in *. rewrite HL in *. split; [exact S1|exact S2].
Qed.
Lemma d_tool_index_noindex e g nz t o : In (t_model t) ["dcm"; "dcm_exp"; "decm"; "decm_exp"]%string -> d_tool_index e g nz t o = d_tool e g t o.
Proof. intros Hm. unfold d_tool_index, d_result_index, d_tool, d_call. destruct Hm as [<-|[<-|[<-|[<-|[]]]]]; reflexivity. Qed.
Lemma labels_dcm (L : Type) (leb eqb : L -> L -> bool) (es : list (L * L)) g e t o' : total_order leb eqb -> es <> [] ->
  d_construct leb eqb NoAdj (PairEdges es) NoSeq NoSeq = inl g -> In (t_model t) ["dcm"; "dcm_exp"]%string -> returned (d_new_tool e g t) o' ->
  exists nodes oo oi x y e1 e2, d_nodes_dict g = Some nodes /\ increasing leb nodes /\ (forall v, In v nodes <-> is_end v es) /\
    observed nodes (fun v => INR (count (fun e => eqb (fst e) v) es)) oo /\ observed nodes (fun v => INR (count (fun e => eqb (snd e) v) es)) oi /\
    ds_x o' = Some x /\ ds_y o' = Some y /\ ds_err o' = Some (Rmax e1 e2) /\
    (forall i j, (i < List.length nodes)%nat -> (j < List.length nodes)%nat -> oo i = oo j -> oi i = oi j -> x i = x j /\ y i = y j) /\
    sup_dev (List.length nodes) (fun i => mean_directed (List.length nodes) (p_dbcm x y) (fun a => deg (List.length nodes) a i)) oo e1 /\
    sup_dev (List.length nodes) (fun i => mean_directed (List.length nodes) (p_dbcm x y) (fun a => indeg (List.length nodes) a i)) oi e2.
Proof.
  intros Ho HN E Hm [rep HR]. destruct (edgelist_directed_closed L leb eqb es Ho HN) as (es' & dout & din & nodes & EE & In_ & Hn & _ & _ & HL & HL' & HD & _).
  unfold d_construct in E. destruct es as [|e0 es]; [contradiction HN; reflexivity|]. cbn [ModelLife.d_initialize d_init_edges] in E. rewrite EE in E.
  assert (A : d_dseq_out g = Some (map INR dout) /\ d_dseq_in g = Some (map INR din) /\ d_out_strength g = None /\ d_nodes_dict g = Some nodes) by (injection E as <-; repeat split).
  destruct A as (A1 & A2 & A4 & A3). unfold d_new_tool, d_object_tool in HR. rewrite A1, A2, A4, !naturals_map in HR.
  replace (reads_strengths (t_model t)) with false in HR by (destruct Hm as [<-|[<-|[]]]; reflexivity). rewrite andb_false_r in HR.
  replace (reads_degrees (t_model t)) with false in HR by (destruct Hm as [<-|[<-|[]]]; reflexivity). injection HR as HT _.
  set (net := {| dn_out := dout; dn_in := din; dn_sout := fun _ => 0; dn_sin := fun _ => 0 |}) in *.
  rewrite d_tool_index_noindex in HT by (cbn in Hm |- *; tauto).
  assert (Hpos : (0 < dn_n net)%nat) by (change (0 < List.length dout)%nat; rewrite HL; apply (nodes_positive (K := L * L) nodes [] _ Hn), has_end; discriminate).
  assert (HP : d_paired net) by (unfold d_paired; cbn; congruence).
  unfold d_tool in HT. destruct (d_error_dcm net (d_call e net t (d_fresh (d_is_sparse g))) (d_fresh (d_is_sparse g)) o' Hpos HP ltac:(reflexivity) ltac:(exact Hm) HT) as (v & s & cls & m & x & y & e1 & e2 & Ev & Ex & Ey & Ee & _ & Hc & Hx & S1 & S2).
  exists nodes, (at_list dout), (at_list din), x, y, e1, e2. split; [exact A3|]. split; [exact In_|]. split; [exact Hn|].
  split; [apply (observed_degrees nodes dout (fun v => count (fun e => eqb (fst e) v) (e0 :: es))); intros i v' Hv; apply (HD i v' Hv)|].
  split; [apply (observed_degrees nodes din (fun v => count (fun e => eqb (snd e) v) (e0 :: es))); intros i v' Hv; apply (HD i v' Hv)|].
  split; [exact Ex|]. split; [exact Ey|]. split; [exact Ee|]. change (dn_n net) with (List.length dout) in *. rewrite HL in *. split; [|split; [exact S1|exact S2]].
  intros i j Hi Hj Eo Ei. destruct (Hx i Hi) as (_ & -> & ->), (Hx j Hj) as (_ & -> & ->).
  replace (cls j) with (cls i); [auto|]. apply (Hc i j Hi Hj). split; apply INR_eq; assumption.
Qed.
