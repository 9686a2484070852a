(** Calls that meet the hypotheses of the theorems on the order of the nodes. *)
From Coq Require Import Reals List Arith Bool ZArith String Lia Lra.
From Verif Require Import Base SpecGraph SpecDirected SpecEnsemble SpecNetwork SpecLife SpecLinsearch SpecSolver SpecDispatch SpecGuess SpecRun SpecSolve SpecTool SpecReach SpecReachTool SpecRank
  ModelCM ModelDCM ModelNetwork ModelLife ModelSolver ModelDispatch ModelGuess ModelRun ModelSolve ModelTool ModelObject SpecObject.
From Verif Require Import ProofsSolve ProofsSolveU ProofsSolveD ProofsReachTool ProofsReachObject ProofsPipeline ProofsRank WitnessSolve WitnessObject WitnessReachTool WitnessTool.
Import ListNotations.
Local Open Scope R_scope.

(** A path and a lone node: degrees 0, 1, 2, 1 in some order; the call stops with an error
    below one half. *)
Lemma rank_cm_case : exists g c o' err, (0 < un_n g)%nat /\ us_beta (u_fresh false) = None /\ c_model c = "cm_exp"%string /\
  u_solve_tool g c (u_fresh false) = (o', None) /\ us_err o' = Some err /\ err < / 2 /\ exists i j, (i < un_n g)%nat /\ (j < un_n g)%nat /\ at_list (un_dseq g) i + 2 * err < at_list (un_dseq g) j.
Proof.
  destruct lone_meets as (ds & e & Hn & Hb & _ & Hs & Hd & HD & HN & HT).
  set (g := {| u_n_nodes := None; u_n_edges := None; u_adjacency := None; u_is_sparse := false; u_edgelist := None; u_dseq := Some (row_degrees 4 lone_path); u_strength := None;
               u_nodes_dict := None; u_nz_index := None; u_is_initialized := true; u_is_weighted := false; u_str_kind := Numbers |} : @ugraph nat).
  destruct (object_cm_exp_data nat e g "uniform" (/ 5) 4 lone_path ds Hn Hb eq_refl Hs Hd HD HN ltac:(cbn; tauto) ltac:(lra)) as (M & e0 & He0 & H).
  destruct (HT "newton"%string "uniform"%string (/ 5) M e0 ltac:(cbn; tauto)) as (t & T & _).
  destruct (H M e0 (le_n M) ltac:(lra) t T) as (o' & R & x & err & X & E & _ & HE & _).
  destruct (returned_net nat e g t o' 4 lone_path (proj1 T) eq_refl R) as (net & EN & EK & RT).
  exists net, (ModelTool.u_call e net t (u_fresh false)), o', err. rewrite EN. split; [lia|]. split; [reflexivity|]. split; [exact (proj1 T)|]. split; [exact RT|]. split; [exact E|]. split; [lra|].
  assert (Q : exists k, Some (map INR k) = Some (row_degrees 4 lone_path) /\ exists i j, (i < 4)%nat /\ (j < 4)%nat /\ nth i k O = 1%nat /\ nth j k O = 2%nat).
  { rewrite lone_degrees. eexists. split; [reflexivity|]. first [exists 0%nat, 1%nat; cbn; repeat split; lia | exists 1%nat, 2%nat; cbn; repeat split; lia | exists 2%nat, 1%nat; cbn; repeat split; lia]. }
  destruct Q as (k & Qk & i & j & Hi & Hj & Q1 & Q2). injection Qk as Qk. exists i, j. split; [exact Hi|]. split; [exact Hj|].
  rewrite !EK by assumption. rewrite <- (row_deg 4 lone_path k i Qk Hi), <- (row_deg 4 lone_path k j Qk Hj). unfold at_list. rewrite Q1, Q2. cbn. lra.
Qed.
(** A hub linked with three nodes in both directions. *)
Definition four_hub (i j : nat) : R := nth (4 * i + j) [0; 1; 1; 1; 1; 0; 0; 0; 1; 0; 0; 0; 1; 0; 0; 0] 0.
Lemma four_hub_rows : row_degrees 4 four_hub = map INR [3; 1; 1; 1]%nat /\ col_degrees 4 four_hub = map INR [3; 1; 1; 1]%nat.
Proof. split; unfold row_degrees, col_degrees, four_hub, count; decide_entry; reflexivity. Qed.
Lemma rank_dcm_case : exists g c o' err, (0 < dn_n g)%nat /\ d_paired g /\ ds_bo (d_fresh false) = None /\ c_model c = "dcm_exp"%string /\
  d_solve_tool g c (d_fresh false) = (o', None) /\ ds_err o' = Some err /\ exists i j, (i < dn_n g)%nat /\ (j < dn_n g)%nat /\
  at_list (dn_out g) i + 1 + 2 * err <= at_list (dn_out g) j /\ at_list (dn_in g) i + 1 + 2 * err <= at_list (dn_in g) j.
Proof.
  destruct (numpy_exists 4) as (e & HN & HT). destruct four_hub_rows as [ER EC].
  set (g := {| d_n_nodes := None; d_n_edges := None; d_adjacency := None; d_is_sparse := false; d_edgelist := None; d_dseq_out := Some (row_degrees 4 four_hub); d_dseq_in := Some (col_degrees 4 four_hub);
               d_out_strength := None; d_in_strength := None; d_nz_sout := None; d_nz_sin := None; d_nodes_dict := None; d_is_initialized := true; d_is_weighted := false; d_deg_kind := Numbers; d_str_kind := Numbers |} : @dgraph nat).
  assert (HD : distinct (combine (row_degrees 4 four_hub) (col_degrees 4 four_hub)) [(INR 3, INR 3); (INR 1, INR 1)]).
  { rewrite ER, EC. split; [cbn; repeat constructor; cbn; intros Q; repeat (destruct Q as [Q|Q]; [inversion Q; lra|]); exact Q|]. intros v. cbn. tauto. }
  destruct (object_dcm_exp_data nat e g "uniform" (/ 5) 4 four_hub _ ltac:(lia) ltac:(simpl; lra) eq_refl eq_refl ltac:(intros i Hi; do 4 (destruct i as [|i]; [reflexivity|]); lia) HD HN ltac:(cbn; tauto) ltac:(lra)) as (M & e0 & He0 & H).
  destruct (HT "dcm_exp"%string "newton"%string "uniform"%string (/ 5) M e0 ltac:(cbn; tauto)) as (t & T & _).
  destruct (H M e0 (le_n M) ltac:(lra) t T) as (o' & R & x & y & err & X & Y & E & _ & _ & HE).
  destruct (returned_net_dir nat e g t o' 4 four_hub (proj1 T) eq_refl eq_refl R) as (net & EN & HP & EO & EI & RT).
  assert (DG : forall i, (i < 4)%nat -> deg 4 (links four_hub) i = INR (nth i [3; 1; 1; 1]%nat O) /\ indeg 4 (links four_hub) i = INR (nth i [3; 1; 1; 1]%nat O)).
  { intros i Hi. rewrite <- (row_deg 4 four_hub _ i (eq_sym ER) Hi), <- (col_deg 4 four_hub _ i (eq_sym EC) Hi). split; reflexivity. }
  assert (HE' : err <= / 5).
  { apply HE. intros i Hi. destruct (DG i Hi) as [-> ->]. do 4 (destruct i as [|i]; [cbn; lra|]). lia. }
  exists net, (ModelTool.d_call e net t (d_fresh false)), o', err. rewrite EN. split; [lia|]. split; [exact HP|]. split; [reflexivity|]. split; [exact (proj1 T)|]. split; [exact RT|]. split; [exact E|].
  exists 1%nat, 0%nat. split; [lia|]. split; [lia|]. rewrite !EO, !EI by lia. destruct (DG 0%nat ltac:(lia)) as [-> ->], (DG 1%nat ltac:(lia)) as [-> ->]. cbn. lra.
Qed.
(** Regular networks: two linked nodes. *)
Lemma regular_cm_case : exists o', (2 <= un_n g2)%nat /\ us_beta (u_fresh false) = None /\ In (c_model k_cm) ["cm"; "cm_exp"]%string /\ u_solve_tool g2 k_cm (u_fresh false) = (o', None) /\
  forall i, (i < un_n g2)%nat -> at_list (un_dseq g2) i = 1.
Proof. destruct case_cm as (o' & _ & H2 & H3 & _ & H4 & _). exists o'. split; [cbn; lia|]. do 3 (split; [assumption|]). intros i Hi. destruct i as [|[|i]]; cbn in Hi |- *; try lia; reflexivity. Qed.
Lemma regular_dcm_case : exists o', (2 <= dn_n d2)%nat /\ d_paired d2 /\ ds_bo (d_fresh false) = None /\ In (c_model k_dcm) ["dcm"; "dcm_exp"]%string /\ d_solve_tool d2 k_dcm (d_fresh false) = (o', None) /\
  forall i, (i < dn_n d2)%nat -> at_list (dn_out d2) i = 1 /\ at_list (dn_in d2) i = 1.
Proof.
  destruct case_dcm as (o' & _ & H2 & H3 & _ & _ & H4 & _). exists o'. split; [cbn; lia|]. split; [exact H2|]. split; [exact H3|]. split; [cbn; tauto|]. split; [exact H4|].
  intros i Hi. destruct i as [|[|i]]; cbn in Hi |- *; try lia; split; reflexivity.
Qed.
(** The path with strengths 2, 5, 3, solved exactly; its ends have the same links. *)
Definition path_rates (i : nat) : R := nth i [/ 3; / 6; / 6] (/ 6).
Definition k_path : call := call_of "crema" "newton" (AdjMatrix path_adj) path_rates path_rates.
Lemma path_rates_pos i : 0 < path_rates i.
Proof. unfold path_rates. do 3 (destruct i as [|i]; [cbn; lra|]). destruct i; cbn; lra. Qed.
Lemma rank_crema_case : exists o' err, (0 < un_n path_net)%nat /\ In (c_model k_path) ["crema"; "crema-sparse"]%string /\ c_adjacency k_path = AdjMatrix path_adj /\ hollow path_adj /\
  (forall u w, path_adj u w = path_adj w u) /\ (forall u w, (u < un_n path_net)%nat -> (w < un_n path_net)%nat -> 0 <= path_adj u w) /\
  u_solve_tool path_net k_path (u_fresh false) = (o', None) /\ (forall b, us_beta o' = Some b -> positive_rates (un_n path_net) path_adj b) /\ us_err o' = Some err /\
  same_links (un_n path_net) path_adj 0 2 /\ un_str path_net 0 + 2 * err < un_str path_net 2.
Proof.
  assert (PR : positive_rates (un_n path_net) path_adj path_rates) by (intros i j _ _; pose proof (path_rates_pos i); pose proof (path_rates_pos j); lra).
  destruct (WitnessSolve.u_completes_crema path_net k_path (u_fresh false) path_adj path_rates (vec path_rates) eq_refl) as (o' & H);
    [cbn; tauto|reflexivity|exact path_adj_hollow|reflexivity|reflexivity|exact PR|].
  assert (HB : us_beta o' = Some path_rates).
  { destruct (u_after_crema path_net k_path (u_fresh false) o' (or_introl eq_refl)) as (q & v & adj & _ & V & _ & _ & B & _); [cbn; tauto|exact H|]. injection V as <-. exact B. }
  assert (HR : forall b, us_beta o' = Some b -> positive_rates (un_n path_net) path_adj b) by (intros b Hb; rewrite HB in Hb; injection Hb as <-; exact PR).
  destruct (u_error_crema_matrix path_net k_path (u_fresh false) o' path_adj ltac:(cbn; lia) ltac:(cbn; tauto) eq_refl path_adj_hollow H HR) as (v & e & V & B & E & [_ (i & Hi & S)]). injection V as <-.
  exists o', e. split; [cbn; lia|]. split; [cbn; tauto|]. split; [reflexivity|]. split; [exact path_adj_hollow|]. split; [intros u w; unfold path_adj; rewrite orb_comm; reflexivity|]. split; [intros; apply path_adj_nonneg|].
  split; [exact H|]. split; [exact HR|]. split; [exact E|]. split.
  - intros l Hl H0 H2. cbn in Hl. assert (l = 1%nat) as -> by lia. reflexivity.
  - assert (Z : e = 0).
    { rewrite S. cbn [o_x vec]. unfold crema_mean. cbn in Hi. destruct i as [|[|[|i]]]; try lia; cbn; unfold path_rates; cbn; (match goal with |- Rabs ?r = 0 => replace r with 0 by lra end); apply Rabs_R0. }
    rewrite Z. cbn. lra.
Qed.
