(** A call that meets the hypotheses of the theorem on the order of the strengths of a
    directed network. *)
From Coq Require Import Reals List Arith Bool String Lia Lra.
From Verif Require Import Base SpecGraph SpecSolve SpecRank SpecDispatch ModelDispatch ModelSolve ProofsSolve ProofsSolveD WitnessSolve WitnessTool WitnessRank.
Import ListNotations.
Local Open Scope R_scope.

(** The path with strengths 2, 5, 3 in both directions, solved exactly. *)
Definition dpath_net : dnet := {| dn_out := [1; 2; 1]%nat; dn_in := [1; 2; 1]%nat; dn_sout := fun i => nth i [2; 5; 3] 0; dn_sin := fun i => nth i [2; 5; 3] 0 |}.
Definition dpath_rates (r : nat) : R := nth r [/ 3; / 6; / 6; / 3; / 6; / 6] (/ 6).
Definition k_dpath : call := call_of "crema" "quasinewton" (AdjMatrix path_adj) dpath_rates dpath_rates.
Lemma dpath_rates_pos i : 0 < dpath_rates i.
Proof. unfold dpath_rates. do 6 (destruct i as [|i]; [cbn; lra|]). destruct i; cbn; lra. Qed.
Lemma rank_dcrema_case : exists o' err, (0 < dn_n dpath_net)%nat /\ In (c_model k_dpath) ["crema"; "crema-sparse"]%string /\ c_adjacency k_dpath = AdjMatrix path_adj /\
  (forall u, path_adj u u = 0) /\ (forall u w, (u < dn_n dpath_net)%nat -> (w < dn_n dpath_net)%nat -> 0 <= path_adj u w) /\
  d_solve_tool dpath_net k_dpath (d_fresh false) = (o', None) /\
  (forall bo bi, ds_bo o' = Some bo -> ds_bi o' = Some bi -> positive_rates_dir (dn_n dpath_net) path_adj bo bi) /\ ds_err o' = Some err /\
  path_adj 0 2 = path_adj 2 0 /\ path_adj 0 2 = 0 /\ same_links (dn_n dpath_net) path_adj 0 2 /\ same_links (dn_n dpath_net) (fun u w => path_adj w u) 0 2 /\
  dn_sout dpath_net 0 + 2 * err < dn_sout dpath_net 2 /\ dn_sin dpath_net 0 + 2 * err < dn_sin dpath_net 2.
Proof.
  assert (PR : positive_rates_dir (dn_n dpath_net) path_adj dpath_rates (drop (dn_n dpath_net) dpath_rates)).
  { intros i j _ _ _. unfold drop. pose proof (dpath_rates_pos i). match goal with |- 0 < _ + dpath_rates ?r => pose proof (dpath_rates_pos r) end. lra. }
  destruct (d_completes_matrix dpath_net k_dpath (d_fresh false) path_adj dpath_rates (vec dpath_rates)) as (o' & H);
    [cbn; tauto|cbn; tauto|reflexivity|reflexivity|reflexivity|exact PR|].
  assert (HR : forall bo bi, ds_bo o' = Some bo -> ds_bi o' = Some bi -> positive_rates_dir (dn_n dpath_net) path_adj bo bi).
  { destruct (d_tool_crema dpath_net k_dpath (d_fresh false) o' (or_introl eq_refl) H) as (o1 & H1 & H2).
    apply d_crema_inv in H1; [|cbn; tauto]. destruct H1 as (o2 & d & v & v0 & adj & _ & _ & Hv & _ & ->). injection Hv as <-.
    destruct (d_error_frame _ _ _ _ H2) as (_ & _ & FB & FB' & _). cbn in FB, FB'. intros bo bi B1 B2. rewrite FB in B1. rewrite FB' in B2. injection B1 as <-. injection B2 as <-. exact PR. }
  destruct (d_error_crema_matrix dpath_net k_dpath (d_fresh false) o' path_adj ltac:(cbn; lia) ltac:(cbn; tauto) eq_refl H HR) as (v & bo & bi & e1 & e2 & V & _ & _ & E & HV & [_ (i1 & Hi1 & S1)] & [_ (i2 & Hi2 & S2)]). injection V as <-.
  assert (Z : e1 = 0 /\ e2 = 0).
  { unfold crema_mean_out in S1. unfold crema_mean_in in S2. assert (VO : forall i, bo i = dpath_rates i) by (intros i; apply (HV i)). assert (VI : forall i, bi i = dpath_rates (i + 3)%nat) by (intros i; apply (HV i)).
    cbn in S1, S2. rewrite VO in S1. rewrite VI in S2. rewrite (VI 0%nat), (VI 1%nat), (VI 2%nat) in S1. rewrite (VO 0%nat), (VO 1%nat), (VO 2%nat) in S2. cbn in Hi1, Hi2.
    split; [rewrite S1; destruct i1 as [|[|[|i1]]]|rewrite S2; destruct i2 as [|[|[|i2]]]]; try lia; unfold dpath_rates, path_adj; cbn;
      (match goal with |- Rabs ?r = 0 => replace r with 0 by lra end); apply Rabs_R0. }
  destruct Z as [-> ->]. rewrite Rmax_left in E by lra. exists o', 0. split; [cbn; lia|]. split; [cbn; tauto|]. split; [reflexivity|]. split; [exact path_adj_hollow|]. split; [intros; apply path_adj_nonneg|].
  split; [exact H|]. split; [exact HR|]. split; [exact E|]. split; [reflexivity|]. split; [reflexivity|].
  split; [intros l Hl Q0 Q2; cbn in Hl; assert (l = 1%nat) as -> by lia; reflexivity|]. split; [intros l Hl Q0 Q2; cbn in Hl; assert (l = 1%nat) as -> by lia; reflexivity|]. cbn; lra.
Qed.
