(** Fixed-point calls of [solve_tool] for CReMa. *)
From Coq Require Import Reals List Arith Bool String Lia Lra Psatz.
From Verif Require Import Base SpecGraph SpecDirected SpecCReMa SpecDispatch SpecExist SpecGuess SpecSolve SpecTool SpecConverge SpecAscend SpecAscendTool
  ModelCM ModelDCM ModelCReMa ModelNetwork ModelLinsearch ModelSolver ModelDispatch ModelGuess ModelRun ModelSolve ModelTool.
From Verif Require Import ProofsGraph ProofsCReMa ProofsMainCReMa ProofsDirCReMa ProofsGuess ProofsGuessW ProofsSolve ProofsSolveU ProofsSolveD ProofsTool ProofsToolD
  ProofsAscend ProofsAscendRun ProofsConvergeTool WitnessSolve WitnessTool WitnessAscend.
Import ListNotations.
Local Open Scope R_scope.

Lemma calls_approach_from {S V : Type} (tool : settings -> S -> ran S) reported error (params : S -> V -> Prop) (positive solves : V -> Prop) (close : R -> V -> V -> Prop) a s ls
    linsolve ok eigh fuel m ar x0 st es z D (val : (nat -> R) -> V) :
  run_approaches linsolve ok eigh fuel m ar ls x0 st es z D -> run_settles linsolve ok eigh fuel m ar ls x0 st es D ->
  (forall x, positive_ends es x -> positive (val x)) ->
  (forall y, positive_solution m st es y -> solves (val y)) ->
  (forall e x y, (forall k, (k < m)%nat -> Rabs (x k - y k) <= e) -> close e (val x) (val y)) ->
  (forall t o x steps ns ds als, crema_call a s ls t -> positive_ends es x ->
     solver (run_numerics linsolve ok m) (run_problem eigh fuel m D ar) (t_options t "fixed-point" (t_linsearch t)) x0 = Full x steps ns ds als ->
     exists o' err, tool t o = (o', None) /\ reported t o = Some {| r_steps := steps; r_norms := ns; r_diffs := ds; r_alfas := als |} /\ error o' = Some err /\
       (forall b, params o' b <-> b = val x) /\ exists k, (k < m)%nat /\ err = Rabs (crema_strengths es x k - st k)) ->
  calls_approach tool reported error params positive solves close a s ls.
Proof.
  intros ((K & B & HK & HB & HR) & HN) (y & [Y1 Y2] & HY) Hpos Hsol Hcl HC. split; [|split].
  - exists K, B. split; [exact HK|]. split; [exact HB|]. intros t o Ht. pose proof (call_options _ _ _ _ (proj1 Ht)) as HO.
    destruct (HR _ HO) as (x & k & ns & last & ds & als & E & L & Px & _ & _ & _ & Q & St).
    destruct (HC t o _ _ _ _ _ Ht Px E) as (o' & err & E1 & E2 & E3 & E4 & i & Hi & Ei).
    exists o'. eexists _, err, (val x). split; [exact E1|]. split; [exact E2|]. split; [exact E3|]. split; [apply E4; reflexivity|]. split; [apply Hpos; exact Px|].
    cbn [r_steps r_norms]. split; [exact L|]. split.
    + rewrite Ei. replace (Rabs (crema_strengths es x i - st i) ^ 2) with ((crema_strengths es x i - st i) ^ 2); [apply Q; exact Hi|].
      rewrite <- (Rsqr_pow2 (Rabs _)), <- Rsqr_abs, Rsqr_pow2. reflexivity.
    + intros NT He. cbn [o_eps o_max_steps o_tol t_options] in St. destruct (St He) as [St1|[St1|St1]]; [left; exact St1| |right; rewrite Ei; apply St1; exact Hi].
      exfalso. apply NT. exists ns, last. split; [reflexivity|exact St1].
  - intros eps He. destruct (HN eps He) as (N & HNN). exists N. intros t o rep Ht Hle Hrep. pose proof (call_options _ _ _ _ (proj1 Ht)) as HO.
    destruct (HR _ HO) as (x & k & ns & last & ds & als & E & _ & Px & _). destruct (HC t o _ _ _ _ _ Ht Px E) as (o' & err & E1 & E2 & _).
    rewrite E2 in Hrep. injection Hrep as <-. exact (HNN _ _ _ _ _ _ HO Hle E).
  - exists (val y). split; [apply Hpos; exact Y1|]. split; [apply Hsol; split; assumption|]. intros e He. destruct (HY e He) as (T & HT). exists T.
    intros t o o' rep b Ht Hto Hrep Hb Hle. pose proof (call_options _ _ _ _ (proj1 Ht)) as HO.
    destruct (HR _ HO) as (x & k & ns & last & ds & als & E & _ & Px & _). destruct (HC t o _ _ _ _ _ Ht Px E) as (o2 & err & E1 & E2 & _ & E4 & _).
    rewrite E1 in Hto. injection Hto as <-. rewrite E2 in Hrep. injection Hrep as <-. apply E4 in Hb. subst b. apply Hcl. exact (HT _ _ _ _ _ _ HO E Hle).
Qed.

(** * UndirectedGraph *)
Lemma triu_ends n p b : hollow p -> (positive_linked n p b <-> positive_ends (triu_edges n p) b).
Proof.
  intros Hh. split.
  - intros H i j w Hin. apply in_triu in Hin. destruct Hin as (L & -> & Z). apply H; [|exact Z]. destruct (Nat.eq_dec i j) as [->|]; [exfalso; apply Z, Hh|lia].
  - intros H i j L Z. apply (H i j (p i j)). apply in_triu. repeat split; try lia. exact Z.
Qed.
Lemma linked_rates n p b : positive_linked n p b -> positive_rates n p b.
Proof. intros H i j L Z. destruct (H i j L Z). lra. Qed.
Lemma strengths_mean n p b i : hollow p -> positive_linked n p b -> (i < n)%nat -> crema_strengths (triu_edges n p) b i = crema_mean n p b i.
Proof.
  intros Hh H Hi. destruct (expected_triu n p b Hh (linked_rates _ _ _ H)) as (E & E1 & E2). destruct (expected_crema_some (triu_edges n p) b) as (E' & E1' & E2').
  { apply triu_dom; [exact Hh|]. apply linked_rates. exact H. }
  rewrite E1 in E1'. injection E1' as <-. rewrite strengths_cE, <- E2', E2 by exact Hi. reflexivity.
Qed.
Lemma crema_call_from e g t o a ls s D x0 x steps ns ds als : (0 < un_n g)%nat -> hollow a -> crema_call a s ls t ->
  u_dispatch "crema" "fixed-point" None = inl D -> u_start g "crema" (v_rnd e) s = Some x0 -> positive_ends (triu_edges (un_n g) a) x ->
  solver (run_numerics (v_linsolve e) (v_eigh_ok e) (un_n g)) (run_problem (v_eigh e) (v_fuel e) (un_n g) D (A3 (un_n g) (un_str g) (Triples (triu_edges (un_n g) a))))
    (t_options t "fixed-point" (t_linsearch t)) x0 = Full x steps ns ds als ->
  exists o' err, u_tool e g t o = (o', None) /\ u_report e g t o = Some {| r_steps := steps; r_norms := ns; r_diffs := ds; r_alfas := als |} /\ us_err o' = Some err /\
    (forall b, us_beta o' = Some b <-> b = x) /\ (forall k, (k < un_n g)%nat -> Rabs (crema_strengths (triu_edges (un_n g) a) x k - un_str g k) <= err) /\
    exists k, (k < un_n g)%nat /\ err = Rabs (crema_strengths (triu_edges (un_n g) a) x k - un_str g k).
Proof.
  intros Hn Hh ((Hm & Hme & Hg & Hl & Hf) & Ha) HD Hz Px HR.
  assert (LK : positive_linked (un_n g) a x) by (apply triu_ends; assumption). assert (PR := linked_rates _ _ _ LK).
  assert (ER : u_result e g t o = Full x steps ns ds als).
  { rewrite <- HR. unfold u_result, u_set_adjacency. cbn [c_adjacency c_model u_call_adjacency]. rewrite Hm, Ha. names. cbn [fst us_sparse us_set_adj us_adj ok].
    unfold u_solver, solve_with. rewrite Hme, HD, args_crema, Hg, Hz. reflexivity. }
  assert (HM : In (c_model (u_call e g t o)) ["crema"; "crema-sparse"]%string) by (left; symmetry; exact Hm).
  destruct (WitnessSolve.u_completes_crema g (u_call e g t o) o a x0 {| o_x := x; o_inf := fun _ => false |}) as (o' & H).
  - exact Hm.
  - cbn [c_method u_call u_call_adjacency]. rewrite Hme. cbn. tauto.
  - exact Ha.
  - exact Hh.
  - cbn [c_guess u_call u_call_adjacency]. rewrite Hm, Hg. exact Hz.
  - cbn [c_out u_call u_call_adjacency]. rewrite ER. reflexivity.
  - exact PR.
  - assert (EB : us_beta o' = Some x).
    { destruct (u_tool_crema _ _ _ _ HM H) as (o1 & H1 & H2). apply u_crema_inv in H1; [|exact HM].
      destruct H1 as (o2 & d & v & v0 & adj & HA & _ & Hv & HJ & ->). destruct (u_error_frame _ _ _ _ H2) as (_ & _ & FB & _). cbn in FB. rewrite FB. f_equal.
      cbn [c_out u_call u_call_adjacency] in Hv. rewrite ER in Hv. injection Hv as <-. reflexivity. }
    destruct (u_error_crema_matrix g (u_call e g t o) o o' a Hn HM Ha Hh H ltac:(intros b Hb; rewrite EB in Hb; injection Hb as <-; exact PR)) as (v & err & Ev & EB' & Ee & (Hsup & i & Hi & Ei)).
    rewrite EB in EB'. injection EB' as EX. rewrite <- EX in *. exists o', err. split; [exact H|]. split; [unfold u_report; rewrite ER; reflexivity|]. split; [exact Ee|]. split.
    + intros b. rewrite EB. split; [intros Q; injection Q as <-; reflexivity|intros ->; reflexivity].
    + split; [intros k Hk; rewrite strengths_mean by assumption; apply Hsup; exact Hk|]. exists i. split; [exact Hi|]. rewrite strengths_mean by assumption. exact Ei.
Qed.
Lemma crema_start_positive e g nm es z : In nm ["random"; "strengths"; "strengths_minor"]%string -> draws (v_rnd e) ->
  pairs_below (un_n g) es -> positive_weights es -> positive_solution (un_n g) (un_str g) es z ->
  exists x0, u_start g "crema" (v_rnd e) (GStr nm) = Some x0 /\ positive_ends es x0.
Proof.
  intros Hn Hr HB HW [HZ HS]. assert (HS' : forall k, (k < un_n g)%nat -> cE es z k = un_str g k) by (intros k Hk; rewrite <- strengths_cE; apply HS; exact Hk).
  destruct (guess_crema_inside (un_n g) (un_str g) (v_rnd e) nm Hn (s_nonneg _ _ _ _ HB HW HZ HS') Hr) as (s & th & Es & Ft & HI).
  destruct (all_fin_some' (un_n g) (g_x0 s)) as (x0 & E0); [intros q Hq; exists (th q); apply Ft; exact Hq|].
  exists x0. split; [unfold u_start; names; rewrite Es; exact E0|].
  assert (P : forall k, touched es k -> 0 < x0 k).
  { intros k T. assert (Hk := touched_below _ _ HB k T). assert (Q := s_pos _ _ _ _ HB HW HZ HS' k T). pose proof (all_fin_inv _ _ _ E0 k Hk) as E. rewrite (Ft k Hk) in E. injection E as <-.
    apply HI; [exact Hk|lra]. }
  intros i j w Hin. destruct (listed_touched es i j w Hin). split; apply P; assumption.
Qed.
Lemma tool_crema_fixed_point g a z : (0 < un_n g)%nat -> hollow a -> (forall i j, (i < j < un_n g)%nat -> 0 <= a i j) ->
  positive_linked (un_n g) a z -> solves_strengths (un_n g) a (un_str g) z ->
  forall e nm ls, In nm ["random"; "strengths"; "strengths_minor"]%string -> draws (v_rnd e) ->
    calls_approach (u_tool e g) (u_report e g) us_err (fun o b => us_beta o = Some b) (positive_linked (un_n g) a) (solves_strengths (un_n g) a (un_str g)) (within (un_n g))
      a (GStr nm) ls.
Proof.
  intros Hn Hh Ha Hz Hs e nm ls Hnm Hr.
  assert (HB : pairs_below (un_n g) (triu_edges (un_n g) a)) by (intros i j w Hin; apply in_triu in Hin; lia).
  assert (HW : positive_weights (triu_edges (un_n g) a)).
  { intros i j w Hin. apply in_triu in Hin. destruct Hin as (L & -> & Z). assert (i <> j) by (intros ->; apply Z, Hh). specialize (Ha i j ltac:(lia)). lra. }
  assert (HZ : positive_solution (un_n g) (un_str g) (triu_edges (un_n g) a) z).
  { split; [apply triu_ends; assumption|]. intros k Hk. rewrite strengths_mean by assumption. apply Hs. exact Hk. }
  destruct (crema_start_positive e g nm _ z Hnm Hr HB HW HZ) as (x0 & E0 & P0).
  destruct (crema_approaches (v_linsolve e) (v_eigh_ok e) (v_eigh e) (v_fuel e) (un_n g) (un_str g) _ None ls x0 z HB HW P0 HZ) as (D & HD & A1 & _ & A3).
  refine (calls_approach_from _ _ _ _ _ _ _ a (GStr nm) ls _ _ _ _ _ _ x0 (un_str g) (triu_edges (un_n g) a) z D (fun x => x) A1 A3 _ _ _ _).
  - intros x Hx. apply triu_ends; assumption.
  - intros y [Y1 Y2] i Hi. rewrite <- Y2 by exact Hi. symmetry. apply strengths_mean; try assumption. apply triu_ends; assumption.
  - intros v x y H. exact H.
  - intros t o x steps ns ds als Ct Px E. destruct (crema_call_from e g t o a ls (GStr nm) D x0 x steps ns ds als Hn Hh Ct HD E0 Px E) as (o' & err & C1 & C2 & C3 & C4 & _ & C5). exists o', err. tauto.
Qed.

(** * DirectedGraph *)
Lemma all_ends n p b : positive_linked_dir n p (b, drop n b) <-> positive_ends (two_sided n (all_edges n p)) b.
Proof.
  split.
  - intros H i j w Hin. apply in_sh in Hin. destruct Hin as (j' & -> & Hin). apply in_all in Hin. destruct Hin as (Li & Lj & -> & Z). apply (H i j' Li Lj Z).
  - intros H i j Li Lj Z. apply (H i (j + n)%nat (p i j)). apply in_sh. exists j. split; [reflexivity|]. apply in_all. repeat split; assumption.
Qed.
Lemma linked_rates_dir n p b : positive_linked_dir n p b -> positive_rates_dir n p (fst b) (snd b).
Proof. intros H i j Li Lj Z. destruct (H i j Li Lj Z). lra. Qed.
Lemma two_arrays_low n u v k : (k < n)%nat -> two_arrays n u v k = u k.
Proof. intros H. unfold two_arrays. apply Nat.ltb_lt in H. rewrite H. reflexivity. Qed.
Lemma two_arrays_high n u v k : two_arrays n u v (k + n) = v k.
Proof. unfold two_arrays. destruct (Nat.ltb_spec (k + n) n); [lia|]. f_equal. lia. Qed.
Lemma crema_dir_call_from e g t o a ls s D x0 x steps ns ds als : (0 < dn_n g)%nat -> crema_call a s ls t ->
  d_dispatch "crema" "fixed-point" None = inl D -> d_start g "crema" (v_rnd e) s = Some x0 -> positive_ends (two_sided (dn_n g) (all_edges (dn_n g) a)) x ->
  solver (run_numerics (v_linsolve e) (v_eigh_ok e) (dn_n g + dn_n g)) (run_problem (v_eigh e) (v_fuel e) (dn_n g + dn_n g) D (d_args_crema g (Triples (all_edges (dn_n g) a))))
    (t_options t "fixed-point" (t_linsearch t)) x0 = Full x steps ns ds als ->
  exists o' err, d_tool e g t o = (o', None) /\ d_report e g t o = Some {| r_steps := steps; r_norms := ns; r_diffs := ds; r_alfas := als |} /\ ds_err o' = Some err /\
    (forall b, (ds_bo o' = Some (fst b) /\ ds_bi o' = Some (snd b)) <-> b = (x, drop (dn_n g) x)) /\
    exists k, (k < dn_n g + dn_n g)%nat /\ err = Rabs (crema_strengths (two_sided (dn_n g) (all_edges (dn_n g) a)) x k - two_arrays (dn_n g) (dn_sout g) (dn_sin g) k).
Proof.
  intros Hn ((Hm & Hme & Hg & Hl & Hf) & Ha) HD Hz Px HR.
  assert (LK : positive_linked_dir (dn_n g) a (x, drop (dn_n g) x)) by (apply all_ends; exact Px). assert (PR := linked_rates_dir _ _ _ LK). cbn [fst snd] in PR.
  assert (E2n : (2 * dn_n g)%nat = (dn_n g + dn_n g)%nat) by lia.
  assert (ER : d_result e g t o = Full x steps ns ds als).
  { rewrite <- HR. unfold d_result, d_set_adjacency. cbn [c_adjacency c_model d_call_adjacency]. rewrite Hm, Ha. names. cbn [fst ds_sparse ds_set_adj ds_adj ok].
    unfold d_solver, solve_with. change (d_length g "crema") with (2 * dn_n g)%nat. rewrite E2n, Hme, HD, dargs_crema, Hg, Hz. reflexivity. }
  assert (HM : In (c_model (d_call e g t o)) ["crema"; "crema-sparse"]%string) by (left; symmetry; exact Hm).
  assert (HA' : exists o1, d_set_adjacency g (d_call e g t o) o = (o1, None)).
  { unfold d_set_adjacency. cbn [c_adjacency d_call d_call_adjacency]. rewrite Ha. eexists. reflexivity. }
  destruct HA' as (o1 & HA'). destruct (d_adj_matrix g (d_call e g t o) o a o1 Ha HA') as (J1 & J2 & J3).
  destruct (WitnessTool.d_completes_crema e g t a o x0 D {| o_x := x; o_inf := fun _ => false |} true o1) as (o' & H).
  - exact Hm.
  - exact PR.
  - rewrite Hg. exact Hz.
  - rewrite Hme. exact HD.
  - rewrite ER. reflexivity.
  - exact HA'.
  - exact J1.
  - exact J3.
  - exact J2.
  - discriminate.
  - assert (EB : ds_bo o' = Some x /\ ds_bi o' = Some (drop (dn_n g) x)).
    { destruct (d_tool_crema _ _ _ _ HM H) as (o2 & H1 & H2). apply d_crema_inv in H1; [|exact HM].
      destruct H1 as (o3 & d & v & v0 & adj & HA & _ & Hv & HJ & ->). destruct (d_error_frame _ _ _ _ H2) as (_ & _ & FB & FB' & _). cbn in FB, FB'. rewrite FB, FB'.
      cbn [c_out d_call d_call_adjacency] in Hv. rewrite ER in Hv. injection Hv as <-. split; reflexivity. }
    destruct EB as [EB EB'].
    destruct (d_error_crema_matrix g (d_call e g t o) o o' a Hn HM Ha H) as (v & bo & bi & e1 & e2 & _ & Y1 & Y2 & Ee & _ & (_ & i & Li & Ei) & (_ & j & Lj & Ej)).
    { intros bo bi Y1 Y2. rewrite EB in Y1. rewrite EB' in Y2. injection Y1 as <-. injection Y2 as <-. exact PR. }
    rewrite EB in Y1. rewrite EB' in Y2. injection Y1 as <-. injection Y2 as <-.
    exists o', (Rmax e1 e2). split; [exact H|]. split; [unfold d_report; rewrite ER; reflexivity|]. split; [exact Ee|]. split.
    + intros [b1 b2]. cbn [fst snd]. rewrite EB, EB'. split; [intros [Q1 Q2]; injection Q1 as <-; injection Q2 as <-; reflexivity|intros Q; injection Q as -> ->; split; reflexivity].
    + unfold Rmax. destruct (Rle_dec e1 e2).
      * exists (j + dn_n g)%nat. split; [lia|]. rewrite two_arrays_high, strengths_cE, two_sided_sh, cE_all_in by exact Lj. exact Ej.
      * exists i. split; [lia|]. rewrite two_arrays_low, strengths_cE, two_sided_sh, cE_all_out by exact Li. exact Ei.
Qed.
Lemma crema_dir_start_positive e g nm a z : In nm ["random"; "strengths"; "strengths_minor"]%string -> draws (v_rnd e) ->
  let es := two_sided (dn_n g) (all_edges (dn_n g) a) in
  pairs_below (dn_n g + dn_n g) es -> positive_weights es -> positive_solution (dn_n g + dn_n g) (two_arrays (dn_n g) (dn_sout g) (dn_sin g)) es z ->
  exists x0, d_start g "crema" (v_rnd e) (GStr nm) = Some x0 /\ positive_ends es x0.
Proof.
  intros Hn Hr es HB HW [HZ HS]. set (s2 := two_arrays (dn_n g) (dn_sout g) (dn_sin g)) in *.
  assert (HS' : forall k, (k < dn_n g + dn_n g)%nat -> cE es z k = s2 k) by (intros k Hk; rewrite <- strengths_cE; apply HS; exact Hk).
  assert (NN := s_nonneg _ _ _ _ HB HW HZ HS').
  destruct (guess_crema_directed_inside (dn_n g) (dn_sout g) (dn_sin g) (v_rnd e) nm Hn) as (s & th & Es & Ft & HI).
  { intros i Hi. rewrite <- (two_arrays_low (dn_n g) (dn_sout g) (dn_sin g) i Hi). apply NN. lia. }
  { intros i Hi. rewrite <- (two_arrays_high (dn_n g) (dn_sout g) (dn_sin g) i). apply NN. lia. }
  { exact Hr. }
  destruct (all_fin_some' (2 * dn_n g) (g_x0 s)) as (x0 & E0); [intros q Hq; exists (th q); apply Ft; exact Hq|].
  exists x0. split; [unfold d_start; names; rewrite Es; exact E0|].
  assert (EE : forall q, (q < 2 * dn_n g)%nat -> x0 q = th q) by (intros q Hq; pose proof (all_fin_inv _ _ _ E0 q Hq) as E; rewrite (Ft q Hq) in E; congruence).
  intros i j w Hin. destruct (listed_touched es i j w Hin) as [T1 T2]. assert (S1 := s_pos _ _ _ _ HB HW HZ HS' i T1). assert (S2 := s_pos _ _ _ _ HB HW HZ HS' j T2).
  unfold es in Hin. rewrite two_sided_sh in Hin. apply in_sh in Hin. destruct Hin as (j' & -> & Hin). apply in_all in Hin. destruct Hin as (Li & Lj & _ & _).
  unfold s2 in S1, S2. rewrite two_arrays_low in S1 by exact Li. rewrite two_arrays_high in S2. rewrite !EE by lia.
  split; [apply (proj1 (HI i Li))|apply (proj2 (HI j' Lj))]; lra.
Qed.
Lemma tool_crema_dir_fixed_point g a z : (0 < dn_n g)%nat -> (forall i j, (i < dn_n g)%nat -> (j < dn_n g)%nat -> 0 <= a i j) ->
  positive_linked_dir (dn_n g) a z -> solves_strengths_dir (dn_n g) a (dn_sout g) (dn_sin g) z ->
  forall e nm ls, In nm ["random"; "strengths"; "strengths_minor"]%string -> draws (v_rnd e) ->
    calls_approach (d_tool e g) (d_report e g) ds_err (fun o b => ds_bo o = Some (fst b) /\ ds_bi o = Some (snd b)) (positive_linked_dir (dn_n g) a)
      (solves_strengths_dir (dn_n g) a (dn_sout g) (dn_sin g)) (within_dir (dn_n g)) a (GStr nm) ls.
Proof.
  intros Hn Ha Hz Hs e nm ls Hnm Hr. set (n := dn_n g) in *. set (es := all_edges n a).
  assert (HB : pairs_below n es) by (apply all_below).
  assert (HW : positive_weights es) by (intros i j w Hin; apply in_all in Hin; destruct Hin as (Li & Lj & -> & Z); specialize (Ha i j Li Lj); lra).
  set (z2 := two_arrays n (fst z) (snd z)).
  assert (Z2 : positive_ends (two_sided n es) z2).
  { intros i j w Hin. rewrite two_sided_sh in Hin. apply in_sh in Hin. destruct Hin as (j' & -> & Hin). apply in_all in Hin. destruct Hin as (Li & Lj & -> & Z).
    unfold z2. rewrite two_arrays_low, two_arrays_high by exact Li. apply Hz; assumption. }
  assert (split_index : forall k, (k < n + n)%nat -> (k < n)%nat \/ exists k', (k' < n)%nat /\ k = (k' + n)%nat).
  { intros k Hk. destruct (Nat.lt_ge_cases k n) as [L|L]; [left; exact L|right; exists (k - n)%nat; lia]. }
  assert (HZ : positive_solution (n + n) (two_arrays n (dn_sout g) (dn_sin g)) (two_sided n es) z2).
  { split; [exact Z2|]. intros k Hk. rewrite strengths_cE, two_sided_sh. destruct (split_index k Hk) as [L|(k' & L & ->)].
    - rewrite two_arrays_low by exact L. unfold es. rewrite cE_all_out by exact L. rewrite <- (proj1 (Hs k L)). unfold crema_mean_out. apply rsum_ext. intros j Hj. unfold drop, z2. rewrite two_arrays_low, two_arrays_high by exact L. reflexivity.
    - rewrite two_arrays_high. unfold es. rewrite cE_all_in by exact L. rewrite <- (proj2 (Hs k' L)). unfold crema_mean_in. apply rsum_ext. intros i Hi. unfold drop, z2. rewrite two_arrays_low, two_arrays_high by exact Hi. reflexivity. }
  destruct (crema_dir_start_positive e g nm a z2 Hnm Hr (sh_below n es HB) (sh_positive n es HW) HZ) as (x0 & E0 & P0).
  destruct (crema_dir_approaches (v_linsolve e) (v_eigh_ok e) (v_eigh e) (v_fuel e) n (dn_sout g) (dn_sin g) es (nz_real n (dn_sout g)) (nz_real n (dn_sin g)) None ls x0 z2 HB HW
    (nz_real_list _ _) (nz_real_list _ _) P0 HZ) as (D & HD & A1 & _ & A3).
  refine (calls_approach_from _ _ _ _ _ _ _ a (GStr nm) ls _ _ _ _ _ _ x0 (two_arrays n (dn_sout g) (dn_sin g)) (two_sided n es) z2 D (fun x => (x, drop n x)) A1 A3 _ _ _ _).
  - intros x Hx. apply all_ends. exact Hx.
  - intros y [Y1 Y2] i Hi. cbn [fst snd]. split.
    + rewrite <- (cE_all_out n a y i Hi). pose proof (Y2 i ltac:(lia)) as Q. rewrite strengths_cE, two_arrays_low in Q by exact Hi. exact Q.
    + rewrite <- (cE_all_in n a y i Hi). pose proof (Y2 (i + n)%nat ltac:(lia)) as Q. rewrite strengths_cE, two_arrays_high in Q. exact Q.
  - intros v x y H. split; intros i Hi; cbn [fst snd]; unfold drop; apply H; lia.
  - intros t o x steps ns ds als Ct Px E. exact (crema_dir_call_from e g t o a ls (GStr nm) D x0 x steps ns ds als Hn Ct HD E0 Px E).
Qed.

(** * Cases *)
Definition path_sol (i : nat) : R := nth i [/ 3; / 6; / 6] (/ 6).
Lemma path_ascend_case : (0 < un_n path_net)%nat /\ hollow path_adj /\ (forall i j, (i < j < un_n path_net)%nat -> 0 <= path_adj i j) /\
  positive_linked (un_n path_net) path_adj path_sol /\ solves_strengths (un_n path_net) path_adj (un_str path_net) path_sol /\ draws half.
Proof.
  split; [cbn; lia|]. split; [exact path_adj_hollow|]. split; [intros; apply path_adj_nonneg|]. split; [|split].
  - assert (P : forall i, 0 < path_sol i) by (intros i; unfold path_sol; do 3 (destruct i as [|i]; [cbn; lra|]); destruct i; cbn; lra). intros i j _ _. split; apply P.
  - intros i Hi. cbn in Hi. unfold crema_mean. destruct i as [|[|[|i]]]; try lia; cbn; unfold path_sol; cbn; lra.
  - intros i. unfold half. lra.
Qed.
Definition tri_sol : (nat -> R) * (nat -> R) := (fun i => nth i [3 / 8; / 6; / 8] 1, fun i => nth i [7 / 8; / 8; / 6] 1).
Lemma tri_ascend_case : (0 < dn_n tri_net)%nat /\ (forall i j, (i < dn_n tri_net)%nat -> (j < dn_n tri_net)%nat -> 0 <= tri_adj i j) /\
  positive_linked_dir (dn_n tri_net) tri_adj tri_sol /\ solves_strengths_dir (dn_n tri_net) tri_adj (dn_sout tri_net) (dn_sin tri_net) tri_sol /\ draws half.
Proof.
  split; [cbn; lia|]. split; [intros; apply tri_adj_nonneg|]. split; [|split].
  - intros i j Hi Hj _. cbn in Hi, Hj. split; [destruct i as [|[|[|i]]]; try lia; cbn; lra|destruct j as [|[|[|j]]]; try lia; cbn; lra].
  - intros i Hi. cbn in Hi. unfold crema_mean_out, crema_mean_in. destruct i as [|[|[|i]]]; try lia; cbn; unfold tri_adj; cbn; split; lra.
  - intros i. unfold half. lra.
Qed.

(** The triangle whose only solution has a negative parameter. *)
Definition full_adj (i j : nat) : R := if Nat.eqb i j then 0 else 1.
Definition full_net : unet := {| un_dseq := [2; 2; 2]%nat; un_str := asc_tri_s |}.
Lemma full_edges : triu_edges 3 full_adj = asc_tri.
Proof.
  unfold triu_edges, row_edges, asc_tri. cbn. unfold full_adj. cbn.
  repeat match goal with |- context [Req_EM_T ?a ?b] => destruct (Req_EM_T a b); [try lra|try lra] end; reflexivity.
Qed.
Lemma tool_crema_negative : exists g a z, (0 < un_n g)%nat /\ hollow a /\ (forall i j, 0 <= a i j) /\ (forall i, (i < un_n g)%nat -> 0 < un_str g i) /\
  positive_rates (un_n g) a z /\ solves_strengths (un_n g) a (un_str g) z /\
  forall e nm ls t o, In nm ["random"; "strengths"; "strengths_minor"]%string -> draws (v_rnd e) -> crema_call a (GStr nm) ls t ->
    exists o' err, u_tool e g t o = (o', None) /\ us_err o' = Some err /\ / 20 < err.
Proof.
  exists full_net, full_adj, asc_tri_z. assert (Hn : (0 < un_n full_net)%nat) by (cbn; lia). assert (Hh : hollow full_adj) by (intros i; unfold full_adj; rewrite Nat.eqb_refl; reflexivity).
  assert (Hs : forall i, (i < un_n full_net)%nat -> 0 < un_str full_net i) by (intros [|i] _; cbn; lra).
  split; [exact Hn|]. split; [exact Hh|]. split; [intros i j; unfold full_adj; destruct (Nat.eqb i j); lra|]. split; [exact Hs|].
  split; [intros i j L _; destruct i as [|i], j as [|j]; try lia; cbn; lra|].
  split; [intros i Hi; cbn in Hi; unfold crema_mean; destruct i as [|[|[|i]]]; try lia; cbn; unfold full_adj; cbn; field|].
  intros e nm ls t o Hnm Hr Ct.
  destruct (guess_crema_inside (un_n full_net) (un_str full_net) (v_rnd e) nm Hnm (fun i Hi => Rlt_le _ _ (Hs i Hi)) Hr) as (s & th & Es & Ft & HI).
  destruct (all_fin_some' (un_n full_net) (g_x0 s)) as (x0 & E0); [intros q Hq; exists (th q); apply Ft; exact Hq|].
  assert (E0' : u_start full_net "crema" (v_rnd e) (GStr nm) = Some x0) by (unfold u_start; names; rewrite Es; exact E0).
  assert (P0 : forall k, (k < 3)%nat -> 0 < x0 k).
  { intros k Hk. pose proof (all_fin_inv _ _ _ E0 k Hk) as E. rewrite (Ft k Hk) in E. injection E as <-. apply HI; [exact Hk|]. specialize (Hs k Hk). lra. }
  destruct (asc_tri_runs (v_linsolve e) (v_eigh_ok e) (v_eigh e) (v_fuel e) None ls x0 P0) as (D & HD & HR).
  destruct (HR _ (call_options _ _ _ _ (proj1 Ct))) as (x & k & ns & ds & als & E & Px).
  destruct (crema_call_from e full_net t o full_adj ls (GStr nm) D x0 x k ns ds als Hn Hh Ct HD E0') as (o' & err & C1 & C2 & C3 & _ & C5 & _).
  { change (un_n full_net) with 3%nat. rewrite full_edges. intros i j w Hin. destruct (asc_tri_below i j w Hin). split; apply Px; assumption. }
  { change (un_n full_net) with 3%nat. rewrite full_edges. exact E. }
  exists o', err. split; [exact C1|]. split; [exact C3|]. destruct (tri_positive_far x (Px 0%nat ltac:(lia)) (Px 1%nat ltac:(lia)) (Px 2%nat ltac:(lia))) as (q & Hq & F).
  specialize (C5 q Hq). change (un_n full_net) with 3%nat in C5. rewrite full_edges in C5. change (un_str full_net) with asc_tri_s in C5. lra.
Qed.
