(** What the error reported by a call says about the likelihood of its parameters, and
    about the distance between the results of two calls. *)
From Coq Require Import Reals List Arith Lia Lra String.
From Coquelicot Require Import Coquelicot.
From Verif Require Import Base SpecGraph SpecWeighted SpecEnsemble SpecSolve SpecNear ModelSolve ProofsSolveU ProofsSolveD ProofsNear ProofsNearW ProofsNearC.
Import ListNotations.
Local Open Scope R_scope.

Lemma log_gap_nonneg n x z : 0 <= log_gap n x z.
Proof. apply rsum_nonneg. intros i _. destruct (Rlt_dec 0 (x i)); [apply Rabs_pos|lra]. Qed.
Lemma one_norm_nonneg n x z : 0 <= one_norm n x z.
Proof. apply rsum_nonneg. intros i _. apply Rabs_pos. Qed.
Lemma prob_und_nonneg n x a : (forall i, (i < n)%nat -> 0 <= x i) -> 0 <= prob_undirected n (p_ubcm x) a.
Proof.
  intros H. refine (proj1 (rprod_le n _ _ _)). intros j Hj. split; [|apply Rle_refl]. refine (proj1 (rprod_le j _ _ _)). intros i Hi. split; [|apply Rle_refl].
  unfold p_ubcm. assert (0 <= x i * x j) by (apply Rmult_le_pos; apply H; lia).
  destruct (a i j); [apply Rdiv_le_0_compat; lra|]. replace (1 - x i * x j / (1 + x i * x j)) with (/ (1 + x i * x j)) by (field; lra). left. apply Rinv_0_lt_compat. lra.
Qed.
Lemma prob_dir_nonneg n x y a : (forall i, (i < n)%nat -> 0 <= x i /\ 0 <= y i) -> 0 <= prob_directed n (p_dbcm x y) a.
Proof.
  intros H. refine (proj1 (rprod_le n _ _ _)). intros i Hi. split; [|apply Rle_refl]. refine (proj1 (rprod_le n _ _ _)). intros j Hj. split; [|apply Rle_refl].
  destruct (Nat.eqb i j); [lra|]. unfold p_dbcm. assert (0 <= x i * y j) by (apply Rmult_le_pos; apply H; assumption).
  destruct (a i j); [apply Rdiv_le_0_compat; lra|]. replace (1 - x i * y j / (1 + x i * y j)) with (/ (1 + x i * y j)) by (field; lra). left. apply Rinv_0_lt_compat. lra.
Qed.
Lemma prob_wund_nonneg n x y w : (forall i, (i < n)%nat -> 0 <= x i /\ 0 <= y i) -> tame n y y -> 0 <= prob_wundirected n (fun i j => q_enh (x i * x j) (y i * y j)) w.
Proof.
  intros H T. refine (proj1 (rprod_le n _ _ _)). intros j Hj. split; [|apply Rle_refl]. refine (proj1 (rprod_le j _ _ _)). intros i Hi. split; [|apply Rle_refl].
  apply q_enh_nonneg; [apply Rmult_le_pos; apply H; lia|]. split; [apply Rmult_le_pos; apply H; lia|apply T; lia].
Qed.
Lemma prob_wdir_nonneg n x y bo bi w : (forall i, (i < n)%nat -> 0 <= x i /\ 0 <= y i /\ 0 <= bo i /\ 0 <= bi i) -> tame n bo bi ->
  0 <= prob_wdirected n (fun i j => q_enh (x i * y j) (bo i * bi j)) w.
Proof.
  intros H T. refine (proj1 (rprod_le n _ _ _)). intros i Hi. split; [|apply Rle_refl]. refine (proj1 (rprod_le n _ _ _)). intros j Hj. split; [|apply Rle_refl].
  destruct (Nat.eqb_spec i j); [lra|]. apply q_enh_nonneg; [apply Rmult_le_pos; apply H; assumption|]. split; [apply Rmult_le_pos; apply H; assumption|apply T; assumption].
Qed.
Lemma scale_exp p a b : 0 <= p -> a <= b -> p * exp a <= p * exp b.
Proof. intros Hp H. apply Rmult_le_compat_l; [exact Hp|apply exp_le, H]. Qed.
Lemma dev_of n ex ob k e : sup_dev n ex ob e -> (forall i, (i < n)%nat -> ob i = k i) -> forall i, (i < n)%nat -> Rabs (ex i - k i) <= e.
Proof. intros [H _] E i Hi. rewrite <- E by exact Hi. apply H, Hi. Qed.

Lemma call_near_cm g c o o' a : (0 < un_n g)%nat -> us_beta o = None -> In (c_model c) ["cm"; "cm_exp"]%string ->
  simple_graph (un_n g) a -> (forall i, (i < un_n g)%nat -> at_list (un_dseq g) i = deg (un_n g) a i) ->
  u_solve_tool g c o = (o', None) ->
  exists x err, us_x o' = Some x /\ us_err o' = Some err /\ (c_model c = "cm_exp"%string -> forall i, 0 < x i) /\
    forall z, comparable (un_n g) x z -> may_link (un_n g) x x a ->
      prob_undirected (un_n g) (p_ubcm z) a <= prob_undirected (un_n g) (p_ubcm x) a * exp (err * log_gap (un_n g) x z).
Proof.
  intros Hn Hb Hm Ha Hk H. destruct (u_error_cm g c o o' Hn Hb Hm H) as (v & cls & x & e & _ & X & E & _ & HV & S).
  exists x, e. split; [exact X|split; [exact E|split]].
  - intros Hc i. rewrite HV, Hc. apply exp_pos.
  - intros z HC HM. apply near_und; try assumption. apply (dev_of _ _ _ _ _ S Hk).
Qed.
Lemma calls_close_cm g c1 c2 o1 o2 o1' o2' : (0 < un_n g)%nat -> us_beta o1 = None -> us_beta o2 = None ->
  In (c_model c1) ["cm"; "cm_exp"]%string -> In (c_model c2) ["cm"; "cm_exp"]%string ->
  u_solve_tool g c1 o1 = (o1', None) -> u_solve_tool g c2 o2 = (o2', None) ->
  exists x1 e1 x2 e2, us_x o1' = Some x1 /\ us_err o1' = Some e1 /\ us_x o2' = Some x2 /\ us_err o2' = Some e2 /\
    (comparable (un_n g) x1 x2 -> comparable (un_n g) x2 x1 -> 4 * apart_und (un_n g) (p_ubcm x1) (p_ubcm x2) <= (e1 + e2) * log_gap (un_n g) x1 x2).
Proof.
  intros Hn B1 B2 M1 M2 H1 H2. destruct (u_error_cm g c1 o1 o1' Hn B1 M1 H1) as (v1 & k1 & x1 & e1 & _ & X1 & E1 & _ & _ & S1).
  destruct (u_error_cm g c2 o2 o2' Hn B2 M2 H2) as (v2 & k2 & x2 & e2 & _ & X2 & E2 & _ & _ & S2).
  exists x1, e1, x2, e2. do 4 (split; [assumption|]). intros C1 C2. apply (close_und _ (at_list (un_dseq g))); try assumption; [apply S1|apply S2].
Qed.
Lemma call_near_dcm g c o o' a : (0 < dn_n g)%nat -> d_paired g -> ds_bo o = None -> In (c_model c) ["dcm"; "dcm_exp"]%string ->
  loopless (dn_n g) a -> (forall i, (i < dn_n g)%nat -> at_list (dn_out g) i = deg (dn_n g) a i) -> (forall i, (i < dn_n g)%nat -> at_list (dn_in g) i = indeg (dn_n g) a i) ->
  d_solve_tool g c o = (o', None) ->
  exists x y err, ds_x o' = Some x /\ ds_y o' = Some y /\ ds_err o' = Some err /\
    (c_model c = "dcm_exp"%string -> forall i, (i < dn_n g)%nat -> 0 <= x i /\ 0 <= y i) /\
    forall z w, comparable (dn_n g) x z -> comparable (dn_n g) y w -> may_link (dn_n g) x y a ->
      prob_directed (dn_n g) (p_dbcm z w) a <= prob_directed (dn_n g) (p_dbcm x y) a * exp (err * (log_gap (dn_n g) x z + log_gap (dn_n g) y w)).
Proof.
  intros Hn HP Hb Hm Ha Ho Hi H. destruct (d_error_dcm g c o o' Hn HP Hb Hm H) as (v & s & cls & m & x & y & e1 & e2 & _ & X & Y & E & HS & _ & HV & S1 & S2).
  exists x, y, (Rmax e1 e2). do 3 (split; [assumption|]). split.
  - intros Hc i Hi'. destruct (HV i Hi') as (_ & -> & ->). rewrite HS, Hc. cbn [String.eqb Ascii.eqb Bool.eqb]. unfold exp_neg. split; (destruct (o_inf v _); [apply Rle_refl|left; apply exp_pos]).
  - intros z w C1 C2 HM. eapply Rle_trans; [apply (near_dir _ a x y z w e1 e2); try assumption; [apply (dev_of _ _ _ _ _ S1 Ho)|apply (dev_of _ _ _ _ _ S2 Hi)]|].
    apply scale_exp; [apply prob_dir_nonneg; intros i Hi'; split; [apply (C1 i Hi')|apply (C2 i Hi')]|].
    rewrite Rmult_plus_distr_l. apply Rplus_le_compat; apply Rmult_le_compat_r; try apply log_gap_nonneg; [apply Rmax_l|apply Rmax_r].
Qed.
Lemma calls_close_dcm g c1 c2 o1 o2 o1' o2' : (0 < dn_n g)%nat -> d_paired g -> ds_bo o1 = None -> ds_bo o2 = None ->
  In (c_model c1) ["dcm"; "dcm_exp"]%string -> In (c_model c2) ["dcm"; "dcm_exp"]%string ->
  d_solve_tool g c1 o1 = (o1', None) -> d_solve_tool g c2 o2 = (o2', None) ->
  exists x1 y1 e1 x2 y2 e2, ds_x o1' = Some x1 /\ ds_y o1' = Some y1 /\ ds_err o1' = Some e1 /\ ds_x o2' = Some x2 /\ ds_y o2' = Some y2 /\ ds_err o2' = Some e2 /\
    (comparable (dn_n g) x1 x2 -> comparable (dn_n g) x2 x1 -> comparable (dn_n g) y1 y2 -> comparable (dn_n g) y2 y1 ->
     4 * apart_dir (dn_n g) (p_dbcm x1 y1) (p_dbcm x2 y2) <= (e1 + e2) * (log_gap (dn_n g) x1 x2 + log_gap (dn_n g) y1 y2)).
Proof.
  intros Hn HP B1 B2 M1 M2 H1 H2. destruct (d_error_dcm g c1 o1 o1' Hn HP B1 M1 H1) as (v1 & s1 & k1 & m1 & x1 & y1 & e1 & e2 & _ & X1 & Y1 & E1 & _ & _ & _ & S1 & S2).
  destruct (d_error_dcm g c2 o2 o2' Hn HP B2 M2 H2) as (v2 & s2 & k2 & m2 & x2 & y2 & f1 & f2 & _ & X2 & Y2 & E2 & _ & _ & _ & T1 & T2).
  exists x1, y1, (Rmax e1 e2), x2, y2, (Rmax f1 f2). do 6 (split; [assumption|]). intros C1 C2 C3 C4.
  eapply Rle_trans; [apply (close_dir _ (at_list (dn_out g)) (at_list (dn_in g)) x1 y1 x2 y2 e1 e2 f1 f2); try assumption; [apply S1|apply S2|apply T1|apply T2]|].
  rewrite Rmult_plus_distr_l. apply Rplus_le_compat; apply Rmult_le_compat_r; try apply log_gap_nonneg; apply Rplus_le_compat; try apply Rmax_l; apply Rmax_r.
Qed.
Lemma call_near_ecm g c o o' w : (0 < un_n g)%nat -> In (c_model c) ["ecm"; "ecm_exp"]%string -> weighted_graph (un_n g) w ->
  (forall i, (i < un_n g)%nat -> at_list (un_dseq g) i = wdeg (un_n g) w i) -> (forall i, (i < un_n g)%nat -> un_str g i = wstr (un_n g) w i) ->
  u_solve_tool g c o = (o', None) ->
  exists x y err, us_x o' = Some x /\ us_y o' = Some y /\ us_err o' = Some err /\ (c_model c = "ecm_exp"%string -> forall i, 0 < x i /\ 0 < y i) /\
    forall z v, comparable (un_n g) x z -> comparable (un_n g) y v -> tame (un_n g) y y -> tame (un_n g) v v -> may_weigh (un_n g) x x y y w ->
      prob_wundirected (un_n g) (fun i j => q_enh (z i * z j) (v i * v j)) w <=
      prob_wundirected (un_n g) (fun i j => q_enh (x i * x j) (y i * y j)) w * exp (err * (log_gap (un_n g) x z + log_gap (un_n g) y v)).
Proof.
  intros Hn Hm Hw Hk Hs H. destruct (u_error_ecm g c o o' Hn Hm H) as (v0 & x & y & ek & es & _ & X & Y & E & VX & VY & S1 & S2).
  exists x, y, (Rmax es ek). do 3 (split; [assumption|]). split.
  - intros Hc i. rewrite VX, VY, Hc. split; apply exp_pos.
  - intros z v C1 C2 T1 T2 HM. eapply Rle_trans; [apply (near_wund _ w x y z v ek es); try assumption; [apply (dev_of _ _ _ _ _ S1 Hk)|apply (dev_of _ _ _ _ _ S2 Hs)]|].
    apply scale_exp; [apply prob_wund_nonneg; [intros i Hi; split; [apply (C1 i Hi)|apply (C2 i Hi)]|exact T1]|].
    rewrite Rmult_plus_distr_l. apply Rplus_le_compat; apply Rmult_le_compat_r; try apply log_gap_nonneg; [apply Rmax_r|apply Rmax_l].
Qed.
Lemma call_near_decm g c o o' w : (0 < dn_n g)%nat -> In (c_model c) ["decm"; "decm_exp"]%string -> weighted_digraph (dn_n g) w ->
  (forall i, (i < dn_n g)%nat -> at_list (dn_out g) i = wdeg (dn_n g) w i) -> (forall i, (i < dn_n g)%nat -> at_list (dn_in g) i = windeg (dn_n g) w i) ->
  (forall i, (i < dn_n g)%nat -> dn_sout g i = wstr (dn_n g) w i) -> (forall i, (i < dn_n g)%nat -> dn_sin g i = winstr (dn_n g) w i) ->
  d_solve_tool g c o = (o', None) ->
  (forall x y bo bi, ds_x o' = Some x -> ds_y o' = Some y -> ds_bo o' = Some bo -> ds_bi o' = Some bi -> decm_dom (dn_n g) (join4 (dn_n g) x y bo bi)) ->
  exists x y bo bi err, ds_x o' = Some x /\ ds_y o' = Some y /\ ds_bo o' = Some bo /\ ds_bi o' = Some bi /\ ds_err o' = Some err /\
    forall z v co ci, comparable (dn_n g) x z -> comparable (dn_n g) y v -> comparable (dn_n g) bo co -> comparable (dn_n g) bi ci -> tame (dn_n g) co ci -> may_weigh (dn_n g) x y bo bi w ->
      prob_wdirected (dn_n g) (fun i j => q_enh (z i * v j) (co i * ci j)) w <=
      prob_wdirected (dn_n g) (fun i j => q_enh (x i * y j) (bo i * bi j)) w *
        exp (err * (log_gap (dn_n g) x z + log_gap (dn_n g) y v + (log_gap (dn_n g) bo co + log_gap (dn_n g) bi ci))).
Proof.
  intros Hn Hm Hw H1 H2 H3 H4 H HD.
  destruct (d_error_decm g c o o' Hn Hm H HD) as (v0 & s & x & y & bo & bi & e1 & e2 & e3 & e4 & _ & X & Y & BO & BI & E & _ & _ & _ & _ & S1 & S2 & S3 & S4).
  exists x, y, bo, bi, (Rmax (Rmax e1 e2) (Rmax e3 e4)). do 5 (split; [assumption|]). specialize (HD x y bo bi X Y BO BI).
  intros z v co ci C1 C2 C3 C4 TC HM. set (n := dn_n g) in *.
  assert (TB : tame n bo bi).
  { intros i j Hi Hj Hij. destruct HD as [_ D2]. specialize (D2 i j Hi Hj Hij). destruct (join4_blocks n x y bo bi i Hi) as (_ & _ & I3 & _), (join4_blocks n x y bo bi j Hj) as (_ & _ & _ & J4). rewrite I3, J4 in D2. exact D2. }
  eapply Rle_trans; [apply (near_wdir n w x y bo bi z v co ci e1 e2 e3 e4); try assumption;
    [apply (dev_of _ _ _ _ _ S1 H1)|apply (dev_of _ _ _ _ _ S2 H2)|apply (dev_of _ _ _ _ _ S3 H3)|apply (dev_of _ _ _ _ _ S4 H4)]|].
  apply scale_exp; [apply prob_wdir_nonneg; [intros i Hi; repeat split; [apply (C1 i Hi)|apply (C2 i Hi)|apply (C3 i Hi)|apply (C4 i Hi)]|exact TB]|].
  pose proof (Rmax_l (Rmax e1 e2) (Rmax e3 e4)). pose proof (Rmax_r (Rmax e1 e2) (Rmax e3 e4)).
  pose proof (Rmax_l e1 e2). pose proof (Rmax_r e1 e2). pose proof (Rmax_l e3 e4). pose proof (Rmax_r e3 e4).
  rewrite !Rmult_plus_distr_l. repeat apply Rplus_le_compat; apply Rmult_le_compat_r; try apply log_gap_nonneg; lra.
Qed.
Lemma call_near_crema g c o o' a : (0 < un_n g)%nat -> In (c_model c) ["crema"; "crema-sparse"]%string ->
  c_adjacency c = AdjMatrix a -> hollow a -> (forall i j, (i < j < un_n g)%nat -> 0 <= a i j) ->
  u_solve_tool g c o = (o', None) -> (forall b, us_beta o' = Some b -> positive_rates (un_n g) a b) ->
  exists b err, us_beta o' = Some b /\ us_err o' = Some err /\
    forall z, positive_rates (un_n g) a z -> crema_loglik (un_n g) a (un_str g) z <= crema_loglik (un_n g) a (un_str g) b + err * one_norm (un_n g) b z.
Proof.
  intros Hn Hm Ha Hh Hp H HP. destruct (u_error_crema_matrix g c o o' a Hn Hm Ha Hh H HP) as (v & e & _ & B & E & S).
  exists (o_x v), e. do 2 (split; [assumption|]). intros z Hz. apply near_crema; try assumption; [apply HP, B|apply S].
Qed.
Lemma calls_close_crema g c1 c2 o1 o2 o1' o2' a : (0 < un_n g)%nat -> In (c_model c1) ["crema"; "crema-sparse"]%string -> In (c_model c2) ["crema"; "crema-sparse"]%string ->
  c_adjacency c1 = AdjMatrix a -> c_adjacency c2 = AdjMatrix a -> hollow a ->
  u_solve_tool g c1 o1 = (o1', None) -> u_solve_tool g c2 o2 = (o2', None) ->
  (forall b, us_beta o1' = Some b -> positive_rates (un_n g) a b) -> (forall b, us_beta o2' = Some b -> positive_rates (un_n g) a b) ->
  exists b1 e1 b2 e2, us_beta o1' = Some b1 /\ us_err o1' = Some e1 /\ us_beta o2' = Some b2 /\ us_err o2' = Some e2 /\
    rates_apart (un_n g) a b1 b2 <= (e1 + e2) * one_norm (un_n g) b1 b2.
Proof.
  intros Hn M1 M2 A1 A2 Hh H1 H2 P1 P2. destruct (u_error_crema_matrix g c1 o1 o1' a Hn M1 A1 Hh H1 P1) as (v1 & e1 & _ & B1 & E1 & S1).
  destruct (u_error_crema_matrix g c2 o2 o2' a Hn M2 A2 Hh H2 P2) as (v2 & e2 & _ & B2 & E2 & S2).
  exists (o_x v1), e1, (o_x v2), e2. do 4 (split; [assumption|]). apply (close_crema _ a (un_str g)); [apply P1, B1|apply P2, B2|apply S1|apply S2].
Qed.
Lemma call_near_crema_name g c o o' a : (0 < un_n g)%nat -> In (c_model c) ["crema"; "crema-sparse"]%string ->
  c_adjacency c = AdjName a -> In a ["cm"; "cm_exp"]%string -> u_solve_tool g c o = (o', None) ->
  (forall x b, us_x o' = Some x -> us_beta o' = Some b -> (forall i, (i < un_n g)%nat -> 0 <= x i) /\ positive_rates (un_n g) (p_ubcm x) b) ->
  exists x b err, us_x o' = Some x /\ us_beta o' = Some b /\ us_err o' = Some err /\
    forall z, positive_rates (un_n g) (p_ubcm x) z ->
      crema_loglik (un_n g) (p_ubcm x) (un_str g) z <= crema_loglik (un_n g) (p_ubcm x) (un_str g) b + err * one_norm (un_n g) b z.
Proof.
  intros Hn Hm Ha Hna H HP. destruct (u_error_crema_name g c o o' a Hn Hm Ha Hna H HP) as (va & v & cls & x & ek & es & _ & _ & X & B & E & _ & _ & _ & S).
  exists x, (o_x v), (Rmax es ek). do 3 (split; [assumption|]). destruct (HP _ _ X B) as [HX HB]. intros z Hz.
  eapply Rle_trans; [apply (near_crema _ _ _ (o_x v) z es); try assumption; [|apply S]|].
  - intros i j Hij. unfold p_ubcm. assert (0 <= x i * x j) by (apply Rmult_le_pos; apply HX; lia). apply Rdiv_le_0_compat; lra.
  - apply Rplus_le_compat_l, Rmult_le_compat_r; [apply one_norm_nonneg|apply Rmax_l].
Qed.
Lemma call_near_crema_dir g c o o' a : (0 < dn_n g)%nat -> In (c_model c) ["crema"; "crema-sparse"]%string ->
  c_adjacency c = AdjMatrix a -> (forall i j, (i < dn_n g)%nat -> (j < dn_n g)%nat -> 0 <= a i j) -> d_solve_tool g c o = (o', None) ->
  (forall bo bi, ds_bo o' = Some bo -> ds_bi o' = Some bi -> positive_rates_dir (dn_n g) a bo bi) ->
  exists bo bi err, ds_bo o' = Some bo /\ ds_bi o' = Some bi /\ ds_err o' = Some err /\
    forall co ci, positive_rates_dir (dn_n g) a co ci ->
      crema_loglik_dir (dn_n g) a (dn_sout g) (dn_sin g) co ci <= crema_loglik_dir (dn_n g) a (dn_sout g) (dn_sin g) bo bi + err * (one_norm (dn_n g) bo co + one_norm (dn_n g) bi ci).
Proof.
  intros Hn Hm Ha Hp H HP. destruct (d_error_crema_matrix g c o o' a Hn Hm Ha H HP) as (v & bo & bi & e1 & e2 & _ & BO & BI & E & _ & S1 & S2).
  exists bo, bi, (Rmax e1 e2). do 3 (split; [assumption|]). intros co ci Hc.
  eapply Rle_trans; [apply (near_crema_dir _ a _ _ bo bi co ci e1 e2); try assumption; [apply (HP bo bi BO BI)|apply S1|apply S2]|].
  apply Rplus_le_compat_l. rewrite Rmult_plus_distr_l. apply Rplus_le_compat; apply Rmult_le_compat_r; try apply one_norm_nonneg; [apply Rmax_l|apply Rmax_r].
Qed.
Lemma calls_close_crema_dir g c1 c2 o1 o2 o1' o2' a : (0 < dn_n g)%nat -> In (c_model c1) ["crema"; "crema-sparse"]%string -> In (c_model c2) ["crema"; "crema-sparse"]%string ->
  c_adjacency c1 = AdjMatrix a -> c_adjacency c2 = AdjMatrix a ->
  d_solve_tool g c1 o1 = (o1', None) -> d_solve_tool g c2 o2 = (o2', None) ->
  (forall bo bi, ds_bo o1' = Some bo -> ds_bi o1' = Some bi -> positive_rates_dir (dn_n g) a bo bi) ->
  (forall bo bi, ds_bo o2' = Some bo -> ds_bi o2' = Some bi -> positive_rates_dir (dn_n g) a bo bi) ->
  exists bo1 bi1 e1 bo2 bi2 e2, ds_bo o1' = Some bo1 /\ ds_bi o1' = Some bi1 /\ ds_err o1' = Some e1 /\ ds_bo o2' = Some bo2 /\ ds_bi o2' = Some bi2 /\ ds_err o2' = Some e2 /\
    rates_apart_dir (dn_n g) a bo1 bi1 bo2 bi2 <= (e1 + e2) * (one_norm (dn_n g) bo1 bo2 + one_norm (dn_n g) bi1 bi2).
Proof.
  intros Hn M1 M2 A1 A2 H1 H2 P1 P2. destruct (d_error_crema_matrix g c1 o1 o1' a Hn M1 A1 H1 P1) as (v1 & b1 & b2 & e1 & e2 & _ & B1 & B2 & E1 & _ & S1 & S2).
  destruct (d_error_crema_matrix g c2 o2 o2' a Hn M2 A2 H2 P2) as (v2 & c3 & c4 & f1 & f2 & _ & B3 & B4 & E2 & _ & T1 & T2).
  exists b1, b2, (Rmax e1 e2), c3, c4, (Rmax f1 f2). do 6 (split; [assumption|]).
  eapply Rle_trans; [apply (close_crema_dir _ a (dn_sout g) (dn_sin g) b1 b2 c3 c4 e1 e2 f1 f2); [apply (P1 _ _ B1 B2)|apply (P2 _ _ B3 B4)|apply S1|apply S2|apply T1|apply T2]|].
  rewrite Rmult_plus_distr_l. apply Rplus_le_compat; apply Rmult_le_compat_r; try apply one_norm_nonneg; apply Rplus_le_compat; try apply Rmax_l; apply Rmax_r.
Qed.
