(** The results of calls on two networks with close constraints. *)
From Coq Require Import Reals List Arith Lia Lra String.
From Coquelicot Require Import Coquelicot.
From Verif Require Import Base SpecGraph SpecWeighted SpecEnsemble SpecSolve SpecNear SpecData ModelSolve ProofsSolveU ProofsSolveD ProofsNear ProofsNearW ProofsNearC ProofsNearTool ProofsNearE.
Import ListNotations.
Local Open Scope R_scope.

Lemma shift n m a b f d : within n a b d -> (forall i, (i < n)%nat -> Rabs (m i - b i) <= f) -> forall i, (i < n)%nat -> Rabs (m i - a i) <= f + d.
Proof.
  intros W H i Hi. specialize (W i Hi). specialize (H i Hi). replace (m i - a i) with ((m i - b i) - (a i - b i)) by ring.
  eapply Rle_trans; [apply Rabs_triang|]. rewrite Rabs_Ropp. lra.
Qed.
Lemma data_cm g h c1 c2 o1 o2 o1' o2' d : (0 < un_n g)%nat -> un_n h = un_n g -> within (un_n g) (at_list (un_dseq g)) (at_list (un_dseq h)) d ->
  us_beta o1 = None -> us_beta o2 = None -> In (c_model c1) ["cm"; "cm_exp"]%string -> In (c_model c2) ["cm"; "cm_exp"]%string ->
  u_solve_tool g c1 o1 = (o1', None) -> u_solve_tool h c2 o2 = (o2', None) ->
  exists x1 e1 x2 e2, us_x o1' = Some x1 /\ us_err o1' = Some e1 /\ us_x o2' = Some x2 /\ us_err o2' = Some e2 /\
    (comparable (un_n g) x1 x2 -> comparable (un_n g) x2 x1 -> 4 * apart_und (un_n g) (p_ubcm x1) (p_ubcm x2) <= (e1 + e2 + d) * log_gap (un_n g) x1 x2).
Proof.
  intros Hn Hh W B1 B2 M1 M2 H1 H2. destruct (u_error_cm g c1 o1 o1' Hn B1 M1 H1) as (v1 & k1 & x1 & e1 & _ & X1 & E1 & _ & _ & S1).
  destruct (u_error_cm h c2 o2 o2' ltac:(rewrite Hh; exact Hn) B2 M2 H2) as (v2 & k2 & x2 & e2 & _ & X2 & E2 & _ & _ & S2). rewrite Hh in S2.
  exists x1, e1, x2, e2. do 4 (split; [assumption|]). intros C1 C2. rewrite Rplus_assoc. apply (close_und _ (at_list (un_dseq g))); try assumption; [apply S1|]. apply (shift _ _ _ _ _ _ W), S2.
Qed.
Lemma data_ecm g h c1 c2 o1 o2 o1' o2' d : (0 < un_n g)%nat -> un_n h = un_n g -> within (un_n g) (at_list (un_dseq g)) (at_list (un_dseq h)) d -> within (un_n g) (un_str g) (un_str h) d ->
  In (c_model c1) ["ecm"; "ecm_exp"]%string -> In (c_model c2) ["ecm"; "ecm_exp"]%string ->
  u_solve_tool g c1 o1 = (o1', None) -> u_solve_tool h c2 o2 = (o2', None) ->
  exists x1 y1 e1 x2 y2 e2, us_x o1' = Some x1 /\ us_y o1' = Some y1 /\ us_err o1' = Some e1 /\ us_x o2' = Some x2 /\ us_y o2' = Some y2 /\ us_err o2' = Some e2 /\
    (comparable (un_n g) x1 x2 -> comparable (un_n g) x2 x1 -> comparable (un_n g) y1 y2 -> comparable (un_n g) y2 y1 -> tame (un_n g) y1 y1 -> tame (un_n g) y2 y2 ->
     4 * apart_und (un_n g) (fun i j => link_mean (x1 i * x1 j) (y1 i * y1 j)) (fun i j => link_mean (x2 i * x2 j) (y2 i * y2 j)) <=
     (e1 + e2 + d) * (log_gap (un_n g) x1 x2 + log_gap (un_n g) y1 y2)).
Proof.
  intros Hn Hh W1 W2 M1 M2 H1 H2. destruct (u_error_ecm g c1 o1 o1' Hn M1 H1) as (v1 & x1 & y1 & ek & es & _ & X1 & Y1 & E1 & _ & _ & S1 & S2).
  destruct (u_error_ecm h c2 o2 o2' ltac:(rewrite Hh; exact Hn) M2 H2) as (v2 & x2 & y2 & fk & fs & _ & X2 & Y2 & E2 & _ & _ & T1 & T2). rewrite Hh in T1, T2.
  exists x1, y1, (Rmax es ek), x2, y2, (Rmax fs fk). do 6 (split; [assumption|]). intros C1 C2 C3 C4 Q1 Q2.
  eapply Rle_trans; [apply (close_wund _ (at_list (un_dseq g)) (un_str g) x1 y1 x2 y2 ek es (fk + d) (fs + d)); try assumption; [apply S1|apply S2|apply (shift _ _ _ _ _ _ W1), T1|apply (shift _ _ _ _ _ _ W2), T2]|].
  pose proof (Rmax_l es ek). pose proof (Rmax_r es ek). pose proof (Rmax_l fs fk). pose proof (Rmax_r fs fk).
  rewrite Rmult_plus_distr_l. apply Rplus_le_compat; apply Rmult_le_compat_r; try apply log_gap_nonneg; lra.
Qed.
Lemma data_crema g h c1 c2 o1 o2 o1' o2' a d : (0 < un_n g)%nat -> un_n h = un_n g -> within (un_n g) (un_str g) (un_str h) d ->
  In (c_model c1) ["crema"; "crema-sparse"]%string -> In (c_model c2) ["crema"; "crema-sparse"]%string ->
  c_adjacency c1 = AdjMatrix a -> c_adjacency c2 = AdjMatrix a -> hollow a ->
  u_solve_tool g c1 o1 = (o1', None) -> u_solve_tool h c2 o2 = (o2', None) ->
  (forall b, us_beta o1' = Some b -> positive_rates (un_n g) a b) -> (forall b, us_beta o2' = Some b -> positive_rates (un_n g) a b) ->
  exists b1 e1 b2 e2, us_beta o1' = Some b1 /\ us_err o1' = Some e1 /\ us_beta o2' = Some b2 /\ us_err o2' = Some e2 /\
    rates_apart (un_n g) a b1 b2 <= (e1 + e2 + d) * one_norm (un_n g) b1 b2.
Proof.
  intros Hn Hh W M1 M2 A1 A2 Ha H1 H2 P1 P2. destruct (u_error_crema_matrix g c1 o1 o1' a Hn M1 A1 Ha H1 P1) as (v1 & e1 & _ & B1 & E1 & S1).
  destruct (u_error_crema_matrix h c2 o2 o2' a ltac:(rewrite Hh; exact Hn) M2 A2 Ha H2 ltac:(rewrite Hh; exact P2)) as (v2 & e2 & _ & B2 & E2 & S2). rewrite Hh in S2.
  exists (o_x v1), e1, (o_x v2), e2. do 4 (split; [assumption|]). rewrite Rplus_assoc. apply (close_crema _ a (un_str g)); [apply P1, B1|apply P2, B2|apply S1|apply (shift _ _ _ _ _ _ W), S2].
Qed.
Lemma data_dcm g h c1 c2 o1 o2 o1' o2' d : (0 < dn_n g)%nat -> dn_n h = dn_n g -> d_paired g -> d_paired h ->
  within (dn_n g) (at_list (dn_out g)) (at_list (dn_out h)) d -> within (dn_n g) (at_list (dn_in g)) (at_list (dn_in h)) d -> ds_bo o1 = None -> ds_bo o2 = None ->
  In (c_model c1) ["dcm"; "dcm_exp"]%string -> In (c_model c2) ["dcm"; "dcm_exp"]%string ->
  d_solve_tool g c1 o1 = (o1', None) -> d_solve_tool h c2 o2 = (o2', None) ->
  exists x1 y1 e1 x2 y2 e2, ds_x o1' = Some x1 /\ ds_y o1' = Some y1 /\ ds_err o1' = Some e1 /\ ds_x o2' = Some x2 /\ ds_y o2' = Some y2 /\ ds_err o2' = Some e2 /\
    (comparable (dn_n g) x1 x2 -> comparable (dn_n g) x2 x1 -> comparable (dn_n g) y1 y2 -> comparable (dn_n g) y2 y1 ->
     4 * apart_dir (dn_n g) (p_dbcm x1 y1) (p_dbcm x2 y2) <= (e1 + e2 + d) * (log_gap (dn_n g) x1 x2 + log_gap (dn_n g) y1 y2)).
Proof.
  intros Hn Hh P1 P2 W1 W2 B1 B2 M1 M2 H1 H2. destruct (d_error_dcm g c1 o1 o1' Hn P1 B1 M1 H1) as (v1 & s1 & k1 & m1 & x1 & y1 & e1 & e2 & _ & X1 & Y1 & E1 & _ & _ & _ & S1 & S2).
  destruct (d_error_dcm h c2 o2 o2' ltac:(rewrite Hh; exact Hn) P2 B2 M2 H2) as (v2 & s2 & k2 & m2 & x2 & y2 & f1 & f2 & _ & X2 & Y2 & E2 & _ & _ & _ & T1 & T2). rewrite Hh in T1, T2.
  exists x1, y1, (Rmax e1 e2), x2, y2, (Rmax f1 f2). do 6 (split; [assumption|]). intros C1 C2 C3 C4.
  eapply Rle_trans; [apply (close_dir _ (at_list (dn_out g)) (at_list (dn_in g)) x1 y1 x2 y2 e1 e2 (f1 + d) (f2 + d)); try assumption; [apply S1|apply S2|apply (shift _ _ _ _ _ _ W1), T1|apply (shift _ _ _ _ _ _ W2), T2]|].
  pose proof (Rmax_l e1 e2). pose proof (Rmax_r e1 e2). pose proof (Rmax_l f1 f2). pose proof (Rmax_r f1 f2).
  rewrite Rmult_plus_distr_l. apply Rplus_le_compat; apply Rmult_le_compat_r; try apply log_gap_nonneg; lra.
Qed.
Lemma data_decm g h c1 c2 o1 o2 o1' o2' d : (0 < dn_n g)%nat -> dn_n h = dn_n g ->
  within (dn_n g) (at_list (dn_out g)) (at_list (dn_out h)) d -> within (dn_n g) (at_list (dn_in g)) (at_list (dn_in h)) d -> within (dn_n g) (dn_sout g) (dn_sout h) d -> within (dn_n g) (dn_sin g) (dn_sin h) d ->
  In (c_model c1) ["decm"; "decm_exp"]%string -> In (c_model c2) ["decm"; "decm_exp"]%string ->
  d_solve_tool g c1 o1 = (o1', None) -> d_solve_tool h c2 o2 = (o2', None) ->
  (forall x y bo bi, ds_x o1' = Some x -> ds_y o1' = Some y -> ds_bo o1' = Some bo -> ds_bi o1' = Some bi -> decm_dom (dn_n g) (join4 (dn_n g) x y bo bi)) ->
  (forall x y bo bi, ds_x o2' = Some x -> ds_y o2' = Some y -> ds_bo o2' = Some bo -> ds_bi o2' = Some bi -> decm_dom (dn_n g) (join4 (dn_n g) x y bo bi)) ->
  exists x y bo bi e z v co ci f, ds_x o1' = Some x /\ ds_y o1' = Some y /\ ds_bo o1' = Some bo /\ ds_bi o1' = Some bi /\ ds_err o1' = Some e /\
    ds_x o2' = Some z /\ ds_y o2' = Some v /\ ds_bo o2' = Some co /\ ds_bi o2' = Some ci /\ ds_err o2' = Some f /\
    (comparable (dn_n g) x z -> comparable (dn_n g) z x -> comparable (dn_n g) y v -> comparable (dn_n g) v y ->
     comparable (dn_n g) bo co -> comparable (dn_n g) co bo -> comparable (dn_n g) bi ci -> comparable (dn_n g) ci bi ->
     4 * apart_dir (dn_n g) (fun i j => link_mean (x i * y j) (bo i * bi j)) (fun i j => link_mean (z i * v j) (co i * ci j)) <=
     (e + f + d) * (log_gap (dn_n g) x z + log_gap (dn_n g) y v + (log_gap (dn_n g) bo co + log_gap (dn_n g) bi ci))).
Proof.
  intros Hn Hh W1 W2 W3 W4 M1 M2 H1 H2 D1 D2.
  destruct (d_error_decm g c1 o1 o1' Hn M1 H1 D1) as (v1 & s1 & x & y & bo & bi & e1 & e2 & e3 & e4 & _ & X & Y & BO & BI & E & _ & _ & _ & _ & S1 & S2 & S3 & S4).
  destruct (d_error_decm h c2 o2 o2' ltac:(rewrite Hh; exact Hn) M2 H2 ltac:(rewrite Hh; exact D2)) as (v2 & s2 & z & v & co & ci & f1 & f2 & f3 & f4 & _ & Z & V & CO & CI & F & _ & _ & _ & _ & T1 & T2 & T3 & T4).
  rewrite Hh in T1, T2, T3, T4.
  exists x, y, bo, bi, (Rmax (Rmax e1 e2) (Rmax e3 e4)), z, v, co, ci, (Rmax (Rmax f1 f2) (Rmax f3 f4)). do 10 (split; [assumption|]).
  intros C1 C2 C3 C4 C5 C6 C7 C8.
  eapply Rle_trans; [apply (close_wdir _ (at_list (dn_out g)) (at_list (dn_in g)) (dn_sout g) (dn_sin g) x y bo bi z v co ci e1 e2 e3 e4 (f1 + d) (f2 + d) (f3 + d) (f4 + d)); try assumption;
    [apply (decm_tame _ x y); apply D1; assumption|apply (decm_tame _ z v); apply D2; assumption|apply S1|apply S2|apply S3|apply S4|
     apply (shift _ _ _ _ _ _ W1), T1|apply (shift _ _ _ _ _ _ W2), T2|apply (shift _ _ _ _ _ _ W3), T3|apply (shift _ _ _ _ _ _ W4), T4]|].
  pose proof (Rmax_l (Rmax e1 e2) (Rmax e3 e4)). pose proof (Rmax_r (Rmax e1 e2) (Rmax e3 e4)).
  pose proof (Rmax_l e1 e2). pose proof (Rmax_r e1 e2). pose proof (Rmax_l e3 e4). pose proof (Rmax_r e3 e4).
  pose proof (Rmax_l (Rmax f1 f2) (Rmax f3 f4)). pose proof (Rmax_r (Rmax f1 f2) (Rmax f3 f4)).
  pose proof (Rmax_l f1 f2). pose proof (Rmax_r f1 f2). pose proof (Rmax_l f3 f4). pose proof (Rmax_r f3 f4).
  rewrite !Rmult_plus_distr_l. repeat apply Rplus_le_compat; apply Rmult_le_compat_r; try apply log_gap_nonneg; lra.
Qed.
Lemma data_crema_dir g h c1 c2 o1 o2 o1' o2' a d : (0 < dn_n g)%nat -> dn_n h = dn_n g -> within (dn_n g) (dn_sout g) (dn_sout h) d -> within (dn_n g) (dn_sin g) (dn_sin h) d ->
  In (c_model c1) ["crema"; "crema-sparse"]%string -> In (c_model c2) ["crema"; "crema-sparse"]%string ->
  c_adjacency c1 = AdjMatrix a -> c_adjacency c2 = AdjMatrix a ->
  d_solve_tool g c1 o1 = (o1', None) -> d_solve_tool h c2 o2 = (o2', None) ->
  (forall bo bi, ds_bo o1' = Some bo -> ds_bi o1' = Some bi -> positive_rates_dir (dn_n g) a bo bi) ->
  (forall bo bi, ds_bo o2' = Some bo -> ds_bi o2' = Some bi -> positive_rates_dir (dn_n g) a bo bi) ->
  exists bo1 bi1 e1 bo2 bi2 e2, ds_bo o1' = Some bo1 /\ ds_bi o1' = Some bi1 /\ ds_err o1' = Some e1 /\ ds_bo o2' = Some bo2 /\ ds_bi o2' = Some bi2 /\ ds_err o2' = Some e2 /\
    rates_apart_dir (dn_n g) a bo1 bi1 bo2 bi2 <= (e1 + e2 + d) * (one_norm (dn_n g) bo1 bo2 + one_norm (dn_n g) bi1 bi2).
Proof.
  intros Hn Hh W1 W2 M1 M2 A1 A2 H1 H2 P1 P2. destruct (d_error_crema_matrix g c1 o1 o1' a Hn M1 A1 H1 P1) as (v1 & b1 & b2 & e1 & e2 & _ & B1 & B2 & E1 & _ & S1 & S2).
  destruct (d_error_crema_matrix h c2 o2 o2' a ltac:(rewrite Hh; exact Hn) M2 A2 H2 ltac:(rewrite Hh; exact P2)) as (v2 & c3 & c4 & f1 & f2 & _ & B3 & B4 & E2 & _ & T1 & T2). rewrite Hh in T1, T2.
  exists b1, b2, (Rmax e1 e2), c3, c4, (Rmax f1 f2). do 6 (split; [assumption|]).
  eapply Rle_trans; [apply (close_crema_dir _ a (dn_sout g) (dn_sin g) b1 b2 c3 c4 e1 e2 (f1 + d) (f2 + d)); [apply (P1 _ _ B1 B2)|apply (P2 _ _ B3 B4)|apply S1|apply S2|apply (shift _ _ _ _ _ _ W1), T1|apply (shift _ _ _ _ _ _ W2), T2]|].
  pose proof (Rmax_l e1 e2). pose proof (Rmax_r e1 e2). pose proof (Rmax_l f1 f2). pose proof (Rmax_r f1 f2).
  rewrite Rmult_plus_distr_l. apply Rplus_le_compat; apply Rmult_le_compat_r; try apply one_norm_nonneg; lra.
Qed.
