(** Two approximate solutions of a weighted model are close to each other. *)
From Coq Require Import Reals List Arith Lia Lra String.
From Coquelicot Require Import Coquelicot.
From Verif Require Import Base SpecGraph SpecWeighted SpecEnsemble SpecSolve SpecNear ModelSolve ProofsGraph ProofsPairW ProofsEnsemble ProofsResidual ProofsSolveU ProofsSolveD ProofsNear ProofsNearW ProofsNearC ProofsNearTool.
Import ListNotations.
Local Open Scope R_scope.

(** * Pairs *)
Lemma ln_quot_le b c : 0 < b -> 0 < c -> c * (ln b - ln c) <= b - c.
Proof.
  intros Hb Hc. pose proof (ln_le_minus1 (b / c) ltac:(apply Rdiv_lt_0_compat; assumption)) as L. unfold Rdiv in L at 1.
  rewrite ln_mult in L by (try apply Rinv_0_lt_compat; assumption). rewrite ln_Rinv in L by assumption.
  replace (b - c) with (c * (b / c - 1)) by (field; lra). apply Rmult_le_compat_l; lra.
Qed.
(** The relative entropy of two geometric laws is not negative. *)
Lemma geometric_gap b c : 0 < b < 1 -> 0 < c < 1 -> 0 <= c / (1 - c) * (ln c - ln b) + (ln (1 - c) - ln (1 - b)).
Proof.
  intros Hb Hc. pose proof (ln_quot_le b c ltac:(lra) ltac:(lra)) as A. pose proof (ln_quot_le (1 - b) (1 - c) ltac:(lra) ltac:(lra)) as B.
  replace (c / (1 - c) * (ln c - ln b) + (ln (1 - c) - ln (1 - b))) with ((- (c * (ln b - ln c)) + - ((1 - c) * (ln (1 - b) - ln (1 - c)))) / (1 - c)) by (field; lra).
  apply Rdiv_le_0_compat; lra.
Qed.
Lemma link_odds t b : 0 < t -> 0 < b < 1 -> let T := t * b / (1 - b) in
  0 < T /\ link_mean t b = T / (1 + T) /\ weight_mean t b = T / (1 + T) / (1 - b) /\ ln T = ln t + ln b - ln (1 - b).
Proof.
  intros Ht Hb T. assert (P : 0 < t * b) by (apply Rmult_lt_0_compat; lra). assert (PT : 0 < T) by (apply Rdiv_lt_0_compat; lra).
  split; [exact PT|]. unfold link_mean, weight_mean. split; [unfold T; field; split; lra|]. split; [unfold T; field; split; lra|].
  unfold T, Rdiv. rewrite ln_mult by (try apply Rinv_0_lt_compat; lra). rewrite ln_Rinv, ln_mult by lra. ring.
Qed.
Lemma enh_close t b u c : 0 < t -> 0 < b < 1 -> 0 < u -> 0 < c < 1 ->
  4 * (link_mean t b - link_mean u c) ^ 2 <= (link_mean u c - link_mean t b) * (ln u - ln t) + (weight_mean u c - weight_mean t b) * (ln c - ln b).
Proof.
  intros Ht Hb Hu Hc. destruct (link_odds t b Ht Hb) as (PT & -> & -> & LT). destruct (link_odds u c Hu Hc) as (PU & -> & -> & LU).
  set (T := t * b / (1 - b)) in *. set (U := u * c / (1 - c)) in *. eapply Rle_trans; [apply (odds_close T U PT PU)|]. rewrite LT, LU.
  assert (QT : 0 <= T / (1 + T)) by (apply Rdiv_le_0_compat; lra). assert (QU : 0 <= U / (1 + U)) by (apply Rdiv_le_0_compat; lra).
  set (p := T / (1 + T)) in *. set (q := U / (1 + U)) in *. clearbody p q.
  pose proof (Rmult_le_pos _ _ QU (geometric_gap b c Hb Hc)) as A. pose proof (Rmult_le_pos _ _ QT (geometric_gap c b Hc Hb)) as B.
  replace (q / (1 - c) - p / (1 - b)) with (q * (1 + c / (1 - c)) - p * (1 + b / (1 - b))) by (field; lra). lra.
Qed.
Lemma pair_close_enh x y z v bo bi co ci :
  0 <= x -> 0 <= y -> 0 <= bo -> 0 <= bi -> 0 <= z -> 0 <= v -> 0 <= co -> 0 <= ci -> bo * bi < 1 -> co * ci < 1 ->
  (0 < x <-> 0 < z) -> (0 < y <-> 0 < v) -> (0 < bo <-> 0 < co) -> (0 < bi <-> 0 < ci) ->
  4 * (link_mean (x * y) (bo * bi) - link_mean (z * v) (co * ci)) ^ 2 <=
  (link_mean (z * v) (co * ci) - link_mean (x * y) (bo * bi)) * (lgap x z + lgap y v) +
  (weight_mean (z * v) (co * ci) - weight_mean (x * y) (bo * bi)) * (lgap bo co + lgap bi ci).
Proof.
  intros Hx Hy Hbo Hbi Hz Hv Hco Hci B C Sx Sy So Si.
  assert (Z : x * y * (bo * bi) = 0 -> z * v * (co * ci) = 0 -> 4 * (link_mean (x * y) (bo * bi) - link_mean (z * v) (co * ci)) ^ 2 <=
    (link_mean (z * v) (co * ci) - link_mean (x * y) (bo * bi)) * (lgap x z + lgap y v) + (weight_mean (z * v) (co * ci) - weight_mean (x * y) (bo * bi)) * (lgap bo co + lgap bi ci)).
  { intros E F. unfold link_mean, weight_mean. rewrite E, F. unfold Rdiv. rewrite !Rmult_0_l. lra. }
  assert (N : forall a a', 0 <= a' -> (0 < a <-> 0 < a') -> 0 = a -> a' = 0).
  { intros a a' P S E. destruct (Rle_lt_or_eq_dec _ _ P) as [L|L]; [|symmetry; exact L]. assert (0 < a) by tauto. lra. }
  destruct (Rle_lt_or_eq_dec _ _ Hx) as [Px|Ex]; [|apply Z; [rewrite <- Ex; ring|rewrite (N x z Hz Sx Ex); ring]].
  destruct (Rle_lt_or_eq_dec _ _ Hy) as [Py|Ey]; [|apply Z; [rewrite <- Ey; ring|rewrite (N y v Hv Sy Ey); ring]].
  destruct (Rle_lt_or_eq_dec _ _ Hbo) as [Po|Eo]; [|apply Z; [rewrite <- Eo; ring|rewrite (N bo co Hco So Eo); ring]].
  destruct (Rle_lt_or_eq_dec _ _ Hbi) as [Pi|Ei]; [|apply Z; [rewrite <- Ei; ring|rewrite (N bi ci Hci Si Ei); ring]].
  apply Sx in Px as Pz. apply Sy in Py as Pv. apply So in Po as Pco. apply Si in Pi as Pci. rewrite !lgap_mult by assumption.
  apply enh_close; try (apply Rmult_lt_0_compat; assumption); (split; [apply Rmult_lt_0_compat; assumption|assumption]).
Qed.

(** * Networks *)
Lemma close_wund n k s x y z v ek es fk fs : comparable n x z -> comparable n z x -> comparable n y v -> comparable n v y -> tame n y y -> tame n v v ->
  (forall i, (i < n)%nat -> Rabs (mean_deg_und n x y i - k i) <= ek) -> (forall i, (i < n)%nat -> Rabs (mean_str_und n x y i - s i) <= es) ->
  (forall i, (i < n)%nat -> Rabs (mean_deg_und n z v i - k i) <= fk) -> (forall i, (i < n)%nat -> Rabs (mean_str_und n z v i - s i) <= fs) ->
  4 * apart_und n (fun i j => link_mean (x i * x j) (y i * y j)) (fun i j => link_mean (z i * z j) (v i * v j)) <= (ek + fk) * log_gap n x z + (es + fs) * log_gap n y v.
Proof.
  intros H1 H2 H3 H4 TY TV E1 E2 F1 F2. set (l := fun i => lgap (x i) (z i)). set (m := fun i => lgap (y i) (v i)).
  set (p := fun i j => link_mean (z i * z j) (v i * v j) - link_mean (x i * x j) (y i * y j)). set (w := fun i j => weight_mean (z i * z j) (v i * v j) - weight_mean (x i * x j) (y i * y j)).
  apply (Rle_trans _ (usum n (fun i j => p i j * (l i + l j) + w i j * (m i + m j)))).
  - unfold apart_und, usum. rewrite <- rsum_scal_l. apply rsum_le. intros j Hj. rewrite <- rsum_scal_l. apply rsum_le. intros i Hi.
    destruct (H1 i ltac:(lia)) as (A1 & A2 & A3), (H1 j Hj) as (B1 & B2 & B3), (H2 i ltac:(lia)) as (_ & _ & C3), (H2 j Hj) as (_ & _ & D3).
    destruct (H3 i ltac:(lia)) as (A4 & A5 & A6), (H3 j Hj) as (B4 & B5 & B6), (H4 i ltac:(lia)) as (_ & _ & C6), (H4 j Hj) as (_ & _ & D6).
    unfold p, w, l, m. apply pair_close_enh; try assumption; try (apply TY; lia); try (apply TV; lia); split; assumption.
  - rewrite usum_plus. rewrite !usum_sym_group.
    2: { intros i j _ _. unfold w. rewrite (Rmult_comm (x i)), (Rmult_comm (y i)), (Rmult_comm (z i)), (Rmult_comm (v i)). reflexivity. }
    2: { intros i j _ _. unfold p. rewrite (Rmult_comm (x i)), (Rmult_comm (y i)), (Rmult_comm (z i)), (Rmult_comm (v i)). reflexivity. }
    rewrite !log_gap_abs. apply Rplus_le_compat; apply weigh; intros i Hi.
    + eapply Rle_trans; [right|apply (two_errors _ _ _ _ _ (E1 i Hi) (F1 i Hi))]. f_equal. unfold mean_deg_und. rewrite <- rsum_minus. apply rsum_ext. intros j _. unfold p. destruct (Nat.eqb i j); ring.
    + eapply Rle_trans; [right|apply (two_errors _ _ _ _ _ (E2 i Hi) (F2 i Hi))]. f_equal. unfold mean_str_und. rewrite <- rsum_minus. apply rsum_ext. intros j _. unfold w. destruct (Nat.eqb i j); ring.
Qed.
Lemma dir_group n (f : nat -> nat -> R) (a b : nat -> R) : rsum n (fun i => rsum n (fun j => if Nat.eqb i j then 0 else f i j * (a i + b j))) =
  rsum n (fun i => rsum n (fun j => if Nat.eqb i j then 0 else f i j) * a i) + rsum n (fun j => rsum n (fun i => if Nat.eqb j i then 0 else f i j) * b j).
Proof.
  rewrite (rsum_ext n (fun j => rsum n (fun i => if Nat.eqb j i then 0 else f i j) * b j) (fun j => rsum n (fun i => if Nat.eqb i j then 0 else f i j * b j))).
  2: { intros j _. rewrite <- rsum_scal_r. apply rsum_ext. intros i _. rewrite Nat.eqb_sym. destruct (Nat.eqb i j); ring. }
  rewrite <- (rsum_swap n n (fun i j => if Nat.eqb i j then 0 else f i j * b j)). rewrite <- rsum_plus. apply rsum_ext. intros i _.
  rewrite <- rsum_scal_r, <- rsum_plus. apply rsum_ext. intros j _. destruct (Nat.eqb i j); ring.
Qed.
Lemma close_wdir n ko ki so si x y bo bi z v co ci e1 e2 e3 e4 f1 f2 f3 f4 :
  comparable n x z -> comparable n z x -> comparable n y v -> comparable n v y -> comparable n bo co -> comparable n co bo -> comparable n bi ci -> comparable n ci bi ->
  tame n bo bi -> tame n co ci ->
  (forall i, (i < n)%nat -> Rabs (mean_out_deg n x y bo bi i - ko i) <= e1) -> (forall i, (i < n)%nat -> Rabs (mean_in_deg n x y bo bi i - ki i) <= e2) ->
  (forall i, (i < n)%nat -> Rabs (mean_out_str n x y bo bi i - so i) <= e3) -> (forall i, (i < n)%nat -> Rabs (mean_in_str n x y bo bi i - si i) <= e4) ->
  (forall i, (i < n)%nat -> Rabs (mean_out_deg n z v co ci i - ko i) <= f1) -> (forall i, (i < n)%nat -> Rabs (mean_in_deg n z v co ci i - ki i) <= f2) ->
  (forall i, (i < n)%nat -> Rabs (mean_out_str n z v co ci i - so i) <= f3) -> (forall i, (i < n)%nat -> Rabs (mean_in_str n z v co ci i - si i) <= f4) ->
  4 * apart_dir n (fun i j => link_mean (x i * y j) (bo i * bi j)) (fun i j => link_mean (z i * v j) (co i * ci j)) <=
  (e1 + f1) * log_gap n x z + (e2 + f2) * log_gap n y v + ((e3 + f3) * log_gap n bo co + (e4 + f4) * log_gap n bi ci).
Proof.
  intros H1 H1' H2 H2' H3 H3' H4 H4' TB TC E1 E2 E3 E4 F1 F2 F3 F4.
  set (l1 := fun i => lgap (x i) (z i)). set (l2 := fun i => lgap (y i) (v i)). set (l3 := fun i => lgap (bo i) (co i)). set (l4 := fun i => lgap (bi i) (ci i)).
  set (p := fun i j => link_mean (z i * v j) (co i * ci j) - link_mean (x i * y j) (bo i * bi j)). set (w := fun i j => weight_mean (z i * v j) (co i * ci j) - weight_mean (x i * y j) (bo i * bi j)).
  apply (Rle_trans _ (rsum n (fun i => rsum n (fun j => if Nat.eqb i j then 0 else p i j * (l1 i + l2 j))) + rsum n (fun i => rsum n (fun j => if Nat.eqb i j then 0 else w i j * (l3 i + l4 j))))).
  - unfold apart_dir. rewrite <- rsum_scal_l, <- rsum_plus. apply rsum_le. intros i Hi. rewrite <- rsum_scal_l, <- rsum_plus. apply rsum_le. intros j Hj. destruct (Nat.eqb_spec i j) as [_|Hij]; [lra|].
    destruct (H1 i Hi) as (A1 & A2 & A3), (H2 j Hj) as (B1 & B2 & B3), (H1' i Hi) as (_ & _ & C3), (H2' j Hj) as (_ & _ & D3).
    destruct (H3 i Hi) as (A4 & A5 & A6), (H4 j Hj) as (B4 & B5 & B6), (H3' i Hi) as (_ & _ & C6), (H4' j Hj) as (_ & _ & D6).
    unfold p, w, l1, l2, l3, l4. apply pair_close_enh; try assumption; try (apply TB; assumption); try (apply TC; assumption); split; assumption.
  - rewrite !dir_group, !log_gap_abs. repeat apply Rplus_le_compat; apply weigh; intros i Hi.
    + eapply Rle_trans; [right|apply (two_errors _ _ _ _ _ (E1 i Hi) (F1 i Hi))]. f_equal. unfold mean_out_deg. rewrite <- rsum_minus. apply rsum_ext. intros j _. unfold p. destruct (Nat.eqb i j); ring.
    + eapply Rle_trans; [right|apply (two_errors _ _ _ _ _ (E2 i Hi) (F2 i Hi))]. f_equal. unfold mean_in_deg. rewrite <- rsum_minus. apply rsum_ext. intros j _. unfold p. destruct (Nat.eqb i j); ring.
    + eapply Rle_trans; [right|apply (two_errors _ _ _ _ _ (E3 i Hi) (F3 i Hi))]. f_equal. unfold mean_out_str. rewrite <- rsum_minus. apply rsum_ext. intros j _. unfold w. destruct (Nat.eqb i j); ring.
    + eapply Rle_trans; [right|apply (two_errors _ _ _ _ _ (E4 i Hi) (F4 i Hi))]. f_equal. unfold mean_in_str. rewrite <- rsum_minus. apply rsum_ext. intros j _. unfold w. destruct (Nat.eqb i j); ring.
Qed.

(** * Calls *)
Lemma calls_close_ecm g c1 c2 o1 o2 o1' o2' : (0 < un_n g)%nat -> In (c_model c1) ["ecm"; "ecm_exp"]%string -> In (c_model c2) ["ecm"; "ecm_exp"]%string ->
  u_solve_tool g c1 o1 = (o1', None) -> u_solve_tool g c2 o2 = (o2', None) ->
  exists x1 y1 e1 x2 y2 e2, us_x o1' = Some x1 /\ us_y o1' = Some y1 /\ us_err o1' = Some e1 /\ us_x o2' = Some x2 /\ us_y o2' = Some y2 /\ us_err o2' = Some e2 /\
    (comparable (un_n g) x1 x2 -> comparable (un_n g) x2 x1 -> comparable (un_n g) y1 y2 -> comparable (un_n g) y2 y1 -> tame (un_n g) y1 y1 -> tame (un_n g) y2 y2 ->
     4 * apart_und (un_n g) (fun i j => link_mean (x1 i * x1 j) (y1 i * y1 j)) (fun i j => link_mean (x2 i * x2 j) (y2 i * y2 j)) <=
     (e1 + e2) * (log_gap (un_n g) x1 x2 + log_gap (un_n g) y1 y2)).
Proof.
  intros Hn M1 M2 H1 H2. destruct (u_error_ecm g c1 o1 o1' Hn M1 H1) as (v1 & x1 & y1 & ek & es & _ & X1 & Y1 & E1 & _ & _ & S1 & S2).
  destruct (u_error_ecm g c2 o2 o2' Hn M2 H2) as (v2 & x2 & y2 & fk & fs & _ & X2 & Y2 & E2 & _ & _ & T1 & T2).
  exists x1, y1, (Rmax es ek), x2, y2, (Rmax fs fk). do 6 (split; [assumption|]). intros C1 C2 C3 C4 Q1 Q2.
  eapply Rle_trans; [apply (close_wund _ (at_list (un_dseq g)) (un_str g) x1 y1 x2 y2 ek es fk fs); try assumption; [apply S1|apply S2|apply T1|apply T2]|].
  rewrite Rmult_plus_distr_l. apply Rplus_le_compat; apply Rmult_le_compat_r; try apply log_gap_nonneg; apply Rplus_le_compat; try apply Rmax_l; apply Rmax_r.
Qed.
Lemma decm_tame n x y bo bi : decm_dom n (join4 n x y bo bi) -> tame n bo bi.
Proof.
  intros [_ D2] i j Hi Hj Hij. specialize (D2 i j Hi Hj Hij). destruct (join4_blocks n x y bo bi i Hi) as (_ & _ & I3 & _), (join4_blocks n x y bo bi j Hj) as (_ & _ & _ & J4). rewrite I3, J4 in D2. exact D2.
Qed.
Lemma calls_close_decm g c1 c2 o1 o2 o1' o2' : (0 < dn_n g)%nat -> In (c_model c1) ["decm"; "decm_exp"]%string -> In (c_model c2) ["decm"; "decm_exp"]%string ->
  d_solve_tool g c1 o1 = (o1', None) -> d_solve_tool g c2 o2 = (o2', None) ->
  (forall x y bo bi, ds_x o1' = Some x -> ds_y o1' = Some y -> ds_bo o1' = Some bo -> ds_bi o1' = Some bi -> decm_dom (dn_n g) (join4 (dn_n g) x y bo bi)) ->
  (forall x y bo bi, ds_x o2' = Some x -> ds_y o2' = Some y -> ds_bo o2' = Some bo -> ds_bi o2' = Some bi -> decm_dom (dn_n g) (join4 (dn_n g) x y bo bi)) ->
  exists x y bo bi e z v co ci f, ds_x o1' = Some x /\ ds_y o1' = Some y /\ ds_bo o1' = Some bo /\ ds_bi o1' = Some bi /\ ds_err o1' = Some e /\
    ds_x o2' = Some z /\ ds_y o2' = Some v /\ ds_bo o2' = Some co /\ ds_bi o2' = Some ci /\ ds_err o2' = Some f /\
    (comparable (dn_n g) x z -> comparable (dn_n g) z x -> comparable (dn_n g) y v -> comparable (dn_n g) v y ->
     comparable (dn_n g) bo co -> comparable (dn_n g) co bo -> comparable (dn_n g) bi ci -> comparable (dn_n g) ci bi ->
     4 * apart_dir (dn_n g) (fun i j => link_mean (x i * y j) (bo i * bi j)) (fun i j => link_mean (z i * v j) (co i * ci j)) <=
     (e + f) * (log_gap (dn_n g) x z + log_gap (dn_n g) y v + (log_gap (dn_n g) bo co + log_gap (dn_n g) bi ci))).
Proof.
  intros Hn M1 M2 H1 H2 D1 D2.
  destruct (d_error_decm g c1 o1 o1' Hn M1 H1 D1) as (v1 & s1 & x & y & bo & bi & e1 & e2 & e3 & e4 & _ & X & Y & BO & BI & E & _ & _ & _ & _ & S1 & S2 & S3 & S4).
  destruct (d_error_decm g c2 o2 o2' Hn M2 H2 D2) as (v2 & s2 & z & v & co & ci & f1 & f2 & f3 & f4 & _ & Z & V & CO & CI & F & _ & _ & _ & _ & T1 & T2 & T3 & T4).
  exists x, y, bo, bi, (Rmax (Rmax e1 e2) (Rmax e3 e4)), z, v, co, ci, (Rmax (Rmax f1 f2) (Rmax f3 f4)). do 10 (split; [assumption|]).
  intros C1 C2 C3 C4 C5 C6 C7 C8.
  eapply Rle_trans; [apply (close_wdir _ (at_list (dn_out g)) (at_list (dn_in g)) (dn_sout g) (dn_sin g) x y bo bi z v co ci e1 e2 e3 e4 f1 f2 f3 f4); try assumption;
    [apply (decm_tame _ x y); apply D1; assumption|apply (decm_tame _ z v); apply D2; assumption|apply S1|apply S2|apply S3|apply S4|apply T1|apply T2|apply T3|apply T4]|].
  pose proof (Rmax_l (Rmax e1 e2) (Rmax e3 e4)). pose proof (Rmax_r (Rmax e1 e2) (Rmax e3 e4)).
  pose proof (Rmax_l e1 e2). pose proof (Rmax_r e1 e2). pose proof (Rmax_l e3 e4). pose proof (Rmax_r e3 e4).
  pose proof (Rmax_l (Rmax f1 f2) (Rmax f3 f4)). pose proof (Rmax_r (Rmax f1 f2) (Rmax f3 f4)).
  pose proof (Rmax_l f1 f2). pose proof (Rmax_r f1 f2). pose proof (Rmax_l f3 f4). pose proof (Rmax_r f3 f4).
  rewrite !Rmult_plus_distr_l. repeat apply Rplus_le_compat; apply Rmult_le_compat_r; try apply log_gap_nonneg; lra.
Qed.
