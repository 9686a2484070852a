(** The parameters of the enhanced models and the order of the constraints. *)
From Coq Require Import Reals List Arith Bool String Lia Lra.
From Coquelicot Require Import Rcomplements.
From Verif Require Import Base SpecGraph SpecWeighted SpecSolve SpecNear SpecRank ModelSolve ProofsGraph ProofsSolveU ProofsSolveD ProofsRank ProofsRankD ProofsNear ProofsNearW ProofsNearTool ProofsNearE.
Import ListNotations.
Local Open Scope R_scope.

(** * Pairs *)
Definition grows (F : R -> R -> R) : Prop := forall t b u c, 0 <= t -> t <= u -> 0 <= b -> b <= c -> c < 1 -> F t b <= F u c.
Lemma link_grows : grows link_mean.
Proof.
  intros t b u c Ht Htu Hb Hbc Hc. unfold link_mean. assert (A : 0 <= t * b) by (apply Rmult_le_pos; assumption).
  assert (B : t * b <= u * c) by (apply Rmult_le_compat; assumption).
  apply Rle_div_l; [lra|]. replace (u * c / (1 - c + u * c) * (1 - b + t * b)) with (u * c * (1 - b + t * b) / (1 - c + u * c)) by (field; lra).
  apply (proj1 (Rle_div_r (t * b) (u * c * (1 - b + t * b)) (1 - c + u * c) ltac:(lra))). assert (t * b * (1 - c) <= u * c * (1 - b)) by (apply Rmult_le_compat; lra). lra.
Qed.
Lemma link_unit t b : 0 <= t -> 0 <= b < 1 -> 0 <= link_mean t b <= 1.
Proof.
  intros Ht Hb. unfold link_mean. assert (A : 0 <= t * b) by (apply Rmult_le_pos; lra). split; [apply Rdiv_le_0_compat; lra|]. apply Rle_div_l; lra.
Qed.
Lemma weight_grows : grows weight_mean.
Proof.
  intros t b u c Ht Htu Hb Hbc Hc. assert (E : forall z y, 0 <= z -> 0 <= y < 1 -> weight_mean z y = link_mean z y * / (1 - y)).
  { intros z y Hz Hy. unfold weight_mean, link_mean. assert (0 <= z * y) by (apply Rmult_le_pos; lra). field. split; lra. }
  rewrite !E by lra. apply Rmult_le_compat; [apply link_unit; lra|left; apply Rinv_0_lt_compat; lra|apply link_grows; lra|apply Rinv_le_contravar; lra].
Qed.

(** * Nodes *)
Lemma und_grows F n x y i j : grows F -> none_negative n x -> none_negative n y -> tame n y y -> (i < n)%nat -> (j < n)%nat -> x j <= x i -> y j <= y i ->
  rsum n (fun l => if Nat.eqb j l then 0 else F (x j * x l) (y j * y l)) <= rsum n (fun l => if Nat.eqb i l then 0 else F (x i * x l) (y i * y l)).
Proof.
  intros G Hx Hy T Hi Hj Lx Ly. destruct (Nat.eq_dec i j) as [<-|Hij]; [lra|].
  match goal with |- rsum n ?f <= rsum n ?h => rewrite (rsum_pick n i j f), (rsum_pick n i j h) by assumption end. cbv beta. rewrite !Nat.eqb_refl. destruct (Nat.eqb_spec i j); [congruence|]. destruct (Nat.eqb_spec j i); [congruence|].
  rewrite (Rmult_comm (x j) (x i)), (Rmult_comm (y j) (y i)). apply Rplus_le_compat; [lra|]. apply rsum_le. intros l Hl.
  destruct (Nat.eqb_spec l i); [lra|]. destruct (Nat.eqb_spec l j); [lra|]. destruct (Nat.eqb_spec i l); [congruence|]. destruct (Nat.eqb_spec j l); [congruence|].
  pose proof (Hx j Hj). pose proof (Hx l Hl). pose proof (Hy j Hj). pose proof (Hy l Hl).
  apply G; [apply Rmult_le_pos; assumption|apply Rmult_le_compat_r; assumption|apply Rmult_le_pos; assumption|apply Rmult_le_compat_r; assumption|apply T; assumption].
Qed.
Lemma u_rank_ecm g c o o' : (0 < un_n g)%nat -> In (c_model c) ["ecm"; "ecm_exp"]%string -> u_solve_tool g c o = (o', None) ->
  exists x y err, us_x o' = Some x /\ us_y o' = Some y /\ us_err o' = Some err /\ (c_model c = "ecm_exp"%string -> none_negative (un_n g) x /\ none_negative (un_n g) y) /\
    (none_negative (un_n g) x -> none_negative (un_n g) y -> tame (un_n g) y y -> forall i j, (i < un_n g)%nat -> (j < un_n g)%nat ->
       (at_list (un_dseq g) i + 2 * err < at_list (un_dseq g) j \/ un_str g i + 2 * err < un_str g j) -> x i < x j \/ y i < y j).
Proof.
  intros Hn Hm H. destruct (u_error_ecm g c o o' Hn Hm H) as (v & x & y & ek & es & _ & X & Y & E & VX & VY & [S1 _] & [S2 _]).
  pose proof (Rmax_l es ek). pose proof (Rmax_r es ek). exists x, y, (Rmax es ek). do 3 (split; [assumption|]). split.
  - intros Hc. rewrite Hc in VX, VY. cbn in VX, VY. split; intros i _; [rewrite VX|rewrite VY]; left; apply exp_pos.
  - intros Hx Hy T i j Hi Hj Q. destruct (Rlt_le_dec (x i) (x j)) as [L|L]; [left; exact L|]. destruct (Rlt_le_dec (y i) (y j)) as [M|M]; [right; exact M|]. exfalso.
    pose proof (und_grows link_mean (un_n g) x y i j link_grows Hx Hy T Hi Hj L M) as A. pose proof (und_grows weight_mean (un_n g) x y i j weight_grows Hx Hy T Hi Hj L M) as B.
    pose proof (dev_gap _ _ _ _ _ (S1 i Hi) (S1 j Hj)) as C. pose proof (dev_gap _ _ _ _ _ (S2 i Hi) (S2 j Hj)) as D. cbv beta in C, D. unfold mean_deg_und in C. unfold mean_str_und in D. lra.
Qed.
Lemma out_grows n x y bo bi i j : none_negative n x -> none_negative n y -> none_negative n bo -> none_negative n bi -> tame n bo bi -> (i < n)%nat -> (j < n)%nat -> x j <= x i -> bo j <= bo i ->
  mean_out_deg n x y bo bi j <= mean_out_deg n x y bo bi i + 1.
Proof.
  intros Hx Hy Hbo Hbi T Hi Hj Lx Lb. destruct (Nat.eq_dec i j) as [<-|Hij]; [lra|]. unfold mean_out_deg.
  assert (P : forall f : nat -> R, none_negative n f -> forall q, (q < n)%nat -> 0 <= f q) by (intros f Hf; exact Hf).
  match goal with |- rsum n ?f <= rsum n ?h + 1 => rewrite (rsum_pick n i j f), (rsum_pick n i j h) by assumption end. cbv beta. rewrite !Nat.eqb_refl. destruct (Nat.eqb_spec i j); [congruence|]. destruct (Nat.eqb_spec j i); [congruence|].
  assert (U : forall u w, (u < n)%nat -> (w < n)%nat -> u <> w -> 0 <= link_mean (x u * y w) (bo u * bi w) <= 1).
  { intros u w Hu Hw Huw. apply link_unit; [apply Rmult_le_pos; auto|split; [apply Rmult_le_pos; auto|apply T; assumption]]. }
  pose proof (U i j Hi Hj Hij). pose proof (U j i Hj Hi (not_eq_sym Hij)).
  match goal with |- _ + ?A <= _ + ?B + 1 => cut (A <= B); [lra|] end. apply rsum_le. intros l Hl.
  destruct (Nat.eqb_spec l i); [lra|]. destruct (Nat.eqb_spec l j); [lra|]. destruct (Nat.eqb_spec i l); [congruence|]. destruct (Nat.eqb_spec j l); [congruence|].
  apply link_grows; [apply Rmult_le_pos; auto|apply Rmult_le_compat_r; auto|apply Rmult_le_pos; auto|apply Rmult_le_compat_r; auto|apply T; assumption].
Qed.
Lemma in_deg_as_out n x y bo bi j : mean_in_deg n x y bo bi j = mean_out_deg n y x bi bo j.
Proof. unfold mean_in_deg, mean_out_deg. apply rsum_ext. intros i _. rewrite (Rmult_comm (x i)), (Rmult_comm (bo i)). reflexivity. Qed.
Lemma d_rank_decm g c o o' : (0 < dn_n g)%nat -> In (c_model c) ["decm"; "decm_exp"]%string -> d_solve_tool g c o = (o', None) ->
  (forall x y bo bi, ds_x o' = Some x -> ds_y o' = Some y -> ds_bo o' = Some bo -> ds_bi o' = Some bi -> decm_dom (dn_n g) (join4 (dn_n g) x y bo bi)) ->
  exists x y bo bi err, ds_x o' = Some x /\ ds_y o' = Some y /\ ds_bo o' = Some bo /\ ds_bi o' = Some bi /\ ds_err o' = Some err /\
    forall i j, (i < dn_n g)%nat -> (j < dn_n g)%nat ->
      (at_list (dn_out g) i + 1 + 2 * err < at_list (dn_out g) j -> x i < x j \/ bo i < bo j) /\
      (at_list (dn_in g) i + 1 + 2 * err < at_list (dn_in g) j -> y i < y j \/ bi i < bi j).
Proof.
  intros Hn Hm H HD. destruct (d_error_decm g c o o' Hn Hm H HD) as (v & s & x & y & bo & bi & e1 & e2 & e3 & e4 & _ & X & Y & BO & BI & E & _ & _ & _ & _ & [S1 _] & [S2 _] & _ & _).
  exists x, y, bo, bi, (Rmax (Rmax e1 e2) (Rmax e3 e4)). do 5 (split; [assumption|]). specialize (HD _ _ _ _ X Y BO BI).
  pose proof (decm_tame _ _ _ _ _ HD) as T.
  assert (P : none_negative (dn_n g) x /\ none_negative (dn_n g) y /\ none_negative (dn_n g) bo /\ none_negative (dn_n g) bi).
  { destruct HD as [D _]. repeat split; intros i Hi; destruct (join4_blocks (dn_n g) x y bo bi i Hi) as (I1 & I2 & I3 & I4); [rewrite <- I1|rewrite <- I2|rewrite <- I3|rewrite <- I4]; apply D; lia. }
  destruct P as (P1 & P2 & P3 & P4). pose proof (Rmax_l (Rmax e1 e2) (Rmax e3 e4)). pose proof (Rmax_l e1 e2). pose proof (Rmax_r e1 e2).
  intros i j Hi Hj. split; intros Q.
  - destruct (Rlt_le_dec (x i) (x j)) as [L|L]; [left; exact L|]. destruct (Rlt_le_dec (bo i) (bo j)) as [M|M]; [right; exact M|]. exfalso.
    pose proof (out_grows (dn_n g) x y bo bi i j P1 P2 P3 P4 T Hi Hj L M). pose proof (dev_gap _ _ _ _ _ (S1 i Hi) (S1 j Hj)) as C. cbv beta in C. lra.
  - destruct (Rlt_le_dec (y i) (y j)) as [L|L]; [left; exact L|]. destruct (Rlt_le_dec (bi i) (bi j)) as [M|M]; [right; exact M|]. exfalso.
    assert (T' : tame (dn_n g) bi bo) by (intros u w Hu Hw Huw; rewrite Rmult_comm; apply T; auto).
    pose proof (out_grows (dn_n g) y x bi bo i j P2 P1 P4 P3 T' Hi Hj L M). pose proof (dev_gap _ _ _ _ _ (S2 i Hi) (S2 j Hj)) as C. cbv beta in C. rewrite !in_deg_as_out in C. lra.
Qed.
