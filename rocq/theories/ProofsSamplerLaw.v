(** The samplers: probability of the links, of the weights and of the graphs. *)
From Coq Require Import Reals List Arith Bool ZArith Permutation Lia Lra.
From Coquelicot Require Import Coquelicot.
From Verif Require Import Base SpecGraph SpecEnsemble SpecWeighted ProofsEnsemble ModelDCM ModelLinsearch ModelSampler SpecSampler ProofsSampler ProofsMainSampler.
Import ListNotations.
Local Open Scope R_scope.

(** * Integrals of step functions *)
Lemma is_RInt_constR (a b v : R) : is_RInt (fun _ => v) a b ((b - a) * v).
Proof. exact (is_RInt_const (V:=R_NormedModule) a b v). Qed.
Lemma is_RInt_step (p c d : R) : 0 <= p <= 1 -> is_RInt (fun u => if Rlt_dec u p then c else d) 0 1 (p * c + (1 - p) * d).
Proof.
  intros HP. apply (is_RInt_Chasles (V:=R_NormedModule) _ 0 p 1 (p * c) ((1 - p) * d)).
  - apply (is_RInt_ext (fun _ => c)).
    + intros u [H1 H2]. rewrite Rmin_left in H1 by lra. rewrite Rmax_right in H2 by lra. destruct (Rlt_dec u p); [reflexivity|lra].
    + replace (p * c) with ((p - 0) * c) by ring. apply is_RInt_constR.
  - apply (is_RInt_ext (fun _ => d)).
    + intros u [H1 H2]. rewrite Rmin_left in H1 by lra. destruct (Rlt_dec u p); [lra|reflexivity].
    + apply is_RInt_constR.
Qed.
Lemma is_RInt_same (f g : R -> R) (l : R) : (forall u, 0 <= u < 1 -> f u = g u) -> is_RInt g 0 1 l -> is_RInt f 0 1 l.
Proof.
  intros H. apply is_RInt_ext. intros u [H1 H2]. rewrite Rmin_left in H1 by lra. rewrite Rmax_right in H2 by lra. symmetry. apply H. lra.
Qed.
Lemma prob1_ext (E F : R -> bool) p : (forall u, 0 <= u < 1 -> E u = F u) -> prob1 F p -> prob1 E p.
Proof. intros H. apply is_RInt_same. intros u Hu. rewrite H by exact Hu. reflexivity. Qed.
Lemma prob1_below p : 0 <= p <= 1 -> prob1 (fun u => if Rlt_dec u p then true else false) p.
Proof.
  intros HP. unfold prob1. pose proof (is_RInt_step p 1 0 HP) as H. replace (p * 1 + (1 - p) * 0) with p in H by ring. eapply is_RInt_same; [|exact H].
  intros u _. simpl. destruct (Rlt_dec u p); reflexivity.
Qed.
Lemma prob1_const (b : bool) : prob1 (fun _ => b) (if b then 1 else 0).
Proof.
  unfold prob1. pose proof (is_RInt_constR 0 1 (if b then 1 else 0)) as H. replace ((1 - 0) * (if b then 1 else 0)) with (if b then 1 else 0) in H by ring. exact H.
Qed.
Lemma prob1_between a b (E : R -> bool) : 0 <= a <= b -> b <= 1 -> (forall u, 0 <= u < 1 -> E u = true <-> a <= u < b) -> prob1 E (b - a).
Proof.
  intros HA HB HE. unfold prob1.
  assert (H : is_RInt (fun u => minus (if Rlt_dec u b then 1 else 0) (if Rlt_dec u a then 1 else 0)) 0 1 (minus (b * 1 + (1 - b) * 0) (a * 1 + (1 - a) * 0))).
  { apply (is_RInt_minus (V:=R_NormedModule)); apply is_RInt_step; lra. }
  replace (b - a) with (minus (b * 1 + (1 - b) * 0) (a * 1 + (1 - a) * 0)) by (unfold minus, plus, opp; simpl; ring).
  eapply is_RInt_same; [|exact H]. intros u Hu. unfold minus, plus, opp; simpl. specialize (HE u Hu).
  destruct (E u); destruct (Rlt_dec u b), (Rlt_dec u a); try lra.
  all: try (assert (a <= u < b) by (apply HE; reflexivity); lra).
  all: assert (false = true) by (apply HE; lra); discriminate.
Qed.
Lemma probn_ext m : forall (E F : list R -> bool) p, (forall us, List.length us = m -> E us = F us) -> probn m F p -> probn m E p.
Proof.
  induction m as [|m IH]; intros E F p H; cbn [probn].
  - rewrite (H [] eq_refl). auto.
  - intros (g & H1 & H2). exists g. split; [|exact H2]. intros u Hu. apply (IH _ (fun us => F (u :: us))); [|apply H1, Hu].
    intros us HU. apply H. simpl. f_equal. exact HU.
Qed.
Lemma probn_false m : probn m (fun _ => false) 0.
Proof. induction m as [|m IH]; cbn [probn]; [reflexivity|]. exists (fun _ => 0). split; [intros; exact IH|]. exact (prob1_const false). Qed.

(** * Independent draws give the ensemble *)
Lemma kept_cons p e pairs u us : kept p (e :: pairs) (u :: us) = if Rlt_dec u (p (fst e) (snd e)) then e :: kept p pairs us else kept p pairs us.
Proof. unfold kept. cbn [combine filter fst snd]. destruct (Rlt_dec _ _); reflexivity. Qed.
Lemma kept_in p pairs us e : In e (kept p pairs us) -> In e pairs.
Proof. unfold kept. intros H. apply in_map_iff in H. destruct H as ([a u] & <- & H). apply filter_In in H. destruct H as [H _]. apply in_combine_l in H. exact H. Qed.
Lemma same_links_cons e l l' : same_links (e :: l) (e :: l') = same_links l l'.
Proof. unfold same_links. destruct (list_eq_dec _ (e :: l) _) as [E|E], (list_eq_dec _ l l') as [F|F]; congruence. Qed.
Lemma same_links_no e l l' : ~ In e l' -> same_links (e :: l) l' = false.
Proof. intros H. unfold same_links. destruct (list_eq_dec _ _ _) as [E|E]; [|reflexivity]. exfalso. apply H. rewrite <- E. left. reflexivity. Qed.
Lemma same_links_no' e l l' : ~ In e l -> same_links l (e :: l') = false.
Proof. intros H. unfold same_links. destruct (list_eq_dec _ _ _) as [E|E]; [|reflexivity]. exfalso. apply H. rewrite E. left. reflexivity. Qed.
Lemma kept_law (p : nat -> nat -> R) (a : nat -> nat -> bool) pairs : NoDup pairs -> (forall i j, In (i, j) pairs -> 0 <= p i j <= 1) ->
  probn (List.length pairs) (fun us => same_links (kept p pairs us) (filter (fun e => a (fst e) (snd e)) pairs)) (weight pairs p a).
Proof.
  induction pairs as [|e pairs IH]; intros HN HP; [reflexivity|]. apply NoDup_cons_iff in HN. destruct HN as [HI HN].
  specialize (IH HN (fun i j H => HP i j (or_intror H))). cbn [List.length probn filter].
  set (q := p (fst e) (snd e)). set (W := weight pairs p a) in *.
  assert (HQ : 0 <= q <= 1) by (apply HP; left; destruct e; reflexivity).
  assert (HF : ~ In e (filter (fun e => a (fst e) (snd e)) pairs)) by (intros H; apply filter_In in H; apply HI, H).
  exists (fun u => if Rlt_dec u q then (if a (fst e) (snd e) then W else 0) else (if a (fst e) (snd e) then 0 else W)). split.
  - intros u Hu. destruct (Rlt_dec u q) as [H|H], (a (fst e) (snd e)).
    + eapply probn_ext; [|exact IH]. intros us _. rewrite kept_cons. fold q. destruct (Rlt_dec u q); [|contradiction]. apply same_links_cons.
    + eapply probn_ext; [|apply probn_false]. intros us _. rewrite kept_cons. fold q. destruct (Rlt_dec u q); [|contradiction]. apply same_links_no, HF.
    + eapply probn_ext; [|apply probn_false]. intros us _. rewrite kept_cons. fold q. destruct (Rlt_dec u q); [contradiction|]. apply same_links_no'. intros HK. apply HI. eapply kept_in, HK.
    + eapply probn_ext; [|exact IH]. intros us _. rewrite kept_cons. fold q. destruct (Rlt_dec u q); [contradiction|]. reflexivity.
  - change (weight (e :: pairs) p a) with ((if a (fst e) (snd e) then q else 1 - q) * W).
    replace ((if a (fst e) (snd e) then q else 1 - q) * W) with (q * (if a (fst e) (snd e) then W else 0) + (1 - q) * (if a (fst e) (snd e) then 0 else W)) by (destruct (a (fst e) (snd e)); ring).
    apply is_RInt_step, HQ.
Qed.
Lemma flat_map_ext_in {A B} (f g : A -> list B) l : (forall a, In a l -> f a = g a) -> flat_map f l = flat_map g l.
Proof. induction l as [|a l IH]; intros H; [reflexivity|]. simpl. rewrite H by (left; reflexivity). f_equal. apply IH. intros; apply H; right; assumption. Qed.
Lemma lt_pairs_eq n : lt_pairs n = pairs_if Nat.ltb (seq 0 n) (seq 0 n).
Proof.
  unfold lt_pairs, pairs_if. assert (H : forall i, (i < n)%nat -> map (fun j => (i, j)) (seq (S i) (n - S i)) = flat_map (fun b => if Nat.ltb i b then [(i, b)] else []) (seq 0 n)).
  { intros i Hi. replace n with (S i + (n - S i))%nat at 2 by lia. rewrite seq_app, flat_map_app. simpl plus.
    replace (flat_map _ (seq 0 (S i))) with (@nil (nat * nat)).
    - simpl app. assert (HS : forall b, In b (seq (S i) (n - S i)) -> (i < b)%nat) by (intros b Hb; apply in_seq in Hb; lia).
      revert HS. generalize (seq (S i) (n - S i)) as l. induction l as [|b l IH]; intros HS; [reflexivity|]. cbn [map flat_map]. rewrite IH by (intros; apply HS; right; assumption).
      destruct (Nat.ltb_spec i b) as [|H]; [reflexivity|]. specialize (HS b (or_introl eq_refl)). lia.
    - assert (HS : forall b, In b (seq 0 (S i)) -> (b <= i)%nat) by (intros b Hb; apply in_seq in Hb; lia).
      revert HS. generalize (seq 0 (S i)) as l. induction l as [|b l IH]; intros HS; [reflexivity|]. cbn [flat_map]. rewrite <- IH by (intros; apply HS; right; assumption).
      destruct (Nat.ltb_spec i b) as [H|]; [|reflexivity]. specialize (HS b (or_introl eq_refl)). lia. }
  apply flat_map_ext_in. intros i Hi. apply H. apply in_seq in Hi. lia.
Qed.
Lemma neq_pairs_eq n : neq_pairs n = pairs_if (fun i j => negb (Nat.eqb i j)) (seq 0 n) (seq 0 n).
Proof. unfold neq_pairs. rewrite pairs_if_filter. reflexivity. Qed.

(** * The sampled graph as a function of the draws *)
Lemma sample_value_kept G {A} (f : A * Z -> gstate G -> option (option (nat * nat) * gstate G)) (idx : A -> nat * nat) (p : nat -> nat -> R) items :
  numpy_contract G ->
  (forall a k, In a items -> (0 <= k < 1000000)%Z -> exists s', f (a, k) (seeded G k) =
     Some (if Rlt_dec (first_draw G k) (p (fst (idx a)) (snd (idx a))) then Some (idx a) else None, s')) ->
  forall s0, exists s1, sample_value G f items s0 = Some (kept p (map idx items) (draws_from G (List.length items) s0), s1).
Proof.
  intros HG. induction items as [|a items IH]; intros HF s0; [exists s0; reflexivity|].
  unfold sample_value in *. cbn [with_seeds List.length]. unfold draws_from. cbn [seeds_from map]. pose proof (proj1 (proj2 HG) s0) as HK. destruct (randint G s0) as [k s1]. cbn [fst snd] in *.
  destruct (IH (fun b q Hb => HF b q (or_intror Hb)) s1) as [s2 E]. destruct (with_seeds G items s1) as [tasks s3]. exists s3.
  destruct (HF a k (or_introl eq_refl) HK) as [s4 E4]. cbn [map collect snd]. rewrite E4. cbn [option_map fst]. destruct (collect _) as [e|]; [|discriminate].
  injection E as E E'. rewrite kept_cons. fold (draws_from G (List.length items) s1). cbn [drop_none flat_map]. change (flat_map _ e) with (drop_none e). rewrite E.
  destruct (Rlt_dec _ _); reflexivity.
Qed.
Lemma sample_graph_kept G {A} (f : A * Z -> gstate G -> option (option (nat * nat) * gstate G)) (idx : A -> nat * nat) (p : nat -> nat -> R) items cpu seed s c s0 :
  numpy_contract G -> reseeds G f -> valid_choice G cpu (List.length items) c -> maybe_seed G seed s = Some s0 ->
  (forall a k, In a items -> (0 <= k < 1000000)%Z -> exists s', f (a, k) (seeded G k) =
     Some (if Rlt_dec (first_draw G k) (p (fst (idx a)) (snd (idx a))) then Some (idx a) else None, s')) ->
  exists s1, sample_graph G f items cpu seed s c = Some (kept p (map idx items) (draws_from G (List.length items) s0), s1).
Proof.
  intros HG HR HC HM HF. rewrite (sample_graph_value G HG f items cpu seed s c s0 HR HC HM). apply sample_value_kept; assumption.
Qed.
Lemma in_combine_nth {A} (l : list A) (d : A) k i v : In (i, v) (combine (seq k (List.length l)) l) -> v = nth (i - k) l d /\ In v l /\ (k <= i)%nat.
Proof.
  revert k. induction l as [|a l IH]; intros k; [intros []|]. cbn [List.length seq combine]. intros [E|H].
  - injection E as <- <-. rewrite Nat.sub_diag. repeat split; [left; reflexivity|lia].
  - apply IH in H. destruct H as (H1 & H2 & H3). replace (i - k)%nat with (S (i - S k)) by lia. repeat split; [exact H1|right; exact H2|lia].
Qed.
Lemma in_pairs_if {A B} (cond : A -> B -> bool) l l' a b : In (a, b) (pairs_if cond l l') -> In a l /\ In b l'.
Proof.
  unfold pairs_if. intros H. apply in_flat_map in H. destruct H as (a' & Ha & H). apply in_flat_map in H. destruct H as (b' & Hb & H).
  destruct (cond a' b'); [|destruct H]. destruct H as [H|[]]. injection H as <- <-. auto.
Qed.
Lemma link_prob z : 0 <= z -> fdiv z (1 + z) = Fin (z / (1 + z)) /\ 0 <= z / (1 + z) <= 1.
Proof.
  intros HZ. split; [unfold fdiv; destruct (Req_EM_T (1 + z) 0); [lra|reflexivity]|]. split; [apply Rle_mult_inv_pos; lra|].
  apply Rmult_le_reg_r with (1 + z); [lra|]. unfold Rdiv. rewrite Rmult_assoc, Rinv_l by lra. lra.
Qed.
Lemma is_a_link_cm_draw G i j xi xj seed s s0 : maybe_seed G seed s = Some s0 -> 0 <= xi * xj ->
  is_a_link_cm G (i, xi) (j, xj) seed s =
  Some (if Rlt_dec (fst (random_sample G s0)) (xi * xj / (1 + xi * xj)) then Some (i, j) else None, snd (random_sample G s0)).
Proof.
  intros HM HX. unfold is_a_link_cm. rewrite HM. destruct (random_sample G s0) as [u s1]. cbn [fst snd]. cbv zeta. rewrite (proj1 (link_prob _ HX)). cbn [flt].
  destruct (Rlt_dec _ _); reflexivity.
Qed.
Lemma is_a_link_dcm_draw G i j xi xj seed s s0 : maybe_seed G seed s = Some s0 -> 0 <= xi * xj ->
  is_a_link_dcm G (i, xi) (j, xj) seed s =
  Some (if Rlt_dec (fst (random_sample G s0)) (xi * xj / (1 + xi * xj)) then Some (i, j) else None, snd (random_sample G s0)).
Proof.
  intros HM HX. unfold is_a_link_dcm. rewrite HM. destruct (random_sample G s0) as [u s1]. cbn [fst snd]. cbv zeta. rewrite (proj1 (link_prob _ HX)). cbn [flt].
  destruct (Rlt_dec _ _); reflexivity.
Qed.
Lemma cm_kept G x cpu seed s c s0 : numpy_contract G -> let n := List.length x in (forall v, In v x -> 0 <= v) ->
  valid_choice G cpu (n * (n - 1) / 2) c -> maybe_seed G seed s = Some s0 ->
  exists s1, ensemble_sampler_cm_graph G x cpu seed s c =
    Some (kept (p_ubcm (fun i => nth i x 0)) (lt_pairs n) (draws_from G (n * (n - 1) / 2) s0), s1).
Proof.
  intros HG n HX HC HM. pose proof (length_of_map _ _ _ (cm_items x)) as HL. rewrite lt_pairs_length in HL. fold n in HL. rewrite <- HL in HC. rewrite <- HL.
  rewrite lt_pairs_eq. unfold n. rewrite <- cm_items. apply sample_graph_kept; [exact HG|intros a q t _; reflexivity|exact HC|exact HM|].
  intros [[i xi] [j xj]] k HI Hk. apply in_pairs_if in HI. destruct HI as [H1 H2]. apply (in_combine_nth x 0) in H1. apply (in_combine_nth x 0) in H2.
  destruct H1 as (E1 & I1 & _), H2 as (E2 & I2 & _). rewrite Nat.sub_0_r in E1, E2. cbn [fst snd]. eexists. rewrite (is_a_link_cm_draw G i j xi xj (Some k) (seeded G k) (seeded G k) (np_seed_ok G k Hk)) by (apply Rmult_le_pos; auto).
  unfold first_draw, p_ubcm. rewrite <- E1, <- E2. reflexivity.
Qed.
Lemma dcm_kept G x y cpu seed s c s0 : numpy_contract G -> let n := List.length x in List.length y = n -> (forall v, In v x -> 0 <= v) -> (forall v, In v y -> 0 <= v) ->
  valid_choice G cpu (n * (n - 1)) c -> maybe_seed G seed s = Some s0 ->
  exists s1, ensemble_sampler_dcm_graph G x y cpu seed s c =
    Some (kept (p_dbcm (fun i => nth i x 0) (fun i => nth i y 0)) (neq_pairs n) (draws_from G (n * (n - 1)) s0), s1).
Proof.
  intros HG n HY HX HX' HC HM. pose proof (length_of_map _ _ _ (dcm_items x y HY)) as HL. rewrite neq_pairs_length in HL. fold n in HL. rewrite <- HL in HC. rewrite <- HL.
  rewrite neq_pairs_eq. unfold n. rewrite <- (dcm_items x y HY). apply sample_graph_kept; [exact HG|intros a q t _; reflexivity|exact HC|exact HM|].
  intros [[i xi] [j xj]] k HI Hk. apply in_pairs_if in HI. destruct HI as [H1 H2]. apply (in_combine_nth x 0) in H1. unfold zip_inds in H2. fold n in H2. rewrite <- HY in H2. apply (in_combine_nth y 0) in H2.
  destruct H1 as (E1 & I1 & _), H2 as (E2 & I2 & _). rewrite Nat.sub_0_r in E1, E2. cbn [fst snd]. eexists. rewrite (is_a_link_dcm_draw G i j xi xj (Some k) (seeded G k) (seeded G k) (np_seed_ok G k Hk)) by (apply Rmult_le_pos; auto).
  unfold first_draw, p_dbcm. rewrite <- E1, <- E2. reflexivity.
Qed.

(** * Law of the sampled graph under independent draws *)
Lemma weight_perm l l' p a : Permutation l l' -> weight l p a = weight l' p a.
Proof. intros H. unfold weight. apply lprod_perm, H. Qed.
Lemma lt_pairs_law (p : nat -> nat -> R) (a : nat -> nat -> bool) n : (forall i j, 0 <= p i j <= 1) ->
  probn (n * (n - 1) / 2) (fun us => same_links (kept p (lt_pairs n) us) (filter (fun e => a (fst e) (snd e)) (lt_pairs n))) (prob_undirected n p a).
Proof.
  intros HP. assert (HN : NoDup (lt_pairs n)) by (rewrite lt_pairs_eq; apply NoDup_pairs_if; apply seq_NoDup).
  rewrite <- weight_upairs. rewrite <- (weight_perm (lt_pairs n)).
  - replace (n * (n - 1) / 2)%nat with (List.length (lt_pairs n)) by (rewrite lt_pairs_eq; apply lt_pairs_length). apply kept_law; [exact HN|intros; apply HP].
  - apply NoDup_Permutation; [exact HN|apply NoDup_upairs|]. intros [i j]. rewrite lt_pairs_eq, pairs_if_in. unfold upairs. rewrite in_flat_map. split.
    + intros (H1 & H2 & H3). apply Nat.ltb_lt in H3. exists j. split; [exact H2|]. apply in_map_iff. exists i. split; [reflexivity|]. apply in_seq. lia.
    + intros (k & H1 & H2). apply in_map_iff in H2. destruct H2 as (q & E & H2). injection E as <- <-. apply in_seq in H1. apply in_seq in H2. repeat split; [apply in_seq; lia|apply in_seq; lia|apply Nat.ltb_lt; lia].
Qed.
Lemma neq_pairs_law (p : nat -> nat -> R) (a : nat -> nat -> bool) n : (forall i j, 0 <= p i j <= 1) ->
  probn (n * (n - 1)) (fun us => same_links (kept p (neq_pairs n) us) (filter (fun e => a (fst e) (snd e)) (neq_pairs n))) (prob_directed n p a).
Proof.
  intros HP. assert (HN : NoDup (neq_pairs n)) by (rewrite neq_pairs_eq; apply NoDup_pairs_if; apply seq_NoDup).
  rewrite <- weight_dpairs. rewrite <- (weight_perm (neq_pairs n)).
  - replace (n * (n - 1))%nat with (List.length (neq_pairs n)) by (rewrite neq_pairs_eq; apply neq_pairs_length). apply kept_law; [exact HN|intros; apply HP].
  - apply NoDup_Permutation; [exact HN|apply NoDup_dpairs|]. intros [i j]. rewrite neq_pairs_eq, pairs_if_in. unfold dpairs. rewrite in_flat_map. split.
    + intros (H1 & H2 & H3). exists i. split; [exact H1|]. apply in_map_iff. exists j. split; [reflexivity|]. apply filter_In. auto.
    + intros (k & H1 & H2). apply in_map_iff in H2. destruct H2 as (q & E & H2). injection E as <- <-. apply filter_In in H2. destruct H2. auto.
Qed.

(** * One pair *)
Lemma link_cm_prob G (draw : R -> gstate G) i j xi xj : (forall u, 0 <= u < 1 -> fst (random_sample G (draw u)) = u) -> 0 <= xi -> 0 <= xj ->
  prob1 (fun u => is_link (is_a_link_cm G (i, xi) (j, xj) None (draw u))) (xi * xj / (1 + xi * xj)).
Proof.
  intros HU HI HJ. assert (HZ : 0 <= xi * xj) by (apply Rmult_le_pos; assumption). eapply prob1_ext; [|apply prob1_below, (proj2 (link_prob _ HZ))]. intros u Hu.
  rewrite (is_a_link_cm_draw G i j xi xj None (draw u) (draw u) eq_refl HZ), HU by exact Hu. destruct (Rlt_dec _ _); reflexivity.
Qed.
Lemma link_dcm_prob G (draw : R -> gstate G) i j xi yj : (forall u, 0 <= u < 1 -> fst (random_sample G (draw u)) = u) -> 0 <= xi -> 0 <= yj ->
  prob1 (fun u => is_link (is_a_link_dcm G (i, xi) (j, yj) None (draw u))) (xi * yj / (1 + xi * yj)).
Proof.
  intros HU HI HJ. assert (HZ : 0 <= xi * yj) by (apply Rmult_le_pos; assumption). eapply prob1_ext; [|apply prob1_below, (proj2 (link_prob _ HZ))]. intros u Hu.
  rewrite (is_a_link_dcm_draw G i j xi yj None (draw u) (draw u) eq_refl HZ), HU by exact Hu. destruct (Rlt_dec _ _); reflexivity.
Qed.
Lemma enh_prob z y : 0 <= z -> 0 <= y < 1 -> fdiv (z * y) (1 - y + z * y) = Fin (z * y / (1 - y + z * y)) /\ 0 <= z * y / (1 - y + z * y) <= 1 /\ 0 < 1 - y + z * y.
Proof.
  intros HZ HY. assert (H : 0 <= z * y) by (apply Rmult_le_pos; lra). split; [|split]; [|split|lra].
  - unfold fdiv. destruct (Req_EM_T _ 0); [lra|reflexivity].
  - apply Rle_mult_inv_pos; lra.
  - apply Rmult_le_reg_r with (1 - y + z * y); [lra|]. unfold Rdiv. rewrite Rmult_assoc, Rinv_l by lra. lra.
Qed.
Lemma prob2_step (E : R -> R -> bool) p c d : 0 <= p <= 1 -> (forall u, 0 <= u < 1 -> prob1 (E u) (if Rlt_dec u p then c else d)) -> prob2 E (p * c + (1 - p) * d).
Proof. intros HP HE. exists (fun u => if Rlt_dec u p then c else d). split; [exact HE|apply is_RInt_step, HP]. Qed.
(** The step shared by the two integer-weighted models. *)
Lemma enh_law G (draw : R -> R -> gstate G) (f : gstate G -> option (option (nat * nat * nat) * gstate G)) (z y : R) (i j k : nat) :
  numpy_contract G -> uniform_then_geometric G draw -> 0 <= z -> 0 <= y < 1 ->
  (forall s, f s = let (u, s) := random_sample G s in
     if flt (Fin u) (fdiv (z * y) (1 - y + z * y)) then match geometric G (1 - y) s with None => None | Some (w, s) => Some (Some (i, j, w), s) end else Some (None, s)) ->
  prob2 (fun u v => has_weight k (f (draw u v))) (q_enh z y k).
Proof.
  intros HG HD HZ HY HF. destruct (enh_prob z y HZ HY) as (E1 & HP & HQ). set (p := z * y / (1 - y + z * y)) in *.
  destruct k as [|k].
  - replace (q_enh z y 0) with (p * 0 + (1 - p) * 1) by (unfold q_enh, p; simpl; field; lra). apply prob2_step; [exact HP|]. intros u Hu.
    destruct (HD u Hu (1 - y)) as (K & _ & HK); [lra|]. destruct (Rlt_dec u p) as [H|H].
    + eapply prob1_ext; [|exact (prob1_const false)]. intros v Hv. destruct (HK v Hv) as (s1 & s2 & R1 & R2). rewrite HF, R1, E1. cbn [flt]. destruct (Rlt_dec u p); [|contradiction].
      rewrite R2. simpl. apply geometric_ge1 in R2; [|exact HG]. destruct (Nat.eqb_spec (K v) 0); [lia|reflexivity].
    + eapply prob1_ext; [|exact (prob1_const true)]. intros v Hv. destruct (HK v Hv) as (s1 & s2 & R1 & R2). rewrite HF, R1, E1. cbn [flt]. destruct (Rlt_dec u p); [contradiction|reflexivity].
  - replace (q_enh z y (S k)) with (p * (y ^ k * (1 - y)) + (1 - p) * 0) by (unfold q_enh, p; simpl; field; lra). apply prob2_step; [exact HP|]. intros u Hu.
    destruct (HD u Hu (1 - y)) as (K & HL & HK); [lra|]. destruct (Rlt_dec u p) as [H|H].
    + specialize (HL (S k) ltac:(lia)). replace (1 - (1 - y)) with y in HL by ring. replace (S k - 1)%nat with k in HL by lia.
      eapply prob1_ext; [|exact HL]. intros v Hv. destruct (HK v Hv) as (s1 & s2 & R1 & R2). rewrite HF, R1, E1. cbn [flt]. destruct (Rlt_dec u p); [|contradiction].
      rewrite R2. reflexivity.
    + eapply prob1_ext; [|exact (prob1_const false)]. intros v Hv. destruct (HK v Hv) as (s1 & s2 & R1 & R2). rewrite HF, R1, E1. cbn [flt]. destruct (Rlt_dec u p); [contradiction|reflexivity].
Qed.
Lemma link_ecm_prob G (draw : R -> R -> gstate G) i j xi xj yi yj k : numpy_contract G -> uniform_then_geometric G draw ->
  0 <= xi * xj -> 0 <= yi * yj < 1 ->
  prob2 (fun u v => has_weight k (is_a_link_ecm G (i, xi, yi) (j, xj, yj) None (draw u v))) (q_enh (xi * xj) (yi * yj) k).
Proof. intros HG HD HX HY. apply (enh_law G draw (fun s => is_a_link_ecm G (i, xi, yi) (j, xj, yj) None s) _ _ i j); auto. Qed.
Lemma link_decm_prob G (draw : R -> R -> gstate G) i j ai aj bi bj k : numpy_contract G -> uniform_then_geometric G draw ->
  0 <= ai * aj -> 0 <= bi * bj < 1 ->
  prob2 (fun u v => has_weight k (is_a_link_decm G (i, ai, bi) (j, aj, bj) None (draw u v))) (q_enh (ai * aj) (bi * bj) k).
Proof. intros HG HD HX HY. apply (enh_law G draw (fun s => is_a_link_decm G (i, ai, bi) (j, aj, bj) None s) _ _ i j); auto. Qed.
Lemma link_det_prob G (draw : R -> gstate G) i j bi bj t : exponential_draws G draw -> 0 < bi + bj -> 0 <= t ->
  prob1 (fun v => heavier t (is_a_link_crema_det G (i, bi) (j, bj) None (draw v))) (exp (- (bi + bj) * t)).
Proof.
  intros HD HB HT. destruct (fdiv_rate _ HB) as [E1 HQ]. destruct (HD _ HQ) as (W & HW & HE). specialize (HW t HT).
  replace (- (bi + bj) * t) with (- t / (1 / (bi + bj))) by (field; lra). eapply prob1_ext; [|exact HW]. intros v Hv. destruct (HE v Hv) as (s2 & R1).
  unfold is_a_link_crema_det, maybe_seed. rewrite E1, R1. reflexivity.
Qed.
Lemma crema_law G (draw : R -> R -> gstate G) (f : gstate G -> option (option (nat * nat * fval) * gstate G)) (p b : R) (i j : nat) t :
  uniform_then_exponential G draw -> 0 <= p <= 1 -> 0 < b -> 0 <= t ->
  (forall s, f s = let (u, s) := random_sample G s in
     if flt (Fin u) (Fin p) then match exponential G (fdiv 1 b) s with None => None | Some (w, s) => Some (Some (i, j, w), s) end else Some (None, s)) ->
  prob2 (fun u v => heavier t (f (draw u v))) (p * exp (- b * t)) /\ prob2 (fun u v => is_link (f (draw u v))) p.
Proof.
  intros HD HP HB HT HF. destruct (fdiv_rate _ HB) as [E1 HQ]. split.
  - replace (p * exp (- b * t)) with (p * exp (- b * t) + (1 - p) * 0) by ring. apply prob2_step; [exact HP|]. intros u Hu. destruct (HD u Hu _ HQ) as (W & HW & HE). specialize (HW t HT).
    replace (- t / (1 / b)) with (- b * t) in HW by (field; lra). destruct (Rlt_dec u p) as [H|H].
    + eapply prob1_ext; [|exact HW]. intros v Hv. destruct (HE v Hv) as (s1 & s2 & R1 & R2). rewrite HF, R1. cbn [flt]. destruct (Rlt_dec u p); [|contradiction]. rewrite E1, R2. reflexivity.
    + eapply prob1_ext; [|exact (prob1_const false)]. intros v Hv. destruct (HE v Hv) as (s1 & s2 & R1 & R2). rewrite HF, R1. cbn [flt]. destruct (Rlt_dec u p); [contradiction|reflexivity].
  - pose proof (prob2_step (fun u v => is_link (f (draw u v))) p 1 0 HP) as HS. replace (p * 1 + (1 - p) * 0) with p in HS by ring. apply HS. intros u Hu.
    destruct (HD u Hu _ HQ) as (W & HW & HE). destruct (Rlt_dec u p) as [H|H].
    + eapply prob1_ext; [|exact (prob1_const true)]. intros v Hv. destruct (HE v Hv) as (s1 & s2 & R1 & R2). rewrite HF, R1. cbn [flt]. destruct (Rlt_dec u p); [|contradiction]. rewrite E1, R2. reflexivity.
    + eapply prob1_ext; [|exact (prob1_const false)]. intros v Hv. destruct (HE v Hv) as (s1 & s2 & R1 & R2). rewrite HF, R1. cbn [flt]. destruct (Rlt_dec u p); [contradiction|reflexivity].
Qed.
Lemma link_crema_prob_prob G (draw : R -> R -> gstate G) i j bi bj p t : uniform_then_exponential G draw -> 0 <= p <= 1 -> 0 < bi + bj -> 0 <= t ->
  prob2 (fun u v => heavier t (is_a_link_crema_prob G (i, bi) (j, bj) p None (draw u v))) (p * exp (- (bi + bj) * t)) /\
  prob2 (fun u v => is_link (is_a_link_crema_prob G (i, bi) (j, bj) p None (draw u v))) p.
Proof. intros HD HP HB HT. apply (crema_law G draw (fun s => is_a_link_crema_prob G (i, bi) (j, bj) p None s) p (bi + bj) i j t HD HP HB HT). reflexivity. Qed.
Lemma link_crema_sparse_prob G (draw : R -> R -> gstate G) i j bi bj xi xj t : uniform_then_exponential G draw -> 0 <= xi -> 0 <= xj -> 0 < bi + bj -> 0 <= t ->
  prob2 (fun u v => heavier t (is_a_link_crema_sparse G (i, bi, xi) (j, bj, xj) None (draw u v))) (xi * xj / (1 + xi * xj) * exp (- (bi + bj) * t)) /\
  prob2 (fun u v => is_link (is_a_link_crema_sparse G (i, bi, xi) (j, bj, xj) None (draw u v))) (xi * xj / (1 + xi * xj)).
Proof.
  intros HD HI HJ HB HT. assert (HZ : 0 <= xi * xj) by (apply Rmult_le_pos; assumption). destruct (link_prob _ HZ) as [E HP].
  apply (crema_law G draw (fun s => is_a_link_crema_sparse G (i, bi, xi) (j, bj, xj) None s) (xi * xj / (1 + xi * xj)) (bi + bj) i j t HD HP HB HT).
  intros s. unfold is_a_link_crema_sparse, maybe_seed. rewrite (Rmult_comm xj xi), E. reflexivity.
Qed.

(** * The undirected sparse sampler tries every pair twice *)
Lemma sparse_twice G (draw : R -> gstate G) i j xi xj bi bj : (forall u, 0 <= u < 1 -> fst (random_sample G (draw u)) = u) ->
  (forall q s, 0 < q -> exists w s', exponential G (Fin q) s = Some (Fin w, s')) -> 0 <= xi -> 0 <= xj -> 0 < bi + bj ->
  let p := xi * xj / (1 + xi * xj) in
  prob2 (fun u v => is_link (is_a_link_crema_sparse G (i, bi, xi) (j, bj, xj) None (draw u)) || is_link (is_a_link_crema_sparse G (j, bj, xj) (i, bi, xi) None (draw v)))
    (1 - (1 - p) ^ 2).
Proof.
  intros HU HX HI HJ HB p. assert (HZ : 0 <= xi * xj) by (apply Rmult_le_pos; assumption). destruct (link_prob _ HZ) as [E HP]. fold p in E, HP.
  assert (L : forall a b xa xb ia ib u, 0 <= u < 1 -> xa * xb = xi * xj -> a + b = bi + bj -> is_link (is_a_link_crema_sparse G (ia, a, xa) (ib, b, xb) None (draw u)) = if Rlt_dec u p then true else false).
  { intros a b xa xb ia ib u Hu E1 E2. unfold is_a_link_crema_sparse, maybe_seed. pose proof (HU u Hu) as HD. destruct (random_sample G (draw u)) as [u' s']. cbn [fst] in HD. subst u'.
    rewrite (Rmult_comm xb xa), E1, E, E2. cbn [flt]. destruct (Rlt_dec u p); [|reflexivity]. destruct (fdiv_rate _ HB) as [E3 HQ]. rewrite E3. destruct (HX _ s' HQ) as (w & s2 & E4). rewrite E4. reflexivity. }
  replace (1 - (1 - p) ^ 2) with (p * 1 + (1 - p) * p) by ring. apply prob2_step; [exact HP|]. intros u Hu. destruct (Rlt_dec u p) as [H|H].
  - eapply prob1_ext; [|exact (prob1_const true)]. intros v Hv. rewrite (L bi bj xi xj i j u Hu eq_refl eq_refl). destruct (Rlt_dec u p); [reflexivity|contradiction].
  - eapply prob1_ext; [|exact (prob1_below p HP)]. intros v Hv. rewrite (L bi bj xi xj i j u Hu eq_refl eq_refl), (L bj bi xj xi j i v Hv) by ring. destruct (Rlt_dec u p); [contradiction|reflexivity].
Qed.
