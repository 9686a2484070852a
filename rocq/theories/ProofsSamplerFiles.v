(** [ensemble_sampler]: files, prefixes, seeds. *)
From Coq Require Import Reals List Arith Bool ZArith Permutation String DecimalString DecimalNat Lia Lra.
From Coquelicot Require Import Coquelicot.
From Verif Require Import Base SpecGraph ModelDCM ModelLinsearch ModelSampler SpecSampler ProofsSampler ProofsMainSampler ProofsSamplerLaw.
Import ListNotations.
Local Open Scope R_scope.

(** * One graph, as a function of its seed *)
(** The function run for each file does not depend on the pool. *)
Definition steady (G : generator) (one : option Z -> gstate G -> pool_choice G -> option (content * gstate G))
    (one' : option Z -> gstate G -> pool_choice G -> option (content * gstate G)) (ok ok' : pool_choice G -> Prop) : Prop :=
  forall k s s' c c', ok c -> ok' c' -> one (Some k) s c = one' (Some k) s' c'.
Lemma tag_same G {L} (k : list L -> content) (r r' : option (list L * gstate G)) : r = r' -> tag G k r = tag G k r'.
Proof. intros ->. reflexivity. Qed.
Lemma sampler_steady G directed v m cpu cpu' one one' : numpy_contract G -> complete_solution directed v m ->
  (if directed then sampler_dir G v cpu else sampler_und G v cpu) = Some (Some one) ->
  (if directed then sampler_dir G v cpu' else sampler_und G v cpu') = Some (Some one') ->
  steady G one one' (valid_choice G cpu m) (valid_choice G cpu' m).
Proof.
  intros HG HV. unfold steady. unfold complete_solution, is_model in HV. destruct directed.
  - unfold sampler_dir. destruct HV as [(HM & HL & ->)|[(HM & H1 & H2 & H3 & ->)|[(HM & r & c & w & EA & HR & HC & HW)|(HM & EG & x & y & EA & ->)]]].
    + assert (E : (String.eqb (v_last_model v) "dcm" || String.eqb (v_last_model v) "dcm_exp")%bool = true) by (destruct HM as [<-|[<-|[]]]; reflexivity). rewrite E.
      intros E1 E2 k s s' c c' H1 H2. injection E1 as <-. injection E2 as <-. apply tag_same, dcm_same; assumption.
    + assert (E : (String.eqb (v_last_model v) "dcm" || String.eqb (v_last_model v) "dcm_exp")%bool = false) by (destruct HM as [<-|[<-|[]]]; reflexivity). rewrite E. clear E.
      assert (E : (String.eqb (v_last_model v) "decm" || String.eqb (v_last_model v) "decm_exp")%bool = true) by (destruct HM as [<-|[<-|[]]]; reflexivity). rewrite E.
      intros E1 E2 k s s' c c' C1 C2. injection E1 as <-. injection E2 as <-. apply tag_same, decm_same; assumption.
    + destruct HM as [<-|[]]. simpl. rewrite EA. destruct (v_adjacency_given v); intros E1 E2 k s s' d d' C1 C2; injection E1 as <-; injection E2 as <-; apply tag_same.
      * refine (crema_det_same G (v_b_out v) (v_b_in v) r c w k cpu cpu' s s' d d' HG _ _ _); [congruence|rewrite HR; exact C1|rewrite HR; exact C2].
      * refine (crema_prob_same G (v_b_out v) (v_b_in v) r c w k cpu cpu' s s' d d' HG _ _ _ _); [congruence|congruence|rewrite HW; exact C1|rewrite HW; exact C2].
    + destruct HM as [<-|[]]. simpl. rewrite EA, EG. simpl. intros E1 E2 k s s' c c' C1 C2. injection E1 as <-. injection E2 as <-. apply tag_same, crema_sparse_same; assumption.
  - unfold sampler_und. destruct HV as [(HM & ->)|[(HM & H1 & ->)|[(HM & r & c & w & EA & HR & HC & HW)|(HM & EG & x & EA & ->)]]].
    + assert (E : (String.eqb (v_last_model v) "cm" || String.eqb (v_last_model v) "cm_exp")%bool = true) by (destruct HM as [<-|[<-|[]]]; reflexivity). rewrite E.
      intros E1 E2 k s s' c c' H1 H2. injection E1 as <-. injection E2 as <-. apply tag_same, cm_same; assumption.
    + assert (E : (String.eqb (v_last_model v) "cm" || String.eqb (v_last_model v) "cm_exp")%bool = false) by (destruct HM as [<-|[<-|[]]]; reflexivity). rewrite E. clear E.
      assert (E : (String.eqb (v_last_model v) "ecm" || String.eqb (v_last_model v) "ecm_exp")%bool = true) by (destruct HM as [<-|[<-|[]]]; reflexivity). rewrite E.
      intros E1 E2 k s s' c c' C1 C2. injection E1 as <-. injection E2 as <-. apply tag_same, ecm_same; assumption.
    + destruct HM as [<-|[]]. simpl. rewrite EA. destruct (v_adjacency_given v); intros E1 E2 k s s' d d' C1 C2; injection E1 as <-; injection E2 as <-; apply tag_same.
      * refine (crema_det_same G (v_b_out v) (v_b_out v) r c w k cpu cpu' s s' d d' HG _ _ _); [congruence|rewrite HR; exact C1|rewrite HR; exact C2].
      * refine (crema_prob_same G (v_b_out v) (v_b_out v) r c w k cpu cpu' s s' d d' HG _ _ _ _); [congruence|congruence|rewrite HW; exact C1|rewrite HW; exact C2].
    + destruct HM as [<-|[]]. simpl. rewrite EA, EG. simpl. intros E1 E2 k s s' c c' C1 C2. injection E1 as <-. injection E2 as <-. apply tag_same, crema_sparse_same; assumption.
Qed.
Lemma sampler_defined G directed v m cpu : complete_solution directed v m ->
  exists one, (if directed then sampler_dir G v cpu else sampler_und G v cpu) = Some (Some one).
Proof.
  unfold complete_solution, is_model. destruct directed.
  - intros [(HM & _)|[(HM & _)|[(HM & _)|(HM & EG & _)]]]; unfold sampler_dir; try rewrite EG; simpl in HM; repeat destruct HM as [<-|HM]; try destruct HM; simpl; try (eexists; reflexivity).
    destruct (v_adjacency_given v); eexists; reflexivity.
  - intros [(HM & _)|[(HM & _)|[(HM & _)|(HM & EG & _)]]]; unfold sampler_und; try rewrite EG; simpl in HM; repeat destruct HM as [<-|HM]; try destruct HM; simpl; try (eexists; reflexivity).
    destruct (v_adjacency_given v); eexists; reflexivity.
Qed.

(** * The loop over the files *)
Lemma draw_seeds_eq G n s : fst (draw_seeds G n s) = seeds_from G n s.
Proof.
  unfold draw_seeds. revert s. induction n as [|n IH]; intros s; [reflexivity|]. cbn [repeat with_seeds seeds_from]. destruct (randint G s) as [k s1]. cbn [fst snd].
  specialize (IH s1). destruct (with_seeds G (repeat tt n) s1) as [r s2]. cbn [map fst snd] in *. f_equal. exact IH.
Qed.
Lemma seeds_from_length G n s : List.length (seeds_from G n s) = n.
Proof. revert s. induction n as [|n IH]; intros s; [reflexivity|]. simpl. f_equal. apply IH. Qed.
Lemma seeds_from_firstn G n m s : (n <= m)%nat -> firstn n (seeds_from G m s) = seeds_from G n s.
Proof. revert m s. induction n as [|n IH]; intros m s H; [reflexivity|]. destruct m as [|m]; [lia|]. simpl. f_equal. apply IH. lia. Qed.
Lemma seeds_from_range G n s k : numpy_contract G -> In k (seeds_from G n s) -> (0 <= k < 1000000)%Z.
Proof. intros HG. revert s. induction n as [|n IH]; intros s; [intros []|]. simpl. intros [<-|H]; [apply (proj1 (proj2 HG))|eauto]. Qed.
Lemma write_files_names G one out : forall seeds i choice s r, write_files G one out i seeds choice s = Some r ->
  map fst r = map (file_name out) (seq i (List.length seeds)).
Proof.
  induction seeds as [|k seeds IH]; intros i choice s r; simpl; [intros E; injection E as <-; reflexivity|].
  destruct (one (Some k) s (choice i)) as [[txt s1]|]; [|discriminate]. destruct (write_files G one out (S i) seeds choice s1) as [r'|] eqn:E; [|discriminate].
  intros F. injection F as <-. simpl. f_equal. eapply IH, E.
Qed.
Lemma write_files_prefix G one one' ok ok' out : steady G one one' ok ok' -> forall n seeds i choice choice' s s' r r',
  (forall i, ok (choice i)) -> (forall i, ok' (choice' i)) ->
  write_files G one out i (firstn n seeds) choice s = Some r -> write_files G one' out i seeds choice' s' = Some r' -> r = firstn n r'.
Proof.
  intros HS. induction n as [|n IH]; intros seeds i choice choice' s s' r r' HO HO'; [simpl; intros E _; injection E as <-; reflexivity|].
  destruct seeds as [|k seeds]; simpl; [intros E F; injection E as <-; injection F as <-; reflexivity|].
  rewrite (HS k s s' (choice i) (choice' i) (HO i) (HO' i)). destruct (one' (Some k) s' (choice' i)) as [[txt s1]|]; [|discriminate].
  destruct (write_files G one out (S i) (firstn n seeds) choice s1) as [q|] eqn:E1; [|discriminate]. destruct (write_files G one' out (S i) seeds choice' s1) as [q'|] eqn:E2; [|discriminate].
  intros E F. injection E as <-. injection F as <-. simpl. f_equal. eapply IH; [exact HO|exact HO'|exact E1|exact E2].
Qed.
Lemma sampler_prefix G directed v m n n' cpu cpu' out k entropy entropy' choice choice' fs fs' :
  numpy_contract G -> complete_solution directed v m ->
  (forall i, valid_choice G cpu m (choice i)) -> (forall i, valid_choice G cpu' m (choice' i)) -> (n <= n')%nat ->
  ensemble_sampler G directed v n cpu out (Some k) entropy choice = Some fs ->
  ensemble_sampler G directed v n' cpu' out (Some k) entropy' choice' = Some fs' ->
  fs = firstn n fs'.
Proof.
  intros HG HV HC HC' HN. unfold ensemble_sampler. cbn [top_seed]. destruct (np_seed G k) as [s0|]; [|discriminate].
  destruct (sampler_defined G directed v m cpu HV) as [one E1]. destruct (sampler_defined G directed v m cpu' HV) as [one' E2].
  rewrite E1, E2. pose proof (draw_seeds_eq G n s0) as D1. pose proof (draw_seeds_eq G n' s0) as D2. destruct (draw_seeds G n s0) as [l s1], (draw_seeds G n' s0) as [l' s1']. cbn [fst] in D1, D2.
  rewrite D1, D2, <- (seeds_from_firstn G n n' s0 HN). apply (write_files_prefix G one one' _ _ out (sampler_steady G directed v m cpu cpu' one one' HG HV E1 E2)); assumption.
Qed.
Lemma sampler_names G directed v m n cpu out seed entropy choice fs : complete_solution directed v m ->
  ensemble_sampler G directed v n cpu out seed entropy choice = Some fs -> map fst fs = map (file_name out) (seq 0 n).
Proof.
  intros HV. unfold ensemble_sampler. destruct (top_seed G seed entropy) as [s0|]; [|discriminate]. destruct (sampler_defined G directed v m cpu HV) as [one E1]. rewrite E1.
  pose proof (draw_seeds_eq G n s0) as D1. destruct (draw_seeds G n s0) as [l s1]. cbn [fst] in D1. intros E. apply write_files_names in E. rewrite E, D1, seeds_from_length. reflexivity.
Qed.
Lemma append_inj_r a a' b : String.append a b = String.append a' b -> a = a'.
Proof.
  intros E. apply (f_equal list_ascii_of_string) in E. assert (H : forall x y, list_ascii_of_string (String.append x y) = (list_ascii_of_string x ++ list_ascii_of_string y)%list) by (induction x as [|h x IH]; intros y; simpl; [reflexivity|rewrite IH; reflexivity]).
  rewrite !H in E. apply app_inv_tail in E. rewrite <- (string_of_list_ascii_of_string a), <- (string_of_list_ascii_of_string a'), E. reflexivity.
Qed.
Lemma append_inj_l a b b' : String.append a b = String.append a b' -> b = b'.
Proof. induction a as [|h a IH]; simpl; intros E; [exact E|]. injection E as E. auto. Qed.
Lemma to_uint_nonnil n : Nat.to_uint n <> Decimal.Nil.
Proof. intros E. pose proof (Unsigned.of_to n) as H. rewrite E in H. simpl in H. subst n. discriminate. Qed.
Lemma file_name_inj out i j : file_name out i = file_name out j -> i = j.
Proof.
  unfold file_name. intros E. apply append_inj_l, append_inj_r in E. apply (f_equal NilZero.uint_of_string) in E.
  rewrite !NilZero.usu in E by apply to_uint_nonnil. injection E as E. apply Unsigned.to_uint_inj, E.
Qed.
Lemma file_names_distinct out n : NoDup (map (file_name out) (seq 0 n)).
Proof. apply FinFun.Injective_map_NoDup; [intros i j; apply file_name_inj|apply seq_NoDup]. Qed.
Lemma unknown_model_refused G (directed : bool) v n cpu out seed entropy choice :
  ~ is_model v (if directed then ["dcm"; "dcm_exp"; "decm"; "decm_exp"; "crema"; "crema-sparse"] else ["cm"; "cm_exp"; "ecm"; "ecm_exp"; "crema"; "crema-sparse"])%string ->
  ensemble_sampler G directed v n cpu out seed entropy choice = None.
Proof.
  unfold is_model, ensemble_sampler. intros H. destruct (top_seed G seed entropy) as [s|]; [|reflexivity]. destruct (draw_seeds G n s).
  assert (E : forall a, In a (if directed then ["dcm"; "dcm_exp"; "decm"; "decm_exp"; "crema"; "crema-sparse"] else ["cm"; "cm_exp"; "ecm"; "ecm_exp"; "crema"; "crema-sparse"])%string -> String.eqb (v_last_model v) a = false).
  { intros a Ha. apply String.eqb_neq. intros <-. contradiction. }
  destruct directed; [unfold sampler_dir|unfold sampler_und]; rewrite !E by (simpl; tauto); reflexivity.
Qed.
(** The sparse model solved on an explicit matrix: nothing is written. *)
Lemma sparse_given_writes_nothing G directed v n cpu out seed entropy choice s : v_last_model v = "crema-sparse"%string -> v_adjacency_given v = true ->
  top_seed G seed entropy = Some s -> ensemble_sampler G directed v n cpu out seed entropy choice = Some [].
Proof.
  intros HM HV HS. unfold ensemble_sampler. rewrite HS. destruct (draw_seeds G n s). destruct directed; [unfold sampler_dir|unfold sampler_und]; rewrite HM, HV; reflexivity.
Qed.

(** * Only a million seeds *)
Lemma pigeonhole (l : list Z) (N : nat) : (forall k, In k l -> (0 <= k < Z.of_nat N)%Z) -> (N < List.length l)%nat -> 
  exists t t', (t < t' < List.length l)%nat /\ nth t l 0%Z = nth t' l 0%Z.
Proof.
  intros HR HL. destruct (ListDec.NoDup_dec Z.eq_dec l) as [HN|HN].
  - exfalso. assert (HI : incl l (map Z.of_nat (seq 0 N))).
    { intros k Hk. apply HR in Hk. apply in_map_iff. exists (Z.to_nat k). split; [lia|]. apply in_seq. lia. }
    apply (NoDup_incl_length HN) in HI. rewrite map_length, seq_length in HI. lia.
  - clear HR HL. induction l as [|a l IH]; [exfalso; apply HN; constructor|]. destruct (in_dec Z.eq_dec a l) as [HI|HI].
    + apply (In_nth l a 0%Z) in HI. destruct HI as (t & Ht & E). exists 0%nat, (S t). simpl. split; [lia|]. symmetry. exact E.
    + destruct IH as (t & t' & HT & E); [intros H; apply HN; constructor; assumption|]. exists (S t), (S t'). simpl. split; [lia|exact E].
Qed.
Lemma seeds_collide G m s : numpy_contract G -> (1000000 < Z.of_nat m)%Z -> exists t t', (t < t' < m)%nat /\ nth t (seeds_from G m s) 0%Z = nth t' (seeds_from G m s) 0%Z.
Proof.
  intros HG HM. destruct (pigeonhole (seeds_from G m s) (Z.to_nat 1000000)) as (t & t' & HT & E).
  - intros k Hk. apply (seeds_from_range G m s k HG) in Hk. rewrite Z2Nat.id by lia. exact Hk.
  - rewrite seeds_from_length. apply Nat2Z.inj_lt. rewrite Z2Nat.id by lia. exact HM.
  - rewrite seeds_from_length in HT. exists t, t'. auto.
Qed.
Lemma draws_collide G n s : numpy_contract G -> (1415 <= Z.of_nat n)%Z -> let m := (n * (n - 1) / 2)%nat in
  exists t t', (t < t' < m)%nat /\ nth t (draws_from G m s) 0 = nth t' (draws_from G m s) 0.
Proof.
  intros HG HN m. assert (HM : (1000000 < Z.of_nat m)%Z).
  { unfold m. rewrite <- (lt_pairs_length n). apply Z.lt_le_trans with (Z.of_nat 1415 * (Z.of_nat 1415 - 1) / 2)%Z; [reflexivity|].
    rewrite lt_pairs_length, Nat2Z.inj_div. apply Z.div_le_mono; [lia|]. rewrite Nat2Z.inj_mul, Nat2Z.inj_sub by lia. change (Z.of_nat 1415) with 1415%Z. nia. }
  destruct (seeds_collide G m s HG HM) as (t & t' & HT & E). exists t, t'. split; [exact HT|]. unfold draws_from.
  rewrite !(nth_indep _ 0 (first_draw G 0)) by (rewrite map_length, seeds_from_length; lia). rewrite !map_nth, E. reflexivity.
Qed.

Lemma write_files_repeat G one ok out : steady G one one ok ok -> forall seeds i choice s r t t',
  (forall i, ok (choice i)) -> write_files G one out i seeds choice s = Some r -> (t < t' < List.length seeds)%nat -> nth t seeds 0%Z = nth t' seeds 0%Z ->
  exists txt, nth_error r t = Some (file_name out (i + t), txt) /\ nth_error r t' = Some (file_name out (i + t'), txt).
Proof.
  intros HS.
  assert (HK : forall seeds i choice s r t, (forall i, ok (choice i)) -> write_files G one out i seeds choice s = Some r -> (t < List.length seeds)%nat ->
    forall s' c', ok c' -> exists txt s2, one (Some (nth t seeds 0%Z)) s' c' = Some (txt, s2) /\ nth_error r t = Some (file_name out (i + t), txt)).
  { induction seeds as [|k seeds IH]; intros i choice s r t HO E HT s' c' HO'; [simpl in HT; lia|]. simpl in E.
    destruct (one (Some k) s (choice i)) as [[txt s1]|] eqn:E1; [|discriminate]. destruct (write_files G one out (S i) seeds choice s1) as [r'|] eqn:E2; [|discriminate]. injection E as <-.
    destruct t as [|t].
    - exists txt, s1. cbn [nth nth_error]. rewrite (HS k s' s c' (choice i) HO' (HO i)), Nat.add_0_r. simpl. auto.
    - simpl in HT. destruct (IH (S i) choice s1 r' t HO E2 ltac:(lia) s' c' HO') as (txt' & s2 & H1 & H2). exists txt', s2. simpl. rewrite H2. replace (i + S t)%nat with (S i + t)%nat by lia. auto. }
  intros seeds i choice s r t t' HO E HT EK.
  destruct (HK seeds i choice s r t HO E ltac:(lia) s (choice i) (HO i)) as (txt & s2 & H1 & H2). destruct (HK seeds i choice s r t' HO E ltac:(lia) s (choice i) (HO i)) as (txt' & s2' & H1' & H2').
  rewrite EK, H1' in H1. injection H1 as <- _. exists txt'. auto.
Qed.
Lemma sampler_repeats G directed v m n cpu out seed entropy choice fs : numpy_contract G -> complete_solution directed v m -> (forall i, valid_choice G cpu m (choice i)) ->
  (1000000 < Z.of_nat n)%Z -> ensemble_sampler G directed v n cpu out seed entropy choice = Some fs ->
  exists t t' txt, (t < t' < n)%nat /\ nth_error fs t = Some (file_name out t, txt) /\ nth_error fs t' = Some (file_name out t', txt).
Proof.
  intros HG HV HC HN. unfold ensemble_sampler. destruct (top_seed G seed entropy) as [s0|]; [|discriminate].
  destruct (sampler_defined G directed v m cpu HV) as [one E1]. rewrite E1. pose proof (draw_seeds_eq G n s0) as D1. destruct (draw_seeds G n s0) as [l s1]. cbn [fst] in D1. rewrite D1. intros E.
  destruct (seeds_collide G n s0 HG HN) as (t & t' & HT & EK). exists t, t'.
  destruct (write_files_repeat G one _ out (sampler_steady G directed v m cpu cpu one one HG HV E1 E1) (seeds_from G n s0) 0 choice s1 fs t t' HC E) as (txt & H1 & H2).
  - rewrite seeds_from_length. exact HT.
  - exact EK.
  - exists txt. auto.
Qed.

(** * Links that are never sampled *)
Lemma list_positive_min (l : list R) : (forall v, In v l -> 0 < v) -> exists b, 0 < b <= 1 /\ forall v, In v l -> b <= v.
Proof.
  induction l as [|a l IH]; intros H; [exists 1; split; [lra|intros v []]|]. destruct IH as (b & HB & HL); [intros; apply H; right; assumption|].
  exists (Rmin a b). assert (HA : 0 < a) by (apply H; left; reflexivity). pose proof (Rmin_l a b). pose proof (Rmin_r a b). split; [split; [apply Rmin_glb_lt; lra|lra]|].
  intros v [<-|Hv]; [lra|]. specialize (HL v Hv). lra.
Qed.
Lemma kept_none p pairs us : (forall e u, In e pairs -> In u us -> p (fst e) (snd e) <= u) -> kept p pairs us = [].
Proof.
  intros H. unfold kept. rewrite filter_none; [reflexivity|]. intros [e u] HI. simpl. pose proof (in_combine_l _ _ _ _ HI) as H1. pose proof (in_combine_r _ _ _ _ HI) as H2.
  specialize (H e u H1 H2). destruct (Rlt_dec _ _); [lra|reflexivity].
Qed.
Lemma link_never_sampled G : numpy_contract G -> (forall k, (0 <= k < 1000000)%Z -> 0 < first_draw G k) ->
  exists x0 x1, 0 < x0 /\ 0 < x1 /\ 0 < p_ubcm (fun i => nth i [x0; x1] 0) 0 1 < 1 /\
    forall cpu seed s c l s1, valid_choice G cpu 1 c -> ensemble_sampler_cm_graph G [x0; x1] cpu seed s c = Some (l, s1) -> l = [].
Proof.
  intros HG HF. destruct (list_positive_min (map (first_draw G) (map Z.of_nat (seq 0 (Z.to_nat 1000000))))) as (b & HB & HL).
  { intros v Hv. apply in_map_iff in Hv. destruct Hv as (k & <- & Hk). apply in_map_iff in Hk. destruct Hk as (i & <- & Hi). apply in_seq in Hi. apply HF. lia. }
  exists 1, b. split; [lra|split; [lra|]]. unfold p_ubcm. simpl. rewrite !Rmult_1_l.
  assert (HP : 0 < b / (1 + b)) by (apply Rdiv_lt_0_compat; lra).
  assert (HP1 : b / (1 + b) <= b).
  { apply Rmult_le_reg_r with (1 + b); [lra|]. unfold Rdiv. rewrite Rmult_assoc, Rinv_l by lra. nra. }
  assert (HP2 : b / (1 + b) < 1).
  { apply Rmult_lt_reg_r with (1 + b); [lra|]. unfold Rdiv. rewrite Rmult_assoc, Rinv_l by lra. lra. }
  split; [lra|]. intros cpu seed s c l s1 HC E. destruct (maybe_seed G seed s) as [s0|] eqn:EM.
  - destruct (cm_kept G [1; b] cpu seed s c s0 HG) as (s2 & E2).
    + intros v [<-|[<-|[]]]; lra.
    + exact HC.
    + exact EM.
    + rewrite E in E2. injection E2 as E2 _. rewrite E2. apply kept_none. intros [i j] u HI Hu. unfold lt_pairs in HI. simpl in HI. destruct HI as [HI|[]]. injection HI as <- <-. unfold p_ubcm. simpl. rewrite !Rmult_1_l.
      apply Rle_trans with b; [exact HP1|]. apply HL. unfold draws_from in Hu. apply in_map_iff in Hu. destruct Hu as (k & <- & Hk). apply in_map. apply (seeds_from_range G _ _ _ HG) in Hk.
      apply in_map_iff. exists (Z.to_nat k). split; [lia|]. apply in_seq. lia.
  - unfold ensemble_sampler_cm_graph, sample_graph in E. rewrite EM in E. discriminate.
Qed.
Lemma write_files_total G one out choice : (forall k s i, (0 <= k < 1000000)%Z -> exists q, one (Some k) s (choice i) = Some q) ->
  forall seeds i s, (forall k, In k seeds -> (0 <= k < 1000000)%Z) -> exists r, write_files G one out i seeds choice s = Some r.
Proof.
  intros H. induction seeds as [|k seeds IH]; intros i s HS; [exists []; reflexivity|]. cbn [write_files].
  destruct (H k s i (HS k (or_introl eq_refl))) as ([txt s1] & E). rewrite E. destruct (IH (S i) s1 (fun q Hq => HS q (or_intror Hq))) as (r & E2). rewrite E2. eexists. reflexivity.
Qed.
(** With non-negative parameters the binary samplers write every file. *)
Lemma sampler_cm_total G v n cpu out seed entropy choice s0 : numpy_contract G -> is_model v ["cm"; "cm_exp"]%string -> (forall a, In a (v_x v) -> 0 <= a) ->
  (forall i, valid_choice G cpu (List.length (v_x v) * (List.length (v_x v) - 1) / 2) (choice i)) -> top_seed G seed entropy = Some s0 ->
  exists fs, ensemble_sampler G false v n cpu out seed entropy choice = Some fs.
Proof.
  intros HG HM HX HC HS. unfold ensemble_sampler. rewrite HS. pose proof (draw_seeds_eq G n s0) as D. destruct (draw_seeds G n s0) as [l s1]. cbn [fst] in D. subst l.
  unfold sampler_und. assert (E : (String.eqb (v_last_model v) "cm" || String.eqb (v_last_model v) "cm_exp")%bool = true) by (destruct HM as [<-|[<-|[]]]; reflexivity). rewrite E.
  apply write_files_total; [|intros k Hk; eapply seeds_from_range; eassumption]. intros k s i Hk.
  destruct (cm_kept G (v_x v) cpu (Some k) s (choice i) (seeded G k) HG HX (HC i) (np_seed_ok G k Hk)) as (s2 & E2). rewrite E2. eexists. reflexivity.
Qed.
Lemma sampler_dcm_total G v n cpu out seed entropy choice s0 : numpy_contract G -> is_model v ["dcm"; "dcm_exp"]%string -> List.length (v_y v) = List.length (v_x v) ->
  (forall a, In a (v_x v) -> 0 <= a) -> (forall a, In a (v_y v) -> 0 <= a) ->
  (forall i, valid_choice G cpu (List.length (v_x v) * (List.length (v_x v) - 1)) (choice i)) -> top_seed G seed entropy = Some s0 ->
  exists fs, ensemble_sampler G true v n cpu out seed entropy choice = Some fs.
Proof.
  intros HG HM HL HX HY HC HS. unfold ensemble_sampler. rewrite HS. pose proof (draw_seeds_eq G n s0) as D. destruct (draw_seeds G n s0) as [l s1]. cbn [fst] in D. subst l.
  unfold sampler_dir. assert (E : (String.eqb (v_last_model v) "dcm" || String.eqb (v_last_model v) "dcm_exp")%bool = true) by (destruct HM as [<-|[<-|[]]]; reflexivity). rewrite E.
  apply write_files_total; [|intros k Hk; eapply seeds_from_range; eassumption]. intros k s i Hk.
  destruct (dcm_kept G (v_x v) (v_y v) cpu (Some k) s (choice i) (seeded G k) HG HL HX HY (HC i) (np_seed_ok G k Hk)) as (s2 & E2). rewrite E2. eexists. reflexivity.
Qed.
