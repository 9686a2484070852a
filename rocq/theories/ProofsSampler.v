(** Pool, seeds and form of the sampled graphs. *)
From Coq Require Import Reals List Arith Bool ZArith Permutation String Lia Lra.
From Coquelicot Require Import Coquelicot.
From Verif Require Import Base SpecEnsemble ProofsEnsemble ModelDCM ModelLinsearch ModelSampler SpecSampler.
Import ListNotations.
Local Open Scope R_scope.

Section Pool.
Variable G : generator.
Context {T L : Type}.
Variable f : T -> gstate G -> option (option L * gstate G).
Variable r : T -> option (option L).
Variable tasks : list T.
(** The value returned by a task does not depend on the state of the worker. *)
Hypothesis Hr : forall a s, In a tasks -> option_map fst (f a s) = r a.

Definition value (t : nat) : option (option L) := match nth_error tasks t with None => None | Some a => r a end.
Lemma pool_run_value sched : forall workers results, NoDup (map fst sched) ->
  forall u, pool_run G f tasks sched workers results u =
    if existsb (Nat.eqb u) (map fst sched) then match value u with None => results u | Some v => Some v end else results u.
Proof.
  induction sched as [|[t w] sched IH]; intros workers results HN u; [reflexivity|]. cbn [pool_run map fst existsb].
  apply NoDup_cons_iff in HN. destruct HN as [HI HN].
  assert (HU : Nat.eqb u t = true -> existsb (Nat.eqb u) (map fst sched) = false).
  { intros E. apply Nat.eqb_eq in E. subst u. destruct (existsb (Nat.eqb t) (map fst sched)) eqn:E; [|reflexivity].
    apply existsb_exists in E. destruct E as (z & HZ & E). apply Nat.eqb_eq in E. subst z. contradiction. }
  unfold value. destruct (nth_error tasks t) as [a|] eqn:Ha.
  - pose proof (Hr a (workers w) (nth_error_In _ _ Ha)) as HR. destruct (f a (workers w)) as [[v s]|] eqn:Ef; simpl in HR.
    + rewrite (IH _ _ HN u). destruct (Nat.eqb u t) eqn:E; cbn [orb].
      * rewrite (HU eq_refl). apply Nat.eqb_eq in E. subst u. rewrite Ha, <- HR. reflexivity.
      * reflexivity.
    + rewrite (IH _ _ HN u). destruct (Nat.eqb u t) eqn:E; cbn [orb]; [|reflexivity].
      rewrite (HU eq_refl). apply Nat.eqb_eq in E. subst u. rewrite Ha, <- HR. reflexivity.
  - rewrite (IH _ _ HN u). destruct (Nat.eqb u t) eqn:E; cbn [orb]; [|reflexivity].
    rewrite (HU eq_refl). apply Nat.eqb_eq in E. subst u. rewrite Ha. reflexivity.
Qed.
Lemma starmap_value cpu_n c : valid_choice G cpu_n (List.length tasks) c ->
  starmap G f cpu_n tasks (the_schedule G c) (the_workers G c) = collect (map r tasks).
Proof.
  intros (HC & HP & _). unfold starmap. destruct (Nat.eqb_spec cpu_n 0); [lia|]. f_equal.
  assert (HN : NoDup (map fst (the_schedule G c))) by (apply (Permutation_NoDup (Permutation_sym HP)), seq_NoDup).
  transitivity (map value (seq 0 (List.length tasks))).
  - apply map_ext_in. intros u Hu. rewrite (pool_run_value _ _ _ HN).
    replace (existsb (Nat.eqb u) (map fst (the_schedule G c))) with true; [destruct (value u); reflexivity|].
    symmetry. apply existsb_exists. exists u. split; [|apply Nat.eqb_refl]. apply (Permutation_in _ (Permutation_sym HP)), Hu.
  - clear. unfold value. induction tasks as [|a l IH]; [reflexivity|]. cbn [List.length]. rewrite <- cons_seq, <- seq_shift, map_cons, map_map.
    cbn [nth_error map]. f_equal. exact IH.
Qed.
End Pool.

Lemma collect_some {A} (l : list (option A)) r : collect l = Some r <-> l = map Some r.
Proof.
  revert r. induction l as [|v l IH]; intros r; simpl.
  - split; [intros E; injection E as <-; reflexivity|destruct r; [reflexivity|discriminate]].
  - destruct v as [v|]; [|split; [discriminate|destruct r; discriminate]]. destruct (collect l) as [r'|].
    + split; [intros E; injection E as <-; simpl; f_equal; apply IH; reflexivity|].
      destruct r as [|w r]; [discriminate|]. simpl. intros E. injection E as -> E. apply IH in E. congruence.
    + split; [discriminate|]. destruct r as [|w r]; [discriminate|]. simpl. intros E. injection E as _ E. apply IH in E. discriminate.
Qed.
Lemma drop_none_map {A} (l : list A) {L} (f : A -> option L) : drop_none (map f l) = flat_map (fun a => match f a with None => [] | Some e => [e] end) l.
Proof. unfold drop_none. rewrite flat_map_concat_map, map_map, <- flat_map_concat_map. reflexivity. Qed.

(** * Seeds *)
Section Seeds.
Variable G : generator.
Hypothesis HG : numpy_contract G.
Lemma with_seeds_fst {A} (l : list A) s : map fst (fst (with_seeds G l s)) = l.
Proof.
  revert s. induction l as [|a l IH]; intros s; [reflexivity|]. simpl. destruct (randint G s) as [k s1]. pose proof (IH s1).
  destruct (with_seeds G l s1) as [q s2]. simpl in *. f_equal. assumption.
Qed.
Lemma with_seeds_range {A} (l : list A) s a k : In (a, k) (fst (with_seeds G l s)) -> (0 <= k < 1000000)%Z.
Proof.
  revert s. induction l as [|b l IH]; intros s; [intros []|]. simpl. pose proof (proj1 (proj2 HG) s) as HR. destruct (randint G s) as [k1 s1]. pose proof (IH s1).
  destruct (with_seeds G l s1) as [q s2]. simpl in *. intros [E|HI]; [injection E as -> ->; exact HR|auto].
Qed.
Lemma with_seeds_length {A} (l : list A) s : List.length (fst (with_seeds G l s)) = List.length l.
Proof. rewrite <- (map_length fst), with_seeds_fst. reflexivity. Qed.
Lemma np_seed_ok k : (0 <= k < 1000000)%Z -> np_seed G k = Some (seeded G k).
Proof. intros Hk. unfold np_seed. destruct (Z.leb_spec 0 k), (Z.ltb_spec k 4294967296); try lia. reflexivity. Qed.

(** A function that begins with [np.random.seed(seed)]. *)
Definition reseeds {A L} (f : A * Z -> gstate G -> option (option L * gstate G)) : Prop :=
  forall a k s, (0 <= k < 1000000)%Z -> f (a, k) s = f (a, k) (seeded G k).
(** The lines written and the parent's state, as functions of the seed alone. *)
Definition sample_value {A L} (f : A * Z -> gstate G -> option (option L * gstate G)) (items : list A) (s : gstate G) : option (list L * gstate G) :=
  let (tasks, s) := with_seeds G items s in
  match collect (map (fun t => option_map fst (f t (seeded G (snd t)))) tasks) with
  | None => None
  | Some e => Some (drop_none e, s)
  end.
Lemma sample_graph_value {A L} (f : A * Z -> gstate G -> option (option L * gstate G)) items cpu_n seed s c s0 :
  reseeds f -> valid_choice G cpu_n (List.length items) c -> maybe_seed G seed s = Some s0 ->
  sample_graph G f items cpu_n seed s c = sample_value f items s0.
Proof.
  intros HF HV HS. unfold sample_graph, sample_value. rewrite HS. pose proof (with_seeds_length items s0) as HL.
  pose proof (fun a k => with_seeds_range items s0 a k) as HR. destruct (with_seeds G items s0) as [tasks s1]. simpl in HL, HR.
  rewrite (starmap_value G f (fun t => option_map fst (f t (seeded G (snd t)))) tasks); [reflexivity| |rewrite HL; exact HV].
  intros [a k] s' HI. simpl. rewrite (HF a k s'); [reflexivity|]. apply (HR a k HI).
Qed.
(** * Form of the result *)
Lemma sublist_nil {A} (l : list A) : sublist [] l.
Proof. induction l; constructor; assumption. Qed.
Lemma sublist_refl {A} (l : list A) : sublist l l.
Proof. induction l; constructor; assumption. Qed.
Lemma sublist_in {A} (l l' : list A) a : sublist l l' -> In a l -> In a l'.
Proof. induction 1 as [| |]; simpl; intros HI; [exact HI|destruct HI; auto|auto]. Qed.
Lemma sublist_NoDup {A} (l l' : list A) : sublist l l' -> NoDup l' -> NoDup l.
Proof.
  induction 1 as [|a l l' HS IH|a l l' HS IH]; intros HN; [exact HN| |]; apply NoDup_cons_iff in HN; destruct HN as [HI HN].
  - constructor; [|auto]. intros H. apply HI. apply (sublist_in _ _ _ HS H).
  - auto.
Qed.
Lemma sample_value_form {A L} (f : A * Z -> gstate G -> option (option L * gstate G)) items s0 l s1
    (pr : L -> nat * nat) (idx : A -> nat * nat) (P : A -> L -> Prop) :
  (forall a k s v s', In a items -> (0 <= k < 1000000)%Z -> f (a, k) s = Some (Some v, s') -> pr v = idx a /\ P a v) ->
  sample_value f items s0 = Some (l, s1) ->
  sublist (map pr l) (map idx items) /\ (forall v, In v l -> exists a, In a items /\ pr v = idx a /\ P a v).
Proof.
  intros HF. unfold sample_value. pose proof (with_seeds_fst items s0) as HI. pose proof (fun a k => with_seeds_range items s0 a k) as HR.
  destruct (with_seeds G items s0) as [tasks s2]. simpl in HI, HR.
  destruct (collect _) as [e|] eqn:HC; [|discriminate]. intros E. injection E as <- <-. apply collect_some in HC.
  assert (HF' : forall a k s v s', In (a, k) tasks -> f (a, k) s = Some (Some v, s') -> In a items /\ pr v = idx a /\ P a v).
  { intros a k s v s' HT E. assert (HA : In a items) by (rewrite <- HI; apply (in_map fst _ _ HT)). split; [exact HA|].
    apply (HF a k s v s' HA (HR a k HT) E). }
  rewrite <- HI. clear HI HR HF. revert e HC. induction tasks as [|[a k] tasks IH]; intros e HC.
  - destruct e; [|discriminate]. split; [constructor|intros v []].
  - destruct e as [|v e]; [discriminate|]. cbn [map] in HC. injection HC as Hv HC.
    destruct (IH (fun a' k' s v' s' HT => HF' a' k' s v' s' (or_intror HT)) e HC) as [IH1 IH2]. cbn [map fst].
    cbn [snd] in Hv. destruct (f (a, k) (seeded G k)) as [[v' s']|] eqn:Ef; [|discriminate]. simpl in Hv. injection Hv as <-.
    destruct v' as [w|]; cbn [drop_none flat_map app].
    + destruct (HF' a k _ w s' (or_introl eq_refl) Ef) as (H1 & H2 & H3). split.
      * cbn [map]. rewrite H2. apply sub_keep. exact IH1.
      * intros v [<-|HV]; [exists a; split; [left; reflexivity|auto]|]. destruct (IH2 v HV) as (a' & H4 & H5). exists a'. split; [right; exact H4|exact H5].
    + split; [apply sub_drop; exact IH1|]. intros v HV. destruct (IH2 v HV) as (a' & H4 & H5). exists a'. split; [right; exact H4|exact H5].
Qed.
End Seeds.

(** * Pair lists *)
Lemma pairs_if_map {A B} (cond : nat -> nat -> bool) (ia : A -> nat) (ib : B -> nat) (l : list A) (l' : list B) :
  map (fun p => (ia (fst p), ib (snd p))) (pairs_if (fun a b => cond (ia a) (ib b)) l l') = pairs_if cond (map ia l) (map ib l').
Proof.
  unfold pairs_if. induction l as [|a l IH]; [reflexivity|]. cbn [flat_map map]. rewrite map_app, IH. f_equal.
  clear. induction l' as [|b l' IH]; [reflexivity|]. cbn [flat_map map]. rewrite map_app, IH. destruct (cond (ia a) (ib b)); reflexivity.
Qed.
Lemma pairs_if_in (cond : nat -> nat -> bool) l l' i j : In (i, j) (pairs_if cond l l') <-> In i l /\ In j l' /\ cond i j = true.
Proof.
  unfold pairs_if. rewrite in_flat_map. split.
  - intros (a & Ha & HI). apply in_flat_map in HI. destruct HI as (b & Hb & HI). destruct (cond a b) eqn:E; [|destruct HI]. destruct HI as [HI|[]]. injection HI as <- <-. auto.
  - intros (Hi & Hj & E). exists i. split; [exact Hi|]. apply in_flat_map. exists j. split; [exact Hj|]. rewrite E. left. reflexivity.
Qed.
Lemma pairs_if_filter (cond : nat -> nat -> bool) l l' : pairs_if cond l l' = filter (fun p => cond (fst p) (snd p)) (list_prod l l').
Proof.
  unfold pairs_if. induction l as [|a l IH]; [reflexivity|]. cbn [flat_map list_prod]. rewrite filter_app, IH. f_equal.
  clear. induction l' as [|b l' IH]; [reflexivity|]. cbn [flat_map map filter fst snd]. rewrite IH. destruct (cond a b); reflexivity.
Qed.
Lemma NoDup_pairs_if (cond : nat -> nat -> bool) l l' : NoDup l -> NoDup l' -> NoDup (pairs_if cond l l').
Proof.
  intros H H'. unfold pairs_if. apply (NoDup_flat_map_key _ fst).
  - exact H.
  - intros a _. apply (NoDup_flat_map_key _ snd); [exact H'| |].
    + intros b _. destruct (cond a b); repeat constructor. intros [].
    + intros b e HI. destruct (cond a b); [destruct HI as [<-|[]]; reflexivity|destruct HI].
  - intros a e HI. apply in_flat_map in HI. destruct HI as (b & _ & HI). destruct (cond a b); [destruct HI as [<-|[]]; reflexivity|destruct HI].
Qed.
Lemma pairs_if_app_l (cond : nat -> nat -> bool) l1 l2 l' : pairs_if cond (l1 ++ l2) l' = pairs_if cond l1 l' ++ pairs_if cond l2 l'.
Proof. unfold pairs_if. apply flat_map_app. Qed.
Lemma pairs_if_length_r (cond : nat -> nat -> bool) l l1 b : 
  List.length (pairs_if cond l (l1 ++ [b])) = (List.length (pairs_if cond l l1) + List.length (filter (fun a => cond a b) l))%nat.
Proof.
  unfold pairs_if. induction l as [|a l IH]; [reflexivity|]. cbn [flat_map filter]. rewrite !app_length, IH, flat_map_app, app_length. cbn [flat_map].
  destruct (cond a b); simpl; lia.
Qed.
Lemma filter_all {A} (p : A -> bool) l : (forall a, In a l -> p a = true) -> filter p l = l.
Proof. induction l as [|a l IH]; intros H; [reflexivity|]. simpl. rewrite H by (left; reflexivity). f_equal. apply IH. intros; apply H; right; assumption. Qed.
Lemma filter_none {A} (p : A -> bool) l : (forall a, In a l -> p a = false) -> filter p l = [].
Proof. induction l as [|a l IH]; intros H; [reflexivity|]. simpl. rewrite H by (left; reflexivity). apply IH. intros; apply H; right; assumption. Qed.
Lemma pairs_if_one (cond : nat -> nat -> bool) a l : List.length (pairs_if cond [a] l) = List.length (filter (cond a) l).
Proof. unfold pairs_if. simpl. rewrite app_nil_r. induction l as [|b l IH]; [reflexivity|]. simpl. destruct (cond a b); simpl; rewrite IH; reflexivity. Qed.
Lemma lt_pairs_length n : List.length (pairs_if Nat.ltb (seq 0 n) (seq 0 n)) = (n * (n - 1) / 2)%nat.
Proof.
  assert (E : (2 * List.length (pairs_if Nat.ltb (seq 0 n) (seq 0 n)) = n * (n - 1))%nat).
  { induction n as [|n IH]; [reflexivity|]. rewrite seq_S. simpl plus. rewrite pairs_if_length_r, filter_app. rewrite pairs_if_app_l, !app_length, pairs_if_one.
    rewrite (filter_all (fun a => Nat.ltb a n)) by (intros a Ha; apply in_seq in Ha; apply Nat.ltb_lt; lia).
    rewrite (filter_none (Nat.ltb n)) by (intros a Ha; apply in_seq in Ha; apply Nat.ltb_ge; lia).
    rewrite (filter_none (fun a => Nat.ltb a n)) by (intros a [<-|[]]; apply Nat.ltb_irrefl). rewrite seq_length. simpl List.length. nia. }
  apply Nat.div_unique with 0%nat; lia.
Qed.
Lemma neq_pairs_length n : List.length (pairs_if (fun i j => negb (Nat.eqb i j)) (seq 0 n) (seq 0 n)) = (n * (n - 1))%nat.
Proof.
  induction n as [|n IH]; [reflexivity|]. rewrite seq_S. simpl plus. rewrite pairs_if_length_r, filter_app. rewrite pairs_if_app_l, !app_length, pairs_if_one.
  rewrite (filter_all (fun a => negb (Nat.eqb a n))) by (intros a Ha; apply in_seq in Ha; destruct (Nat.eqb_spec a n); [lia|reflexivity]).
  rewrite (filter_all (fun j => negb (Nat.eqb n j))) by (intros a Ha; apply in_seq in Ha; destruct (Nat.eqb_spec n a); [lia|reflexivity]).
  rewrite (filter_none (fun a => negb (Nat.eqb a n))) by (intros a [<-|[]]; rewrite Nat.eqb_refl; reflexivity). rewrite seq_length. simpl List.length. nia.
Qed.
Lemma zip_fst {A} n (x : list A) : List.length x = n -> map fst (zip_inds n x) = seq 0 n.
Proof.
  intros <-. unfold zip_inds. generalize 0%nat. induction x as [|v x IH]; intros k; [reflexivity|]. simpl. f_equal. apply IH.
Qed.
Lemma combine_map_fst {A B} (l : list A) (l' : list B) : List.length l = List.length l' -> map fst (combine l l') = l.
Proof. revert l'. induction l as [|a l IH]; intros [|b l']; simpl; try discriminate; [reflexivity|]. intros E. f_equal. apply IH. congruence. Qed.
Lemma zip3_fst {A B} n (x : list A) (y : list B) : List.length x = n -> List.length y = n -> map (fun a => fst (fst a)) (zip3 n x y) = seq 0 n.
Proof.
  intros Hx Hy. rewrite <- (map_map fst fst). unfold zip3. rewrite combine_map_fst; [apply (zip_fst n x Hx)|]. rewrite combine_length, seq_length. lia.
Qed.
