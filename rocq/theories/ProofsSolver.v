(** The solver: number of steps, reasons for stopping, reports. *)
From Coq Require Import List Arith Bool Lia Reals Lra.
From Verif Require Import Base ModelSolver SpecSolver.
Import ListNotations.

Section Gen.
  Context {V M S : Type}.
  Variables (N : numerics V M S) (P : problem V M S).

  (** The recorded sequences agree with the run so far. *)
  Definition good (O : options S) (x0 : V) (s : state V S) : Prop :=
    (exists f, p_fun P (s_x s) = Some f /\ s_f s = f /\ s_norm s = vnorm N f) /\
    (s_n s <= o_max_steps O)%nat /\
    (s_n s = 0%nat -> s_x s = x0 /\ s_diff s = sone N) /\
    (s_n s <> 0%nat -> exists x_old f_old dx alfa, p_fun P x_old = Some f_old /\ s_x s = vaxpy N x_old alfa dx /\
        s_diff s = vnorm N (vnan_fix N (vsub N (s_x s) x_old)) /\
        (o_linsearch O = false -> alfa = sone N) /\
        (o_method O = FixedPoint -> dx = vinf_fix N x_old (vsub N f_old x_old))) /\
    (o_full_return O = true ->
       length (s_norms s) = (s_n s + 1)%nat /\ length (s_diffs s) = (s_n s + 1)%nat /\
       length (s_alfas s) = (if o_linsearch O then s_n s else 0)%nat /\
       nth_error (s_norms s) (s_n s) = Some (s_norm s) /\ nth_error (s_diffs s) (s_n s) = Some (s_diff s) /\
       nth_error (s_diffs s) 0 = Some (sone N) /\
       (exists f0, p_fun P x0 = Some f0 /\ nth_error (s_norms s) 0 = Some (vnorm N f0)) /\
       forall k, (k < s_n s)%nat -> exists a b, nth_error (s_norms s) k = Some a /\ nth_error (s_diffs s) k = Some b /\
         gtb N a (o_tol O) = true /\ gtb N b (o_eps O) = true).

  Lemma init_good O x0 s : solver_init N P O x0 = Some s -> good O x0 s.
  Proof.
    unfold solver_init. destruct (p_fun P x0) as [f|] eqn:E; [|discriminate]. simpl. intros H. injection H as <-.
    unfold good. simpl. split; [exists f; auto|]. split; [lia|]. split; [auto|]. split; [congruence|].
    intros ->. simpl. repeat (split; [reflexivity|]).
    split; [destruct (o_linsearch O); reflexivity|]. repeat (split; [reflexivity|]).
    split; [exists f; auto|]. intros k Hk. lia.
  Qed.

  Lemma alfa_spec O s dx alfa al : solver_alfa N P O s dx = Some (alfa, al) ->
    (o_linsearch O = false -> alfa = sone N) /\
    (o_full_return O = true -> o_method O <> OtherMethod ->
       length al = if o_linsearch O then (length (s_alfas s) + 1)%nat else length (s_alfas s)).
  Proof.
    unfold solver_alfa. destruct (o_linsearch O).
    - destruct (o_method O).
      + destruct (p_lin_nq P _ _ _ _ _); simpl; [|discriminate]. intros H. injection H as <- <-. split; [discriminate|].
        intros -> _. rewrite app_length. reflexivity.
      + destruct (p_lin_nq P _ _ _ _ _); simpl; [|discriminate]. intros H. injection H as <- <-. split; [discriminate|].
        intros -> _. rewrite app_length. reflexivity.
      + destruct (p_lin_fp P _ _ _ _ _ _); simpl; [|discriminate]. intros H. injection H as <- <-. split; [discriminate|].
        intros -> _. rewrite app_length. reflexivity.
      + intros H. injection H as <- <-. split; [discriminate|]. congruence.
    - intros H. injection H as <- <-. split; [auto|]. auto.
  Qed.

  Lemma dx_spec O s dx : solver_dx N P O s = Some dx ->
    o_method O <> OtherMethod /\ (o_method O = FixedPoint -> dx = vinf_fix N (s_x s) (vsub N (s_f s) (s_x s))).
  Proof.
    unfold solver_dx. destruct (o_method O) eqn:E; intros H; (split; [congruence|]); intros; try congruence.
  Qed.

  Lemma step_good O x0 s s' : good O x0 s -> solver_continue N O s = true -> solver_step N P O s = Some s' ->
    good O x0 s' /\ s_n s' = (s_n s + 1)%nat.
  Proof.
    intros ((f & Ef & Ff & Nf) & Hn & H0 & H1 & HF) HC. unfold solver_continue in HC.
    apply andb_prop in HC. destruct HC as [HC C3]. apply andb_prop in HC. destruct HC as [C1 C2]. apply Nat.ltb_lt in C2.
    unfold solver_step. destruct (solver_dx N P O s) as [dx|] eqn:ED; [|discriminate]. simpl.
    destruct (solver_alfa N P O s dx) as [[alfa al]|] eqn:EA; [|discriminate]. simpl.
    destruct (p_fun P (vaxpy N (s_x s) alfa dx)) as [f'|] eqn:EF; [|discriminate]. simpl.
    destruct (o_verbose O && _); [discriminate|]. intros H. injection H as <-.
    destruct (alfa_spec O s dx alfa al EA) as [A1 A2]. destruct (dx_spec O s dx ED) as [D1 D2].
    split; [|reflexivity]. unfold good. simpl.
    split; [exists f'; auto|]. split; [lia|]. split; [lia|]. split.
    - intros _. exists (s_x s), (s_f s), dx, alfa. split; [congruence|]. split; [reflexivity|]. split; [reflexivity|].
      split; [exact A1|exact D2].
    - intros HT. destruct (HF HT) as (L1 & L2 & L3 & E1 & E2 & E3 & (f0 & E4 & E5) & HK). rewrite HT.
      rewrite !app_length. simpl. split; [lia|]. split; [lia|]. split.
      { rewrite (A2 HT D1). destruct (o_linsearch O); lia. }
      split; [rewrite nth_error_app2 by lia; rewrite L1, Nat.sub_diag; reflexivity|].
      split; [rewrite nth_error_app2 by lia; rewrite L2, Nat.sub_diag; reflexivity|].
      split; [simpl in E3; destruct (s_diffs s); [discriminate|exact E3]|].
      split; [exists f0; split; [exact E4|simpl in E5; destruct (s_norms s); [discriminate|exact E5]]|].
      intros k Hk. rewrite (nth_error_app1 (s_norms s)) by lia. rewrite (nth_error_app1 (s_diffs s)) by lia. destruct (Nat.eq_dec k (s_n s)) as [->|Hne].
      + exists (s_norm s), (s_diff s). auto.
      + apply HK. lia.
  Qed.

  Lemma loop_spec O x0 fuel s : good O x0 s -> (o_max_steps O - s_n s < fuel)%nat ->
    solver_loop N P O fuel s = Raised \/
    exists s', good O x0 s' /\ solver_continue N O s' = false /\
      solver_loop N P O fuel s = if o_full_return O then Full (s_x s') (s_n s') (s_norms s') (s_diffs s') (s_alfas s') else Sol (s_x s').
  Proof.
    revert s. induction fuel as [|fuel IH]; intros s HG HF; [lia|]. simpl.
    destruct (solver_continue N O s) eqn:HC.
    - destruct (solver_step N P O s) as [s'|] eqn:ES; [|left; reflexivity].
      destruct (step_good O x0 s s' HG HC ES) as [HG' Hn']. apply IH; [exact HG'|].
      unfold solver_continue in HC. apply andb_prop in HC. destruct HC as [HC _]. apply andb_prop in HC. destruct HC as [_ C2].
      apply Nat.ltb_lt in C2. lia.
    - right. exists s. split; [exact HG|]. split; [exact HC|reflexivity].
  Qed.

  Lemma solver_spec O x0 :
    solver N P O x0 = Raised \/
    exists s', good O x0 s' /\ solver_continue N O s' = false /\
      solver N P O x0 = if o_full_return O then Full (s_x s') (s_n s') (s_norms s') (s_diffs s') (s_alfas s') else Sol (s_x s').
  Proof.
    unfold solver. destruct (solver_init N P O x0) as [s|] eqn:E; [|left; reflexivity].
    apply loop_spec; [apply init_good; exact E|]. lia.
  Qed.
End Gen.

(** * Termination and reasons for stopping *)
Lemma solver_terminates (V M S : Type) (N : numerics V M S) (P : problem V M S) (O : options S) (x0 : V) :
  solver N P O x0 <> Fuel.
Proof.
  destruct (solver_spec N P O x0) as [->|(s & _ & _ & ->)]; [discriminate|]. destruct (o_full_return O); discriminate.
Qed.

Lemma solver_stop_reason (V M S : Type) (N : numerics V M S) (P : problem V M S) (O : options S) (x0 x : V) n norms diffs alfas :
  solver N P O x0 = Full x n norms diffs alfas ->
  (n <= o_max_steps O)%nat /\
  (forall k, (k < n)%nat -> exists a b, nth_error norms k = Some a /\ nth_error diffs k = Some b /\
     gtb N a (o_tol O) = true /\ gtb N b (o_eps O) = true) /\
  (exists a b, nth_error norms n = Some a /\ nth_error diffs n = Some b /\
     (gtb N a (o_tol O) = false \/ n = o_max_steps O \/ gtb N b (o_eps O) = false)).
Proof.
  intros H. destruct (solver_spec N P O x0) as [E|(s & (_ & Hn & _ & _ & HF) & HC & E)]; [congruence|].
  rewrite E in H. destruct (o_full_return O) eqn:EF; [|discriminate]. injection H as <- <- <- <- <-.
  destruct (HF eq_refl) as (_ & _ & _ & E1 & E2 & _ & _ & HK). split; [exact Hn|]. split; [exact HK|].
  exists (s_norm s), (s_diff s). split; [exact E1|]. split; [exact E2|].
  unfold solver_continue in HC. apply andb_false_iff in HC. destruct HC as [HC|HC]; [|auto].
  apply andb_false_iff in HC. destruct HC as [HC|HC]; [auto|]. apply Nat.ltb_ge in HC. right; left. lia.
Qed.

Lemma solver_already_converged (V M S : Type) (N : numerics V M S) (P : problem V M S) (O : options S) (x0 f0 : V) :
  p_fun P x0 = Some f0 -> gtb N (vnorm N f0) (o_tol O) = false ->
  solver N P O x0 = if o_full_return O then Full x0 0 [vnorm N f0] [sone N] [] else Sol x0.
Proof.
  intros Hf Hg. unfold solver, solver_init. rewrite Hf. simpl. unfold solver_continue. simpl. rewrite Hg. simpl.
  destruct (o_full_return O); reflexivity.
Qed.

(** * full_return *)
Lemma solver_full_report (V M S : Type) (N : numerics V M S) (P : problem V M S) (O : options S) (x0 x : V) n norms diffs alfas :
  solver N P O x0 = Full x n norms diffs alfas ->
  length norms = (n + 1)%nat /\ length diffs = (n + 1)%nat /\
  length alfas = (if o_linsearch O then n else 0)%nat /\
  (exists f, p_fun P x = Some f /\ nth_error norms n = Some (vnorm N f)) /\
  (exists f0, p_fun P x0 = Some f0 /\ nth_error norms 0 = Some (vnorm N f0)) /\
  nth_error diffs 0 = Some (sone N) /\ (n = 0%nat -> x = x0) /\
  (n <> 0%nat -> exists x_old, nth_error diffs n = Some (vnorm N (vnan_fix N (vsub N x x_old)))).
Proof.
  intros H. destruct (solver_spec N P O x0) as [E|(s & ((f & Ef & Ff & Nf) & Hn & H0 & H1 & HF) & HC & E)]; [congruence|].
  rewrite E in H. destruct (o_full_return O) eqn:EF; [|discriminate]. injection H as <- <- <- <- <-.
  destruct (HF eq_refl) as (L1 & L2 & L3 & E1 & E2 & E3 & E4 & HK).
  repeat (split; [assumption|]). split; [exists f; split; [exact Ef|congruence]|]. split; [exact E4|]. split; [exact E3|].
  split; [intros Z; apply H0; exact Z|]. intros Z. destruct (H1 Z) as (x_old & f_old & dx & alfa & _ & _ & Hd & _).
  exists x_old. rewrite E2, Hd. reflexivity.
Qed.

(** Running with and without recording. *)
Section Two.
  Context {V M S : Type}.
  Variables (N : numerics V M S) (P : problem V M S) (O : options S).
  Definition same (a b : state V S) : Prop :=
    s_x a = s_x b /\ s_f a = s_f b /\ s_norm a = s_norm b /\ s_diff a = s_diff b /\ s_dx_old a = s_dx_old b /\ s_n a = s_n b.

  Lemma same_alfa a b dx : same a b ->
    match solver_alfa N P (with_full true O) a dx, solver_alfa N P (with_full false O) b dx with
    | Some u, Some v => fst u = fst v | None, None => True | _, _ => False end.
  Proof.
    intros (E1 & E2 & E3 & E4 & E5 & E6). unfold solver_alfa. simpl. rewrite E1, E2, E5, E6.
    destruct (o_linsearch O); [|reflexivity]. destruct (o_method O); try reflexivity;
      match goal with |- context [sbind ?q _] => destruct q; simpl; auto end.
  Qed.
  Lemma same_step a b : same a b ->
    match solver_step N P (with_full true O) a, solver_step N P (with_full false O) b with
    | Some u, Some v => same u v | None, None => True | _, _ => False end.
  Proof.
    intros HS. pose proof HS as (E1 & E2 & E3 & E4 & E5 & E6). unfold solver_step.
    assert (ED : solver_dx N P (with_full true O) a = solver_dx N P (with_full false O) b).
    { unfold solver_dx. simpl. rewrite E1, E2. reflexivity. }
    rewrite ED. destruct (solver_dx N P (with_full false O) b) as [dx|]; [|exact I]. simpl.
    pose proof (same_alfa a b dx HS) as HA.
    destruct (solver_alfa N P (with_full true O) a dx) as [[u1 u2]|], (solver_alfa N P (with_full false O) b dx) as [[v1 v2]|]; try contradiction; [|exact I].
    simpl in HA. subst v1. simpl. rewrite E1. destruct (p_fun P (vaxpy N (s_x b) u1 dx)) as [f|]; [|exact I]. simpl.
    destruct (o_verbose O && _); [exact I|]. unfold same. simpl. rewrite E6. auto 10.
  Qed.
  Lemma same_loop fuel a b : same a b ->
    match solver_loop N P (with_full true O) fuel a, solver_loop N P (with_full false O) fuel b with
    | Full x _ _ _ _, Sol y => x = y | Raised, Raised => True | Fuel, Fuel => True | _, _ => False end.
  Proof.
    revert a b. induction fuel as [|fuel IH]; intros a b HS; simpl; [exact I|].
    assert (EC : solver_continue N (with_full true O) a = solver_continue N (with_full false O) b).
    { destruct HS as (E1 & E2 & E3 & E4 & E5 & E6). unfold solver_continue. simpl. rewrite E3, E4, E6. reflexivity. }
    rewrite EC. destruct (solver_continue N (with_full false O) b).
    - pose proof (same_step a b HS) as H.
      destruct (solver_step N P (with_full true O) a), (solver_step N P (with_full false O) b); try contradiction; [|exact I].
      apply IH. exact H.
    - simpl. apply HS.
  Qed.
End Two.

Lemma solver_full_same (V M S : Type) (N : numerics V M S) (P : problem V M S) (O : options S) (x0 : V) :
  (exists x n norms diffs alfas, solver N P (with_full true O) x0 = Full x n norms diffs alfas /\
     solver N P (with_full false O) x0 = Sol x) \/
  (solver N P (with_full true O) x0 = Raised /\ solver N P (with_full false O) x0 = Raised).
Proof.
  pose proof (solver_terminates V M S N P (with_full true O) x0) as T1.
  unfold solver in *. unfold solver_init in *. destruct (p_fun P x0) as [f|]; [|right; split; reflexivity].
  cbn [sbind] in *.
  change (o_max_steps (with_full true O)) with (o_max_steps O) in *.
  change (o_max_steps (with_full false O)) with (o_max_steps O) in *.
  match goal with |- context [solver_loop N P (with_full true O) ?k ?a] =>
    match goal with |- context [solver_loop N P (with_full false O) k ?b] =>
      pose proof (same_loop N P O k a b) as H; set (A := a) in *; set (B := b) in * end end.
  assert (HS : same A B) by (unfold same, A, B; simpl; auto 10). specialize (H HS). clearbody A B.
  destruct (solver_loop N P (with_full true O) _ A), (solver_loop N P (with_full false O) _ B); try contradiction; try congruence.
  - left. subst. repeat eexists.
  - right; auto.
Qed.

(** * verbose *)
Lemma solver_verbose_neutral (V M S : Type) (N : numerics V M S) (P : problem V M S) (O : options S) (x0 : V) :
  (forall H, eigh_ok N H = true) -> (o_method O = Newton -> o_regularise O = true) ->
  solver N P (with_verbose true O) x0 = solver N P (with_verbose false O) x0.
Proof.
  intros HE HR.
  assert (D : forall s, solver_dx N P (with_verbose true O) s = solver_dx N P (with_verbose false O) s).
  { intros s. unfold solver_dx. simpl. destruct (o_method O) eqn:E; try reflexivity.
    rewrite (HR eq_refl). destruct (p_jac_m P (s_x s)); [|reflexivity]. simpl. rewrite HE. simpl.
    destruct (p_fun P (s_x s)); [|reflexivity]. simpl. destruct (p_reg P _ _); [|reflexivity]. simpl. rewrite HE. reflexivity. }
  assert (ST : forall s, solver_step N P (with_verbose true O) s = solver_step N P (with_verbose false O) s).
  { intros s. unfold solver_step. rewrite D. destruct (solver_dx N P (with_verbose false O) s); [|reflexivity]. simpl.
    destruct (o_method O) eqn:E; [rewrite (HR eq_refl)| | |]; reflexivity. }
  unfold solver. change (solver_init N P (with_verbose true O) x0) with (solver_init N P (with_verbose false O) x0).
  destruct (solver_init N P (with_verbose false O) x0) as [s|]; [|reflexivity].
  change (o_max_steps (with_verbose true O)) with (o_max_steps O). change (o_max_steps (with_verbose false O)) with (o_max_steps O).
  generalize (Datatypes.S (o_max_steps O)) as k. intros k. revert s. induction k as [|k IH]; intros s; [reflexivity|]. simpl.
  change (solver_continue N (with_verbose true O) s) with (solver_continue N (with_verbose false O) s).
  destruct (solver_continue N (with_verbose false O) s); [|reflexivity]. rewrite ST.
  destruct (solver_step N P (with_verbose false O) s); [apply IH|reflexivity].
Qed.

Lemma solver_verbose_raises (V M S : Type) (N : numerics V M S) (P : problem V M S) (O : options S) (x0 f0 : V) :
  o_method O = Newton -> o_regularise O = false -> o_verbose O = true ->
  p_fun P x0 = Some f0 -> gtb N (vnorm N f0) (o_tol O) = true -> gtb N (sone N) (o_eps O) = true -> (0 < o_max_steps O)%nat ->
  solver N P O x0 = Raised.
Proof.
  intros HM HR HV Hf G1 G2 Hm. unfold solver, solver_init. rewrite Hf. simpl. unfold solver_continue. simpl.
  rewrite G1, G2. rewrite (proj2 (Nat.ltb_lt 0 _) Hm). simpl.
  unfold solver_step. destruct (solver_dx _ _ _ _) as [dx|]; [|reflexivity]. simpl.
  destruct (solver_alfa _ _ _ _ _) as [al|]; [|reflexivity]. simpl.
  destruct (p_fun P (vaxpy N x0 (fst al) dx)); [|reflexivity]. simpl. rewrite HM, HR, HV. reflexivity.
Qed.

(** * Exact arithmetic *)
Local Open Scope R_scope.
Lemma norm_bound n f i : (i < n)%nat -> Rabs (f i) <= sqrt (rsum n (fun i => f i * f i)).
Proof.
  intros Hi. rewrite <- sqrt_Rsqr_abs. apply sqrt_le_1_alt. unfold Rsqr.
  rewrite <- (rsum_single n i (fun i => f i * f i) Hi). apply rsum_le. intros j Hj.
  destruct (Nat.eqb j i); [lra|]. apply Rle_0_sqr.
Qed.

Lemma solver_exact_bound (M : Type) n (N : numerics (nat -> R) M R) (P : problem (nat -> R) M R) (O : options R) x0 x m norms diffs alfas a :
  exact_numerics n N -> solver N P O x0 = Full x m norms diffs alfas ->
  nth_error norms m = Some a -> gtb N a (o_tol O) = false ->
  exists f, p_fun P x = Some f /\ forall i, (i < n)%nat -> Rabs (f i) <= o_tol O.
Proof.
  intros [HN HG] HS Ha Hg. destruct (solver_full_report _ _ _ N P O x0 x m norms diffs alfas HS) as (_ & _ & _ & (f & Ef & En) & _).
  exists f. split; [exact Ef|]. intros i Hi. rewrite Ha in En. injection En as ->.
  assert (vnorm N f <= o_tol O).
  { apply Rnot_gt_le. intros H. apply HG in H. congruence. }
  apply Rle_trans with (vnorm N f); [|assumption]. rewrite HN. apply norm_bound. exact Hi.
Qed.

(** Fixed point, no line search: the last step is the last residual. *)
Lemma solver_fixed_point_diff (V M S : Type) (N : numerics V M S) (P : problem V M S) (O : options S) (x0 x : V) n norms diffs alfas :
  o_method O = FixedPoint -> o_linsearch O = false ->
  solver N P O x0 = Full x n norms diffs alfas -> n <> 0%nat ->
  exists x_old f_old, p_fun P x_old = Some f_old /\ x = vaxpy N x_old (sone N) (vinf_fix N x_old (vsub N f_old x_old)) /\
    nth_error diffs n = Some (vnorm N (vnan_fix N (vsub N x x_old))).
Proof.
  intros HM HL H Hn. destruct (solver_spec N P O x0) as [E|(s & (_ & _ & _ & H1 & HF) & HC & E)]; [congruence|].
  rewrite E in H. destruct (o_full_return O) eqn:EF; [|discriminate]. injection H as <- <- <- <- <-.
  destruct (H1 Hn) as (x_old & f_old & dx & alfa & Ef & Ex & Hd & Ha & Hx). destruct (HF eq_refl) as (_ & _ & _ & _ & E2 & _).
  exists x_old, f_old. split; [exact Ef|]. rewrite <- (Ha HL), <- (Hx HM). split; [exact Ex|]. rewrite E2, Hd. reflexivity.
Qed.
