(** Runs of the solver as sequences of points. *)
From Coq Require Import Reals List Arith Bool Lia Lra.
From Verif Require Import Base SpecLinsearch ModelLinsearch ModelSolver ModelRun SpecRun ProofsRegular.
Import ListNotations.
Local Open Scope R_scope.

Section Trace.
  Context {V M S : Type}.
  Variables (N : numerics V M S) (P : problem V M S) (O : options S).

  Lemma loop_trace : forall fuel s x k ns ds als, solver_loop N P O fuel s = Full x k ns ds als ->
    exists j ss, ss 0%nat = s /\
      (forall t, (t < j)%nat -> solver_continue N O (ss t) = true /\ solver_step N P O (ss t) = Some (ss (Datatypes.S t))) /\
      x = s_x (ss j) /\ k = s_n (ss j) /\ ns = s_norms (ss j) /\ ds = s_diffs (ss j) /\ als = s_alfas (ss j).
  Proof.
    induction fuel as [|fuel IH]; intros s x k ns ds als H; cbn [solver_loop] in H; [discriminate|].
    destruct (solver_continue N O s) eqn:Ec.
    - destruct (solver_step N P O s) as [s'|] eqn:Es; [|discriminate].
      destruct (IH _ _ _ _ _ _ H) as (j & ss & E0 & Hs & Hr).
      exists (Datatypes.S j), (fun t => match t with 0%nat => s | Datatypes.S t => ss t end).
      split; [reflexivity|]. split; [|exact Hr].
      intros t Ht. destruct t as [|t]; [split; [exact Ec|rewrite E0; exact Es]|apply Hs; lia].
    - destruct (o_full_return O); [|discriminate]. inversion H; subst. exists 0%nat, (fun _ => s).
      split; [reflexivity|]. split; [intros; lia|]. repeat split; reflexivity.
  Qed.

  (** Everything one iteration does. *)
  Lemma step_facts s s' : solver_step N P O s = Some s' ->
    exists dx al, solver_dx N P O s = Some dx /\ solver_alfa N P O s dx = Some al /\
      s_x s' = vaxpy N (s_x s) (fst al) dx /\ p_fun P (s_x s') = Some (s_f s') /\ s_norm s' = vnorm N (s_f s') /\
      s_n s' = (s_n s + 1)%nat /\ s_alfas s' = snd al /\ s_dx_old s' = vscale N (fst al) dx /\
      s_diff s' = vnorm N (vnan_fix N (vsub N (s_x s') (s_x s))) /\
      s_norms s' = (if o_full_return O then s_norms s ++ [s_norm s'] else s_norms s) /\
      s_diffs s' = (if o_full_return O then s_diffs s ++ [s_diff s'] else s_diffs s).
  Proof.
    intros H. unfold solver_step in H. destruct (solver_dx N P O s) as [dx|] eqn:Ed; [|discriminate]. cbn [sbind] in H.
    destruct (solver_alfa N P O s dx) as [al|] eqn:Ea; [|discriminate]. cbn [sbind] in H.
    destruct (p_fun P (vaxpy N (s_x s) (fst al) dx)) as [f|] eqn:Ef; [|discriminate]. cbn [sbind] in H.
    destruct (o_verbose O && _); [discriminate|]. inversion H; subst. cbn [s_x s_f s_norm s_n s_alfas s_dx_old s_norms s_diffs s_diff].
    exists dx, al. repeat split; auto.
  Qed.

  Lemma alfa_facts s dx al : solver_alfa N P O s dx = Some al ->
    (o_linsearch O = false \/ o_method O = OtherMethod -> fst al = sone N) /\
    (o_linsearch O = true -> o_method O <> OtherMethod -> snd al = if o_full_return O then s_alfas s ++ [fst al] else s_alfas s) /\
    (o_linsearch O = true -> (o_method O = Newton \/ o_method O = QuasiNewton) ->
       p_lin_nq P (s_x s) dx (shalf N) (sone N) (s_f s) = Some (fst al)) /\
    (o_linsearch O = true -> o_method O = FixedPoint ->
       p_lin_fp P (s_x s) dx (s_dx_old s) (sone N) (shalf N) (s_n s) = Some (fst al)).
  Proof.
    unfold solver_alfa. intros H. destruct (o_linsearch O).
    - destruct (o_method O).
      + destruct (p_lin_nq P (s_x s) dx (shalf N) (sone N) (s_f s)) as [a|]; [|discriminate]. cbn [sbind] in H. inversion H; subst.
        cbn [fst snd]. repeat split; auto; try (intros [?|?]; discriminate); try (intros; discriminate).
      + destruct (p_lin_nq P (s_x s) dx (shalf N) (sone N) (s_f s)) as [a|]; [|discriminate]. cbn [sbind] in H. inversion H; subst.
        cbn [fst snd]. repeat split; auto; try (intros [?|?]; discriminate); try (intros; discriminate).
      + destruct (p_lin_fp P (s_x s) dx (s_dx_old s) (sone N) (shalf N) (s_n s)) as [a|]; [|discriminate]. cbn [sbind] in H. inversion H; subst.
        cbn [fst snd]. split; [intros [?|?]; discriminate|]. split; [reflexivity|]. split; [intros _ [?|?]; discriminate|reflexivity].
      + inversion H; subst. cbn [fst snd]. split; [reflexivity|]. split; [intros _ E; congruence|]. split; [intros _ [?|?]; discriminate|intros; discriminate].
    - inversion H; subst. cbn [fst snd]. repeat split; auto; intros; discriminate.
  Qed.

  Definition full_of (b : bool) : Prop := o_full_return O = b.

  Lemma full_result x0 x k ns ds als : solver N P O x0 = Full x k ns ds als -> o_full_return O = true.
  Proof.
    unfold solver. destruct (solver_init N P O x0) as [s|]; [|discriminate]. generalize (Datatypes.S (o_max_steps O)). intros fuel.
    revert s. induction fuel as [|fuel IH]; intros s H; cbn [solver_loop] in H; [discriminate|].
    destruct (solver_continue N O s); [destruct (solver_step N P O s) as [s'|]; [apply (IH s' H)|discriminate]|].
    destruct (o_full_return O); [reflexivity|discriminate].
  Qed.

  (** The points of a run, with the direction and the step length taken at each. *)
  Lemma run_points x0 x k ns ds als : solver N P O x0 = Full x k ns ds als ->
    exists (xs fs dxs olds : nat -> V) (al : nat -> S),
      xs 0%nat = x0 /\ xs k = x /\ olds 0%nat = vzeros N x0 /\
      (forall t, (t <= k)%nat -> p_fun P (xs t) = Some (fs t) /\ nth_error ns t = Some (vnorm N (fs t))) /\
      (forall t, (t < k)%nat ->
         gtb N (vnorm N (fs t)) (o_tol O) = true /\
         (exists s, s_x s = xs t /\ s_f s = fs t /\ solver_dx N P O s = Some (dxs t)) /\
         xs (Datatypes.S t) = vaxpy N (xs t) (al t) (dxs t) /\ olds (Datatypes.S t) = vscale N (al t) (dxs t) /\
         nth_error ds (Datatypes.S t) = Some (vnorm N (vnan_fix N (vsub N (xs (Datatypes.S t)) (xs t)))) /\
         (o_linsearch O = false -> al t = sone N) /\
         (o_linsearch O = true -> nth_error als t = Some (al t)) /\
         (o_linsearch O = true -> (o_method O = Newton \/ o_method O = QuasiNewton) ->
            p_lin_nq P (xs t) (dxs t) (shalf N) (sone N) (fs t) = Some (al t)) /\
         (o_linsearch O = true -> o_method O = FixedPoint ->
            p_lin_fp P (xs t) (dxs t) (olds t) (sone N) (shalf N) t = Some (al t))).
  Proof.
    intros H. pose proof (full_result _ _ _ _ _ _ H) as HF. unfold solver in H.
    destruct (solver_init N P O x0) as [s0|] eqn:E0; [|discriminate].
    destruct (loop_trace _ _ _ _ _ _ _ H) as (j & ss & Es0 & Hstep & Hx & Hk & Hns & Hds & Hals). clear H.
    unfold solver_init in E0. destruct (p_fun P x0) as [f0|] eqn:Ef0; [|discriminate]. cbn [sbind] in E0. rewrite HF in E0.
    assert (A : forall t, (t <= j)%nat -> s_n (ss t) = t /\ p_fun P (s_x (ss t)) = Some (s_f (ss t)) /\
      s_norm (ss t) = vnorm N (s_f (ss t)) /\ length (s_norms (ss t)) = Datatypes.S t /\ length (s_diffs (ss t)) = Datatypes.S t /\
      (o_linsearch O = true -> length (s_alfas (ss t)) = t)).
    { induction t as [|t IH]; intros Ht.
      - rewrite Es0. inversion E0; subst. cbn. repeat split; auto.
      - destruct (IH ltac:(lia)) as (I1 & I2 & I3 & I4 & I5 & I6). destruct (Hstep t ltac:(lia)) as [_ Hst].
        destruct (step_facts _ _ Hst) as (dx & al & Hdx & Hal & F1 & F2 & F3 & F4 & F5 & F6 & F7 & F8 & F9).
        rewrite HF in F8, F9. rewrite F4, F8, F9, F5, !app_length, I1, I4, I5. cbn [length].
        repeat split; auto; try lia. intros HL. destruct (alfa_facts _ _ _ Hal) as (_ & G & _).
        assert (Hm : o_method O <> OtherMethod) by (intros Hm; unfold solver_dx in Hdx; rewrite Hm in Hdx; discriminate).
        rewrite (G HL Hm), HF, app_length, (I6 HL). cbn [length]. lia. }
    assert (Ej : k = j). { rewrite Hk. apply (A j). lia. }
    assert (PN : forall t, (t <= j)%nat -> forall u, (t <= u)%nat -> (u <= j)%nat ->
      (exists l, s_norms (ss u) = s_norms (ss t) ++ l) /\ (exists l, s_diffs (ss u) = s_diffs (ss t) ++ l) /\
      (o_linsearch O = true -> exists l, s_alfas (ss u) = s_alfas (ss t) ++ l)).
    { intros t Ht u Hu. induction u as [|u IH]; intros Huj.
      - replace t with 0%nat by lia. split; [|split; [|intros _]]; exists []; rewrite app_nil_r; reflexivity.
      - destruct (Nat.eq_dec t (Datatypes.S u)) as [->|Hne].
        { split; [|split; [|intros _]]; exists []; rewrite app_nil_r; reflexivity. }
        destruct (IH ltac:(lia) ltac:(lia)) as ([l1 L1] & [l2 L2] & L3). destruct (Hstep u ltac:(lia)) as [_ Hst].
        destruct (step_facts _ _ Hst) as (dx & al & Hdx & Hal & F1 & F2 & F3 & F4 & F5 & F6 & F7 & F8 & F9).
        rewrite HF in F8, F9. split; [|split].
        + rewrite F8, L1, <- app_assoc. eexists; reflexivity.
        + rewrite F9, L2, <- app_assoc. eexists; reflexivity.
        + intros HL. destruct (L3 HL) as [l L]. destruct (alfa_facts _ _ _ Hal) as (_ & G & _).
          assert (Hm : o_method O <> OtherMethod) by (intros Hm; unfold solver_dx in Hdx; rewrite Hm in Hdx; discriminate).
          rewrite F5, (G HL Hm), HF, L, <- app_assoc. eexists; reflexivity. }
    subst k. rewrite Ej in *. clear Ej.
    assert (D : forall t, exists da : V * S, (t < j)%nat ->
       solver_dx N P O (ss t) = Some (fst da) /\ s_x (ss (Datatypes.S t)) = vaxpy N (s_x (ss t)) (snd da) (fst da) /\
       s_dx_old (ss (Datatypes.S t)) = vscale N (snd da) (fst da) /\
       s_diff (ss (Datatypes.S t)) = vnorm N (vnan_fix N (vsub N (s_x (ss (Datatypes.S t))) (s_x (ss t)))) /\
       s_norms (ss (Datatypes.S t)) = s_norms (ss t) ++ [s_norm (ss (Datatypes.S t))] /\
       s_diffs (ss (Datatypes.S t)) = s_diffs (ss t) ++ [s_diff (ss (Datatypes.S t))] /\
       (o_linsearch O = false -> snd da = sone N) /\
       (o_linsearch O = true -> s_alfas (ss (Datatypes.S t)) = s_alfas (ss t) ++ [snd da]) /\
       (o_linsearch O = true -> (o_method O = Newton \/ o_method O = QuasiNewton) ->
            p_lin_nq P (s_x (ss t)) (fst da) (shalf N) (sone N) (s_f (ss t)) = Some (snd da)) /\
       (o_linsearch O = true -> o_method O = FixedPoint ->
            p_lin_fp P (s_x (ss t)) (fst da) (s_dx_old (ss t)) (sone N) (shalf N) (s_n (ss t)) = Some (snd da))).
    { intros t. destruct (Nat.lt_ge_cases t j) as [Ht|Ht].
      - destruct (Hstep t Ht) as [_ Hst]. destruct (step_facts _ _ Hst) as (dx & al & Hdx & Hal & F1 & F2 & F3 & F4 & F5 & F6 & F7 & F8 & F9).
        exists (dx, fst al). intros _. cbn [fst snd]. destruct (alfa_facts _ _ _ Hal) as (G1 & G2 & G3 & G4).
        rewrite HF in *. rewrite F5.
        assert (Hm : o_method O <> OtherMethod) by (intros Hm; unfold solver_dx in Hdx; rewrite Hm in Hdx; discriminate).
        repeat split; auto.
      - exists (s_x s0, sone N). intros; lia. }
    assert (D' : exists da : nat -> V * S, forall t, (t < j)%nat ->
       solver_dx N P O (ss t) = Some (fst (da t)) /\ s_x (ss (Datatypes.S t)) = vaxpy N (s_x (ss t)) (snd (da t)) (fst (da t)) /\
       s_dx_old (ss (Datatypes.S t)) = vscale N (snd (da t)) (fst (da t)) /\
       s_diff (ss (Datatypes.S t)) = vnorm N (vnan_fix N (vsub N (s_x (ss (Datatypes.S t))) (s_x (ss t)))) /\
       s_norms (ss (Datatypes.S t)) = s_norms (ss t) ++ [s_norm (ss (Datatypes.S t))] /\
       s_diffs (ss (Datatypes.S t)) = s_diffs (ss t) ++ [s_diff (ss (Datatypes.S t))] /\
       (o_linsearch O = false -> snd (da t) = sone N) /\
       (o_linsearch O = true -> s_alfas (ss (Datatypes.S t)) = s_alfas (ss t) ++ [snd (da t)]) /\
       (o_linsearch O = true -> (o_method O = Newton \/ o_method O = QuasiNewton) ->
            p_lin_nq P (s_x (ss t)) (fst (da t)) (shalf N) (sone N) (s_f (ss t)) = Some (snd (da t))) /\
       (o_linsearch O = true -> o_method O = FixedPoint ->
            p_lin_fp P (s_x (ss t)) (fst (da t)) (s_dx_old (ss t)) (sone N) (shalf N) (s_n (ss t)) = Some (snd (da t)))).
    { clear - D. induction j as [|j IH]; [exists (fun _ => (s_x (ss 0%nat), sone N)); intros; lia|].
      destruct IH as [da Hda]. { intros t. destruct (D t) as [d Hd]. exists d. intros Ht. apply Hd. lia. }
      destruct (D j) as [d Hd]. exists (fun t => if Nat.eqb t j then d else da t). intros t Ht.
      destruct (Nat.eqb_spec t j) as [->|Hne]; [apply Hd; lia|apply Hda; lia]. }
    destruct D' as [da Hda]. subst x.
    exists (fun t => s_x (ss t)), (fun t => s_f (ss t)), (fun t => fst (da t)), (fun t => s_dx_old (ss t)), (fun t => snd (da t)).
    split; [rewrite Es0; inversion E0; reflexivity|]. split; [reflexivity|]. split; [rewrite Es0; inversion E0; reflexivity|]. split.
    - intros t Ht. destruct (A t Ht) as (I1 & I2 & I3 & I4 & I5 & I6). split; [exact I2|].
      destruct (PN t Ht j Ht (Nat.le_refl j)) as ([l L] & _ & _). rewrite Hns, L, nth_error_app1 by lia. rewrite <- I3.
      destruct t as [|t]; [rewrite Es0; inversion E0; reflexivity|].
      destruct (Hda t ltac:(lia)) as (_ & _ & _ & _ & B & _). rewrite B, nth_error_app2;
        destruct (A t ltac:(lia)) as (_ & _ & _ & J & _ & _); rewrite J; [|lia]. rewrite Nat.sub_diag. reflexivity.
    - intros t Ht. destruct (A t ltac:(lia)) as (I1 & I2 & I3 & I4 & I5 & I6). destruct (Hstep t Ht) as [Hc _].
      destruct (Hda t Ht) as (B1 & B2 & B3 & B4 & B5 & B6 & B7 & B8 & B9 & B10).
      split; [unfold solver_continue in Hc; rewrite I3 in Hc; apply andb_prop in Hc; destruct Hc as [Hc _]; apply andb_prop in Hc; apply Hc|].
      split; [exists (ss t); auto|]. split; [exact B2|]. split; [exact B3|]. split.
      { destruct (PN (Datatypes.S t) ltac:(lia) j ltac:(lia) (Nat.le_refl j)) as (_ & [l L] & _). rewrite Hds, L, nth_error_app1.
        - rewrite B6, nth_error_app2 by lia. rewrite I5, Nat.sub_diag. cbn [nth_error]. rewrite B4. reflexivity.
        - rewrite B6, app_length, I5. cbn [length]. lia. }
      split; [exact B7|]. split.
      { intros HL. destruct (PN (Datatypes.S t) ltac:(lia) j ltac:(lia) (Nat.le_refl j)) as (_ & _ & L). destruct (L HL) as [l L']. rewrite Hals, L', nth_error_app1.
        - rewrite (B8 HL), nth_error_app2 by (rewrite (I6 HL); lia). rewrite (I6 HL), Nat.sub_diag. reflexivity.
        - rewrite (B8 HL), app_length, (I6 HL). cbn [length]. lia. }
      split; [exact B9|]. intros HL HM. specialize (B10 HL HM). rewrite I1 in B10. exact B10.
  Qed.
End Trace.
