(** The second sparse variants: the same loops as the functions over the link list. *)
From Coq Require Import Reals List Arith Lia Lra.
From Coquelicot Require Import Coquelicot.
From Verif Require Import Base SpecDeriv ProofsDeriv SpecGraph ProofsGraph SpecEnsemble ProofsEnsemble.
From Verif Require Import ModelCM ModelDCM SpecDirected ProofsList ModelDECM ModelCReMa SpecCReMa.
From Verif Require Import ProofsCReMa ProofsMainCReMa ProofsSparseCReMa ProofsDirCReMa ProofsDirSparseCReMa.
Local Open Scope R_scope.
Import ListNotations.

Section OFold.
  Context {A : Type}.
  Definition ofold {E : Type} (l : list E) (a : option A) (b : E -> A -> option A) : option A :=
    fold_left (fun a e => obind a (b e)) l a.

  Lemma ofold_none {E} (l : list E) b : ofold l None b = None.
  Proof. unfold ofold. induction l; simpl; [reflexivity|assumption]. Qed.
  Lemma ofold_cons {E} (e : E) l a b : ofold (e :: l) a b = ofold l (obind a (b e)) b.
  Proof. reflexivity. Qed.
  Lemma ofold_app {E} (l1 l2 : list E) a b : ofold (l1 ++ l2) a b = ofold l2 (ofold l1 a b) b.
  Proof. unfold ofold. apply fold_left_app. Qed.
  Lemma ofold_ext {E} (l : list E) a b1 b2 :
    (forall e a, In e l -> b1 e a = b2 e a) -> ofold l a b1 = ofold l a b2.
  Proof.
    revert a. induction l as [|e l IH]; intros a H; [reflexivity|]. rewrite !ofold_cons.
    assert (Q : obind a (b1 e) = obind a (b2 e)) by (destruct a; [apply H; left; reflexivity|reflexivity]).
    rewrite Q. apply IH. intros. apply H. right. assumption.
  Qed.
  Lemma ofold_id {E} (l : list E) a b : (forall e a, In e l -> b e a = Some a) -> ofold l a b = a.
  Proof.
    revert a. induction l as [|e l IH]; intros a H; [reflexivity|]. rewrite ofold_cons.
    assert (Q : obind a (b e) = a) by (destruct a; [apply H; left; reflexivity|reflexivity]).
    rewrite Q. apply IH. intros. apply H. right. assumption.
  Qed.
  Lemma ofold_flat {I E} (l : list I) (g : I -> list E) (b : E -> A -> option A) a :
    ofold (flat_map g l) a b = ofold l a (fun i a => ofold (g i) (Some a) b).
  Proof.
    revert a. induction l as [|i l IH]; intros a; [reflexivity|]. cbn [flat_map]. rewrite ofold_app, ofold_cons, IH.
    destruct a; [reflexivity|]. rewrite ofold_none. reflexivity.
  Qed.
  Lemma ofold_filter {E} (l : list E) keep (b : E -> A -> option A) a :
    (forall e a, In e l -> keep e = false -> b e a = Some a) -> ofold (filter keep l) a b = ofold l a b.
  Proof.
    revert a. induction l as [|e l IH]; intros a H; [reflexivity|]. cbn [filter]. rewrite ofold_cons.
    assert (H' : forall e0 a0, In e0 l -> keep e0 = false -> b e0 a0 = Some a0) by (intros; apply H; [right|]; assumption).
    destruct (keep e) eqn:K.
    - rewrite ofold_cons. apply IH. exact H'.
    - rewrite (IH a H'). f_equal. destruct a; [|reflexivity]. simpl. symmetry. apply H; [left; reflexivity|exact K].
  Qed.
  Lemma ofold_map {I E} (h : I -> E) (l : list I) (b : E -> A -> option A) a :
    ofold (map h l) a b = ofold l a (fun i => b (h i)).
  Proof. revert a. induction l as [|i l IH]; intros a; [reflexivity|]. cbn [map]. rewrite !ofold_cons. apply IH. Qed.

  Lemma oloop_ofold n a b : oloop n a b = ofold (seq 0 n) (Some a) b.
  Proof. reflexivity. Qed.
  Lemma olloop_ofold l a b : olloop l a b = ofold l (Some a) b.
  Proof. reflexivity. Qed.
  Lemma eloop_ofold es a (b : nat -> nat -> R -> A -> option A) :
    eloop es a b = ofold es (Some a) (fun e => b (fst (fst e)) (snd (fst e)) (snd e)).
  Proof. reflexivity. Qed.

  Lemma seq_add_map k m : seq k m = map (fun d => (k + d)%nat) (seq 0 m).
  Proof.
    revert k. induction m as [|m IH]; intros k; [reflexivity|]. rewrite !seq_S, map_app, <- IH. reflexivity.
  Qed.

  (** A loop over the list of non-zero entries of one row. *)
  Lemma row_loop n keep p i a (b : nat -> nat -> R -> A -> option A) :
    ofold (row_edges n keep p i) a (fun e => b (fst (fst e)) (snd (fst e)) (snd e)) =
    ofold (seq 0 n) a (fun j a => if keep j then if Req_EM_T (p i j) 0 then Some a else b i j (p i j) a else Some a).
  Proof.
    unfold row_edges. rewrite ofold_flat. apply ofold_ext. intros j a' _.
    destruct (keep j); [|reflexivity]. destruct (Req_EM_T (p i j) 0); reflexivity.
  Qed.
End OFold.

(** * Undirected *)
Lemma iterative_crema_sparse_2_eq n s x beta :
  (forall i, (i < n)%nat -> 0 <= x i) ->
  iterative_crema_sparse_2 n s x beta = iterative_crema_undirected n s (triu_edges n (pmatrix_cm x)) beta.
Proof.
  intros Hx. unfold iterative_crema_sparse_2, iterative_crema_undirected. f_equal.
  rewrite eloop_ofold. unfold triu_edges. rewrite ofold_flat, oloop_ofold. apply ofold_ext.
  intros i f Hi. apply in_seq in Hi.
  match goal with |- _ = ofold _ _ (fun e => ?b) =>
    match type of f with ?T =>
    refine (eq_trans _ (eq_sym (row_loop n _ (pmatrix_cm x) i (Some f) (fun i j w (f : T) =>
      obind (sdiv (beta j) (beta i)) (fun q =>
      obind (sdiv w (1 + q)) (fun d =>
      let f := upd f i (f i - d) in
      obind (sdiv (beta i) (beta j)) (fun q =>
      obind (sdiv w (1 + q)) (fun d =>
      Some (upd f j (f j - d)))))))))) end end.
  replace (seq 0 n) with (seq 0 (i + 1) ++ seq (i + 1) (n - (i + 1))) by (pose proof (seq_app (i + 1) (n - (i + 1)) 0) as Q; rewrite Nat.add_0_l in Q; rewrite <- Q; f_equal; lia).
  rewrite ofold_app, (ofold_id (seq 0 (i + 1))).
  - rewrite oloop_ofold, (seq_add_map (i + 1)), ofold_map. apply ofold_ext. intros d g Hd. apply in_seq in Hd.
    assert (Hj : (i + 1 + d < n)%nat) by lia. cbv zeta.
    rewrite (proj2 (Nat.leb_le i (i + 1 + d))) by lia.
    assert (Hp : pmatrix_cm x i (i + 1 + d) = x i * x (i + 1 + d)%nat / (1 + x i * x (i + 1 + d)%nat)).
    { unfold pmatrix_cm. rewrite (proj2 (Nat.ltb_lt i (i + 1 + d))) by lia. reflexivity. }
    pose proof (Rmult_le_pos _ _ (Hx i ltac:(lia)) (Hx (i + 1 + d)%nat Hj)) as P.
    rewrite sdiv_some by lra. cbn [obind]. rewrite <- Hp.
    assert (Q : 0 <= pmatrix_cm x i (i + 1 + d)) by (rewrite Hp; apply Rdiv_le_0_compat; lra).
    destruct (Rlt_dec 0 (pmatrix_cm x i (i + 1 + d))), (Req_EM_T (pmatrix_cm x i (i + 1 + d)) 0); try lra; reflexivity.
  - intros j g Hj. apply in_seq in Hj. destruct (Nat.leb_spec i j); [|reflexivity].
    assert (j = i) as -> by lia.
    destruct (Req_EM_T (pmatrix_cm x i i) 0) as [|N]; [reflexivity|]. exfalso. apply N.
    unfold pmatrix_cm. rewrite Nat.ltb_irrefl. reflexivity.
Qed.

(** * Directed *)
Lemma iterative_crema_dir_sparse_2_eq n s_out s_in x y nzo nzi beta :
  (forall i, (i < n)%nat -> 0 <= x i) -> (forall i, (i < n)%nat -> 0 <= y i) ->
  iterative_crema_directed_sparse_2 n s_out s_in x y nzo nzi beta =
  iterative_crema_directed n s_out s_in (all_edges n (dcm_prob x y)) nzo nzi beta.
Proof.
  intros Hx Hy. unfold iterative_crema_directed_sparse_2, iterative_crema_directed. f_equal.
  rewrite eloop_ofold. unfold all_edges. rewrite ofold_flat, olloop_ofold. unfold nonzero_of at 1.
  assert (Inner : forall i (f : nat -> R), (i < n)%nat ->
    olloop (nonzero_of n y) f (fun j f =>
      if negb (Nat.eqb i j) then
        obind (sdiv (x i * y j) (1 + x i * y j)) (fun aux_entry =>
        if Rlt_dec 0 aux_entry then
          obind (sdiv (beta (j + n)%nat) (beta i)) (fun q =>
          obind (sdiv aux_entry (1 + q)) (fun d =>
          let f := upd f i (f i - d) in
          obind (sdiv (beta i) (beta (j + n)%nat)) (fun q =>
          obind (sdiv aux_entry (1 + q)) (fun d =>
          Some (upd f (j + n)%nat (f (j + n)%nat - d))))))
        else Some f)
      else Some f) =
    ofold (seq 0 n) (Some f) (fun j f => if Req_EM_T (dcm_prob x y i j) 0 then Some f else
          obind (sdiv (beta (j + n)%nat) (beta i)) (fun q =>
          obind (sdiv (dcm_prob x y i j) (1 + q)) (fun d =>
          let f := upd f i (f i - d) in
          obind (sdiv (beta i) (beta (j + n)%nat)) (fun q =>
          obind (sdiv (dcm_prob x y i j) (1 + q)) (fun d =>
          Some (upd f (j + n)%nat (f (j + n)%nat - d)))))))).
  { intros i f Hi. rewrite olloop_ofold. unfold nonzero_of.
    assert (Step : forall j (g : nat -> R), (j < n)%nat ->
      (if negb (Nat.eqb i j) then
        obind (sdiv (x i * y j) (1 + x i * y j)) (fun aux_entry =>
        if Rlt_dec 0 aux_entry then
          obind (sdiv (beta (j + n)%nat) (beta i)) (fun q =>
          obind (sdiv aux_entry (1 + q)) (fun d =>
          let f := upd g i (g i - d) in
          obind (sdiv (beta i) (beta (j + n)%nat)) (fun q =>
          obind (sdiv aux_entry (1 + q)) (fun d =>
          Some (upd f (j + n)%nat (f (j + n)%nat - d))))))
        else Some g)
      else Some g) = if Req_EM_T (dcm_prob x y i j) 0 then Some g else
          obind (sdiv (beta (j + n)%nat) (beta i)) (fun q =>
          obind (sdiv (dcm_prob x y i j) (1 + q)) (fun d =>
          let f := upd g i (g i - d) in
          obind (sdiv (beta i) (beta (j + n)%nat)) (fun q =>
          obind (sdiv (dcm_prob x y i j) (1 + q)) (fun d =>
          Some (upd f (j + n)%nat (f (j + n)%nat - d))))))).
    { intros j g Hj. rewrite (guard_step n x y Hx Hy _ i j) by assumption.
      pose proof (p_nonneg n x y Hx Hy i j Hi Hj) as P.
      destruct (Rlt_dec 0 (dcm_prob x y i j)), (Req_EM_T (dcm_prob x y i j) 0); try lra; reflexivity. }
    rewrite ofold_filter.
    - apply ofold_ext. intros j g Hj. apply in_seq in Hj. apply Step. lia.
    - intros j g Hj K. apply in_seq in Hj. rewrite Step by lia.
      destruct (Req_EM_T (y j) 0) as [Z|]; [|discriminate].
      destruct (Req_EM_T (dcm_prob x y i j) 0) as [|N]; [reflexivity|]. exfalso. apply N. apply p_zero_y. exact Z. }
  rewrite ofold_filter.
  - apply ofold_ext. intros i f Hi. apply in_seq in Hi. cbv zeta in Inner |- *.
    rewrite Inner by lia.
    symmetry. exact (row_loop n (fun _ => true) (dcm_prob x y) i (Some f) (fun i j w (f : nat -> R) =>
      obind (sdiv (beta (j + n)%nat) (beta i)) (fun q =>
      obind (sdiv w (1 + q)) (fun d =>
      let f := upd f i (f i - d) in
      obind (sdiv (beta i) (beta (j + n)%nat)) (fun q =>
      obind (sdiv w (1 + q)) (fun d =>
      Some (upd f (j + n)%nat (f (j + n)%nat - d)))))))).
  - intros i f Hi K. apply in_seq in Hi. destruct (Req_EM_T (x i) 0) as [Z|]; [|discriminate].
    cbv zeta in Inner |- *. rewrite Inner by lia. apply ofold_id. intros j g Hj.
    destruct (Req_EM_T (dcm_prob x y i j) 0) as [|N]; [reflexivity|]. exfalso. apply N. apply p_zero_x. exact Z.
Qed.

Section Dir2.
  Variables (n : nat) (x y beta : nat -> R).
  Hypothesis Hx : forall i, (i < n)%nat -> 0 <= x i.
  Hypothesis Hy : forall i, (i < n)%nat -> 0 <= y i.
  Local Notation p := (dcm_prob x y).
  Local Notation es := (all_edges n (dcm_prob x y)).
  Hypothesis HD : crema_dir_dom n es beta.

  Lemma diag_crema_dir_sparse_2_eq r : (r < n + n)%nat ->
    oentry (loglikelihood_hessian_diag_crema_directed_sparse_2 n x y beta) r =
    oentry (loglikelihood_hessian_diag_crema_directed n es beta) r.
  Proof.
    intros Hr. rewrite (diag_crema_dir_eq n es).
    destruct (diag_crema_some (sh n es) beta (proj2 (sh_dom n es beta) HD)) as (D & ED & OD). rewrite ED. cbn [oentry]. rewrite OD.
    set (q1 := fun i j => p i j / (beta i + beta (j + n)%nat) ^ 2).
    set (q2 := fun i j => p j i / (beta j + beta (i + n)%nat) ^ 2).
    set (g := fun r i => rsum n (fun j => (if Nat.eqb i r then - q1 i j else 0) + (if Nat.eqb (i + n) r then - q2 i j else 0))).
    unfold loglikelihood_hessian_diag_crema_directed_sparse_2.
    match goal with |- context [oloop n ?f0 ?b] =>
      destruct (oloop_obs (fun k (f : nat -> R) => f k) n b g f0) as (F & EF & OF) end.
    - intros i f Hi. cbv beta.
      match goal with |- context [oloop n f ?b] =>
        destruct (oloop_obs (fun k (f : nat -> R) => f k) n b
          (fun r j => (if Nat.eqb i r then - q1 i j else 0) + (if Nat.eqb (i + n) r then - q2 i j else 0)) f) as (F & EF & OF) end.
      + intros j f' Hj. cbv zeta. destruct (Nat.eqb_spec i j) as [->|Hn]; cbn [negb].
        * exists f'. split; [reflexivity|]. intros k. unfold q1, q2. rewrite p_diag.
          destruct (Nat.eqb j k), (Nat.eqb (j + n) k); unfold Rdiv; ring.
        * rewrite (sdiv_some (x i * y j)) by (apply (dp_ne n x y Hx Hy); assumption). cbn [obind].
          rewrite <- (p_off x y i j Hn).
          assert (S1 : exists f1, (if Rlt_dec 0 (p i j) then
              obind (sdiv (p i j) ((beta i + beta (j + n)%nat) ^ 2)) (fun d => Some (upd f' i (f' i - d))) else Some f') = Some f1 /\
              forall k, f1 k = f' k + (if Nat.eqb i k then - q1 i j else 0)).
          { destruct (Rlt_dec 0 (p i j)) as [Hp|Hp].
            - pose proof (es_dom n x y beta HD i j Hi Hj Hp) as Q.
              rewrite sdiv_some by (apply pow_nonzero; lra). cbn [obind]. eexists; split; [reflexivity|].
              intros k. unfold q1. destruct (Nat.eqb_spec i k) as [->|]; [rewrite upd_eq; ring|rewrite upd_neq by auto; ring].
            - eexists; split; [reflexivity|]. intros k. unfold q1. pose proof (p_nonneg n x y Hx Hy i j Hi Hj).
              replace (p i j) with 0 by lra. destruct (Nat.eqb i k); unfold Rdiv; ring. }
          destruct S1 as (f1 & E1 & O1). rewrite E1. cbn [obind].
          rewrite (sdiv_some (x j * y i)) by (apply (dp_ne n x y Hx Hy); assumption). cbn [obind].
          rewrite <- (p_off x y j i) by auto.
          destruct (Rlt_dec 0 (p j i)) as [Hp|Hp].
          -- pose proof (es_dom n x y beta HD j i Hj Hi Hp) as Q.
             rewrite sdiv_some by (apply pow_nonzero; lra). cbn [obind]. eexists; split; [reflexivity|].
             intros k. unfold q2. destruct (Nat.eqb_spec (i + n) k) as [<-|].
             ++ rewrite upd_eq, O1. ring.
             ++ rewrite upd_neq by auto. rewrite O1. ring.
          -- eexists; split; [reflexivity|]. intros k. rewrite O1. unfold q2. pose proof (p_nonneg n x y Hx Hy j i Hj Hi).
             replace (p j i) with 0 by lra. destruct (Nat.eqb (i + n) k); unfold Rdiv; ring.
      + exists F. split; [exact EF|]. exact OF.
    - rewrite EF. cbn [oentry]. f_equal. rewrite OF, Rplus_0_l. unfold g.
      destruct (Nat.lt_ge_cases r n) as [Hl|Hl].
      + rewrite (esum_ext _ _ (fun i j w => hit i j r * (- (w / (beta i + beta j) ^ 2)))) by (intros; ring).
        rewrite (esum_sh_out n x y (fun i j w => - (w / (beta i + beta j) ^ 2))) by (try exact Hl; intros; unfold Rdiv; ring).
        refine (eq_trans _ (rsum_single n r (fun i => rsum n (fun j => - q1 i j)) Hl)). apply rsum_ext. intros i Hi.
        destruct (Nat.eqb_spec i r) as [->|].
        * apply rsum_ext. intros j Hj. rewrite (proj2 (Nat.eqb_neq (r + n) r)) by lia. ring.
        * apply rsum_zero. intros j Hj. rewrite (proj2 (Nat.eqb_neq (i + n) r)) by lia. ring.
      + set (k := (r - n)%nat). assert (Hk : (k < n)%nat) by (unfold k; lia). replace r with (k + n)%nat by (unfold k; lia).
        rewrite (esum_ext _ _ (fun i j w => hit i j (k + n) * (- (w / (beta i + beta j) ^ 2)))) by (intros; ring).
        rewrite (esum_sh_in n x y (fun i j w => - (w / (beta i + beta j) ^ 2))) by (try exact Hk; intros; unfold Rdiv; ring).
        refine (eq_trans _ (rsum_single n k (fun i => rsum n (fun j => - q2 i j)) Hk)). apply rsum_ext. intros i Hi.
        destruct (Nat.eqb_spec i k) as [->|].
        * apply rsum_ext. intros j Hj. rewrite (proj2 (Nat.eqb_neq k (k + n))) by lia. rewrite Nat.eqb_refl. ring.
        * apply rsum_zero. intros j Hj. rewrite (proj2 (Nat.eqb_neq i (k + n))) by lia. rewrite (proj2 (Nat.eqb_neq (i + n) (k + n))) by lia. ring.
  Qed.

  Section Str2.
    Variables (s_out s_in : nat -> R) (nzo nzi : list nat).
    Hypothesis Ho : nonzero_list n s_out nzo.
    Hypothesis Hi : nonzero_list n s_in nzi.
    Hypothesis Cx : forall i, (i < n)%nat -> (x i <> 0 <-> s_out i <> 0).
    Hypothesis Cy : forall i, (i < n)%nat -> (y i <> 0 <-> s_in i <> 0).

    Lemma lsum_nonzero_of v (g : nat -> R) : (forall i, (i < n)%nat -> v i = 0 -> g i = 0) -> lsum (nonzero_of n v) g = rsum n g.
    Proof.
      intros H. destruct (nonzero_of_spec n v) as [N S].
      apply (lsum_nz_out n v v (nonzero_of n v)); [split; [exact N|exact S]| |exact H]. intros; reflexivity.
    Qed.

    Lemma prime_crema_dir_sparse_2_eq r : (r < n + n)%nat ->
      oentry (loglikelihood_prime_crema_directed_sparse_2 n s_out s_in x y beta) r =
      oentry (loglikelihood_prime_crema_directed n s_out s_in es nzo nzi beta) r.
    Proof.
      intros Hr. rewrite (prime_crema_dir_eq n s_out s_in es nzo nzi Ho Hi).
      destruct (prime_crema_some (n + n) (cat n s_out s_in) (sh n es) beta (proj2 (sh_dom n es beta) HD)) as (D & ED & OD).
      rewrite ED. cbn [oentry]. rewrite OD, (proj2 (Nat.ltb_lt r (n + n)) Hr).
      set (q := fun i j => p i j / (beta i + beta (j + n)%nat)).
      set (h := fun r i j => (if Nat.eqb i r then q i j else 0) + (if Nat.eqb (j + n) r then q i j else 0)).
      unfold loglikelihood_prime_crema_directed_sparse_2.
      match goal with |- context [olloop (nonzero_of n x) ?f0 ?b] =>
        destruct (olloop_obs (fun k (f : nat -> R) => f k) (nonzero_of n x) b
          (fun r i => (if Nat.eqb i r then - s_out i else 0) + rsum n (h r i)) f0) as (F & EF & OF) end.
      - intros i f Hin. assert (Hlt : (i < n)%nat) by (apply (proj2 (nonzero_of_spec n x)); exact Hin). cbv beta zeta.
        match goal with |- context [olloop (nonzero_of n y) ?f0 ?b] =>
          destruct (olloop_obs (fun k (f : nat -> R) => f k) (nonzero_of n y) b (fun r j => h r i j) f0) as (F & EF & OF) end.
        + intros j f' Hjn. assert (Hj : (j < n)%nat) by (apply (proj2 (nonzero_of_spec n y)); exact Hjn).
          rewrite (guard_step n x y Hx Hy) by assumption. destruct (Rlt_dec 0 (p i j)) as [Hp|Hp].
          * pose proof (es_dom n x y beta HD i j Hlt Hj Hp). rewrite sdiv_some by lra. cbn [obind]. eexists; split; [reflexivity|].
            intros k. unfold h, q. destruct (Nat.eqb_spec (j + n) k) as [<-|Hjk].
            -- rewrite upd_eq, upd_neq by lia. rewrite (proj2 (Nat.eqb_neq i (j + n))) by lia. ring.
            -- rewrite upd_neq by auto. destruct (Nat.eqb_spec i k) as [->|Hik]; [rewrite upd_eq|rewrite upd_neq by auto]; ring.
          * exists f'. split; [reflexivity|]. intros k. unfold h, q. pose proof (p_nonneg n x y Hx Hy i j Hlt Hj).
            replace (p i j) with 0 by lra. destruct (Nat.eqb i k), (Nat.eqb (j + n) k); unfold Rdiv; ring.
        + exists F. split; [exact EF|]. intros k. rewrite OF, (lsum_nonzero_of y).
          * change (rsum n (fun j => h k i j)) with (rsum n (h k i)). destruct (Nat.eqb_spec i k) as [->|Hik]; [rewrite upd_eq; ring|rewrite upd_neq by auto; ring].
          * intros j Hj Z. unfold h, q. rewrite (p_zero_y x y i j Z). destruct (Nat.eqb i k), (Nat.eqb (j + n) k); unfold Rdiv; ring.
      - cbv zeta in EF |- *. rewrite EF. cbn [obind oentry]. f_equal.
        assert (L : forall l f, lloop l f (fun j f => upd f (j + n)%nat (f (j + n)%nat - s_in j)) r =
          f r + lsum l (fun j => if Nat.eqb (j + n) r then - s_in j else 0)).
        { unfold lloop. induction l as [|j l IH]; intros f; simpl; [ring|]. rewrite IH.
          destruct (Nat.eqb_spec (j + n) r) as [<-|]; [rewrite upd_eq; ring|rewrite upd_neq by auto; ring]. }
        rewrite L, OF, !lsum_nonzero_of.
        + rewrite Rplus_0_l, rsum_plus. unfold cat. destruct (Nat.ltb_spec r n) as [Hl|Hl].
          * rewrite (cE_out n x y) by exact Hl.
            rewrite (rsum_single n r (fun i => - s_out i) Hl).
            rewrite (rsum_zero n (fun j => if Nat.eqb (j + n) r then - s_in j else 0)).
            2: { intros j Hj. rewrite (proj2 (Nat.eqb_neq (j + n) r)) by lia. reflexivity. }
            rewrite (rsum_ext n (fun i => rsum n (h r i)) (fun i => if Nat.eqb i r then rsum n (q i) else 0)).
            -- rewrite (rsum_single n r (fun i => rsum n (q i)) Hl). change (rsum n (fun j => p r j / (beta r + beta (j + n)%nat))) with (rsum n (q r)). ring.
            -- intros i Hlt. destruct (Nat.eqb_spec i r) as [->|Hn].
               ++ apply rsum_ext. intros j Hj. unfold h. rewrite Nat.eqb_refl, (proj2 (Nat.eqb_neq (j + n) r)) by lia. ring.
               ++ apply rsum_zero. intros j Hj. unfold h. rewrite (proj2 (Nat.eqb_neq i r) Hn), (proj2 (Nat.eqb_neq (j + n) r)) by lia. ring.
          * set (k := (r - n)%nat). assert (Hk : (k < n)%nat) by (unfold k; lia). replace r with (k + n)%nat by (unfold k; lia).
            rewrite (cE_in n x y) by exact Hk.
            rewrite (rsum_zero n (fun j => if Nat.eqb j (k + n) then - s_out j else 0)).
            2: { intros j Hj. rewrite (proj2 (Nat.eqb_neq j (k + n))) by lia. reflexivity. }
            rewrite (rsum_ext n (fun j => if Nat.eqb (j + n) (k + n) then - s_in j else 0) (fun j => if Nat.eqb j k then - s_in j else 0)).
            2: { intros j Hj. destruct (Nat.eqb_spec (j + n) (k + n)), (Nat.eqb_spec j k); try lia; reflexivity. }
            rewrite (rsum_single n k (fun i => - s_in i) Hk).
            rewrite (rsum_ext n (fun i => rsum n (h (k + n)%nat i)) (fun i => q i k)); [change (rsum n (fun i => p i k / (beta i + beta (k + n)%nat))) with (rsum n (fun i => q i k)); ring|].
            intros i Hlt. rewrite <- (rsum_single n k (fun j => q i j) Hk). apply rsum_ext. intros j Hj. unfold h.
            rewrite (proj2 (Nat.eqb_neq i (k + n))) by lia.
            destruct (Nat.eqb_spec (j + n) (k + n)), (Nat.eqb_spec j k); try lia; ring.
        + intros i Hlt Z. assert (Zs : s_in i = 0).
          { destruct (Req_EM_T (s_in i) 0) as [Z'|Z']; [exact Z'|]. exfalso. exact (proj2 (Cy i Hlt) Z' Z). }
          rewrite Zs. destruct (Nat.eqb (i + n) r); ring.
        + intros i Hlt Z. assert (Zs : s_out i = 0).
          { destruct (Req_EM_T (s_out i) 0) as [Z'|Z']; [exact Z'|]. exfalso. exact (proj2 (Cx i Hlt) Z' Z). }
          rewrite Zs, rsum_zero; [destruct (Nat.eqb i r); ring|].
          intros j Hj. unfold h, q. rewrite (p_zero_x x y i j Z). destruct (Nat.eqb i r), (Nat.eqb (j + n) r); unfold Rdiv; ring.
    Qed.
  End Str2.
End Dir2.

Lemma dir_sparse_prime_2 n s_out s_in x y nzo nzi beta r :
  (forall i, (i < n)%nat -> 0 <= x i) -> (forall i, (i < n)%nat -> 0 <= y i) ->
  nonzero_list n s_out nzo -> nonzero_list n s_in nzi ->
  (forall i, (i < n)%nat -> (x i <> 0 <-> s_out i <> 0)) -> (forall i, (i < n)%nat -> (y i <> 0 <-> s_in i <> 0)) ->
  crema_dir_dom n (all_edges n (dcm_prob x y)) beta -> (r < n + n)%nat ->
  oentry (loglikelihood_prime_crema_directed_sparse_2 n s_out s_in x y beta) r =
  oentry (loglikelihood_prime_crema_directed n s_out s_in (all_edges n (dcm_prob x y)) nzo nzi beta) r.
Proof. intros Hx Hy Ho Hi Cx Cy HD Hr. apply prime_crema_dir_sparse_2_eq; assumption. Qed.
Lemma dir_sparse_diag_2 n x y beta r :
  (forall i, (i < n)%nat -> 0 <= x i) -> (forall i, (i < n)%nat -> 0 <= y i) ->
  crema_dir_dom n (all_edges n (dcm_prob x y)) beta -> (r < n + n)%nat ->
  oentry (loglikelihood_hessian_diag_crema_directed_sparse_2 n x y beta) r =
  oentry (loglikelihood_hessian_diag_crema_directed n (all_edges n (dcm_prob x y)) beta) r.
Proof. intros Hx Hy HD Hr. apply diag_crema_dir_sparse_2_eq; assumption. Qed.

(** Two nodes of fitness 1 and one of fitness 0: one pair, of probability 1/2. *)
Definition x2 (i : nat) : R := match i with 0%nat | 1%nat => 1 | _ => 0 end.
Lemma x2_facts :
  (forall i, (i < 3)%nat -> 0 <= x2 i) /\
  crema_dom (triu_edges 3 (pmatrix_cm x2)) (fun _ => 1) /\
  crema_dir_dom 3 (all_edges 3 (dcm_prob x2 x2)) (fun _ => 1) /\
  oentry (iterative_crema_sparse_2 3 x2 x2 (fun _ => 1)) 0 = Some (- (1 / 4)) /\
  oentry (loglikelihood_prime_crema_directed_sparse_2 3 x2 x2 x2 x2 (fun _ => 1)) 0 = Some (- (3 / 4)) /\
  oentry (loglikelihood_hessian_diag_crema_directed_sparse_2 3 x2 x2 (fun _ => 1)) 4 = Some (- (1 / 8)).
Proof.
  assert (N : forall i, (i < 3)%nat -> 0 <= x2 i) by (intros i H; unfold x2; destruct i as [|[|i]]; lra).
  assert (D : crema_dom (triu_edges 3 (pmatrix_cm x2)) (fun _ => 1)) by (intros i j w _; lra).
  assert (DD : crema_dir_dom 3 (all_edges 3 (dcm_prob x2 x2)) (fun _ => 1)) by (intros i j w _; lra).
  assert (NZ : nonzero_list 3 x2 (nonzero_of 3 x2)) by (apply nonzero_of_spec).
  split; [exact N|]. split; [exact D|]. split; [exact DD|]. split; [|split].
  - rewrite iterative_crema_sparse_2_eq by exact N.
    destruct (iterative_crema_some 3 x2 (triu_edges 3 (pmatrix_cm x2)) (fun _ => 1) D) as (F & E & O).
    { intros i j w _. split; lra. }
    rewrite E. cbn [oentry]. f_equal. rewrite O by lia. cbn [x2]. destruct (Req_EM_T 1 0); [lra|].
    unfold cE. rewrite (esum_pmatrix_hit 3 x2 (fun i j w => w / (1 + 1))); try lia.
    + unfold rsum, pf, x2. simpl. lra.
    + intros. lra.
    + intros. reflexivity.
  - rewrite (dir_sparse_prime_2 3 x2 x2 x2 x2 (nonzero_of 3 x2) (nonzero_of 3 x2)); try assumption; try lia; try (intros; reflexivity).
    rewrite (prime_crema_dir_eq 3 x2 x2 _ _ _ NZ NZ).
    destruct (prime_crema_some (3 + 3) (cat 3 x2 x2) (sh 3 (all_edges 3 (dcm_prob x2 x2))) (fun _ => 1) (proj2 (sh_dom 3 _ _) DD)) as (F & E & O).
    rewrite E. cbn [oentry]. f_equal. rewrite O, cE_out by (try assumption; lia). unfold cat, rsum, dcm_prob, x2. simpl. lra.
  - rewrite dir_sparse_diag_2; try assumption; try lia. rewrite diag_crema_dir_eq.
    destruct (diag_crema_some (sh 3 (all_edges 3 (dcm_prob x2 x2))) (fun _ => 1) (proj2 (sh_dom 3 _ _) DD)) as (F & E & O).
    rewrite E. cbn [oentry]. f_equal. rewrite O.
    rewrite (esum_ext _ _ (fun i j w => hit i j (1 + 3) * (- (w / (1 + 1) ^ 2)))) by (intros; change 4%nat with (1 + 3)%nat; ring).
    rewrite (esum_sh_in 3 x2 x2 (fun i j w => - (w / (1 + 1) ^ 2))) by (try lia; intros; unfold Rdiv; ring).
    unfold rsum, dcm_prob, x2. simpl. lra.
Qed.
