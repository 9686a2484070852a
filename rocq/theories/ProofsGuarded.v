(** What a run reads off the calls of functions that may raise. *)
From Coq Require Import Reals List Arith Bool String Lra Lia.
From Verif Require Import Base SpecLinsearch ModelCM ModelECM ModelDCM ModelDECM ModelCReMa ModelIEEE ModelLinsearch ModelSolver ModelDispatch ModelRun.
Import ListNotations.
Local Open Scope R_scope.

Lemma forallb_ext_in {A} (p p' : A -> bool) l : (forall a, In a l -> p a = p' a) -> forallb p l = forallb p' l.
Proof. induction l as [|a l IH]; intros H; [reflexivity|]. cbn [forallb]. rewrite H by (left; reflexivity). rewrite IH by (intros; apply H; right; assumption). reflexivity. Qed.
Lemma guarded_vec m g (h f : nat -> R) :
  real_vec m (obind (guarded g (vec h)) (fun v => Some (ModelDispatch.vneg v))) = Some f -> g = true /\ (fun i => - h i) = f.
Proof.
  destruct g; [|discriminate]. intros E. split; [reflexivity|]. cbn in E. unfold all_fin in E.
  destruct (forallb _ _) in E; [|discriminate]. injection E as <-. reflexivity.
Qed.
Lemma guarded_mat m g (h H : nat -> nat -> R) :
  real_mat m (obind (guarded g (mat h)) (fun v => Some (ModelDispatch.vneg v))) = Some H -> g = true /\ (fun i j => - h i j) = H.
Proof.
  destruct g; [|discriminate]. intros E. split; [reflexivity|]. cbn in E.
  destruct (forallb _ _) in E; [|discriminate]. injection E as <-. reflexivity.
Qed.
Lemma guarded_vec_none m g (h : nat -> R) : g = false -> real_vec m (obind (guarded g (vec h)) (fun v => Some (ModelDispatch.vneg v))) = None.
Proof. intros ->. reflexivity. Qed.
(** An accepted step of the line search at two points where the objective is finite. *)
Lemma armijo_fin N (obj : (nat -> R) -> fval) (L : (nat -> R) -> R) x dx f a :
  obj x = Fin (L x) -> obj (moved x a dx) = Fin (L (moved x a dx)) -> armijo N obj x dx f a ->
  L x - / 10000 * a * SpecLinsearch.scalar N f dx < L (moved x a dx).
Proof. intros E1 E2 H. unfold armijo in H. rewrite E1, E2 in H. exact H. Qed.
Lemma objective_at name a x v : run_entry (Pos name) a x = Some (VNum v) -> objective name a x = v.
Proof. intros E. unfold objective. rewrite E. reflexivity. Qed.

(** ** The gradient of DECM_exp, whose quotients are numpy's *)
Lemma loop_fin_inv n (a0 v : R) (b : nat -> fval -> fval) (c : nat -> R -> R) :
  (forall i a w, (i < n)%nat -> b i a = Fin w -> exists a', a = Fin a' /\ w = c i a') -> loop n (Fin a0) b = Fin v -> v = loop n a0 c.
Proof.
  revert v. induction n as [|n IH]; intros v H E.
  - rewrite loop_0; rewrite loop_0 in E. injection E as ->. reflexivity.
  - rewrite loop_S; rewrite loop_S in E. destruct (H _ _ _ (Nat.lt_succ_diag_r n) E) as (a' & E1 & ->). rewrite (IH a'); [reflexivity| |exact E1].
    intros i a w Hi. apply H. lia.
Qed.
Lemma fdecm_exp_prime_inv n ko ki so si x r v : floglikelihood_prime_decm_exp n ko ki so si x r = Fin v ->
  v = loglikelihood_prime_decm_exp n ko ki so si x r.
Proof.
  unfold floglikelihood_prime_decm_exp, loglikelihood_prime_decm_exp, by_block. cbv zeta.
  assert (S : forall i a (f : nat -> fval) (g : nat -> R), (forall j w, f j = Fin w -> w = g j) ->
    fadd (Fin a) (loop n (Fin 0) (fun j acc => if negb (Nat.eqb i j) then fadd acc (f j) else acc)) = Fin v ->
    v = a + loop n 0 (fun j acc => if negb (Nat.eqb i j) then acc + g j else acc)).
  { intros i a f g H E. destruct (loop n (Fin 0) _) as [b| | |] eqn:Eb in E; try discriminate E. cbn [fadd] in E. injection E as <-. f_equal.
    refine (loop_fin_inv n 0 b _ _ _ Eb). intros j a' w _. cbv beta. destruct (Nat.eqb i j); cbn [negb].
    - intros ->. exists w. auto.
    - destruct a' as [a1| | |], (f j) as [a2| | |] eqn:Ej; cbn [fadd]; intros E; try discriminate E. injection E as <-. exists a1. split; [reflexivity|].
      f_equal. apply H. exact Ej. }
  assert (Q : forall a b w, fdiv a b = Fin w -> w = a / b).
  { intros a b w. unfold fdiv. destruct (Req_EM_T b 0); [|intros E; injection E; auto]. destruct (Req_EM_T a 0); [discriminate|]. destruct (Rlt_dec 0 a); discriminate. }
  destruct (blk n r) as [|[|[|]]]; intros E; refine (S _ _ _ _ _ E); intros j w; apply Q.
Qed.
Lemma fdecm_exp_prime_agree n ko ki so si z z' r : (forall r, (r < 4 * n)%nat -> z r = z' r) -> (r < 4 * n)%nat ->
  floglikelihood_prime_decm_exp n ko ki so si z r = floglikelihood_prime_decm_exp n ko ki so si z' r.
Proof.
  intros HA Hr. unfold floglikelihood_prime_decm_exp, by_block. cbv zeta.
  assert (P : (pos n r < n)%nat) by (unfold pos, blk; repeat match goal with |- context [Nat.ltb ?p ?q] => destruct (Nat.ltb_spec p q) end; lia).
  revert P. generalize (pos n r). intros i P. destruct (blk n r) as [|[|[|b]]]; f_equal; apply loop_ext; intros j f Hj; destruct (negb (Nat.eqb i j)); try reflexivity;
    rewrite ?(HA i), ?(HA j), ?(HA (i + n)%nat), ?(HA (j + n)%nat), ?(HA (i + 2 * n)%nat), ?(HA (j + 2 * n)%nat), ?(HA (i + 3 * n)%nat), ?(HA (j + 3 * n)%nat) by lia; reflexivity.
Qed.

(** ** Points that agree meet the same divisors *)
Lemma every_agree n p p' : (forall i, (i < n)%nat -> p i = p' i) -> every n p = every n p'.
Proof. intros H. unfold every. apply forallb_ext_in. intros i Hi. apply in_seq in Hi. apply H. lia. Qed.
Lemma every_pair_agree n p p' : (forall i j, (i < n)%nat -> (j < n)%nat -> p i j = p' i j) -> every_pair n p = every_pair n p'.
Proof. intros H. apply every_agree. intros i Hi. apply every_agree. intros j Hj. auto. Qed.
Lemma every_other_agree n p p' : (forall i j, (i < n)%nat -> (j < n)%nat -> p i j = p' i j) -> every_other n p = every_other n p'.
Proof. intros H. apply every_pair_agree. intros i j Hi Hj. rewrite H by assumption. reflexivity. Qed.
Lemma cm_divisors_agree n z z' : (forall r, (r < n)%nat -> z r = z' r) -> cm_divisors n z = cm_divisors n z'.
Proof. intros HA. unfold cm_divisors. f_equal; [apply every_agree; intros i Hi; rewrite HA by exact Hi; reflexivity|]. apply every_pair_agree. intros i j Hi Hj. rewrite !HA by assumption. reflexivity. Qed.
Lemma ecm_divisors_agree n z z' : (forall r, (r < 2 * n)%nat -> z r = z' r) -> ecm_divisors n z = ecm_divisors n z'.
Proof.
  intros HA. unfold ecm_divisors. f_equal; [apply every_agree; intros i Hi; rewrite !HA by lia; reflexivity|].
  apply every_other_agree. intros i j Hi Hj. rewrite !HA by lia. reflexivity.
Qed.
Lemma ecm_exp_divisors_agree n z z' : (forall r, (r < 2 * n)%nat -> z r = z' r) -> ecm_exp_divisors n z = ecm_exp_divisors n z'.
Proof. intros HA. apply every_other_agree. intros i j Hi Hj. rewrite !HA by lia. reflexivity. Qed.
Lemma decm_divisors_agree n ko ki so si z z' : (forall r, (r < 4 * n)%nat -> z r = z' r) -> decm_divisors n ko ki so si z = decm_divisors n ko ki so si z'.
Proof.
  intros HA. unfold decm_divisors. f_equal; [apply every_agree; intros i Hi; rewrite !HA by lia; reflexivity|].
  apply every_other_agree. intros i j Hi Hj. rewrite !HA by lia. reflexivity.
Qed.
Lemma dcm_divisors_agree n nzo nzi z z' : (forall i, In i nzo -> z i = z' i) -> (forall j, In j nzi -> z (j + n)%nat = z' (j + n)%nat) ->
  dcm_divisors n nzo nzi z = dcm_divisors n nzo nzi z'.
Proof.
  intros HO HI. unfold dcm_divisors. apply f_equal2; [apply f_equal2|].
  - apply forallb_ext_in. intros i Hi. rewrite (HO i Hi). reflexivity.
  - apply forallb_ext_in. intros i Hi. rewrite (HI i Hi). reflexivity.
  - apply forallb_ext_in. intros i Hi. apply forallb_ext_in. intros j Hj. rewrite (HO i Hi), (HI j Hj). reflexivity.
Qed.
