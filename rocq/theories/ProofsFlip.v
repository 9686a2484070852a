(** Exchanging the two directions of a directed network. *)
From Coq Require Import Reals List Arith Lia Lra Bool.
From Verif Require Import Base SpecDirected SpecSymmetry SpecEnsemble.
From Verif Require Import ModelDCM ModelDECM ProofsEnsemble ProofsList ProofsECM ProofsDECM ProofsRelabel ProofsEquivariant.
Local Open Scope R_scope.

Section Flip.
Variable n : nat.
Lemma flip_block i q : (i < n)%nat ->
  flip n (i + q * n) = if Nat.even q then (i + q * n + n)%nat else (i + q * n - n)%nat.
Proof.
  intros H. unfold flip. rewrite Nat.div_add by lia. rewrite (Nat.div_small i n H). reflexivity.
Qed.
Lemma flip0 i : (i < n)%nat -> flip n i = (i + n)%nat.
Proof. intros H. pose proof (flip_block i 0 H) as L. rewrite !Nat.add_0_r in L. exact L. Qed.
Lemma flip1 i : (i < n)%nat -> flip n (i + n) = i.
Proof. intros H. pose proof (flip_block i 1 H) as L. rewrite !Nat.mul_1_l in L. simpl in L. lia. Qed.
Lemma flip1' i : (i < n)%nat -> flip n (n + i) = i.
Proof. intros H. rewrite (Nat.add_comm n i). apply flip1, H. Qed.
Lemma flip2 i : (i < n)%nat -> flip n (i + 2 * n) = (i + 3 * n)%nat.
Proof. intros H. rewrite (flip_block i 2 H). simpl. lia. Qed.
Lemma flip3 i : (i < n)%nat -> flip n (i + 3 * n) = (i + 2 * n)%nat.
Proof. intros H. rewrite (flip_block i 3 H). simpl. lia. Qed.

Lemma loop_congr {A : Type} (a a' : A) b b' : a = a' ->
  (forall j acc, (j < n)%nat -> b j acc = b' j acc) -> loop n a b = loop n a' b'.
Proof. intros -> H. apply loop_ext. intros j acc Hj. apply H. exact Hj. Qed.
Lemma lloop_congr {A : Type} l (a a' : A) b b' : index_list n l -> a = a' ->
  (forall j acc, (j < n)%nat -> b j acc = b' j acc) -> lloop l a b = lloop l a' b'.
Proof. intros [_ HB] -> H. apply lloop_ext_in. intros j acc Hj. apply H. apply HB. exact Hj. Qed.

Ltac flips := cbv beta;
  repeat match goal with
  | H : (?i < n)%nat |- context [flip n ?i] => rewrite (flip0 i H)
  | H : (?i < n)%nat |- context [flip n (?i + n)] => rewrite (flip1 i H)
  | H : (?i < n)%nat |- context [flip n (n + ?i)] => rewrite (flip1' i H)
  | H : (?i < n)%nat |- context [flip n (?i + 2 * n)] => rewrite (flip2 i H)
  | H : (?i < n)%nat |- context [flip n (?i + 3 * n)] => rewrite (flip3 i H)
  end.
Ltac sqr := unfold Rdiv; rewrite ?Rpow_mult_distr, ?pow_inv.
Ltac flp :=
  match goal with
  | |- ?x = ?x => reflexivity
  | |- loop n _ _ = loop n _ _ => apply loop_congr; [flp|];
      let j := fresh "j" in let acc := fresh "acc" in let H := fresh "Hj" in
      intros j acc H; flips; flp
  | L : index_list n ?l |- lloop ?l _ _ = lloop ?l _ _ => apply (lloop_congr l _ _ _ _ L); [flp|];
      let j := fresh "j" in let acc := fresh "acc" in let H := fresh "Hj" in
      intros j acc H; flips; flp
  | |- (if Req_EM_T ?a ?c then _ else _) = (if Req_EM_T ?b ?c then _ else _) =>
      let E := fresh in assert (E : a = b) by flp; rewrite E; clear E;
      destruct (Req_EM_T b c); flp
  | |- (if ?b then _ else _) = (if ?b then _ else _) => destruct b; flp
  | |- (if (?a && ?b)%bool then _ else _) = (if (?b && ?a)%bool then _ else _) =>
      rewrite (andb_comm b a); flp
  | |- ?a * lloop ?l ?b ?f = _ * ?a => rewrite (Rmult_comm a (lloop l b f)); flp
  | |- lloop ?l ?b ?f * ?a = ?a * _ => rewrite (Rmult_comm (lloop l b f) a); flp
  | |- context [lloop _ _ _] => progress f_equal; flp
  | |- context [loop _ _ _] => progress f_equal; flp
  | |- context [Nat.eqb ?a ?b] =>
      destruct (Nat.eqb_spec a b), (Nat.eqb_spec b a); try lia; try subst a; try subst b;
      cbn [negb andb]; flp
  | |- @eq R _ _ => first [ring | sqr; ring | progress f_equal; flp | progress sqr; f_equal; flp]
  | |- _ => progress f_equal; flp
  end.
Ltac fl2 := apply coord2; intros i Hi; cbv beta; rewrite ?plus_n_minus; flips;
  rewrite ?ltb_plus_n, ?plus_n_minus, ?(proj2 (Nat.ltb_lt _ _) Hi); flips.
Ltac fl22 := apply (coord22 n (fun r t => _ = _)); intros i j Hi Hj; cbv beta;
  rewrite ?plus_n_minus; flips;
  rewrite ?ltb_plus_n, ?plus_n_minus, ?(proj2 (Nat.ltb_lt _ _) Hi), ?(proj2 (Nat.ltb_lt _ _) Hj); flips.
Ltac blocks :=
  repeat match goal with
  | H : (?i < n)%nat |- context [by_block n ?i ?a ?b ?c ?d] => rewrite (by_block0 n i H a b c d)
  | H : (?i < n)%nat |- context [by_block n (?i + n) ?a ?b ?c ?d] => rewrite (by_block1 n i H a b c d)
  | H : (?i < n)%nat |- context [by_block n (?i + 2 * n) ?a ?b ?c ?d] => rewrite (by_block2 n i H a b c d)
  | H : (?i < n)%nat |- context [by_block n (?i + 3 * n) ?a ?b ?c ?d] => rewrite (by_block3 n i H a b c d)
  end.
Ltac fl4 := apply coord4; intros i Hi; cbv beta; flips; blocks; flips.

Local Notation fl v := (fun r : nat => v (flip n r)).

(** * DBCM *)
Section DCM.
Variables (nzo nzi : list nat).
Hypothesis HO : index_list n nzo.
Hypothesis HI : index_list n nzi.

Lemma f_out_flip c x i : (i < n)%nat -> dcm_f_out n c (fl x) i = dcm_f_in n c x i.
Proof. intros Hi. unfold dcm_f_out, dcm_f_in. flips. apply loop_congr; [reflexivity|]. intros j acc Hj. flips.
  rewrite (Nat.eqb_sym j i). destruct (Nat.eqb i j); simpl; flp. Qed.
Lemma f_in_flip c x i : (i < n)%nat -> dcm_f_in n c (fl x) i = dcm_f_out n c x i.
Proof. intros Hi. unfold dcm_f_out, dcm_f_in. flips. apply loop_congr; [reflexivity|]. intros j acc Hj. flips.
  rewrite (Nat.eqb_sym j i). destruct (Nat.eqb i j); simpl; flp. Qed.
Lemma iterative_dcm_flip ko ki c x : forall r, (r < 2 * n)%nat ->
  iterative_dcm n ki ko c (fl x) r = iterative_dcm n ko ki c x (flip n r).
Proof.
  unfold iterative_dcm. fl2; [rewrite f_out_flip|rewrite f_in_flip]; auto.
Qed.
Lemma iterative_dcm_exp_flip ko ki c x : forall r, (r < 2 * n)%nat ->
  iterative_dcm_exp n ki ko c (fl x) r = iterative_dcm_exp n ko ki c x (flip n r).
Proof.
  unfold iterative_dcm_exp. cbv zeta.
  fl2; [rewrite (f_out_flip c (fun r => expneg (x r)))|rewrite (f_in_flip c (fun r => expneg (x r)))]; auto.
Qed.
Lemma prime_dcm_flip ko ki c x : forall r, (r < 2 * n)%nat ->
  loglikelihood_prime_dcm n ki ko nzi nzo c (fl x) r = loglikelihood_prime_dcm n ko ki nzo nzi c x (flip n r).
Proof.
  unfold loglikelihood_prime_dcm. cbv zeta. fl2; flp.
Qed.
Lemma prime_dcm_exp_flip ko ki c x : forall r, (r < 2 * n)%nat ->
  loglikelihood_prime_dcm_exp n ki ko nzi nzo c (fl x) r = loglikelihood_prime_dcm_exp n ko ki nzo nzi c x (flip n r).
Proof.
  unfold loglikelihood_prime_dcm_exp. cbv zeta. fl2; flp.
Qed.
Lemma hessian_diag_dcm_flip ko ki c x : forall r, (r < 2 * n)%nat ->
  loglikelihood_hessian_diag_dcm n ki ko nzi nzo c (fl x) r = loglikelihood_hessian_diag_dcm n ko ki nzo nzi c x (flip n r).
Proof.
  unfold loglikelihood_hessian_diag_dcm. cbv zeta. fl2; flp.
Qed.
Lemma hessian_diag_dcm_exp_flip c x : forall r, (r < 2 * n)%nat ->
  loglikelihood_hessian_diag_dcm_exp n nzi nzo c (fl x) r = loglikelihood_hessian_diag_dcm_exp n nzo nzi c x (flip n r).
Proof.
  unfold loglikelihood_hessian_diag_dcm_exp. cbv zeta. fl2; flp.
Qed.
Lemma iterative_dcm_exp_2_flip ko ki c x : forall r, (r < 2 * n)%nat ->
  iterative_dcm_exp_2 n ki ko nzi nzo c (fl x) r = iterative_dcm_exp_2 n ko ki nzo nzi c x (flip n r).
Proof.
  unfold iterative_dcm_exp_2. cbv zeta. fl2; flp.
Qed.
Lemma hessian_dcm_flip ko ki c x : forall r t, (r < 2 * n)%nat -> (t < 2 * n)%nat ->
  loglikelihood_hessian_dcm n ki ko nzi nzo c (fl x) r t
  = loglikelihood_hessian_dcm n ko ki nzo nzi c x (flip n r) (flip n t).
Proof.
  assert (EQ : forall i j, Nat.eqb (i + n) (j + n) = Nat.eqb i j).
  { intros i j. destruct (Nat.eqb_spec (i + n) (j + n)), (Nat.eqb_spec i j); auto; lia. }
  unfold loglikelihood_hessian_dcm. cbv zeta. fl22; rewrite ?EQ; flp.
Qed.
Lemma hessian_dcm_exp_flip c x : forall r t, (r < 2 * n)%nat -> (t < 2 * n)%nat ->
  loglikelihood_hessian_dcm_exp n nzi nzo c (fl x) r t
  = loglikelihood_hessian_dcm_exp n nzo nzi c x (flip n r) (flip n t).
Proof.
  assert (EQ : forall i j, Nat.eqb (i + n) (j + n) = Nat.eqb i j).
  { intros i j. destruct (Nat.eqb_spec (i + n) (j + n)), (Nat.eqb_spec i j); auto; lia. }
  unfold loglikelihood_hessian_dcm_exp. cbv zeta. fl22; rewrite ?EQ; flp.
Qed.
Lemma expected_dcm_flip x i : (i < n)%nat ->
  expected_out_degree_dcm n (fl x) i = expected_in_degree_dcm n x i /\
  expected_in_degree_dcm n (fl x) i = expected_out_degree_dcm n x i.
Proof.
  intros Hi. unfold expected_out_degree_dcm, expected_in_degree_dcm. cbv zeta. flips. split.
  - flp.
  - flp.
Qed.
Lemma Rplus_comm_exp a b : exp (- a - b) = exp (- b - a).
Proof. f_equal. ring. Qed.
Lemma loglik_dcm_flip ko ki c x :
  loglikelihood_dcm n ki ko nzi nzo c (fl x) = loglikelihood_dcm n ko ki nzo nzi c x.
Proof.
  unfold loglikelihood_dcm. cbv zeta.
  set (g := fun i j => if negb (Nat.eqb i j) then c i * c j * ln (1 + x i * x (n + j)%nat) else c i * (c i - 1) * ln (1 + x i * x (n + j)%nat)).
  assert (A : forall l1 l2 a (u : nat -> R) (b : nat -> nat -> R),
    lloop l1 a (fun i f => lloop l2 (f + u i) (fun j f => f - b i j))
    = a + lsum l1 u - lsum l1 (fun i => lsum l2 (b i))).
  { intros l1 l2 a u b. rewrite lloop_lsum.
    - rewrite (lsum_ext l1 (fun j => lloop l2 (0 + u j) (fun j0 f => f - b j j0)) (fun j => u j - lsum l2 (b j))).
      + rewrite lsum_minus. ring.
      + intros i _. rewrite (lloop_sub l2 _ _ (b i)) by reflexivity. ring.
    - intros i acc. rewrite (lloop_sub l2 (acc + u i) _ (b i)), (lloop_sub l2 (0 + u i) _ (b i)) by reflexivity. ring. }
  rewrite (lloop_ext_in nzo 0 _ (fun i f => lloop nzi (f + c i * ko i * ln (x i)) (fun j f => f - g i j))).
  2:{ intros i acc Hi. apply lloop_ext_in. intros j f Hj. unfold g. destruct (Nat.eqb i j); reflexivity. }
  rewrite (lloop_ext_in nzi 0 _ (fun i f => lloop nzo (f + c i * ki i * ln (x (i + n)%nat)) (fun j f => f - g j i))).
  2:{ intros i acc Hi0. pose proof (proj2 HI i Hi0) as Hi. flips. apply lloop_ext_in. intros j f Hj0. pose proof (proj2 HO j Hj0) as Hj.
      flips. unfold g. rewrite (Nat.eqb_sym j i), (Nat.add_comm n i), (Rmult_comm (x (i + n)%nat)). destruct (Nat.eqb_spec i j) as [->|]; simpl; ring. }
  rewrite !A.
  rewrite (lloop_add nzi _ _ (fun j => c j * ki j * ln (x (j + n)%nat))) by reflexivity.
  rewrite (lloop_add nzo _ _ (fun j => c j * ko j * ln (x (flip n (j + n))))) by reflexivity.
  rewrite (lsum_ext nzo (fun j => c j * ko j * ln (x (flip n (j + n)))) (fun j => c j * ko j * ln (x j)))
    by (intros j Hj; rewrite flip1 by (apply HO; exact Hj); reflexivity).
  rewrite (lsum_swap nzi nzo (fun i j => g j i)). change (fun b : nat => lsum nzi (fun a : nat => g b a)) with (fun b : nat => lsum nzi (g b)). ring.
Qed.
Lemma loglik_dcm_exp_flip ko ki c x :
  loglikelihood_dcm_exp n ki ko nzi nzo c (fl x) = loglikelihood_dcm_exp n ko ki nzo nzi c x.
Proof.
  unfold loglikelihood_dcm_exp. cbv zeta.
  set (g := fun i j => if negb (Nat.eqb i j) then c i * c j * ln (1 + exp (- x i - x (n + j)%nat)) else c i * (c i - 1) * ln (1 + exp (- x i - x (n + j)%nat))).
  assert (A : forall l1 l2 a (u : nat -> R) (b : nat -> nat -> R),
    lloop l1 a (fun i f => lloop l2 (f + u i) (fun j f => f - b i j))
    = a + lsum l1 u - lsum l1 (fun i => lsum l2 (b i))).
  { intros l1 l2 a u b. rewrite lloop_lsum.
    - rewrite (lsum_ext l1 (fun j => lloop l2 (0 + u j) (fun j0 f => f - b j j0)) (fun j => u j - lsum l2 (b j))).
      + rewrite lsum_minus. ring.
      + intros i _. rewrite (lloop_sub l2 _ _ (b i)) by reflexivity. ring.
    - intros i acc. rewrite (lloop_sub l2 (acc + u i) _ (b i)), (lloop_sub l2 (0 + u i) _ (b i)) by reflexivity. ring. }
  rewrite (lloop_ext_in nzo 0 _ (fun i f => lloop nzi (f + - (c i * ko i * x i)) (fun j f => f - g i j))).
  2:{ intros i acc Hi. apply lloop_ext_in. intros j f Hj. unfold g. destruct (Nat.eqb i j); reflexivity. }
  rewrite (lloop_ext_in nzi 0 _ (fun i f => lloop nzo (f + - (c i * ki i * x (i + n)%nat)) (fun j f => f - g j i))).
  2:{ intros i acc Hi0. pose proof (proj2 HI i Hi0) as Hi. flips. apply lloop_ext_in. intros j f Hj0. pose proof (proj2 HO j Hj0) as Hj.
      flips. unfold g. rewrite (Nat.eqb_sym j i), (Nat.add_comm n i), (Rplus_comm_exp (x (i + n)%nat) (x j)). destruct (Nat.eqb_spec i j) as [->|]; simpl; ring. }
  rewrite !A.
  rewrite (lloop_sub nzi _ _ (fun j => c j * ki j * x (j + n)%nat)) by reflexivity.
  rewrite (lloop_sub nzo _ _ (fun j => c j * ko j * x (flip n (j + n)))) by reflexivity.
  rewrite (lsum_ext nzo (fun j => c j * ko j * x (flip n (j + n))) (fun j => c j * ko j * x j))
    by (intros j Hj; rewrite flip1 by (apply HO; exact Hj); reflexivity).
  rewrite (lsum_swap nzi nzo (fun i j => g j i)). change (fun b : nat => lsum nzi (fun a : nat => g b a)) with (fun b : nat => lsum nzi (g b)). rewrite !lsum_opp. ring.
Qed.
End DCM.

(** * DECM *)
Lemma iterative_decm_flip ko ki so si x : forall r, (r < 4 * n)%nat ->
  iterative_decm n ki ko si so (fl x) r = iterative_decm n ko ki so si x (flip n r).
Proof. unfold iterative_decm. cbv zeta. fl4; flp. Qed.
Lemma prime_decm_flip ko ki so si x : forall r, (r < 4 * n)%nat ->
  loglikelihood_prime_decm n ki ko si so (fl x) r = loglikelihood_prime_decm n ko ki so si x (flip n r).
Proof.
  assert (Z : forall f b c d e, f + 0 = f + (b / (1 - c) + (0 * d - 1) * b / (1 - c + e * 0 * c))).
  { intros f b c d e. replace (1 - c + e * 0 * c) with (1 - c) by ring. unfold Rdiv. ring. }
  assert (Z' : forall f b c d e, f + (b / (1 - c) + (d * 0 - 1) * b / (1 - c + 0 * e * c)) = f + 0).
  { intros f b c d e. replace (1 - c + 0 * e * c) with (1 - c) by ring. unfold Rdiv. ring. }
  unfold loglikelihood_prime_decm. cbv zeta. fl4.
  - flp.
  - flp.
  - destruct (Req_EM_T (x (i + n)%nat) 0) as [E|_].
    + assert (Q : forall j f, (j < n)%nat ->
        (if negb (Nat.eqb i j) then f + 0 else f) =
        (if negb (Nat.eqb i j) then f + (x (j + 2 * n)%nat / (1 - x (i + 3 * n)%nat * x (j + 2 * n)%nat)
           + (x (i + n)%nat * x j - 1) * x (j + 2 * n)%nat / (1 - x (i + 3 * n)%nat * x (j + 2 * n)%nat + x j * x (i + n)%nat * (x (i + 3 * n)%nat * x (j + 2 * n)%nat))) else f)).
      { intros j f _. rewrite E. rewrite <- Z. reflexivity. }
      rewrite (loop_ext n 0 _ _ (fun j f H => Q j f H)). reflexivity.
    + flp.
  - destruct (Req_EM_T (x i) 0) as [E|_].
    + assert (Q : forall j f, (j < n)%nat ->
        (if negb (Nat.eqb i j) then f + (x (flip n (j + 2 * n)) / (1 - x (i + 2 * n)%nat * x (flip n (j + 2 * n)))
           + (x i * x (flip n j) - 1) * x (flip n (j + 2 * n)) / (1 - x (i + 2 * n)%nat * x (flip n (j + 2 * n)) + x (flip n j) * x i * (x (i + 2 * n)%nat * x (flip n (j + 2 * n))))) else f) =
        (if negb (Nat.eqb i j) then f + 0 else f)).
      { intros j f _. rewrite E. rewrite <- Z. reflexivity. }
      rewrite (loop_ext n 0 _ _ (fun j f H => Q j f H)). reflexivity.
    + flp.
Qed.
Lemma expected_decm_flip x : forall r, (r < 4 * n)%nat ->
  expected_decm n (fl x) r = expected_decm n x (flip n r).
Proof. unfold expected_decm. cbv zeta. fl4; flp. Qed.
Lemma iterative_decm_exp_2_flip ko ki so si x : forall r, (r < 4 * n)%nat ->
  iterative_decm_exp_2 n ki ko si so (fl x) r = iterative_decm_exp_2 n ko ki so si x (flip n r).
Proof. unfold iterative_decm_exp_2. cbv zeta. fl4; flp. Qed.
Lemma prime_decm_exp_flip ko ki so si x : forall r, (r < 4 * n)%nat ->
  loglikelihood_prime_decm_exp n ki ko si so (fl x) r = loglikelihood_prime_decm_exp n ko ki so si x (flip n r).
Proof. unfold loglikelihood_prime_decm_exp. cbv zeta. fl4; flp. Qed.
Lemma expected_decm_exp_flip x : forall r, (r < 4 * n)%nat ->
  expected_decm_exp n (fl x) r = expected_decm_exp n x (flip n r).
Proof. unfold expected_decm_exp. cbv zeta. fl4; flp. Qed.
Lemma hessian_diag_decm_flip ko ki so si x : (forall i, (i < n)%nat -> so i <> 0 /\ si i <> 0) -> forall r, (r < 4 * n)%nat ->
  loglikelihood_hessian_diag_decm n ki ko si so (fl x) r = loglikelihood_hessian_diag_decm n ko ki so si x (flip n r).
Proof.
  intros HS. unfold loglikelihood_hessian_diag_decm. cbv zeta. fl4.
  - flp.
  - flp.
  - destruct (Req_EM_T (si i) 0) as [E|_]; [destruct (HS i Hi); contradiction|]. flp.
  - destruct (Req_EM_T (so i) 0) as [E|_]; [destruct (HS i Hi); contradiction|]. flp.
Qed.
Lemma hessian_diag_decm_exp_flip x : forall r, (r < 4 * n)%nat ->
  loglikelihood_hessian_diag_decm_exp n (fl x) r = loglikelihood_hessian_diag_decm_exp n x (flip n r).
Proof. unfold loglikelihood_hessian_diag_decm_exp. cbv zeta. fl4; flp. Qed.

Lemma pairsum_flip g x : (forall a b c d, g a b c d = g c d a b) -> PairSum n g (fl x) = PairSum n g x.
Proof.
  intros HS. unfold PairSum, Row_out. rewrite rsum_swap. apply rsum_ext. intros i Hi. apply rsum_ext. intros j Hj.
  flips. rewrite (Nat.eqb_sym j i), HS. reflexivity.
Qed.
Lemma loglik_decm_flip ko ki so si x :
  loglikelihood_decm n ki ko si so (fl x) = loglikelihood_decm n ko ki so si x.
Proof.
  rewrite !loglik_decm_nf, (pairsum_flip gL x).
  - f_equal. apply rsum_ext. intros i Hi. flips. ring.
  - intros a b c d. unfold gL. flp.
Qed.
Lemma loglik_decm_exp_flip ko ki so si x :
  loglikelihood_decm_exp n ki ko si so (fl x) = loglikelihood_decm_exp n ko ki so si x.
Proof.
  rewrite !loglik_decm_exp_nf, (pairsum_flip gLe x).
  - f_equal. apply rsum_ext. intros i Hi. flips. ring.
  - intros a b c d. unfold gLe. flp.
Qed.

Definition blkflip (q : nat) : nat := match q with O => 1 | 1 => 0 | 2 => 3 | _ => 2 end%nat.
Lemma flip_blk i q : (i < n)%nat -> (q < 4)%nat -> flip n (i + q * n) = (i + blkflip q * n)%nat.
Proof.
  intros Hi Hq. rewrite (flip_block i q Hi). destruct q as [|[|[|[|q]]]]; cbn [Nat.even blkflip]; lia.
Qed.
Ltac fl44 := intros i j qi qj Hi Hj Hqi Hqj; cbv beta;
  rewrite !(flip_blk i qi Hi Hqi), !(flip_blk j qj Hj Hqj);
  assert (Hbi : (blkflip qi < 4)%nat) by (destruct qi as [|[|[|qi]]]; cbn [blkflip]; lia);
  assert (Hbj : (blkflip qj < 4)%nat) by (destruct qj as [|[|[|qj]]]; cbn [blkflip]; lia);
  rewrite !(blk_block n i qi), !(blk_block n j qj), !(blk_block n i (blkflip qi)), !(blk_block n j (blkflip qj)),
    !(pos_block n i qi), !(pos_block n j qj), !(pos_block n i (blkflip qi)), !(pos_block n j (blkflip qj)) by assumption;
  flips; clear Hbi Hbj;
  destruct qi as [|[|[|[|qi]]]]; [| | | |lia]; (destruct qj as [|[|[|[|qj]]]]; [| | | |lia]); cbn [blkflip].
Lemma hessian_decm_flip ko ki so si x : forall r t, (r < 4 * n)%nat -> (t < 4 * n)%nat ->
  loglikelihood_hessian_decm n ki ko si so (fl x) r t
  = loglikelihood_hessian_decm n ko ki so si x (flip n r) (flip n t).
Proof. unfold loglikelihood_hessian_decm. cbv zeta. apply coord44. fl44; flp. Qed.
Lemma hessian_decm_exp_flip x : forall r t, (r < 4 * n)%nat -> (t < 4 * n)%nat ->
  loglikelihood_hessian_decm_exp n (fl x) r t
  = loglikelihood_hessian_decm_exp n x (flip n r) (flip n t).
Proof. unfold loglikelihood_hessian_decm_exp. cbv zeta. apply coord44. fl44; flp. Qed.
End Flip.
