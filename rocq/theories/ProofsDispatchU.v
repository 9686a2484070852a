(** What the chosen functions compute: undirected models. *)
From Coq Require Import Reals List Arith Bool String Lra Lia.
From Coquelicot Require Import Coquelicot.
From Verif Require Import Base SpecDeriv SpecGraph SpecEnsemble SpecWeighted SpecDirected SpecCReMa
  ModelCM ModelECM ModelDCM ModelDECM ModelCReMa ModelLinsearch ModelSolver ModelIEEE ModelDispatch SpecDispatch.
From Verif Require Import ProofsCM ProofsCMHess ProofsMainCM ProofsECM ProofsMainECM ProofsCReMa ProofsMainCReMa
  ProofsSparseCReMa ProofsDirCReMa WitnessCReMa ProofsDispatch ProofsIEEE ProofsEntries.
Import ListNotations.
Local Open Scope R_scope.

Lemma partial_opp (L : (nat -> R) -> R) x h d : partial L x h d -> partial (fun z => - L z) x h (- d).
Proof. intro H. unfold partial in *. apply (is_derive_opp (fun t => L (upd x h t))). exact H. Qed.
Lemma opartial_opp (F : (nat -> R) -> option R) x h d :
  opartial F x h d -> opartial (fun z => match F z with Some r => Some (- r) | None => None end) x h (- d).
Proof.
  intros (G & HG & HL). exists (fun z => - G z). split; [apply partial_opp, HG|].
  revert HL. apply filter_imp. intros t E. now rewrite E.
Qed.
Lemma partial_opartial (P : (nat -> R) -> R) (F : (nat -> R) -> option R) x h d :
  (forall z, F z = Some (P z)) -> partial P x h d -> opartial F x h d.
Proof. intros E H. exists P. split; [exact H|]. apply filter_forall. intro t. apply E. Qed.
Lemma partial_opartial_near (P : (nat -> R) -> R) (F : (nat -> R) -> option R) (G : (nat -> R) -> bool) x h d :
  locally (x h) (fun t => G (upd x h t) = true) -> (forall z, G z = true -> F z = Some (P z)) -> partial P x h d -> opartial F x h d.
Proof. intros L E H. exists P. split; [exact H|]. revert L. apply filter_imp. intros t. apply E. Qed.
Lemma opp_zero_iff (a : R) : a = 0 <-> - a = 0.
Proof. split; intro; lra. Qed.
Lemma Some_inj_iff (a b : R) : Some a = Some b <-> a = b.
Proof. split; [now intros [= E]|now intros ->]. Qed.

Ltac pick2 Hm := destruct Hm as [<-|[<-|[]]]; eexists; (split; [reflexivity|]).
Ltac pick := eexists; (split; [reflexivity|]).

(** ** UBCM *)
Lemma cm_descends reg m n k c x :
  In m descent_methods -> (forall i, (i < n)%nat -> 0 < x i) ->
  accepted u_dispatch "cm" m reg (solve_descends (A2 n k c) (loglikelihood_cm n k c) n x).
Proof.
  intros Hm Hx. cbn in Hm. pick2 Hm; (split; [exact (f_equal scalar (neg_entry _ _ _ _ (e_ll_cm n k c x Hx)))|]); (split; [exact (f_equal scalar (e_ll_cm n k c x Hx))|]); intros h Hh;
    exists (- loglikelihood_prime_cm n k c x h); (split; [exact (f_equal (fun o => at1 o h) (neg_entry _ _ _ _ (e_ll_prime_cm n k c x (cm_divisors_ok n x Hx))))|]);
    apply partial_opp, prime_cm_is_gradient; assumption.
Qed.
Lemma cm_exp_descends reg m n k c x :
  In m descent_methods ->
  accepted u_dispatch "cm_exp" m reg (solve_descends (A2 n k c) (loglikelihood_cm_exp n k c) n x).
Proof.
  intros Hm. cbn in Hm. pick2 Hm; (split; [reflexivity|]); (split; [reflexivity|]); intros h Hh;
    exists (- loglikelihood_prime_cm_exp n k c x h); (split; [reflexivity|]);
    apply partial_opp, prime_cm_exp_is_gradient; assumption.
Qed.
Lemma cm_fixed reg n k c x i :
  (i < n)%nat -> (forall j, (j < n)%nat -> 0 < x j) -> 0 < c i -> 0 < k i ->
  accepted u_dispatch "cm" "fixed-point" reg (solve_fixes (A2 n k c) (loglikelihood_cm n k c) x i).
Proof.
  intros Hi Hx Hc Hk. pick. split; [|exact (f_equal scalar (neg_entry _ _ _ _ (e_ll_cm n k c x Hx)))].
  exists (- loglikelihood_prime_cm n k c x i). split; [apply partial_opp, prime_cm_is_gradient; assumption|].
  rewrite <- opp_zero_iff, <- fixed_point_cm_iff by auto.
  cbn [d_fun]. rewrite (e_iterative_cm n k c x) by (apply cm_pairs_ok; intros; apply Rlt_le, Hx; assumption). cbn [at1]. apply Some_inj_iff.
Qed.
Lemma cm_exp_fixed reg n k c x i :
  (i < n)%nat -> (forall j, (j < n)%nat -> 1 <= c j) -> 1 < rsum n c -> 0 < k i ->
  accepted u_dispatch "cm_exp" "fixed-point" reg (solve_fixes (A2 n k c) (loglikelihood_cm_exp n k c) x i).
Proof.
  intros Hi Hc Hs Hk. pick. split; [|reflexivity].
  exists (- loglikelihood_prime_cm_exp n k c x i). split; [apply partial_opp, prime_cm_exp_is_gradient; assumption|].
  rewrite <- opp_zero_iff, <- fixed_point_cm_exp_iff by auto.
  cbn [d_fun]. rewrite (e_iterative_cm_exp n k c x). cbn [at1]. rewrite fcm_exp_map_fin by assumption. apply Some_inj_iff.
Qed.

(** ** UECM *)
Lemma ecm_descends reg m n k s x :
  In m descent_methods -> ecm_dom n x ->
  accepted u_dispatch "ecm" m reg (solve_descends (A2 n k s) (loglikelihood_ecm n k s) (2 * n) x).
Proof.
  intros Hm Hx. cbn in Hm. pick2 Hm; (split; [exact (f_equal scalar (neg_entry _ _ _ _ (e_ll_ecm n k s x Hx)))|]); (split; [exact (f_equal scalar (e_ll_ecm n k s x Hx))|]); intros h Hh;
    exists (- loglikelihood_prime_ecm n k s x h); (split; [exact (f_equal (fun o => at1 o h) (neg_entry _ _ _ _ (e_ll_prime_ecm n k s x (ecm_divisors_ok n x Hx))))|]);
    apply partial_opp, gradient_ecm; assumption.
Qed.
Lemma ecm_exp_descends reg m n k s x :
  In m descent_methods -> ecm_exp_dom n x ->
  accepted u_dispatch "ecm_exp" m reg (solve_descends (A2 n k s) (loglikelihood_ecm_exp n k s) (2 * n) x).
Proof.
  intros Hm Hx. cbn in Hm. pick2 Hm; (split; [exact (f_equal scalar (neg_entry _ _ _ _ (e_ll_ecm_exp n k s x Hx)))|]); (split; [exact (f_equal scalar (e_ll_ecm_exp n k s x Hx))|]); intros h Hh;
    exists (- loglikelihood_prime_ecm_exp n k s x h); (split; [exact (f_equal (fun o => at1 o h) (neg_entry _ _ _ _ (e_ll_prime_ecm_exp n k s x (ecm_exp_divisors_ok n x Hx))))|]);
    apply partial_opp, gradient_ecm_exp; assumption.
Qed.
Lemma ecm_jacobian reg n k s x :
  ecm_dom n x -> accepted u_dispatch "ecm" "newton" reg (solve_jacobian (A2 n k s) (2 * n) x).
Proof.
  intro Hx. pick. intros i h Hi Hh. exists (- loglikelihood_hessian_ecm n k s x i h). split; [exact (f_equal (fun o => at2 o i h) (neg_entry _ _ _ _ (e_ll_hess_ecm n k s x (ecm_divisors_ok n x Hx))))|].
  apply (partial_opartial_near (fun z => - loglikelihood_prime_ecm n k s z i) _ _ _ _ _ (ecm_divisors_open n x h (ecm_divisors_ok n x Hx))); [intros z E; exact (f_equal (fun o => at1 o i) (neg_entry _ _ _ _ (e_ll_prime_ecm n k s _ E)))|].
  apply (partial_opp (fun z => loglikelihood_prime_ecm n k s z i)), hessian_ecm_correct; assumption.
Qed.
Lemma ecm_exp_jacobian reg n k s x :
  ecm_exp_dom n x -> accepted u_dispatch "ecm_exp" "newton" reg (solve_jacobian (A2 n k s) (2 * n) x).
Proof.
  intro Hx. pick. intros i h Hi Hh. exists (- loglikelihood_hessian_ecm_exp n x i h). split; [exact (f_equal (fun o => at2 o i h) (neg_entry _ _ _ _ (e_ll_hess_ecm_exp n k s x (ecm_exp_divisors_ok n x Hx))))|].
  apply (partial_opartial_near (fun z => - loglikelihood_prime_ecm_exp n k s z i) _ _ _ _ _ (ecm_exp_divisors_open n x h (ecm_exp_divisors_ok n x Hx))); [intros z E; exact (f_equal (fun o => at1 o i) (neg_entry _ _ _ _ (e_ll_prime_ecm_exp n k s _ E)))|].
  apply (partial_opp (fun z => loglikelihood_prime_ecm_exp n k s z i)), hessian_ecm_exp_correct; assumption.
Qed.
Lemma ecm_jacobian_diag reg n k s x :
  ecm_dom n x -> accepted u_dispatch "ecm" "quasinewton" reg (solve_jacobian_diag (A2 n k s) (2 * n) x).
Proof.
  intro Hx. pick. intros i Hi. exists (- loglikelihood_hessian_diag_ecm n k s x i). split; [exact (f_equal (fun o => at1 o i) (neg_entry _ _ _ _ (e_ll_hess_diag_ecm n k s x (ecm_divisors_ok n x Hx))))|].
  apply (partial_opartial_near (fun z => - loglikelihood_prime_ecm n k s z i) _ _ _ _ _ (ecm_divisors_open n x i (ecm_divisors_ok n x Hx))); [intros z E; exact (f_equal (fun o => at1 o i) (neg_entry _ _ _ _ (e_ll_prime_ecm n k s _ E)))|].
  apply (partial_opp (fun z => loglikelihood_prime_ecm n k s z i)), hessian_diag_ecm_correct; assumption.
Qed.
Lemma ecm_exp_jacobian_diag reg n k s x :
  ecm_exp_dom n x -> accepted u_dispatch "ecm_exp" "quasinewton" reg (solve_jacobian_diag (A2 n k s) (2 * n) x).
Proof.
  intro Hx. pick. intros i Hi. exists (- loglikelihood_hessian_diag_ecm_exp n x i). split; [exact (f_equal (fun o => at1 o i) (neg_entry _ _ _ _ (e_ll_hess_diag_ecm_exp n k s x (ecm_exp_divisors_ok n x Hx))))|].
  apply (partial_opartial_near (fun z => - loglikelihood_prime_ecm_exp n k s z i) _ _ _ _ _ (ecm_exp_divisors_open n x i (ecm_exp_divisors_ok n x Hx))); [intros z E; exact (f_equal (fun o => at1 o i) (neg_entry _ _ _ _ (e_ll_prime_ecm_exp n k s _ E)))|].
  apply (partial_opp (fun z => loglikelihood_prime_ecm_exp n k s z i)), hessian_diag_ecm_exp_correct; assumption.
Qed.
Lemma ecm_fixed reg n k s x r :
  (2 <= n)%nat -> (r < 2 * n)%nat -> ecm_dom n x -> (forall i, (i < n)%nat -> 0 < k i /\ 0 < s i) ->
  accepted u_dispatch "ecm" "fixed-point" reg (solve_fixes (A2 n k s) (loglikelihood_ecm n k s) x r).
Proof.
  intros Hn Hr Hx Hk. pick. split; [|exact (f_equal scalar (neg_entry _ _ _ _ (e_ll_ecm n k s x Hx)))].
  exists (- loglikelihood_prime_ecm n k s x r). split; [apply partial_opp, gradient_ecm; assumption|].
  rewrite <- opp_zero_iff, <- fixed_point_ecm_iff by assumption.
  cbn [d_fun]. rewrite (e_iterative_ecm n k s x) by (apply ecm_pairs_dom; assumption). cbn [at1]. apply Some_inj_iff.
Qed.
Lemma ecm_exp_fixed reg n k s x r :
  (2 <= n)%nat -> (r < 2 * n)%nat -> ecm_exp_dom n x -> (forall i, (i < n)%nat -> 0 < k i /\ 0 < s i) ->
  accepted u_dispatch "ecm_exp" "fixed-point" reg (solve_fixes (A2 n k s) (loglikelihood_ecm_exp n k s) x r).
Proof.
  intros Hn Hr Hx Hk. pick. split; [|exact (f_equal scalar (neg_entry _ _ _ _ (e_ll_ecm_exp n k s x Hx)))].
  exists (- loglikelihood_prime_ecm_exp n k s x r). split; [apply partial_opp, gradient_ecm_exp; assumption|].
  rewrite <- opp_zero_iff, <- fixed_point_ecm_exp_iff by assumption.
  cbn [d_fun]. rewrite (e_iterative_ecm_exp n k s x) by (apply ecm_exp_divisors_ok; assumption). cbn [at1]. rewrite fecm_exp_map_fin by assumption. apply Some_inj_iff.
Qed.

(** ** CReMa *)
Lemma at1_neg_ovec (f : option (nat -> R)) i :
  at1 (obind (ovec f) (fun v => Some (ModelDispatch.vneg v))) i = match oentry f i with Some r => Some (- r) | None => None end.
Proof. destruct f; reflexivity. Qed.
Lemma at2_neg_omat (f : option (nat -> nat -> R)) i j :
  at2 (obind (omat f) (fun v => Some (ModelDispatch.vneg v))) i j = match oentry2 f i j with Some r => Some (- r) | None => None end.
Proof. destruct f; reflexivity. Qed.

Lemma crema_descends reg m n s es b :
  In m descent_methods -> crema_dom es b ->
  accepted u_dispatch "crema" m reg (solve_descends (A3 n s (Triples es)) (loglikelihood_crema_undirected n s es) n b).
Proof.
  intros Hm Hx. destruct (gradient_crema n s es b Hx) as (F & EF & GF). cbn in Hm.
  pick2 Hm; (split; [exact (f_equal scalar (neg_entry _ _ _ _ (e_ll_crema_undirected n s es b Hx)))|]); (split; [exact (f_equal scalar (e_ll_crema_undirected n s es b Hx))|]); intros h Hh; exists (- F h); (split; [|apply partial_opp, GF]).
  all: change (at1 (obind (ovec (loglikelihood_prime_crema_undirected n s es b)) (fun v => Some (ModelDispatch.vneg v))) h = Some (- F h)).
  all: now rewrite EF.
Qed.
Lemma crema_jacobian reg n s es b :
  crema_dom es b -> simple_pairs es -> accepted u_dispatch "crema" "newton" reg (solve_jacobian (A3 n s (Triples es)) n b).
Proof.
  intros Hx Hs. destruct (hessian_crema_correct n s es b Hx Hs) as (H & EH & GH).
  pick. intros i h Hi Hh. exists (- H i h). split.
  - change (at2 (obind (omat (loglikelihood_hessian_crema_undirected es b)) (fun v => Some (ModelDispatch.vneg v))) i h = Some (- H i h)).
    now rewrite EH.
  - apply (opartial_ext (fun z => match oentry (loglikelihood_prime_crema_undirected n s es z) i with Some r => Some (- r) | None => None end)).
    + intro z. symmetry. exact (at1_neg_ovec _ i).
    + apply opartial_opp, GH.
Qed.
Lemma crema_jacobian_diag reg n s es b :
  crema_dom es b -> (forall i j w, In (i, j, w) es -> i <> j) ->
  accepted u_dispatch "crema" "quasinewton" reg (solve_jacobian_diag (A3 n s (Triples es)) n b).
Proof.
  intros Hx Hs. destruct (hessian_diag_crema_correct n s es b Hx Hs) as (H & EH & GH).
  pick. intros i Hi. exists (- H i). split.
  - change (at1 (obind (ovec (loglikelihood_hessian_diag_crema_undirected es b)) (fun v => Some (ModelDispatch.vneg v))) i = Some (- H i)).
    now rewrite EH.
  - apply (opartial_ext (fun z => match oentry (loglikelihood_prime_crema_undirected n s es z) i with Some r => Some (- r) | None => None end)).
    + intro z. symmetry. exact (at1_neg_ovec _ i).
    + apply opartial_opp, GH.
Qed.
Lemma crema_fixed reg n s es b i :
  crema_dom es b -> ends_nonzero es b -> (i < n)%nat -> s i <> 0 -> b i <> 0 ->
  accepted u_dispatch "crema" "fixed-point" reg (solve_fixes (A3 n s (Triples es)) (loglikelihood_crema_undirected n s es) b i).
Proof.
  intros Hx He Hi Hs Hb. destruct (fixed_point_crema_iff n s es b Hx He) as (F & P & EF & EP & H & _).
  destruct (gradient_crema n s es b Hx) as (P' & EP' & GP). rewrite EP in EP'. injection EP' as <-.
  pick. split; [|exact (f_equal scalar (neg_entry _ _ _ _ (e_ll_crema_undirected n s es b Hx)))]. exists (- P i). split; [apply partial_opp, GP|].
  change (at1 (obind (ovec (iterative_crema_undirected n s es b)) (fun v => Some (ModelDispatch.vneg v))) i = Some (b i) <-> - P i = 0).
  rewrite EF, <- opp_zero_iff, <- (H i Hi Hs Hb). cbn. apply Some_inj_iff.
Qed.

(** CReMa-sparse, after a solve of the binary model with factors [x]. *)
Lemma crema_sparse_descends reg m n s x b :
  In m descent_methods -> (forall i, (i < n)%nat -> 0 <= x i) -> crema_dom (triu_edges n (pmatrix_cm x)) b ->
  (forall i j, (i < n)%nat -> (j < n)%nat -> b i + b j <> 0) ->
  accepted u_dispatch "crema-sparse" m reg
    (solve_descends (A3 n s (Factors1 x)) (loglikelihood_crema_undirected n s (triu_edges n (pmatrix_cm x))) n b).
Proof.
  intros Hm Hx Hd Hb. destruct (gradient_crema n s _ b Hd) as (P' & EP' & GP).
  cbn in Hm. pick2 Hm;
  (split; [exact (f_equal scalar (neg_entry _ _ _ _ (e_ll_crema_sparse n s x b Hx Hd)))|]);
  (split; [exact (f_equal scalar (e_ll_crema_sparse n s x b Hx Hd))|]);
  intros h Hh; destruct (sparse_prime n s x b h Hx Hd Hh (fun j => Hb h j Hh)) as (P & EP & EF);
  rewrite EP in EP'; injection EP' as <-; exists (- P h); (split; [|apply partial_opp, GP]).
  all: change (match fopp (loglikelihood_prime_crema_undirected_sparse n s x b h) with Fin r => Some r | _ => None end = Some (- P h)).
  all: now rewrite EF.
Qed.
(** The newton entry calls the dense Hessian, which unpacks three arrays. *)
Lemma crema_sparse_newton_raises reg :
  accepted u_dispatch "crema-sparse" "newton" reg (fun D => forall n s x b, run_entry (d_jac D) (A3 n s (Factors1 x)) b = None).
Proof. pick. reflexivity. Qed.
(** The fixed points of the map run for crema-sparse miss the stationary points. *)
Lemma crema_sparse_fixed reg n s x b i :
  (forall i, (i < n)%nat -> 0 <= x i) -> crema_dom (triu_edges n (pmatrix_cm x)) b ->
  (forall i j, (i < n)%nat -> (j < n)%nat -> b i + b j <> 0) ->
  (i < n)%nat -> 0 <= s i -> b i <> 0 ->
  accepted u_dispatch "crema-sparse" "fixed-point" reg (fun D =>
    exists d, partial (fun z => - loglikelihood_crema_undirected n s (triu_edges n (pmatrix_cm x)) z) b i d /\
      (at1 (run_entry (d_fun D) (A3 n s (Factors1 x)) b) i = Some (b i) <-> d = - exp (- (100)))).
Proof.
  intros Hx Hd Hb Hi Hs Hbi. destruct (gradient_crema n s _ b Hd) as (P' & EP' & GP).
  destruct (sparse_prime n s x b i Hx Hd Hi (fun j => Hb i j Hi)) as (P & EP & EF).
  rewrite EP in EP'; injection EP' as <-.
  pick. exists (- P i). split; [apply partial_opp, GP|].
  pose proof (fixed_point_crema_sparse_iff n s x b i Hx Hi Hs Hbi (fun j => Hb i j Hi)) as H. rewrite EF in H.
  change (match fopp (iterative_crema_undirected_sparse n s x b i) with Fin r => Some r | _ => None end = Some (b i) <-> - P i = - exp (- (100))).
  destruct (fopp (iterative_crema_undirected_sparse n s x b i)) as [r| | |].
  - split.
    + intros [= ->]. destruct H as [H _]. specialize (H eq_refl). injection H as H. rewrite H. reflexivity.
    + intro E. assert (E' : P i = exp (- (100))) by lra. destruct H as [_ H]. rewrite E' in H. specialize (H eq_refl).
      now injection H as ->.
  - split; [discriminate|]. intro E. assert (E' : P i = exp (- (100))) by lra. destruct H as [_ H]. rewrite E' in H. discriminate (H eq_refl).
  - split; [discriminate|]. intro E. assert (E' : P i = exp (- (100))) by lra. destruct H as [_ H]. rewrite E' in H. discriminate (H eq_refl).
  - split; [discriminate|]. intro E. assert (E' : P i = exp (- (100))) by lra. destruct H as [_ H]. rewrite E' in H. discriminate (H eq_refl).
Qed.
