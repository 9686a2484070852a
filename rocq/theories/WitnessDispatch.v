(** Refutations and examples for the choice of functions. *)
From Coq Require Import Reals List Arith Bool String Lra Lia.
From Coquelicot Require Import Coquelicot.
From Verif Require Import Base SpecDeriv SpecGraph SpecEnsemble SpecWeighted SpecDirected SpecCReMa
  ModelCM ModelECM ModelDCM ModelDECM ModelCReMa ModelIEEE ModelLinsearch ModelSolver ModelDispatch SpecDispatch.
From Verif Require Import ProofsCReMa ProofsMainCReMa ProofsSparseCReMa WitnessCReMa ProofsIEEE ProofsDispatch ProofsDispatchU ProofsDispatchD.
Import ListNotations.
Local Open Scope R_scope.

(** ** Undocumented methods *)
Lemma other_method_solver {V M S : Type} (N : numerics V M S) (P : problem V M S) (Opt : options S) (x0 f : V) :
  o_method Opt = OtherMethod -> o_full_return Opt = false -> p_fun P x0 = Some f ->
  solver N P Opt x0 =
    if gtb N (vnorm N f) (o_tol Opt) && Nat.ltb 0 (o_max_steps Opt) && gtb N (sone N) (o_eps Opt) then Raised else Sol x0.
Proof.
  intros Hm Hf Hp. unfold solver, solver_init. rewrite Hp. cbn [sbind solver_loop].
  unfold solver_continue. cbn [s_norm s_n s_diff].
  destruct (gtb N (vnorm N f) (o_tol Opt) && Nat.ltb 0 (o_max_steps Opt) && gtb N (sone N) (o_eps Opt)).
  - unfold solver_step, solver_dx. rewrite Hm. reflexivity.
  - rewrite Hf. reflexivity.
Qed.

Lemma unknown_method_accepted :
  exists model method, In model undirected_models /\ In model directed_models /\ ~ In method documented_methods /\
    (forall reg, exists D, u_dispatch model method reg = inl D) /\ (forall reg, exists D, d_dispatch model method reg = inl D) /\
    (forall (V M S : Type) (N : numerics V M S) (P : problem V M S) (Opt : options S) (x0 f : V),
       o_method Opt = method_of_string method -> o_full_return Opt = false -> p_fun P x0 = Some f ->
       gtb N (vnorm N f) (o_tol Opt) = false -> solver N P Opt x0 = Sol x0).
Proof.
  exists "crema"%string, "sparse-quasinewton"%string.
  split; [cbn; tauto|]. split; [cbn; tauto|]. split; [cbn; intros [E|[E|[E|[]]]]; discriminate|].
  split; [intro; eexists; reflexivity|]. split; [intro; eexists; reflexivity|].
  intros V M S N P Opt x0 f Hm Hf Hp Hg. rewrite (other_method_solver N P Opt x0 f); [|exact Hm|exact Hf|exact Hp].
  rewrite Hg. reflexivity.
Qed.
(** When it does not stop at once it fails with an exception that is not ValueError. *)
Lemma unknown_method_raises (V M S : Type) (N : numerics V M S) (P : problem V M S) (Opt : options S) (x0 f : V) method :
  ~ In method documented_methods -> o_method Opt = method_of_string method -> o_full_return Opt = false -> p_fun P x0 = Some f ->
  gtb N (vnorm N f) (o_tol Opt) = true -> (0 < o_max_steps Opt)%nat -> gtb N (sone N) (o_eps Opt) = true ->
  solver N P Opt x0 = Raised.
Proof.
  intros Hn Hm Hf Hp Hg Hs He. rewrite (other_method_solver N P Opt x0 f); [|rewrite Hm|exact Hf|exact Hp].
  - rewrite Hg, He. destruct (Nat.ltb_spec 0 (o_max_steps Opt)); [reflexivity|lia].
  - unfold method_of_string.
    destruct (String.eqb_spec method "newton") as [->|_]; [elim Hn; cbn; tauto|].
    destruct (String.eqb_spec method "quasinewton") as [->|_]; [elim Hn; cbn; tauto|].
    destruct (String.eqb_spec method "fixed-point") as [->|_]; [elim Hn; cbn; tauto|]. reflexivity.
Qed.

(** ** Line searches: each model gets its own, of the kind its method calls *)
Lemma u_linesearch reg :
  (forall m, In m descent_methods ->
    accepted u_dispatch "cm" m reg (fun D => lookup (d_lins D) mof_linsearch = Some (plain linsearch_fun_CM)) /\
    accepted u_dispatch "cm_exp" m reg (fun D => lookup (d_lins D) mof_linsearch = Some (plain linsearch_fun_CM_exp)) /\
    accepted u_dispatch "ecm" m reg (fun D => lookup (d_lins D) mof_linsearch = Some (LNewton linsearch_fun_ECM)) /\
    accepted u_dispatch "ecm_exp" m reg (fun D => lookup (d_lins D) mof_linsearch = Some (LNewton linsearch_fun_ECM_exp)) /\
    accepted u_dispatch "crema" m reg (fun D => lookup (d_lins D) mof_linsearch = Some (plain linsearch_fun_crema_undirected)) /\
    accepted u_dispatch "crema-sparse" m reg (fun D => lookup (d_lins D) mof_linsearch = Some (plain linsearch_fun_crema_undirected))) /\
  (forall model, In model undirected_models -> accepted u_dispatch model "fixed-point" reg (fun D =>
     exists f, lookup (d_lins D) mof_linsearch = Some (LFixed f))) /\
  accepted u_dispatch "ecm" "fixed-point" reg (fun D => lookup (d_lins D) mof_linsearch = Some (LFixed linsearch_fun_ECM_fixed)) /\
  accepted u_dispatch "ecm_exp" "fixed-point" reg (fun D => lookup (d_lins D) mof_linsearch = Some (LFixed linsearch_fun_ECM_exp_fixed)).
Proof.
  split; [|split; [|split]].
  - intros m Hm. cbn in Hm. destruct Hm as [<-|[<-|[]]]; repeat (split; [eexists; split; reflexivity|]); eexists; split; reflexivity.
  - intros model Hm. cbn in Hm. destruct Hm as [<-|[<-|[<-|[<-|[<-|[<-|[]]]]]]]; eexists; (split; [reflexivity|]); eexists; reflexivity.
  - eexists; split; reflexivity.
  - eexists; split; reflexivity.
Qed.
Lemma d_linesearch reg :
  (forall m, In m descent_methods ->
    accepted d_dispatch "dcm" m reg (fun D => lookup (d_lins D) mof_linsearch = Some (plain linsearch_fun_DCM)) /\
    accepted d_dispatch "dcm_exp" m reg (fun D => lookup (d_lins D) mof_linsearch = Some (plain linsearch_fun_DCM_exp)) /\
    accepted d_dispatch "decm" m reg (fun D => lookup (d_lins D) mof_linsearch = Some (LNewton linsearch_fun_DECM)) /\
    accepted d_dispatch "decm_exp" m reg (fun D => lookup (d_lins D) mof_linsearch = Some (LNewton linsearch_fun_DECM_exp)) /\
    accepted d_dispatch "crema" m reg (fun D => lookup (d_lins D) mof_linsearch = Some (plain linsearch_fun_crema_directed)) /\
    accepted d_dispatch "crema-sparse" m reg (fun D => lookup (d_lins D) mof_linsearch = Some (plain linsearch_fun_crema_directed))) /\
  (forall model, In model directed_models -> accepted d_dispatch model "fixed-point" reg (fun D =>
     exists f, lookup (d_lins D) mof_linsearch = Some (LFixed f))) /\
  accepted d_dispatch "decm" "fixed-point" reg (fun D => lookup (d_lins D) mof_linsearch = Some (LFixed linsearch_fun_DECM_fixed)) /\
  accepted d_dispatch "decm_exp" "fixed-point" reg (fun D => lookup (d_lins D) mof_linsearch = Some (LFixed linsearch_fun_DECM_exp_fixed)).
Proof.
  split; [|split; [|split]].
  - intros m Hm. cbn in Hm. destruct Hm as [<-|[<-|[]]]; repeat (split; [eexists; split; reflexivity|]); eexists; split; reflexivity.
  - intros model Hm. cbn in Hm. destruct Hm as [<-|[<-|[<-|[<-|[<-|[<-|[]]]]]]]; eexists; (split; [reflexivity|]); eexists; reflexivity.
  - eexists; split; reflexivity.
  - eexists; split; reflexivity.
Qed.

(** ** Regulariser: the documented strings force the choice; otherwise the models in
    factors use the eigenvalue shift and the others the multiple of the identity. *)
Lemma regulariser_choice model m D reg :
  In m documented_methods ->
  (In model undirected_models /\ u_dispatch model m reg = inl D) \/ (In model directed_models /\ d_dispatch model m reg = inl D) ->
  d_reg D = match reg with
            | Some e => if String.eqb e "eigenvalues" then "matrix_regulariser_function_eigen_based"
                        else if String.eqb e "identity" then "matrix_regulariser_function"
                        else if existsb (String.eqb model) ["cm"; "ecm"; "dcm"; "decm"] then "matrix_regulariser_function_eigen_based"
                        else "matrix_regulariser_function"
            | None => if existsb (String.eqb model) ["cm"; "ecm"; "dcm"; "decm"] then "matrix_regulariser_function_eigen_based"
                      else "matrix_regulariser_function"
            end%string.
Proof.
  intros Hm [(HM & E)|(HM & E)]; cbn in Hm, HM;
  destruct HM as [<-|[<-|[<-|[<-|[<-|[<-|[]]]]]]]; destruct Hm as [<-|[<-|[<-|[]]]];
  match type of E with ?X = inl D => let t := eval hnf in X in change (t = inl D) in E end;
  assert (E' := f_equal (fun z => match z with inl D => d_reg D | inr _ => EmptyString end) E); cbn [d_reg] in E'; rewrite <- E';
  (destruct reg as [e|]; [|reflexivity]); unfold regularise_name;
  destruct (String.eqb e "eigenvalues"); try reflexivity; destruct (String.eqb e "identity"); reflexivity.
Qed.

(** ** crema-sparse with an adjacency matrix given by the user: the functions of the
    sparse variant read the row indices as fitnesses. *)
Definition tri : list edge := [((0, 1)%nat, 1); ((0, 2)%nat, 1); ((1, 2)%nat, 1)].
Lemma tri_adj0 i j : (i < j)%nat -> adj0 (Triples tri) i * adj0 (Triples tri) j = 0.
Proof.
  intros L. unfold adj0.
  assert (E : forall q, (q < 2 \/ 3 <= q)%nat -> INR (fst (fst (nth q tri (O, O, 0)))) = 0).
  { intros q [Q|Q].
    - destruct q as [|[|q]]; [reflexivity|reflexivity|lia].
    - rewrite nth_overflow by exact Q. reflexivity. }
  destruct (le_lt_dec 2 i) as [A|A].
  - rewrite (E j) by lia. ring.
  - rewrite (E i) by lia. ring.
Qed.
Lemma flat_map_nil {A B} (f : A -> list B) l : (forall a, In a l -> f a = []) -> flat_map f l = [].
Proof.
  induction l as [|a l IH]; intro H; [reflexivity|]. cbn [flat_map]. rewrite H by now left.
  apply IH. intros b Hb. apply H. now right.
Qed.
Lemma tri_sparse_empty : triu_edges 3 (pmatrix_cm (adj0 (Triples tri))) = [].
Proof.
  apply flat_map_nil. intros i _. apply flat_map_nil. intros j _.
  destruct (Nat.leb i j); [|reflexivity]. destruct (Req_EM_T _ 0) as [|E]; [reflexivity|]. elim E.
  unfold pmatrix_cm. destruct (Nat.ltb_spec i j); [|destruct (Nat.ltb_spec j i)].
  - cbv zeta. rewrite tri_adj0 by assumption. unfold Rdiv. ring.
  - cbv zeta. rewrite tri_adj0 by assumption. unfold Rdiv. ring.
  - reflexivity.
Qed.
Lemma explicit_matrix_refuted reg m :
  In m descent_methods ->
  accepted u_dispatch "crema-sparse" m reg (fun D =>
    exists n s es b, pairs_below n es /\ simple_pairs es /\ crema_dom es b /\ (forall i, (i < n)%nat -> 0 < s i /\ 0 < b i) /\
      scalar (run_entry (d_step D) (A3 n s (Triples es)) b) <> Some (- loglikelihood_crema_undirected n s es b)).
Proof.
  intro Hm. cbn in Hm.
  assert (X : forall i, (i < 3)%nat -> 0 <= adj0 (Triples tri) i) by (intros; apply pos_INR).
  assert (G : pairs_below 3 tri /\ simple_pairs tri /\ crema_dom tri (fun _ => 1) /\ (forall i : nat, (i < 3)%nat -> 0 < 1 /\ 0 < 1) /\
     scalar (obind (obind (floglikelihood_crema_undirected_sparse 3 (fun _ => 1) (adj0 (Triples tri)) (fun _ => 1)) fnum) (fun v => Some (ModelDispatch.vneg v)))
       <> Some (- loglikelihood_crema_undirected 3 (fun _ => 1) tri (fun _ => 1))).
  { split. { intros i j w [E|[E|[E|[]]]]; inversion E; lia. }
    split. { split. - intros i j w [E|[E|[E|[]]]]; inversion E; lia.
             - cbn. repeat constructor; cbn; intuition discriminate. }
    split. { intros i j w _. lra. }
    split. { intros. lra. }
    rewrite fsparse_fin by (intros; lra). rewrite sparse_loglik by exact X. rewrite tri_sparse_empty. cbn [fin obind fnum num scalar ModelDispatch.vneg fopp].
    unfold loglikelihood_crema_undirected, tri. cbn [fold_left fst snd]. intros [= E]. revert E.
    rewrite !loop_S, loop_0. intro E. assert (0 < ln (1 + 1)) by (rewrite <- ln_1; apply ln_increasing; lra). lra. }
  pick2 Hm; exists 3%nat, (fun _ => 1), tri, (fun _ => 1); exact G.
Qed.

(** ** Examples *)
Lemma dispatch_examples :
  u_dispatch "ecm" "quasinewton" None =
    inl {| d_fun := Neg "loglikelihood_prime_ecm"; d_jac := Neg "loglikelihood_hessian_diag_ecm"; d_step := Neg "loglikelihood_ecm";
           d_lins := "linsearch_fun_ECM"; d_obj := "loglikelihood_ecm"; d_reg := "matrix_regulariser_function_eigen_based" |} /\
  d_dispatch "dcm_exp" "fixed-point" (Some "identity"%string) =
    inl {| d_fun := Pos "iterative_dcm_exp"; d_jac := Nothing; d_step := Neg "loglikelihood_dcm_exp";
           d_lins := "linsearch_fun_DCM_exp_fixed"; d_obj := "loglikelihood_dcm_exp"; d_reg := "matrix_regulariser_function" |} /\
  u_dispatch "cm" "steepest" None = inr RefValueError /\
  u_dispatch "cm-fixed" "point" None = inr RefKeyError /\
  (forall i, (i < 3)%nat -> 0 < (fun _ : nat => 1) i) /\
  ecm_dom 3 (fun _ => / 2) /\ ecm_exp_dom 3 (fun _ => 1) /\
  index_list 3 [0; 1]%nat /\ dcm_dom 3 [0; 1]%nat [1; 2]%nat (fun _ => 1) /\
  decm_dom 2 (fun _ => / 2) /\ decm_pos 2 (fun _ => / 2) /\ decm_exp_dom 2 (fun _ => 1) /\
  crema_dom tri (fun _ => 1) /\ ends_nonzero tri (fun _ => 1) /\ crema_dir_dom 3 tri (fun _ => 1) /\ simple_arcs tri /\ pairs_below 3 tri.
Proof.
  do 4 (split; [reflexivity|]). split; [intros; lra|].
  split. { split; intros; lra. }
  split. { intros i j _ _ _. lra. }
  split. { split; [repeat constructor; cbn; intuition discriminate|]. cbn. intros i [<-|[<-|[]]]; lia. }
  split. { split; intros; lra. }
  split. { split; intros; lra. }
  split. { intros r _. lra. }
  split. { intros i j _ _ _. lra. }
  split. { intros i j w _. lra. }
  split. { intros i j w _. lra. }
  split. { intros i j w _. lra. }
  split. { unfold simple_arcs. cbn. repeat constructor; cbn; intuition discriminate. }
  intros i j w [E|[E|[E|[]]]]; inversion E; lia.
Qed.
