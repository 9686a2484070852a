(** Theorems on whole runs of the solver with the functions of [solve_tool].  Nothing else
    in this file; proofs are in ProofsRun, ProofsIterates, ProofsPSD, ProofsPSDModels,
    ProofsAscent, ProofsAscentU, ProofsStays and WitnessRun. *)
From Coq Require Import Reals List Arith Bool String Lia Lra.
From Verif Require Import Base SpecDeriv SpecGraph SpecEnsemble SpecWeighted SpecDirected SpecCReMa SpecLinsearch SpecDispatch SpecRun
  ModelCM ModelECM ModelDCM ModelDECM ModelCReMa ModelLinsearch ModelSolver ModelDispatch ModelRun.
From Verif Require Import ProofsRun ProofsIterates ProofsPSD ProofsPSDModels ProofsAscent ProofsAscentU ProofsStays WitnessLinsearch WitnessRun.
Import ListNotations.
Local Open Scope R_scope.

(** C39, with the objectives of the package: the DECM search stays in the domain, the
    UECM search does not, even along a direction of ascent. *)
Theorem C39_DECM_admissible :
  forall fuel n ko ki so si x dx beta alfa f a,
  0 < alfa -> 0 < beta <= 1 -> positive_upto (4 * n) x ->
  linsearch_fun_DECM fuel n (floglikelihood_decm n ko ki so si) x dx beta alfa f = Some a ->
  0 < a <= alfa /\ positive_upto (4 * n) (moved x a dx) /\
  (decm_dom n (moved x a dx) \/
   exists b, a = b * beta ^ 50 /\ forall m, (m < 50)%nat -> ~ armijo (4 * n) (floglikelihood_decm n ko ki so si) x dx f (b * beta ^ m)).
Proof. exact DECM_search_admissible. Qed.
Print Assumptions C39_DECM_admissible.
Theorem C39_ECM_admissible_refuted :
  exists n k s x dx, (2 <= n)%nat /\ ecm_dom n x /\
  SpecLinsearch.scalar (2 * n) (fun r => - loglikelihood_prime_ecm n k s x r) dx < 0 /\
  forall fuel, exists a, linsearch_fun_ECM (S fuel) n (floglikelihood_ecm n k s) x dx (/ 2) 1 (fun r => - loglikelihood_prime_ecm n k s x r) = Some a /\
    / 2 <= a /\ ~ ecm_dom n (moved x a dx).
Proof. exact ECM_admissible_refuted. Qed.
Print Assumptions C39_ECM_admissible_refuted.

(** C79: each iterate follows from the previous one by the documented rule. *)
Theorem C79_newton_iterates :
  forall (linsolve : (nat -> nat -> R) -> (nat -> R) -> option (nat -> R)) (ok : (nat -> nat -> R) -> bool)
      (m : nat) (P : problem (nat -> R) (nat -> nat -> R) R) (O0 : options R) (x0 x : nat -> R) 
      (k : nat) (ns ds als : list R),
    (0 < m)%nat ->
    linear_solver m linsolve ->
    o_method O0 = Newton ->
    solver (run_numerics linsolve ok m) P O0 x0 = Full x k ns ds als ->
    exists xs : nat -> nat -> R,
      xs 0%nat = x0 /\
      xs k = x /\
      (forall t : nat,
       (t < k)%nat ->
       exists (f : nat -> R) (H B : nat -> nat -> R) (a : R),
         p_fun P (xs t) = Some f /\
         nth_error ns t = Some (sqrt (SpecLinsearch.scalar m f f)) /\
         p_jac_m P (xs t) = Some H /\
         (if o_regularise O0
          then exists e : R, largest m f e /\ p_reg P H (e * o_regularise_eps O0) = Some B
          else B = H) /\ recorded (o_linsearch O0) als t a /\ newton_move m B f a (xs t) (xs (S t))).
Proof. exact newton_iterates. Qed.
Print Assumptions C79_newton_iterates.
Theorem C79_quasinewton_iterates :
  forall (linsolve : (nat -> nat -> R) -> (nat -> R) -> option (nat -> R)) (ok : (nat -> nat -> R) -> bool)
      (m : nat) (P : problem (nat -> R) (nat -> nat -> R) R) (O0 : options R) (x0 x : nat -> R) 
      (k : nat) (ns ds als : list R),
    (0 < m)%nat ->
    o_method O0 = QuasiNewton ->
    solver (run_numerics linsolve ok m) P O0 x0 = Full x k ns ds als ->
    exists xs : nat -> nat -> R,
      xs 0%nat = x0 /\
      xs k = x /\
      (forall t : nat,
       (t < k)%nat ->
       exists (f h b : nat -> R) (a : R),
         p_fun P (xs t) = Some f /\
         nth_error ns t = Some (sqrt (SpecLinsearch.scalar m f f)) /\
         p_jac_v P (xs t) = Some h /\
         (if o_regularise O0
          then exists e : R, largest m f e /\ (forall i : nat, b i = Rmax (h i) (e * o_regularise_eps O0))
          else b = h) /\ recorded (o_linsearch O0) als t a /\ diagonal_move m b f a (xs t) (xs (S t))).
Proof. exact quasi_iterates. Qed.
Print Assumptions C79_quasinewton_iterates.
Theorem C79_fixed_point_iterates :
  forall (linsolve : (nat -> nat -> R) -> (nat -> R) -> option (nat -> R)) (ok : (nat -> nat -> R) -> bool)
      (m : nat) (P : problem (nat -> R) (nat -> nat -> R) R) (O0 : options R) (x0 x : nat -> R) 
      (k : nat) (ns ds als : list R),
    o_method O0 = FixedPoint ->
    solver (run_numerics linsolve ok m) P O0 x0 = Full x k ns ds als ->
    exists xs : nat -> nat -> R,
      xs 0%nat = x0 /\
      xs k = x /\
      (forall t : nat,
       (t < k)%nat ->
       exists (f : nat -> R) (a : R),
         p_fun P (xs t) = Some f /\
         nth_error ns t = Some (sqrt (SpecLinsearch.scalar m f f)) /\
         recorded (o_linsearch O0) als t a /\ relaxed_move f a (xs t) (xs (S t))).
Proof. exact fixed_iterates. Qed.
Print Assumptions C79_fixed_point_iterates.
Example C79_nonvacuous :
  forall meth,
  In meth descent_methods -> documented (run_opt (method_of_string meth)) meth /\
  accepted u_dispatch "cm" meth None (fun D => exists x ns ds,
    solver (run_numerics solve1 (fun _ => true) 1) (run_problem eigh1 0 1 D ring_args) (run_opt (method_of_string meth)) ring_x = Full x 1 ns ds [1] /\ x 0%nat = 7 / 5).
Proof. exact ring_run. Qed.

(** C80: the log-likelihood increases along a run; a run stays in the domain. *)
Theorem C80_increases_cm :
  forall (linsolve : (nat -> nat -> R) -> (nat -> R) -> option (nat -> R)) (ok : (nat -> nat -> R) -> bool)
      (eigh : (nat -> nat -> R) -> (nat -> R) * (nat -> nat -> R)) (fuel : nat) (reg : option string)
      (meth : string) (n : nat) (k c : nat -> R) (O : options R) (x0 : nat -> R),
    linear_solver n linsolve ->
    eigen_solver n eigh ->
    In meth descent_methods ->
    documented O meth ->
    (meth = "newton"%string -> reg <> Some "identity"%string) ->
    positive_upto n x0 ->
    accepted u_dispatch "cm" meth reg
      (run_increases linsolve ok eigh fuel n (A2 n k c) O (positive_upto n) (loglikelihood_cm n k c) x0).
Proof. exact cm_increases. Qed.
Print Assumptions C80_increases_cm.
Theorem C80_increases_cm_exp :
  forall (linsolve : (nat -> nat -> R) -> (nat -> R) -> option (nat -> R)) (ok : (nat -> nat -> R) -> bool)
      (eigh : (nat -> nat -> R) -> (nat -> R) * (nat -> nat -> R)) (fuel : nat) (reg : option string)
      (meth : string) (n : nat) (k c : nat -> R) (O : options R) (x0 : nat -> R),
    linear_solver n linsolve ->
    eigen_solver n eigh ->
    In meth descent_methods ->
    documented O meth ->
    (forall i : nat, (i < n)%nat -> 1 <= c i) ->
    accepted u_dispatch "cm_exp" meth reg
      (run_increases linsolve ok eigh fuel n (A2 n k c) O (fun _ : nat -> R => True) (loglikelihood_cm_exp n k c)
         x0).
Proof. exact cm_exp_increases. Qed.
Print Assumptions C80_increases_cm_exp.
Theorem C80_increases_ecm_exp :
  forall (linsolve : (nat -> nat -> R) -> (nat -> R) -> option (nat -> R)) (ok : (nat -> nat -> R) -> bool)
      (eigh : (nat -> nat -> R) -> (nat -> R) * (nat -> nat -> R)) (fuel : nat) (reg : option string)
      (meth : string) (n : nat) (k s : nat -> R) (O0 : options R) (x0 : nat -> R),
    linear_solver (2 * n) linsolve ->
    eigen_solver (2 * n) eigh ->
    In meth descent_methods ->
    documented O0 meth ->
    ecm_exp_dom n x0 ->
    accepted u_dispatch "ecm_exp" meth reg
      (run_increases linsolve ok eigh fuel (2 * n) (A2 n k s) O0 (ecm_exp_dom n) (loglikelihood_ecm_exp n k s) x0).
Proof. exact ecm_exp_increases. Qed.
Print Assumptions C80_increases_ecm_exp.
Theorem C80_increases_crema :
  forall (linsolve : (nat -> nat -> R) -> (nat -> R) -> option (nat -> R)) (ok : (nat -> nat -> R) -> bool)
      (eigh : (nat -> nat -> R) -> (nat -> R) * (nat -> nat -> R)) (fuel : nat) (reg : option string)
      (meth : string) (n : nat) (s : nat -> R) (es : topology) (O : options R) (x0 : nat -> R),
    linear_solver n linsolve ->
    eigen_solver n eigh ->
    In meth descent_methods ->
    documented O meth ->
    pairs_below n es ->
    simple_pairs es ->
    nonneg_weights es ->
    crema_dom es x0 ->
    accepted u_dispatch "crema" meth reg
      (run_increases linsolve ok eigh fuel n (A3 n s (Triples es)) O (crema_dom es)
         (loglikelihood_crema_undirected n s es) x0).
Proof. exact crema_increases. Qed.
Print Assumptions C80_increases_crema.
Theorem C80_increases_dcm :
  forall (linsolve : (nat -> nat -> R) -> (nat -> R) -> option (nat -> R)) (ok : (nat -> nat -> R) -> bool)
      (eigh : (nat -> nat -> R) -> (nat -> R) * (nat -> nat -> R)) (fuel : nat) (reg : option string)
      (meth : string) (n : nat) (ko ki : nat -> R) (nzo nzi : list nat) (c : nat -> R) 
      (O0 : options R) (x0 : nat -> R),
    linear_solver (2 * n) linsolve ->
    eigen_solver (2 * n) eigh ->
    In meth descent_methods ->
    documented O0 meth ->
    (meth = "newton"%string -> reg <> Some "identity"%string) ->
    index_list n nzo ->
    index_list n nzi ->
    dcm_dom n nzo nzi x0 ->
    accepted d_dispatch "dcm" meth reg
      (run_increases linsolve ok eigh fuel (2 * n) (A5d n ko ki nzo nzi c) O0 (dcm_dom n nzo nzi)
         (loglikelihood_dcm n ko ki nzo nzi c) x0).
Proof. exact dcm_increases. Qed.
Print Assumptions C80_increases_dcm.
Theorem C80_increases_dcm_exp :
  forall (linsolve : (nat -> nat -> R) -> (nat -> R) -> option (nat -> R)) (ok : (nat -> nat -> R) -> bool)
      (eigh : (nat -> nat -> R) -> (nat -> R) * (nat -> nat -> R)) (fuel : nat) (reg : option string)
      (meth : string) (n : nat) (ko ki : nat -> R) (nzo nzi : list nat) (c : nat -> R) 
      (O0 : options R) (x0 : nat -> R),
    linear_solver (2 * n) linsolve ->
    eigen_solver (2 * n) eigh ->
    In meth descent_methods ->
    documented O0 meth ->
    index_list n nzo ->
    index_list n nzi ->
    (forall i : nat, (i < n)%nat -> 1 <= c i) ->
    accepted d_dispatch "dcm_exp" meth reg
      (run_increases linsolve ok eigh fuel (2 * n) (A5d n ko ki nzo nzi c) O0 (fun _ : nat -> R => True)
         (loglikelihood_dcm_exp n ko ki nzo nzi c) x0).
Proof. exact dcm_exp_increases. Qed.
Print Assumptions C80_increases_dcm_exp.
Theorem C80_increases_decm :
  forall (linsolve : (nat -> nat -> R) -> (nat -> R) -> option (nat -> R)) (ok : (nat -> nat -> R) -> bool)
      (eigh : (nat -> nat -> R) -> (nat -> R) * (nat -> nat -> R)) (fuel : nat) (reg : option string)
      (meth : string) (n : nat) (ko ki so si : nat -> R) (O0 : options R) (x0 : nat -> R),
    linear_solver (4 * n) linsolve ->
    eigen_solver (4 * n) eigh ->
    In meth descent_methods ->
    documented O0 meth ->
    (meth = "newton"%string -> reg <> Some "identity"%string) ->
    positive_upto (4 * n) x0 ->
    decm_dom n x0 ->
    accepted d_dispatch "decm" meth reg
      (run_increases linsolve ok eigh fuel (4 * n) (A4 n ko ki so si) O0
         (fun x : nat -> R => positive_upto (4 * n) x /\ decm_dom n x) (loglikelihood_decm n ko ki so si) x0).
Proof. exact decm_increases. Qed.
Print Assumptions C80_increases_decm.
Theorem C80_increases_decm_exp :
  forall (linsolve : (nat -> nat -> R) -> (nat -> R) -> option (nat -> R)) (ok : (nat -> nat -> R) -> bool)
      (eigh : (nat -> nat -> R) -> (nat -> R) * (nat -> nat -> R)) (fuel : nat) (reg : option string)
      (meth : string) (n : nat) (ko ki so si : nat -> R) (O0 : options R) (x0 : nat -> R),
    linear_solver (4 * n) linsolve ->
    eigen_solver (4 * n) eigh ->
    In meth descent_methods ->
    documented O0 meth ->
    decm_exp_pairs n x0 ->
    accepted d_dispatch "decm_exp" meth reg
      (run_increases linsolve ok eigh fuel (4 * n) (A4 n ko ki so si) O0 (decm_exp_pairs n)
         (loglikelihood_decm_exp n ko ki so si) x0).
Proof. exact decm_exp_increases. Qed.
Print Assumptions C80_increases_decm_exp.
Theorem C80_increases_crema_dir :
  forall (linsolve : (nat -> nat -> R) -> (nat -> R) -> option (nat -> R)) (ok : (nat -> nat -> R) -> bool)
      (eigh : (nat -> nat -> R) -> (nat -> R) * (nat -> nat -> R)) (fuel : nat) (reg : option string)
      (meth : string) (n : nat) (so si : nat -> R) (es : topology) (nzo nzi : list nat) 
      (O0 : options R) (x0 : nat -> R),
    linear_solver (2 * n) linsolve ->
    eigen_solver (2 * n) eigh ->
    In meth descent_methods ->
    documented O0 meth ->
    pairs_below n es ->
    simple_arcs es ->
    nonneg_weights es ->
    crema_dir_dom n es x0 ->
    accepted d_dispatch "crema" meth reg
      (run_increases linsolve ok eigh fuel (2 * n) (A5c n so si (Triples es) nzo nzi) O0 
         (crema_dir_dom n es) (loglikelihood_crema_directed n so si es nzo nzi) x0).
Proof. exact crema_dir_increases. Qed.
Print Assumptions C80_increases_crema_dir.
Theorem C80_stays_cm :
  forall (linsolve : (nat -> nat -> R) -> (nat -> R) -> option (nat -> R)) (ok : (nat -> nat -> R) -> bool)
      (eigh : (nat -> nat -> R) -> (nat -> R) * (nat -> nat -> R)) (fuel : nat) (reg : option string)
      (meth : string) (n : nat) (k c : nat -> R) (O : options R) (x0 : nat -> R),
    In meth documented_methods ->
    o_method O = method_of_string meth ->
    o_linsearch O = true ->
    positive_upto n x0 ->
    accepted u_dispatch "cm" meth reg (run_stays linsolve ok eigh fuel n (A2 n k c) O (positive_upto n) x0).
Proof. exact cm_stays. Qed.
Print Assumptions C80_stays_cm.
Theorem C80_stays_dcm :
  forall (linsolve : (nat -> nat -> R) -> (nat -> R) -> option (nat -> R)) (ok : (nat -> nat -> R) -> bool)
      (eigh : (nat -> nat -> R) -> (nat -> R) * (nat -> nat -> R)) (fuel : nat) (reg : option string)
      (meth : string) (n : nat) (ko ki : nat -> R) (nzo nzi : list nat) (c : nat -> R) 
      (O0 : options R) (x0 : nat -> R),
    In meth documented_methods ->
    o_method O0 = method_of_string meth ->
    o_linsearch O0 = true ->
    index_list n nzo ->
    index_list n nzi ->
    dcm_dom n nzo nzi x0 ->
    accepted d_dispatch "dcm" meth reg
      (run_stays linsolve ok eigh fuel (2 * n) (A5d n ko ki nzo nzi c) O0 (dcm_dom n nzo nzi) x0).
Proof. exact dcm_stays. Qed.
Print Assumptions C80_stays_dcm.
Theorem C80_stays_ecm_exp :
  forall (linsolve : (nat -> nat -> R) -> (nat -> R) -> option (nat -> R)) (ok : (nat -> nat -> R) -> bool)
      (eigh : (nat -> nat -> R) -> (nat -> R) * (nat -> nat -> R)) (fuel : nat) (reg : option string)
      (meth : string) (n : nat) (k s : nat -> R) (O0 : options R) (x0 : nat -> R),
    In meth documented_methods ->
    o_method O0 = method_of_string meth ->
    o_linsearch O0 = true ->
    ecm_exp_dom n x0 ->
    accepted u_dispatch "ecm_exp" meth reg
      (run_stays linsolve ok eigh fuel (2 * n) (A2 n k s) O0 (ecm_exp_dom n) x0).
Proof. exact ecm_exp_stays. Qed.
Print Assumptions C80_stays_ecm_exp.
Theorem C80_stays_decm_exp :
  forall (linsolve : (nat -> nat -> R) -> (nat -> R) -> option (nat -> R)) (ok : (nat -> nat -> R) -> bool)
      (eigh : (nat -> nat -> R) -> (nat -> R) * (nat -> nat -> R)) (fuel : nat) (reg : option string)
      (meth : string) (n : nat) (ko ki so si : nat -> R) (O0 : options R) (x0 : nat -> R),
    In meth documented_methods ->
    o_method O0 = method_of_string meth ->
    o_linsearch O0 = true ->
    decm_exp_pairs n x0 ->
    accepted d_dispatch "decm_exp" meth reg
      (run_stays linsolve ok eigh fuel (4 * n) (A4 n ko ki so si) O0 (decm_exp_pairs n) x0).
Proof. exact decm_exp_stays. Qed.
Print Assumptions C80_stays_decm_exp.
Theorem C80_positive_ecm :
  forall (linsolve : (nat -> nat -> R) -> (nat -> R) -> option (nat -> R)) (ok : (nat -> nat -> R) -> bool)
      (eigh : (nat -> nat -> R) -> (nat -> R) * (nat -> nat -> R)) (fuel : nat) (reg : option string)
      (meth : string) (n : nat) (k s : nat -> R) (O0 : options R) (x0 : nat -> R),
    In meth documented_methods ->
    o_method O0 = method_of_string meth ->
    o_linsearch O0 = true ->
    positive_upto (2 * n) x0 ->
    accepted u_dispatch "ecm" meth reg
      (run_stays linsolve ok eigh fuel (2 * n) (A2 n k s) O0 (positive_upto (2 * n)) x0).
Proof. exact ecm_stays. Qed.
Print Assumptions C80_positive_ecm.
Theorem C80_positive_decm :
  forall (linsolve : (nat -> nat -> R) -> (nat -> R) -> option (nat -> R)) (ok : (nat -> nat -> R) -> bool)
      (eigh : (nat -> nat -> R) -> (nat -> R) * (nat -> nat -> R)) (fuel : nat) (reg : option string)
      (meth : string) (n : nat) (ko ki so si : nat -> R) (O0 : options R) (x0 : nat -> R),
    In meth documented_methods ->
    o_method O0 = method_of_string meth ->
    o_linsearch O0 = true ->
    positive_upto (4 * n) x0 ->
    accepted d_dispatch "decm" meth reg
      (run_stays linsolve ok eigh fuel (4 * n) (A4 n ko ki so si) O0 (positive_upto (4 * n)) x0).
Proof. exact decm_stays. Qed.
Print Assumptions C80_positive_decm.
Example C80_solve :
  linear_solver 1 solve1.
Proof. exact solve1_solves. Qed.
Example C80_eigh :
  eigen_solver 1 eigh1.
Proof. exact eigh1_decomposes. Qed.
Example C80_run :
  forall meth,
  In meth descent_methods -> documented (run_opt (method_of_string meth)) meth /\
  accepted u_dispatch "cm" meth None (fun D => exists x ns ds,
    solver (run_numerics solve1 (fun _ => true) 1) (run_problem eigh1 0 1 D ring_args) (run_opt (method_of_string meth)) ring_x = Full x 1 ns ds [1] /\ x 0%nat = 7 / 5).
Proof. exact ring_run. Qed.
Example C80_domains :
  positive_upto 4 bad_ecm_x /\ ecm_dom 2 bad_ecm_x /\ positive_upto 8 bad_decm_x /\ decm_pairs 2 bad_decm_x /\
  dcm_dom 2 [0%nat; 1%nat] [0%nat; 1%nat] bad_ecm_x /\
  ecm_exp_dom 2 (fun _ => 1) /\ ecm_exp_margin 2 (fun _ => 1) /\ decm_exp_pairs 2 (fun _ => 1).
Proof. exact linsearch_cases. Qed.

(** C81: the negative Hessian in the exponential parameters is positive semidefinite. *)
Theorem C81_psd_cm_exp :
  forall n c theta v,
  (forall i, (i < n)%nat -> 1 <= c i) ->
  0 <= qform n (fun i j => - loglikelihood_hessian_cm_exp n c theta i j) v.
Proof. exact cm_exp_psd. Qed.
Print Assumptions C81_psd_cm_exp.
Theorem C81_psd_dcm_exp :
  forall n nzo nzi c theta v,
  index_list n nzo -> index_list n nzi -> (forall i, (i < n)%nat -> 1 <= c i) ->
  0 <= qform (2 * n) (fun i j => - loglikelihood_hessian_dcm_exp n nzo nzi c theta i j) v.
Proof. exact dcm_exp_psd. Qed.
Print Assumptions C81_psd_dcm_exp.
Theorem C81_psd_ecm_exp :
  forall n theta v,
  ecm_exp_dom n theta ->
  0 <= qform (2 * n) (fun i j => - loglikelihood_hessian_ecm_exp n theta i j) v.
Proof. exact ecm_exp_psd. Qed.
Print Assumptions C81_psd_ecm_exp.
Theorem C81_psd_decm_exp :
  forall n theta v,
  decm_exp_dom n theta ->
  0 <= qform (4 * n) (fun i j => - loglikelihood_hessian_decm_exp n theta i j) v.
Proof. exact decm_exp_psd. Qed.
Print Assumptions C81_psd_decm_exp.
Theorem C81_psd_crema :
  forall n es beta H v,
  pairs_below n es -> crema_dom es beta -> simple_pairs es -> nonneg_weights es ->
  loglikelihood_hessian_crema_undirected es beta = Some H -> 0 <= qform n (fun i j => - H i j) v.
Proof. exact crema_psd. Qed.
Print Assumptions C81_psd_crema.
Theorem C81_psd_crema_dir :
  forall n es beta H v,
  pairs_below n es -> crema_dir_dom n es beta -> simple_arcs es -> nonneg_weights es ->
  loglikelihood_hessian_crema_directed n es beta = Some H -> 0 <= qform (2 * n) (fun i j => - H i j) v.
Proof. exact crema_dir_psd. Qed.
Print Assumptions C81_psd_crema_dir.
Example C81_nonvacuous :
  index_list 2 [0%nat; 1%nat] /\ (forall i, (i < 2)%nat -> 1 <= ring_c i) /\
  ecm_exp_dom 2 (fun _ => 1) /\ decm_exp_dom 2 (fun _ => 1) /\ decm_exp_pairs 2 (fun _ => 1) /\
  pairs_below 2 link /\ crema_dom link (fun _ => 1) /\ crema_dir_dom 2 link (fun _ => 1) /\ simple_pairs link /\ simple_arcs link /\ nonneg_weights link /\
  (exists H, loglikelihood_hessian_crema_undirected link (fun _ => 1) = Some H) /\
  (exists H, loglikelihood_hessian_crema_directed 2 link (fun _ => 1) = Some H).
Proof. exact psd_cases. Qed.
