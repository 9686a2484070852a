(** Theorems on how long runs of the solver last and what they reach.  Nothing else in this
    file; proofs are in ProofsIterates, ProofsAscent, ProofsAscentU, ProofsReach,
    ProofsReachU, ProofsReachNet and WitnessReach. *)
From Coq Require Import Reals List Arith Bool String Lia Lra.
From Verif Require Import Base SpecDeriv SpecGraph SpecEnsemble SpecWeighted SpecDirected SpecCReMa SpecLinsearch SpecDispatch SpecSolver SpecRun SpecReach
  ModelCM ModelECM ModelDCM ModelDECM ModelCReMa ModelLinsearch ModelSolver ModelDispatch ModelRun.
From Verif Require Import ProofsAscentU ProofsReachU ProofsReachNet WitnessRun WitnessReach.
Import ListNotations.
Local Open Scope R_scope.

(** C95: the number of steps of a run is bounded by the room above the starting value. *)
Theorem C95_settles_cm :
  forall (linsolve : (nat -> nat -> R) -> (nat -> R) -> option (nat -> R)) (ok : (nat -> nat -> R) -> bool)
      (eigh : (nat -> nat -> R) -> (nat -> R) * (nat -> nat -> R)) (fuel : nat) (reg : option string)
      (meth : string) (n : nat) (k c : nat -> R) (O : options R) (x0 : nat -> R) (U : R),
    linear_solver n linsolve ->
    eigen_solver n eigh ->
    In meth descent_methods ->
    documented O meth ->
    (meth = "newton"%string -> reg <> Some "identity"%string) ->
    positive_upto n x0 ->
    accepted u_dispatch "cm" meth reg
      (run_settles linsolve ok eigh fuel n (A2 n k c) O (positive_upto n) (loglikelihood_cm n k c) U x0).
Proof. exact cm_settles. Qed.
Print Assumptions C95_settles_cm.
Theorem C95_settles_cm_exp :
  forall (linsolve : (nat -> nat -> R) -> (nat -> R) -> option (nat -> R)) (ok : (nat -> nat -> R) -> bool)
      (eigh : (nat -> nat -> R) -> (nat -> R) * (nat -> nat -> R)) (fuel : nat) (reg : option string)
      (meth : string) (n : nat) (k c : nat -> R) (O : options R) (x0 : nat -> R) (U : R),
    linear_solver n linsolve ->
    eigen_solver n eigh ->
    In meth descent_methods ->
    documented O meth ->
    (forall i : nat, (i < n)%nat -> 1 <= c i) ->
    accepted u_dispatch "cm_exp" meth reg
      (run_settles linsolve ok eigh fuel n (A2 n k c) O (fun _ : nat -> R => True) (loglikelihood_cm_exp n k c) U
         x0).
Proof. exact cm_exp_settles. Qed.
Print Assumptions C95_settles_cm_exp.
Theorem C95_settles_ecm_exp :
  forall (linsolve : (nat -> nat -> R) -> (nat -> R) -> option (nat -> R)) (ok : (nat -> nat -> R) -> bool)
      (eigh : (nat -> nat -> R) -> (nat -> R) * (nat -> nat -> R)) (fuel : nat) (reg : option string)
      (meth : string) (n : nat) (k s : nat -> R) (O0 : options R) (x0 : nat -> R) (U : R),
    linear_solver (2 * n) linsolve ->
    eigen_solver (2 * n) eigh ->
    In meth descent_methods ->
    documented O0 meth ->
    ecm_exp_dom n x0 ->
    accepted u_dispatch "ecm_exp" meth reg
      (run_settles linsolve ok eigh fuel (2 * n) (A2 n k s) O0 (ecm_exp_dom n) (loglikelihood_ecm_exp n k s) U x0).
Proof. exact ecm_exp_settles. Qed.
Print Assumptions C95_settles_ecm_exp.
Theorem C95_settles_crema :
  forall (linsolve : (nat -> nat -> R) -> (nat -> R) -> option (nat -> R)) (ok : (nat -> nat -> R) -> bool)
      (eigh : (nat -> nat -> R) -> (nat -> R) * (nat -> nat -> R)) (fuel : nat) (reg : option string)
      (meth : string) (n : nat) (s : nat -> R) (es : topology) (O : options R) (x0 : nat -> R) 
      (U : R),
    linear_solver n linsolve ->
    eigen_solver n eigh ->
    In meth descent_methods ->
    documented O meth ->
    pairs_below n es ->
    simple_pairs es ->
    nonneg_weights es ->
    crema_dom es x0 ->
    accepted u_dispatch "crema" meth reg
      (run_settles linsolve ok eigh fuel n (A3 n s (Triples es)) O (crema_dom es)
         (loglikelihood_crema_undirected n s es) U x0).
Proof. exact crema_settles. Qed.
Print Assumptions C95_settles_crema.
Theorem C95_settles_dcm :
  forall (linsolve : (nat -> nat -> R) -> (nat -> R) -> option (nat -> R)) (ok : (nat -> nat -> R) -> bool)
      (eigh : (nat -> nat -> R) -> (nat -> R) * (nat -> nat -> R)) (fuel : nat) (reg : option string)
      (meth : string) (n : nat) (ko ki : nat -> R) (nzo nzi : list nat) (c : nat -> R) 
      (O0 : options R) (x0 : nat -> R) (U : R),
    linear_solver (2 * n) linsolve ->
    eigen_solver (2 * n) eigh ->
    In meth descent_methods ->
    documented O0 meth ->
    (meth = "newton"%string -> reg <> Some "identity"%string) ->
    index_list n nzo ->
    index_list n nzi ->
    dcm_dom n nzo nzi x0 ->
    accepted d_dispatch "dcm" meth reg
      (run_settles linsolve ok eigh fuel (2 * n) (A5d n ko ki nzo nzi c) O0 (dcm_dom n nzo nzi)
         (loglikelihood_dcm n ko ki nzo nzi c) U x0).
Proof. exact dcm_settles. Qed.
Print Assumptions C95_settles_dcm.
Theorem C95_settles_dcm_exp :
  forall (linsolve : (nat -> nat -> R) -> (nat -> R) -> option (nat -> R)) (ok : (nat -> nat -> R) -> bool)
      (eigh : (nat -> nat -> R) -> (nat -> R) * (nat -> nat -> R)) (fuel : nat) (reg : option string)
      (meth : string) (n : nat) (ko ki : nat -> R) (nzo nzi : list nat) (c : nat -> R) 
      (O0 : options R) (x0 : nat -> R) (U : R),
    linear_solver (2 * n) linsolve ->
    eigen_solver (2 * n) eigh ->
    In meth descent_methods ->
    documented O0 meth ->
    index_list n nzo ->
    index_list n nzi ->
    (forall i : nat, (i < n)%nat -> 1 <= c i) ->
    accepted d_dispatch "dcm_exp" meth reg
      (run_settles linsolve ok eigh fuel (2 * n) (A5d n ko ki nzo nzi c) O0 (fun _ : nat -> R => True)
         (loglikelihood_dcm_exp n ko ki nzo nzi c) U x0).
Proof. exact dcm_exp_settles. Qed.
Print Assumptions C95_settles_dcm_exp.
Theorem C95_settles_decm :
  forall (linsolve : (nat -> nat -> R) -> (nat -> R) -> option (nat -> R)) (ok : (nat -> nat -> R) -> bool)
      (eigh : (nat -> nat -> R) -> (nat -> R) * (nat -> nat -> R)) (fuel : nat) (reg : option string)
      (meth : string) (n : nat) (ko ki so si : nat -> R) (O0 : options R) (x0 : nat -> R) 
      (U : R),
    linear_solver (4 * n) linsolve ->
    eigen_solver (4 * n) eigh ->
    In meth descent_methods ->
    documented O0 meth ->
    (meth = "newton"%string -> reg <> Some "identity"%string) ->
    positive_upto (4 * n) x0 ->
    decm_dom n x0 ->
    accepted d_dispatch "decm" meth reg
      (run_settles linsolve ok eigh fuel (4 * n) (A4 n ko ki so si) O0
         (fun x : nat -> R => positive_upto (4 * n) x /\ decm_dom n x) (loglikelihood_decm n ko ki so si) U x0).
Proof. exact decm_settles. Qed.
Print Assumptions C95_settles_decm.
Theorem C95_settles_decm_exp :
  forall (linsolve : (nat -> nat -> R) -> (nat -> R) -> option (nat -> R)) (ok : (nat -> nat -> R) -> bool)
      (eigh : (nat -> nat -> R) -> (nat -> R) * (nat -> nat -> R)) (fuel : nat) (reg : option string)
      (meth : string) (n : nat) (ko ki so si : nat -> R) (O0 : options R) (x0 : nat -> R) 
      (U : R),
    linear_solver (4 * n) linsolve ->
    eigen_solver (4 * n) eigh ->
    In meth descent_methods ->
    documented O0 meth ->
    decm_exp_pairs n x0 ->
    accepted d_dispatch "decm_exp" meth reg
      (run_settles linsolve ok eigh fuel (4 * n) (A4 n ko ki so si) O0 (decm_exp_pairs n)
         (loglikelihood_decm_exp n ko ki so si) U x0).
Proof. exact decm_exp_settles. Qed.
Print Assumptions C95_settles_decm_exp.
Theorem C95_settles_crema_dir :
  forall (linsolve : (nat -> nat -> R) -> (nat -> R) -> option (nat -> R)) (ok : (nat -> nat -> R) -> bool)
      (eigh : (nat -> nat -> R) -> (nat -> R) * (nat -> nat -> R)) (fuel : nat) (reg : option string)
      (meth : string) (n : nat) (so si : nat -> R) (es : topology) (nzo nzi : list nat) 
      (O0 : options R) (x0 : nat -> R) (U : R),
    linear_solver (2 * n) linsolve ->
    eigen_solver (2 * n) eigh ->
    In meth descent_methods ->
    documented O0 meth ->
    pairs_below n es ->
    simple_arcs es ->
    nonneg_weights es ->
    crema_dir_dom n es x0 ->
    accepted d_dispatch "crema" meth reg
      (run_settles linsolve ok eigh fuel (2 * n) (A5c n so si (Triples es) nzo nzi) O0 
         (crema_dir_dom n es) (loglikelihood_crema_directed n so si es nzo nzi) U x0).
Proof. exact crema_dir_settles. Qed.
Print Assumptions C95_settles_crema_dir.
Theorem C95_bound_cm :
  forall N m cls c k a,
  simple_graph N a -> classes N m cls c -> (forall i, (i < N)%nat -> k (cls i) = deg N a i) ->
  forall z, positive_upto m z -> loglikelihood_cm m k c z <= 0.
Proof. exact cm_bound. Qed.
Print Assumptions C95_bound_cm.
Theorem C95_bound_cm_exp :
  forall N m cls c k a,
  simple_graph N a -> classes N m cls c -> (forall i, (i < N)%nat -> k (cls i) = deg N a i) ->
  forall z, loglikelihood_cm_exp m k c z <= 0.
Proof. exact cm_exp_bound. Qed.
Print Assumptions C95_bound_cm_exp.
Theorem C95_bound_ecm_exp :
  forall n k s w,
  weighted_graph n w -> (forall i, (i < n)%nat -> k i = wdeg n w i) -> (forall i, (i < n)%nat -> s i = wstr n w i) ->
  forall z, ecm_exp_dom n z -> loglikelihood_ecm_exp n k s z <= 0.
Proof. exact ecm_exp_bound. Qed.
Print Assumptions C95_bound_ecm_exp.
Theorem C95_bound_decm_exp :
  forall n ko ki so si w,
  weighted_digraph n w ->
  (forall i, (i < n)%nat -> ko i = wdeg n w i) -> (forall i, (i < n)%nat -> ki i = windeg n w i) ->
  (forall i, (i < n)%nat -> so i = wstr n w i) -> (forall i, (i < n)%nat -> si i = winstr n w i) ->
  forall z, decm_exp_dom n z -> loglikelihood_decm_exp n ko ki so si z <= 0.
Proof. exact decm_exp_bound. Qed.
Print Assumptions C95_bound_decm_exp.
Example C95_run :
  forall meth,
  In meth descent_methods -> documented (run_opt (method_of_string meth)) meth /\
  accepted u_dispatch "cm" meth None (fun D => exists x ns ds,
    solver (run_numerics solve1 (fun _ => true) 1) (run_problem eigh1 0 1 D ring_args) (run_opt (method_of_string meth)) ring_x = Full x 1 ns ds [1] /\ x 0%nat = 7 / 5).
Proof. exact ring_run. Qed.
Example C95_network :
  forall meth,
  In meth descent_methods ->
  (exists linsolve eigh, linear_solver 1 linsolve /\ solves_definite 1 linsolve /\ eigen_solver 1 eigh) /\ documented (run_opt (method_of_string meth)) meth /\
  simple_graph 4 cycle4 /\ classes 4 1 (fun _ => 0%nat) ring_c /\ inhabited_classes 4 1 (fun _ => 0%nat) /\ (forall i, (i < 4)%nat -> ring_k 0 = deg 4 cycle4 i) /\
  0 < o_tol (run_opt (method_of_string meth)) /\ sqrt (INR 1) < 2 ^ 48 * o_regularise_eps (run_opt (method_of_string meth)) /\
  eventually (fun M e => ample 1 12 (- loglikelihood_cm_exp 1 ring_k ring_c (fun _ => 0)) (with_budget (run_opt (method_of_string meth)) M e)).
Proof. exact cycle_meets. Qed.

(** C96: in the exponential parameters every network is solved to the tolerance. *)
Theorem C96_cm_exp_reaches :
  forall (linsolve : (nat -> nat -> R) -> (nat -> R) -> option (nat -> R)) (ok : (nat -> nat -> R) -> bool)
      (eigh : (nat -> nat -> R) -> (nat -> R) * (nat -> nat -> R)) (fuel : nat) (reg : option string)
      (meth : string) (N m : nat) (cls : nat -> nat) (c k : nat -> R) (a : nat -> nat -> bool) 
      (W : R) (O0 : options R) (x0 : nat -> R),
    linear_solver m linsolve ->
    solves_definite m linsolve ->
    eigen_solver m eigh ->
    In meth descent_methods ->
    documented O0 meth ->
    simple_graph N a ->
    classes N m cls c ->
    inhabited_classes N m cls ->
    (0 < N)%nat ->
    (forall i : nat, (i < N)%nat -> k (cls i) = deg N a i) ->
    0 < W ->
    (forall q : nat, (q < m)%nat -> c q * (INR N - 1) <= W) ->
    ample m W (- loglikelihood_cm_exp m k c x0) O0 ->
    accepted u_dispatch "cm_exp" meth reg
      (run_reaches linsolve ok eigh fuel m (A2 m k c) O0 W (- loglikelihood_cm_exp m k c x0) x0
         (fun x : nat -> R =>
          forall i : nat,
          (i < N)%nat ->
          Rabs (deg N a i - expected_degree_cm N (fun j : nat => exp (- x (cls j))) i) <= o_tol O0 / c (cls i))).
Proof. exact cm_exp_network_reaches. Qed.
Print Assumptions C96_cm_exp_reaches.
Theorem C96_dcm_exp_reaches :
  forall (linsolve : (nat -> nat -> R) -> (nat -> R) -> option (nat -> R)) (ok : (nat -> nat -> R) -> bool)
      (eigh : (nat -> nat -> R) -> (nat -> R) * (nat -> nat -> R)) (fuel : nat) (reg : option string)
      (meth : string) (N m : nat) (cls : nat -> nat) (c ko ki : nat -> R) (nzo nzi : list nat)
      (a : nat -> nat -> bool) (W : R) (O0 : options R) (x0 : nat -> R),
    linear_solver (2 * m) linsolve ->
    solves_definite (2 * m) linsolve ->
    eigen_solver (2 * m) eigh ->
    In meth descent_methods ->
    documented O0 meth ->
    loopless N a ->
    classes N m cls c ->
    inhabited_classes N m cls ->
    (0 < N)%nat ->
    nonzero_list m ko nzo ->
    nonzero_list m ki nzi ->
    (forall i : nat, (i < N)%nat -> ko (cls i) = deg N a i) ->
    (forall i : nat, (i < N)%nat -> ki (cls i) = indeg N a i) ->
    0 < W ->
    (forall q : nat, (q < m)%nat -> c q * (INR N - 1) <= W) ->
    ample (2 * m) W (- loglikelihood_dcm_exp m ko ki nzo nzi c x0) O0 ->
    accepted d_dispatch "dcm_exp" meth reg
      (run_reaches linsolve ok eigh fuel (2 * m) (A5d m ko ki nzo nzi c) O0 W
         (- loglikelihood_dcm_exp m ko ki nzo nzi c x0) x0
         (fun x : nat -> R =>
          forall i : nat,
          (i < N)%nat ->
          Rabs (deg N a i - expected_out_degree_dcm N (expand N m cls (multipliers m nzo nzi x)) i) <=
          o_tol O0 / c (cls i) /\
          Rabs (indeg N a i - expected_in_degree_dcm N (expand N m cls (multipliers m nzo nzi x)) i) <=
          o_tol O0 / c (cls i))).
Proof. exact dcm_exp_network_reaches. Qed.
Print Assumptions C96_dcm_exp_reaches.
Theorem C96_cm_exp_converges :
  forall (linsolve : (nat -> nat -> R) -> (nat -> R) -> option (nat -> R)) (ok : (nat -> nat -> R) -> bool)
      (eigh : (nat -> nat -> R) -> (nat -> R) * (nat -> nat -> R)) (fuel : nat) (reg : option string)
      (meth : string) (N m : nat) (cls : nat -> nat) (c k : nat -> R) (a : nat -> nat -> bool) 
      (O0 : options R) (x0 : nat -> R),
    linear_solver m linsolve ->
    solves_definite m linsolve ->
    eigen_solver m eigh ->
    In meth descent_methods ->
    documented O0 meth ->
    simple_graph N a ->
    classes N m cls c ->
    inhabited_classes N m cls ->
    (0 < N)%nat ->
    (forall i : nat, (i < N)%nat -> k (cls i) = deg N a i) ->
    0 < o_tol O0 ->
    o_verbose O0 = false ->
    o_full_return O0 = true ->
    sqrt (INR m) < 2 ^ 48 * o_regularise_eps O0 ->
    eventually
      (fun (M : nat) (e : R) =>
       accepted u_dispatch "cm_exp" meth reg
         (run_reaches linsolve ok eigh fuel m (A2 m k c) (with_budget O0 M e) (INR N * INR N)
            (- loglikelihood_cm_exp m k c x0) x0
            (fun x : nat -> R =>
             forall i : nat,
             (i < N)%nat ->
             Rabs (deg N a i - expected_degree_cm N (fun j : nat => exp (- x (cls j))) i) <= o_tol O0 / c (cls i)))).
Proof. exact cm_exp_converges. Qed.
Print Assumptions C96_cm_exp_converges.
Theorem C96_dcm_exp_converges :
  forall (linsolve : (nat -> nat -> R) -> (nat -> R) -> option (nat -> R)) (ok : (nat -> nat -> R) -> bool)
      (eigh : (nat -> nat -> R) -> (nat -> R) * (nat -> nat -> R)) (fuel : nat) (reg : option string)
      (meth : string) (N m : nat) (cls : nat -> nat) (c ko ki : nat -> R) (nzo nzi : list nat)
      (a : nat -> nat -> bool) (O0 : options R) (x0 : nat -> R),
    linear_solver (2 * m) linsolve ->
    solves_definite (2 * m) linsolve ->
    eigen_solver (2 * m) eigh ->
    In meth descent_methods ->
    documented O0 meth ->
    loopless N a ->
    classes N m cls c ->
    inhabited_classes N m cls ->
    (0 < N)%nat ->
    nonzero_list m ko nzo ->
    nonzero_list m ki nzi ->
    (forall i : nat, (i < N)%nat -> ko (cls i) = deg N a i) ->
    (forall i : nat, (i < N)%nat -> ki (cls i) = indeg N a i) ->
    0 < o_tol O0 ->
    o_verbose O0 = false ->
    o_full_return O0 = true ->
    sqrt (INR (2 * m)) < 2 ^ 48 * o_regularise_eps O0 ->
    eventually
      (fun (M : nat) (e : R) =>
       accepted d_dispatch "dcm_exp" meth reg
         (run_reaches linsolve ok eigh fuel (2 * m) (A5d m ko ki nzo nzi c) (with_budget O0 M e) 
            (INR N * INR N) (- loglikelihood_dcm_exp m ko ki nzo nzi c x0) x0
            (fun x : nat -> R =>
             forall i : nat,
             (i < N)%nat ->
             Rabs (deg N a i - expected_out_degree_dcm N (expand N m cls (multipliers m nzo nzi x)) i) <=
             o_tol O0 / c (cls i) /\
             Rabs (indeg N a i - expected_in_degree_dcm N (expand N m cls (multipliers m nzo nzi x)) i) <=
             o_tol O0 / c (cls i)))).
Proof. exact dcm_exp_converges. Qed.
Print Assumptions C96_dcm_exp_converges.
Example C96_solvers :
  forall m,
  exists linsolve eigh, linear_solver m linsolve /\ solves_definite m linsolve /\ eigen_solver m eigh.
Proof. exact solvers_exist. Qed.
Example C96_undirected :
  forall meth,
  In meth descent_methods ->
  (exists linsolve eigh, linear_solver 1 linsolve /\ solves_definite 1 linsolve /\ eigen_solver 1 eigh) /\ documented (run_opt (method_of_string meth)) meth /\
  simple_graph 4 cycle4 /\ classes 4 1 (fun _ => 0%nat) ring_c /\ inhabited_classes 4 1 (fun _ => 0%nat) /\ (forall i, (i < 4)%nat -> ring_k 0 = deg 4 cycle4 i) /\
  0 < o_tol (run_opt (method_of_string meth)) /\ sqrt (INR 1) < 2 ^ 48 * o_regularise_eps (run_opt (method_of_string meth)) /\
  eventually (fun M e => ample 1 12 (- loglikelihood_cm_exp 1 ring_k ring_c (fun _ => 0)) (with_budget (run_opt (method_of_string meth)) M e)).
Proof. exact cycle_meets. Qed.
Example C96_directed :
  forall meth,
  In meth descent_methods ->
  (exists linsolve eigh, linear_solver 2 linsolve /\ solves_definite 2 linsolve /\ eigen_solver 2 eigh) /\ documented (run_opt (method_of_string meth)) meth /\
  loopless 4 dcycle4 /\ classes 4 1 (fun _ => 0%nat) ring_c /\ inhabited_classes 4 1 (fun _ => 0%nat) /\ nonzero_list 1 (fun _ => 1) [0%nat] /\
  (forall i, (i < 4)%nat -> 1 = deg 4 dcycle4 i) /\ (forall i, (i < 4)%nat -> 1 = indeg 4 dcycle4 i) /\
  0 < o_tol (run_opt (method_of_string meth)) /\ sqrt (INR 2) < 2 ^ 48 * o_regularise_eps (run_opt (method_of_string meth)) /\
  eventually (fun M e => ample 2 12 (- loglikelihood_dcm_exp 1 (fun _ => 1) (fun _ => 1) [0%nat] [0%nat] ring_c (fun _ => 0)) (with_budget (run_opt (method_of_string meth)) M e)).
Proof. exact dcycle_meets. Qed.
Example C96_any_size :
  forall m,
  INR m <= 10 ^ 22 -> sqrt (INR m) < 2 ^ 48 * / 1000.
Proof. exact any_size. Qed.
