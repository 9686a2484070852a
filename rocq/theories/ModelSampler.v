(** Model of ensemble_generator.py and of the two [ensemble_sampler] methods. *)
From Coq Require Import Reals List Arith Bool ZArith String DecimalString.
From Verif Require Import Base ModelDCM ModelLinsearch.
Import ListNotations.
Local Open Scope R_scope.

(** * The random generator *)
(** [np.random]'s global legacy generator, as an oracle: [seeded k] is the state after
    [np.random.seed(k)]; [random_sample()], [randint(0, 1000000)], [geometric(p)] and
    [exponential(scale)] return a value and the next state.  The last two raise
    [ValueError] on invalid parameters ([None]). *)
Record generator : Type := {
  gstate : Type;
  seeded : Z -> gstate;
  random_sample : gstate -> R * gstate;
  randint : gstate -> Z * gstate;
  geometric : R -> gstate -> option (nat * gstate);
  exponential : fval -> gstate -> option (fval * gstate)
}.

Section Generator.
Variable G : generator.
Local Notation state := (gstate G).

(** [np.random.seed(k)] accepts [0 <= k < 2**32] and raises otherwise. *)
Definition np_seed (k : Z) : option state := if ((0 <=? k) && (k <? 4294967296))%Z then Some (seeded G k) else None.
(** [if seed is not None: np.random.seed(seed)]. *)
Definition maybe_seed (seed : option Z) (s : state) : option state :=
  match seed with None => Some s | Some k => np_seed k end.

(** * Functions run by the workers; [None]: an exception *)
(** ensemble_generator.py:548-572 [is_a_link_cm]. *)
Definition is_a_link_cm (a1 a2 : nat * R) (seed : option Z) (s : state) : option (option (nat * nat) * state) :=
  match maybe_seed seed s with None => None | Some s =>
    let (i, xi) := a1 in let (j, xj) := a2 in
    let (p, s) := random_sample G s in
    let xij := xi * xj in
    let p_ensemble := fdiv xij (1 + xij) in
    if flt (Fin p) p_ensemble then Some (Some (i, j), s) else Some (None, s)
  end.
(** ensemble_generator.py:575-606 [is_a_link_ecm]. *)
Definition is_a_link_ecm (a1 a2 : nat * R * R) (seed : option Z) (s : state) : option (option (nat * nat * nat) * state) :=
  match maybe_seed seed s with None => None | Some s =>
    let '(i, xi, yi) := a1 in let '(j, xj, yj) := a2 in
    let (p, s) := random_sample G s in
    let xij := xi * xj in
    let yij := yi * yj in
    let p_ensemble := fdiv (xij * yij) (1 - yij + xij * yij) in
    if flt (Fin p) p_ensemble then
      match geometric G (1 - yij) s with None => None | Some (w, s) => Some (Some (i, j, w), s) end
    else Some (None, s)
  end.
(** ensemble_generator.py:609-632 [is_a_link_dcm]. *)
Definition is_a_link_dcm (a1 a2 : nat * R) (seed : option Z) (s : state) : option (option (nat * nat) * state) :=
  match maybe_seed seed s with None => None | Some s =>
    let (i, xi) := a1 in let (j, yj) := a2 in
    let (p, s) := random_sample G s in
    let tmp := xi * yj in
    let p_ensemble := fdiv tmp (1 + tmp) in
    if flt (Fin p) p_ensemble then Some (Some (i, j), s) else Some (None, s)
  end.
(** ensemble_generator.py:635-668 [is_a_link_decm]. *)
Definition is_a_link_decm (a1 a2 : nat * R * R) (seed : option Z) (s : state) : option (option (nat * nat * nat) * state) :=
  match maybe_seed seed s with None => None | Some s =>
    let '(i, a_out_i, b_out_i) := a1 in let '(j, a_in_j, b_in_j) := a2 in
    let (p, s) := random_sample G s in
    let aij := a_out_i * a_in_j in
    let bij := b_out_i * b_in_j in
    let p_ensemble := fdiv (aij * bij) (1 - bij + aij * bij) in
    if flt (Fin p) p_ensemble then
      match geometric G (1 - bij) s with None => None | Some (w, s) => Some (Some (i, j, w), s) end
    else Some (None, s)
  end.
(** ensemble_generator.py:671-695 [is_a_link_crema_ecm_det], 760-784
    [is_a_link_crema_decm_det]. *)
Definition is_a_link_crema_det (a1 a2 : nat * R) (seed : option Z) (s : state) : option (option (nat * nat * fval) * state) :=
  match maybe_seed seed s with None => None | Some s =>
    let (i, beta_i) := a1 in let (j, beta_j) := a2 in
    let q_ensemble := fdiv 1 (beta_i + beta_j) in
    match exponential G q_ensemble s with None => None | Some (w_link, s) => Some (Some (i, j, w_link), s) end
  end.
(** ensemble_generator.py:698-727 [is_a_link_crema_ecm_prob], 787-815
    [is_a_link_crema_decm_prob]. *)
Definition is_a_link_crema_prob (a1 a2 : nat * R) (p_ensemble : R) (seed : option Z) (s : state)
    : option (option (nat * nat * fval) * state) :=
  match maybe_seed seed s with None => None | Some s =>
    let (i, beta_i) := a1 in let (j, beta_j) := a2 in
    let (p, s) := random_sample G s in
    if flt (Fin p) (Fin p_ensemble) then
      let q_ensemble := fdiv 1 (beta_i + beta_j) in
      match exponential G q_ensemble s with None => None | Some (w_link, s) => Some (Some (i, j, w_link), s) end
    else Some (None, s)
  end.
(** ensemble_generator.py:730-757 [is_a_link_crema_sparse_ecm_prob], 818-835 (end of file)
    [is_a_link_crema_sparse_decm_prob]. *)
Definition is_a_link_crema_sparse (a1 a2 : nat * R * R) (seed : option Z) (s : state)
    : option (option (nat * nat * fval) * state) :=
  match maybe_seed seed s with None => None | Some s =>
    let '(i, beta_i, x_i) := a1 in let '(j, beta_j, x_j) := a2 in
    let (p, s) := random_sample G s in
    let p_ensemble := fdiv (x_i * x_j) (1 + x_j * x_i) in
    if flt (Fin p) p_ensemble then
      let q_ensemble := fdiv 1 (beta_i + beta_j) in
      match exponential G q_ensemble s with None => None | Some (w_link, s) => Some (Some (i, j, w_link), s) end
    else Some (None, s)
  end.

(** * [multiprocessing.Pool.starmap] *)
(** A run of the pool: the tasks, in some order, each on some worker ([(task, worker)]); every
    worker has its own generator state.  [results] collects what each task returned. *)
Definition schedule : Type := list (nat * nat).
Section Pool.
Context {T L : Type}.
Variable f : T -> state -> option (option L * state).
Fixpoint pool_run (tasks : list T) (sched : schedule) (workers : nat -> state) (results : nat -> option (option L))
    : nat -> option (option L) :=
  match sched with
  | [] => results
  | (t, w) :: sched =>
      match nth_error tasks t with
      | None => pool_run tasks sched workers results
      | Some a =>
          match f a (workers w) with
          | None => pool_run tasks sched workers results
          | Some (v, s) =>
              pool_run tasks sched (fun u => if Nat.eqb u w then s else workers u)
                (fun u => if Nat.eqb u t then Some v else results u)
          end
      end
  end.
(** All results in the order of the tasks, or an exception if some task raised. *)
Fixpoint collect {A : Type} (l : list (option A)) : option (list A) :=
  match l with
  | [] => Some []
  | None :: _ => None
  | Some v :: l => match collect l with None => None | Some r => Some (v :: r) end
  end.
(** [with mp.Pool(processes=cpu_n) as pool: pool.starmap(f, tasks)]; [mp.Pool] raises when
    [cpu_n] is not positive.  A schedule only uses workers below [cpu_n] and runs every task once
    (see [SpecSampler.valid_schedule]). *)
Definition starmap (cpu_n : nat) (tasks : list T) (sched : schedule) (workers : nat -> state) : option (list (option L)) :=
  if Nat.eqb cpu_n 0 then None
  else let results := pool_run tasks sched workers (fun _ => None) in collect (map results (seq 0 (List.length tasks))).
End Pool.

(** The tasks with their seeds: the generator expression is turned into a list by [starmap] in
    the parent, one [np.random.randint(0, 1000000)] per element. *)
Fixpoint with_seeds {A : Type} (l : list A) (s : state) : list (A * Z) * state :=
  match l with
  | [] => ([], s)
  | a :: l => let (k, s) := randint G s in let (r, s) := with_seeds l s in ((a, k) :: r, s)
  end.
(** [edges_list[:] = (value for value in edges_list if value is not None)]. *)
Definition drop_none {L : Type} (l : list (option L)) : list L :=
  flat_map (fun v => match v with None => [] | Some e => [e] end) l.

(** What the operating system decides in one call: the schedule and the generator states the
    workers start with. *)
Record pool_choice : Type := { the_schedule : schedule; the_workers : nat -> state }.

(** The common body of the samplers: seed, build the tasks, run them, drop [None], write.
    Returns the lines of the file and the state of the parent's generator. *)
Definition sample_graph {A L : Type} (f : A * Z -> state -> option (option L * state)) (items : list A)
    (cpu_n : nat) (seed : option Z) (s : state) (c : pool_choice) : option (list L * state) :=
  match maybe_seed seed s with None => None | Some s =>
    let (tasks, s) := with_seeds items s in
    match starmap f cpu_n tasks (the_schedule c) (the_workers c) with
    | None => None
    | Some edges_list => Some (drop_none edges_list, s)
    end
  end.

(** [zip] of two or three lists stops at the shortest. *)
Definition zip2 {A : Type} (x : list A) : list (nat * A) := combine (seq 0 (List.length x)) x.
Definition zip_inds {A : Type} (n : nat) (x : list A) : list (nat * A) := combine (seq 0 n) x.
Definition zip3 {A B : Type} (n : nat) (x : list A) (y : list B) : list (nat * A * B) := combine (combine (seq 0 n) x) y.
(** Double comprehension with a condition. *)
Definition pairs_if {A B : Type} (cond : A -> B -> bool) (l : list A) (l' : list B) : list (A * B) :=
  flat_map (fun a => flat_map (fun b => if cond a b then [(a, b)] else []) l') l.

(** ensemble_generator.py:7-49 [ensemble_sampler_cm_graph]. *)
Definition ensemble_sampler_cm_graph (x : list R) (cpu_n : nat) (seed : option Z) (s : state) (c : pool_choice)
    : option (list (nat * nat) * state) :=
  sample_graph (fun t => is_a_link_cm (fst (fst t)) (snd (fst t)) (Some (snd t)))
    (pairs_if (fun a b => Nat.ltb (fst a) (fst b)) (zip2 x) (zip2 x)) cpu_n seed s c.
(** ensemble_generator.py:52-97 [ensemble_sampler_ecm_graph]. *)
Definition ensemble_sampler_ecm_graph (x y : list R) (cpu_n : nat) (seed : option Z) (s : state) (c : pool_choice)
    : option (list (nat * nat * nat) * state) :=
  let z := zip3 (List.length x) x y in
  sample_graph (fun t => is_a_link_ecm (fst (fst t)) (snd (fst t)) (Some (snd t)))
    (pairs_if (fun a b => Nat.ltb (fst (fst a)) (fst (fst b))) z z) cpu_n seed s c.
(** ensemble_generator.py:100-144 [ensemble_sampler_dcm_graph]. *)
Definition ensemble_sampler_dcm_graph (x y : list R) (cpu_n : nat) (seed : option Z) (s : state) (c : pool_choice)
    : option (list (nat * nat) * state) :=
  let n := List.length x in
  sample_graph (fun t => is_a_link_dcm (fst (fst t)) (snd (fst t)) (Some (snd t)))
    (pairs_if (fun a b => negb (Nat.eqb (fst a) (fst b))) (zip_inds n x) (zip_inds n y)) cpu_n seed s c.
(** ensemble_generator.py:147-203 [ensemble_sampler_decm_graph]. *)
Definition ensemble_sampler_decm_graph (a_out a_in b_out b_in : list R) (cpu_n : nat) (seed : option Z) (s : state) (c : pool_choice)
    : option (list (nat * nat * nat) * state) :=
  let n := List.length a_out in
  sample_graph (fun t => is_a_link_decm (fst (fst t)) (snd (fst t)) (Some (snd t)))
    (pairs_if (fun a b => negb (Nat.eqb (fst (fst a)) (fst (fst b)))) (zip3 n a_out b_out) (zip3 n a_in b_in)) cpu_n seed s c.

(** Edge list [(row_inds, col_inds, weigths_value)]. *)
Definition edges3 : Type := (list nat * list nat * list R)%type.
(** [((i, beta[i]), (j, beta'[j]))] for a list of pairs; an index out of range raises. *)
Definition lookup_pairs (beta beta' : list R) (l : list (nat * nat)) : option (list ((nat * R) * (nat * R))) :=
  collect (map (fun e => match nth_error beta (fst e), nth_error beta' (snd e) with
                         | Some bi, Some bj => Some ((fst e, bi), (snd e, bj))
                         | _, _ => None
                         end) l).
(** ensemble_generator.py:206-254 [ensemble_sampler_crema_ecm_det_graph] ([beta' = beta]) and
    430-484 [ensemble_sampler_crema_decm_det_graph] ([beta = b_out], [beta' = b_in]).  There is
    no [None] to remove. *)
Definition ensemble_sampler_crema_det_graph (beta beta' : list R) (adj : edges3) (cpu_n : nat) (seed : option Z) (s : state)
    (c : pool_choice) : option (list (nat * nat * fval) * state) :=
  let '(row_inds, col_inds, _) := adj in
  match lookup_pairs beta beta' (combine row_inds col_inds) with None => None | Some items =>
    sample_graph (fun t => is_a_link_crema_det (fst (fst t)) (snd (fst t)) (Some (snd t))) items cpu_n seed s c
  end.
(** ensemble_generator.py:257-308 [ensemble_sampler_crema_ecm_prob_graph] and 371-427
    [ensemble_sampler_crema_decm_prob_graph]. *)
Definition ensemble_sampler_crema_prob_graph (beta beta' : list R) (adj : edges3) (cpu_n : nat) (seed : option Z) (s : state)
    (c : pool_choice) : option (list (nat * nat * fval) * state) :=
  let '(row_inds, col_inds, weigths_value) := adj in
  let k := List.length weigths_value in
  match lookup_pairs beta beta' (firstn k (combine row_inds col_inds)) with None => None | Some items =>
    sample_graph (fun t => is_a_link_crema_prob (fst (fst (fst t))) (snd (fst (fst t))) (snd (fst t)) (Some (snd t)))
      (combine items weigths_value) cpu_n seed s c
  end.
(** ensemble_generator.py:311-368 [ensemble_sampler_crema_sparse_ecm_prob_graph]
    ([b_in = beta], [y = x]) and 487-545 [ensemble_sampler_crema_sparse_decm_prob_graph]. *)
Definition lookup_sparse (b_out b_in x y : list R) (l : list (nat * nat)) : option (list ((nat * R * R) * (nat * R * R))) :=
  collect (map (fun e => match nth_error b_out (fst e), nth_error x (fst e), nth_error b_in (snd e), nth_error y (snd e) with
                         | Some bi, Some xi, Some bj, Some yj => Some ((fst e, bi, xi), (snd e, bj, yj))
                         | _, _, _, _ => None
                         end) l).
Definition ensemble_sampler_crema_sparse_prob_graph (b_out b_in x y : list R) (cpu_n : nat) (seed : option Z) (s : state)
    (c : pool_choice) : option (list (nat * nat * fval) * state) :=
  let n := List.length x in
  match lookup_sparse b_out b_in x y (pairs_if (fun i j => negb (Nat.eqb i j)) (seq 0 n) (seq 0 n)) with None => None | Some items =>
    sample_graph (fun t => is_a_link_crema_sparse (fst (fst t)) (snd (fst t)) (Some (snd t))) items cpu_n seed s c
  end.

(** * [ensemble_sampler] *)
(** Contents of a file. *)
Inductive content : Type :=
| Unweighted (l : list (nat * nat))
| IntWeighted (l : list (nat * nat * nat))
| RealWeighted (l : list (nat * nat * fval)).
(** [self.adjacency_crema]: an edge list, or the tuple of binary parameters. *)
Inductive crema_adjacency : Type := Edges (e : edges3) | OneArray (x : list R) | TwoArrays (x y : list R).
(** The attributes of the solved object which the method reads; for an undirected object
    [beta] is stored in [v_b_out] and [v_b_in]. *)
Record solved : Type := {
  v_last_model : string;
  v_x : list R; v_y : list R; v_b_out : list R; v_b_in : list R;
  v_adjacency_given : bool;
  v_adjacency_crema : crema_adjacency
}.
(** [output_dir + "{}.txt".format(i)]. *)
Definition file_name (output_dir : string) (i : nat) : string :=
  (output_dir ++ NilZero.string_of_uint (Nat.to_uint i) ++ ".txt")%string.

(** The loop over the files: file [i] is written with seed [s[i]]. *)
Fixpoint write_files (one : option Z -> state -> pool_choice -> option (content * state)) (output_dir : string)
    (i : nat) (seeds : list Z) (choice : nat -> pool_choice) (s : state) : option (list (string * content)) :=
  match seeds with
  | [] => Some []
  | k :: seeds =>
      match one (Some k) s (choice i) with
      | None => None
      | Some (txt, s) =>
          match write_files one output_dir (S i) seeds choice s with
          | None => None
          | Some r => Some ((file_name output_dir i, txt) :: r)
          end
      end
  end.
Definition tag {L : Type} (k : list L -> content) (r : option (list L * state)) : option (content * state) :=
  match r with None => None | Some (l, s) => Some (k l, s) end.
(** [np.random.seed(seed)]: with [None] the generator is seeded by the operating system
    ([entropy]). *)
Definition top_seed (seed : option Z) (entropy : state) : option state :=
  match seed with None => Some entropy | Some k => np_seed k end.
(** [s = [np.random.randint(0, 1000000) for i in range(n)]]. *)
Definition draw_seeds (n : nat) (s : state) : list Z * state :=
  let (r, s) := with_seeds (repeat tt n) s in (map snd r, s).

(** What is run for one graph, [None] when the branch writes nothing; outer [None]:
    [ValueError("insert a model")]. graph_classes.py:1033-1129 (undirected). *)
Definition sampler_und (v : solved) (cpu_n : nat) : option (option (option Z -> state -> pool_choice -> option (content * state))) :=
  if String.eqb (v_last_model v) "cm" || String.eqb (v_last_model v) "cm_exp" then
    Some (Some (fun k s c => tag Unweighted (ensemble_sampler_cm_graph (v_x v) cpu_n k s c)))
  else if String.eqb (v_last_model v) "ecm" || String.eqb (v_last_model v) "ecm_exp" then
    Some (Some (fun k s c => tag IntWeighted (ensemble_sampler_ecm_graph (v_x v) (v_y v) cpu_n k s c)))
  else if String.eqb (v_last_model v) "crema" then
    if v_adjacency_given v then
      Some (Some (fun k s c => match v_adjacency_crema v with
        | Edges e => tag RealWeighted (ensemble_sampler_crema_det_graph (v_b_out v) (v_b_out v) e cpu_n k s c) | _ => None end))
    else
      Some (Some (fun k s c => match v_adjacency_crema v with
        | Edges e => tag RealWeighted (ensemble_sampler_crema_prob_graph (v_b_out v) (v_b_out v) e cpu_n k s c) | _ => None end))
  else if String.eqb (v_last_model v) "crema-sparse" then
    if negb (v_adjacency_given v) then
      Some (Some (fun k s c => match v_adjacency_crema v with
        | OneArray x => tag RealWeighted (ensemble_sampler_crema_sparse_prob_graph (v_b_out v) (v_b_out v) x x cpu_n k s c) | _ => None end))
    else Some None
  else None.
(** graph_classes.py:2497-2597 (directed). *)
Definition sampler_dir (v : solved) (cpu_n : nat) : option (option (option Z -> state -> pool_choice -> option (content * state))) :=
  if String.eqb (v_last_model v) "dcm" || String.eqb (v_last_model v) "dcm_exp" then
    Some (Some (fun k s c => tag Unweighted (ensemble_sampler_dcm_graph (v_x v) (v_y v) cpu_n k s c)))
  else if String.eqb (v_last_model v) "decm" || String.eqb (v_last_model v) "decm_exp" then
    Some (Some (fun k s c => tag IntWeighted (ensemble_sampler_decm_graph (v_x v) (v_y v) (v_b_out v) (v_b_in v) cpu_n k s c)))
  else if String.eqb (v_last_model v) "crema" then
    if v_adjacency_given v then
      Some (Some (fun k s c => match v_adjacency_crema v with
        | Edges e => tag RealWeighted (ensemble_sampler_crema_det_graph (v_b_out v) (v_b_in v) e cpu_n k s c) | _ => None end))
    else
      Some (Some (fun k s c => match v_adjacency_crema v with
        | Edges e => tag RealWeighted (ensemble_sampler_crema_prob_graph (v_b_out v) (v_b_in v) e cpu_n k s c) | _ => None end))
  else if String.eqb (v_last_model v) "crema-sparse" then
    if negb (v_adjacency_given v) then
      Some (Some (fun k s c => match v_adjacency_crema v with
        | TwoArrays x y => tag RealWeighted (ensemble_sampler_crema_sparse_prob_graph (v_b_out v) (v_b_in v) x y cpu_n k s c) | _ => None end))
    else Some None
  else None.

(** The files written by [ensemble_sampler(n, cpu_n, output_dir, seed)]; [None]: an exception. *)
Definition ensemble_sampler (directed : bool) (v : solved) (n cpu_n : nat) (output_dir : string) (seed : option Z)
    (entropy : state) (choice : nat -> pool_choice) : option (list (string * content)) :=
  match top_seed seed entropy with None => None | Some s =>
    let (seeds, s) := draw_seeds n s in
    match (if directed then sampler_dir v cpu_n else sampler_und v cpu_n) with
    | None => None
    | Some None => Some []
    | Some (Some one) => write_files one output_dir 0 seeds choice s
    end
  end.
End Generator.
