(** Model of matrix_generator.py. *)
From Coq Require Import Reals List Arith Bool ZArith.
From Verif Require Import Base.
Import ListNotations.
Local Open Scope R_scope.

(** [np.random]'s global generator, as an oracle: [m_seed k] is the state after
    [np.random.seed(k)]; [m_random], [m_randint n] ([randint(n)], also [randint(0, n)]) and
    [m_normal loc scale] return a value and the next state.  A negative scale, which raises in
    numpy, is not modelled. *)
Record source : Type := {
  mstate : Type;
  m_seed : Z -> mstate;
  m_random : mstate -> R * mstate;
  m_randint : nat -> mstate -> nat * mstate;
  m_normal : R -> R -> mstate -> R * mstate
}.

(** What a call of a generator gives: a matrix, nothing yet after the given number of iterations of
    the loops, or [ValueError] for a seed outside [0, 2^32). *)
Inductive outcome : Type := Returned (A : nat -> nat -> R) | Running | Raised.

Section Source.
Variable G : source.
Local Notation state := (mstate G).
Local Notation matrix := (nat -> nat -> R).

(** [np.random.seed(seed=seed)]: with [None] the state comes from the operating system. *)
Definition reseed (seed : option Z) (entropy : state) : option state :=
  match seed with
  | None => Some entropy
  | Some k => if ((0 <=? k) && (k <? 4294967296))%Z then Some (m_seed G k) else None
  end.
(** [A[i, j] = v]. *)
Definition upd2 (A : matrix) (i j : nat) (v : R) : matrix := fun a b => if andb (Nat.eqb a i) (Nat.eqb b j) then v else A a b.
(** [np.fill_diagonal(A, 0)]. *)
Definition fill_diagonal (A : matrix) : matrix := fun a b => if Nat.eqb a b then 0 else A a b.
(** [np.sum(A, axis=0)[j]] and [np.sum(A[:, j])]; [np.sum(A, axis=1)[i]] and [np.sum(A[i, :])]. *)
Definition col_sum (n : nat) (A : matrix) (j : nat) : R := rsum n (fun i => A i j).
Definition row_sum (n : nat) (A : matrix) (i : nat) : R := rsum n (fun j => A i j).
Definition eq0 (v : R) : bool := if Req_EM_T v 0 then true else false.
(** [np.ceil]. *)
Definition ceil (v : R) : R := IZR (- Int_part (- v)).
(** [astype(int)] of a non-negative number. *)
Definition to_int (v : R) : R := IZR (Int_part v).
Definition zeros : matrix := fun _ _ => 0.

(** Pairs [(i, j)] in the order of [for i in range(n): for j in range(n)], and of
    [for i in range(n): for j in range(i + 1, n)]. *)
Definition all_cells (n : nat) : list (nat * nat) := list_prod (seq 0 n) (seq 0 n).
Definition upper_cells (n : nat) : list (nat * nat) := flat_map (fun i => map (fun j => (i, j)) (seq (i + 1) (n - (i + 1)))) (seq 0 n).

(** An array filled by [draw], row after row ([size=(n, n)]). *)
Definition random_array (draw : state -> R * state) (n : nat) (s : state) : matrix * state :=
  fold_left (fun acc e => let (v, s) := draw (snd acc) in (upd2 (fst acc) (fst e) (snd e) v, s)) (all_cells n) (zeros, s).
(** [if np.random.random() <= p: A[i, j] = draw()], over all cells. *)
Definition random_cells (p : R) (draw : state -> R * state) (n : nat) (s : state) : matrix * state :=
  fold_left (fun acc e =>
    let (u, s) := m_random G (snd acc) in
    if Rle_dec u p then let (v, s) := draw s in (upd2 (fst acc) (fst e) (snd e) v, s) else (fst acc, s)) (all_cells n) (zeros, s).
(** The same for [i < j], copied to [A[j, i]]. *)
Definition random_upper (p : R) (draw : state -> R * state) (n : nat) (s : state) : matrix * state :=
  fold_left (fun acc e =>
    let (u, s) := m_random G (snd acc) in
    if Rle_dec u p then
      let (v, s) := draw s in
      let A := upd2 (fst acc) (fst e) (snd e) v in
      (upd2 A (snd e) (fst e) (A (fst e) (snd e)), s)
    else (fst acc, s)) (upper_cells n) (zeros, s).

(** * The loops for isolated nodes; [fuel] bounds the iterations, [None]: still running *)
(** lines 28-35, 82-89, 138-149, 210-221, 282-293:
    [while sum(A[:, ind]) == 0 and sum(A[ind, :]) == 0].  The value is drawn before the index. *)
Fixpoint repair_dir (draw : state -> R * state) (n ind : nat) (fuel : nat) (A : matrix) (s : state) : option (matrix * state) :=
  if eq0 (col_sum n A ind) && eq0 (row_sum n A ind) then
    match fuel with
    | O => None
    | S fuel =>
        let (u, s) := m_random G s in
        let (v, s) := draw s in
        let (r, s) := m_randint G n s in
        let A := if Rgt_dec u (1 / 2) then upd2 A r ind v else upd2 A ind r v in
        repair_dir draw n ind fuel (upd2 A ind ind 0) s
    end
  else Some (A, s).
(** lines 46-50: [A[indices, ind] = 1; A[ind, indices] = 1; A[ind, ind] = 0]. *)
Fixpoint repair_sym_dense (n ind : nat) (fuel : nat) (A : matrix) (s : state) : option (matrix * state) :=
  if eq0 (col_sum n A ind) then
    match fuel with
    | O => None
    | S fuel =>
        let (r, s) := m_randint G n s in
        repair_sym_dense n ind fuel (upd2 (upd2 (upd2 A r ind 1) ind r 1) ind ind 0) s
    end
  else Some (A, s).
(** lines 102-108 ([diag = true]), 163-168, 233-238: only when [indices != ind]. *)
Fixpoint repair_sym (draw : state -> R * state) (diag : bool) (n ind : nat) (fuel : nat) (A : matrix) (s : state) : option (matrix * state) :=
  if eq0 (col_sum n A ind) then
    match fuel with
    | O => None
    | S fuel =>
        let (r, s) := m_randint G n s in
        let (A, s) := if Nat.eqb r ind then (A, s)
                      else let (v, s) := draw s in let A := upd2 A ind r v in (upd2 A r ind (A ind r), s) in
        repair_sym draw diag n ind fuel (if diag then upd2 A ind ind 0 else A) s
    end
  else Some (A, s).
(** lines 305-313: the same with the two assignments exchanged. *)
Fixpoint repair_sym_gauss (draw : state -> R * state) (n ind : nat) (fuel : nat) (A : matrix) (s : state) : option (matrix * state) :=
  if eq0 (col_sum n A ind) then
    match fuel with
    | O => None
    | S fuel =>
        let (r, s) := m_randint G n s in
        let (A, s) := if Nat.eqb r ind then (A, s)
                      else let (v, s) := draw s in let A := upd2 A r ind v in (upd2 A ind r (A r ind), s) in
        repair_sym_gauss draw n ind fuel A s
    end
  else Some (A, s).
(** The loops over the nodes; the sums that select the nodes are computed before the loop. *)
Definition repair_all (todo : nat -> bool) (repair : nat -> matrix -> state -> option (matrix * state)) (n : nat) (A : matrix) (s : state)
    : option (matrix * state) :=
  fold_left (fun acc ind => match acc with None => None | Some (A, s) => if todo ind then repair ind A s else Some (A, s) end) (seq 0 n) (Some (A, s)).
Definition isolated_dir (n : nat) (A : matrix) (ind : nat) : bool := eq0 (col_sum n A ind) && eq0 (row_sum n A ind).
Definition isolated_sym (n : nat) (A : matrix) (ind : nat) : bool := eq0 (col_sum n A ind).

(** * The generators *)
Definition int_draw (k : nat) (s : state) : R * state := let (r, s) := m_randint G k s in (INR r, s).
Definition const_draw (v : R) (s : state) : R * state := (v, s).
Definition scaled_draw (sup_ext : R) (s : state) : R * state := let (u, s) := m_random G s in (u * sup_ext, s).
(** [return np.ceil(A) if intweights else A]. *)
Definition output (intweights : bool) (r : option (matrix * state)) : outcome :=
  match r with None => Running | Some (A, _) => Returned (if intweights then fun i j => ceil (A i j) else A) end.

(** matrix_generator.py:8-51 [random_binary_matrix_generator_dense]. *)
Definition random_binary_matrix_generator_dense (fuel n : nat) (sym : bool) (seed : option Z) (entropy : state) : outcome :=
  match reseed seed entropy with None => Raised | Some s =>
    if negb sym then
      let (A, s) := random_array (int_draw 2) n s in
      let A := fill_diagonal A in
      output false (repair_all (isolated_dir n A) (fun ind => repair_dir (const_draw 1) n ind fuel) n A s)
    else
      let (B, s) := random_array (int_draw 2) n s in
      let A := fill_diagonal (fun i j => to_int ((B i j + B j i) / 2)) in
      output false (repair_all (isolated_sym n A) (fun ind => repair_sym_dense n ind fuel) n A s)
  end.
(** matrix_generator.py:54-109 [random_binary_matrix_generator_custom_density]. *)
Definition random_binary_matrix_generator_custom_density (fuel n : nat) (p : R) (sym : bool) (seed : option Z) (entropy : state) : outcome :=
  match reseed seed entropy with None => Raised | Some s =>
    if negb sym then
      let (A, s) := random_cells p (const_draw 1) n s in
      let A := fill_diagonal A in
      output false (repair_all (isolated_dir n A) (fun ind => repair_dir (const_draw 1) n ind fuel) n A s)
    else
      let (A, s) := random_upper p (const_draw 1) n s in
      let A := fill_diagonal A in
      output false (repair_all (isolated_sym n A) (fun ind => repair_sym (const_draw 1) true n ind fuel) n A s)
  end.
(** matrix_generator.py:112-171 [random_weighted_matrix_generator_dense]. *)
Definition random_weighted_matrix_generator_dense (fuel n : nat) (sup_ext : R) (sym : bool) (seed : option Z) (intweights : bool) (entropy : state) : outcome :=
  match reseed seed entropy with None => Raised | Some s =>
    if negb sym then
      let (A, s) := random_array (scaled_draw sup_ext) n s in
      let A := fill_diagonal A in
      output intweights (repair_all (isolated_dir n A) (fun ind => repair_dir (scaled_draw sup_ext) n ind fuel) n A s)
    else
      let (B, s) := random_array (scaled_draw sup_ext) n s in
      let A := fill_diagonal (fun i j => (B i j + B j i) / 2) in
      output intweights (repair_all (isolated_sym n A) (fun ind => repair_sym (scaled_draw sup_ext) false n ind fuel) n A s)
  end.
(** matrix_generator.py:174-242 [random_weighted_matrix_generator_uniform_custom_density]. *)
Definition random_weighted_matrix_generator_uniform_custom_density (fuel n : nat) (p sup_ext : R) (sym : bool) (seed : option Z) (intweights : bool) (entropy : state)
    : outcome :=
  match reseed seed entropy with None => Raised | Some s =>
    if negb sym then
      let (A, s) := random_cells p (scaled_draw sup_ext) n s in
      let A := fill_diagonal A in
      output intweights (repair_all (isolated_dir n A) (fun ind => repair_dir (scaled_draw sup_ext) n ind fuel) n A s)
    else
      let (A, s) := random_upper p (scaled_draw sup_ext) n s in
      output intweights (repair_all (isolated_sym n A) (fun ind => repair_sym (scaled_draw sup_ext) false n ind fuel) n A s)
  end.
(** matrix_generator.py:245-318 [random_weighted_matrix_generator_gaussian_custom_density]. *)
Definition random_weighted_matrix_generator_gaussian_custom_density (fuel n : nat) (mean sigma p : R) (sym : bool) (seed : option Z) (intweights : bool) (entropy : state)
    : outcome :=
  match reseed seed entropy with None => Raised | Some s =>
    if negb sym then
      let (A, s) := random_cells p (m_normal G mean sigma) n s in
      let A := fill_diagonal A in
      output intweights (repair_all (isolated_dir n A) (fun ind => repair_dir (m_normal G mean sigma) n ind fuel) n A s)
    else
      let (A, s) := random_upper p (m_normal G mean sigma) n s in
      let A := fill_diagonal A in
      output intweights (repair_all (isolated_sym n A) (fun ind => repair_sym_gauss (m_normal G mean sigma) n ind fuel) n A s)
  end.

(** * Weights put on a graph made by networkx *)
(** [topology seed] is the largest component of the networkx graph made with [seed], as the list
    of [(i, j)] with a link, in the order of [nonzero()] of the matrix ([i < j] when symmetric).
    networkx uses its own generator. *)
(** matrix_generator.py:356-411 (uniform) and 438-481 (gaussian), the part from [# Weigths]; [draw]
    is one call of [np.random.random() * sup_ext] or [np.random.normal(loc=mean, scale=sigma)].
    The generator is not seeded. *)
Definition put_weights (draw : state -> R * state) (intweights sym : bool) (links : list (nat * nat)) (s : state) : matrix * state :=
  fold_left (fun acc e =>
    let (v, s) := draw (snd acc) in
    let A := upd2 (fst acc) (fst e) (snd e) (if intweights then ceil v else v) in
    ((if sym then upd2 A (snd e) (fst e) (A (fst e) (snd e)) else A), s)) links (zeros, s).
Definition weighted_sparse (draw : state -> R * state) (topology : option Z -> list (nat * nat)) (sym : bool) (seed : option Z) (intweights : bool) (s : state) : matrix * state :=
  put_weights draw intweights sym (topology seed) s.
(** matrix_generator.py:484-537 [random_graph_nx] and 540-592 [barabasi_albert_graph_nx] with
    [is_weighted == "uniform"] or ["gaussian"] and [seed] given: here the generator is seeded. *)
Definition weighted_nx (draw : state -> R * state) (topology : option Z -> list (nat * nat)) (seed : Z) : option (matrix * state) :=
  match reseed (Some seed) (m_seed G seed) with None => None | Some s => Some (put_weights draw false true (topology (Some seed)) s) end.
End Source.
