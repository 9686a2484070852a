(** CReMa (undirected and directed): transcription of models_functions.py,
    lines 1180-1530, 1607-1653, 3817-4379 and 4381-4491.  Line searches are in
    ModelLinsearch.  The topology argument [adj = (raw_ind, col_ind,
    weigths_val)] is the list of the zipped triples.  Directed parameters are
    [beta = (beta_out, beta_in)], blocks of length [n]. *)
From Coq Require Import Reals List Arith Bool.
From Verif Require Import Base ModelDCM ModelDECM.
Local Open Scope R_scope.
Import ListNotations.

Definition edge : Type := (nat * nat * R)%type.

(** [for i, j, w in zip(raw_ind, col_ind, weigths_val): a = body i j w a]; the
    body fails on a scalar division by zero (ZeroDivisionError, [None]). *)
Definition obind {A B : Type} (a : option A) (k : A -> option B) : option B :=
  match a with None => None | Some a => k a end.
Definition eloop {A : Type} (es : list edge) (a : A) (body : nat -> nat -> R -> A -> option A) : option A :=
  fold_left (fun a e => obind a (body (fst (fst e)) (snd (fst e)) (snd e))) es (Some a).
(** Loops [for i in np.arange(n)] / [for i in index array] with failing bodies. *)
Definition oloop {A : Type} (n : nat) (a : A) (body : nat -> A -> option A) : option A :=
  loop n (Some a) (fun i a => obind a (body i)).
Definition olloop {A : Type} (l : list nat) (a : A) (body : nat -> A -> option A) : option A :=
  lloop l (Some a) (fun i a => obind a (body i)).

(** graph_classes.py:835, 844, 853, 861 [np.nonzero(np.triu(p))] with the values, row
    major; graph_classes.py:2315, 2324, 2333, 2341 [np.nonzero(p)]. *)
Definition row_edges (n : nat) (keep : nat -> bool) (p : nat -> nat -> R) (i : nat) : list edge :=
  flat_map (fun j => if keep j then if Req_EM_T (p i j) 0 then [] else [(i, j, p i j)] else []) (seq 0 n).
Definition triu_edges (n : nat) (p : nat -> nat -> R) : list edge :=
  flat_map (fun i => row_edges n (fun j => Nat.leb i j) p i) (seq 0 n).
Definition all_edges (n : nat) (p : nat -> nat -> R) : list edge :=
  flat_map (fun i => row_edges n (fun _ => true) p i) (seq 0 n).

(** * Undirected *)

(** models_functions.py:1184-1208 [iterative_crema_undirected]. *)
Definition iterative_crema_undirected (n : nat) (s : nat -> R) (es : list edge) (beta : nat -> R)
    : option (nat -> R) :=
  obind (eloop es (fun _ => 0) (fun i j w f =>
    obind (sdiv (beta j) (beta i)) (fun q =>
    obind (sdiv w (1 + q)) (fun d =>
    let f := upd f i (f i - d) in
    obind (sdiv (beta i) (beta j)) (fun q =>
    obind (sdiv w (1 + q)) (fun d =>
    Some (upd f j (f j - d)))))))) (fun f =>
  oloop n f (fun i f =>
    if Req_EM_T (s i) 0 then Some f else obind (sdiv (f i) (s i)) (fun d => Some (upd f i d)))).

(** models_functions.py:1270-1295 [loglikelihood_crema_undirected]. *)
Definition loglikelihood_crema_undirected (n : nat) (s : nat -> R) (es : list edge) (beta : nat -> R) : R :=
  fold_left (fun f e => f + snd e * ln (beta (fst (fst e)) + beta (snd (fst e)))) es
    (loop n 0 (fun i f => f - s i * beta i)).

(** models_functions.py:1329-1355 [loglikelihood_prime_crema_undirected]. *)
Definition loglikelihood_prime_crema_undirected (n : nat) (s : nat -> R) (es : list edge) (beta : nat -> R)
    : option (nat -> R) :=
  eloop es (loop n (fun _ => 0) (fun i f => upd f i (f i - s i))) (fun i j w f =>
    let aux := beta i + beta j in
    obind (sdiv w aux) (fun d =>
    let f := upd f i (f i + d) in
    Some (upd f j (f j + d)))).

(** models_functions.py:1418-1444 [loglikelihood_hessian_crema_undirected]; the
    matrix is a function of the index pair. *)
Definition upd2 (f : nat -> nat -> R) (i j : nat) (v : R) : nat -> nat -> R := upd f i (upd (f i) j v).
Definition loglikelihood_hessian_crema_undirected (es : list edge) (beta : nat -> R)
    : option (nat -> nat -> R) :=
  eloop es (fun _ _ => 0) (fun i j w f =>
    obind (sdiv (- w) ((beta i + beta j) ^ 2)) (fun aux =>
    let f := upd2 f i j aux in
    let f := upd2 f j i aux in
    let f := upd2 f i i (f i i + aux) in
    Some (upd2 f j j (f j j + aux)))).

(** models_functions.py:1448-1471 [loglikelihood_hessian_diag_crema_undirected]. *)
Definition loglikelihood_hessian_diag_crema_undirected (es : list edge) (beta : nat -> R)
    : option (nat -> R) :=
  eloop es (fun _ => 0) (fun i j w f =>
    obind (sdiv w ((beta i + beta j) ^ 2)) (fun aux =>
    let f := upd f i (f i - aux) in
    Some (upd f j (f j - aux)))).

(** models_functions.py:1609-1628 [expected_strength_crema_undirected]. *)
Definition expected_strength_crema_undirected (es : list edge) (sol : nat -> R) : option (nat -> R) :=
  eloop es (fun _ => 0) (fun i j w f =>
    obind (sdiv w (sol i + sol j)) (fun aux =>
    let f := upd f i (f i + aux) in
    Some (upd f j (f j + aux)))).

(** * Array arithmetic of the sparse functions (IEEE results; a zero divisor is
    [+0]). *)
Definition fadd (a b : fval) : fval :=
  match a, b with
  | Fin a, Fin b => Fin (a + b)
  | NaN, _ => NaN | _, NaN => NaN
  | PInf, MInf => NaN | MInf, PInf => NaN
  | PInf, _ => PInf | _, PInf => PInf
  | MInf, _ => MInf | _, MInf => MInf
  end.
Definition fopp (a : fval) : fval :=
  match a with Fin a => Fin (- a) | PInf => MInf | MInf => PInf | NaN => NaN end.
Definition fsub (a b : fval) : fval := fadd a (fopp b).
Definition fquo (a b : fval) : fval :=
  match a, b with
  | Fin a, Fin b => fdiv a b
  | NaN, _ => NaN | _, NaN => NaN
  | Fin _, _ => Fin 0
  | PInf, Fin b => if Rlt_dec b 0 then MInf else PInf
  | MInf, Fin b => if Rlt_dec b 0 then PInf else MInf
  | _, _ => NaN
  end.
(** [aux.sum()] over [n] entries. *)
Definition fsum (n : nat) (v : nat -> fval) : fval := loop n (Fin 0) (fun j a => fadd a (v j)).

(** models_functions.py:1212-1234 [iterative_crema_undirected_sparse], entry [i]. *)
Definition iterative_crema_undirected_sparse (n : nat) (s x beta : nat -> R) (i : nat) : fval :=
  let aux := fun j => x i * x j in
  let aux_value := fun j => fdiv (aux j) (1 + aux j) in
  let aux := fun j => fquo (aux_value j) (fadd (Fin 1) (fdiv (beta j) (beta i))) in
  fquo (fadd (fopp (fsum n aux)) (aux i)) (Fin (s i + exp (- (100)))).

(** models_functions.py:1238-1266 [iterative_crema_sparse_2]. *)
Definition iterative_crema_sparse_2 (n : nat) (s x beta : nat -> R) : option (nat -> R) :=
  obind (oloop n (fun _ => 0) (fun i f =>
    oloop (n - (i + 1)) f (fun d f =>
      let j := (i + 1 + d)%nat in
      let aux := x i * x j in
      obind (sdiv aux (1 + aux)) (fun aux_value =>
      if Rlt_dec 0 aux_value then
        obind (sdiv (beta j) (beta i)) (fun q =>
        obind (sdiv aux_value (1 + q)) (fun d =>
        let f := upd f i (f i - d) in
        obind (sdiv (beta i) (beta j)) (fun q =>
        obind (sdiv aux_value (1 + q)) (fun d =>
        Some (upd f j (f j - d))))))
      else Some f)))) (fun f =>
  oloop n f (fun i f =>
    if Req_EM_T (s i) 0 then Some f else obind (sdiv (f i) (s i)) (fun d => Some (upd f i d)))).

(** models_functions.py:1299-1325 [loglikelihood_crema_undirected_sparse]; the
    quotient [aux/(1+aux)] fails for [aux = -1]. *)
Definition loglikelihood_crema_undirected_sparse (n : nat) (s x beta : nat -> R) : option R :=
  oloop n 0 (fun i f =>
    let f := f - s i * beta i in
    oloop i f (fun j f =>
      let aux := x i * x j in
      obind (sdiv aux (1 + aux)) (fun aux_value =>
      if Rlt_dec 0 aux_value then Some (f + aux_value * ln (beta i + beta j)) else Some f))).

(** models_functions.py:1359-1383 [loglikelihood_prime_crema_undirected_sparse],
    entry [i]. *)
Definition loglikelihood_prime_crema_undirected_sparse (n : nat) (s x beta : nat -> R) (i : nat) : fval :=
  let aux := fun j => x i * x j in
  let aux_value := fun j => fdiv (aux j) (1 + aux j) in
  let aux := fun j => fquo (aux_value j) (Fin (beta i + beta j)) in
  fadd (Fin (- s i)) (fsub (fsum n aux) (aux i)).

(** models_functions.py:1387-1414 [loglikelihood_prime_crema_sparse_2]. *)
Definition loglikelihood_prime_crema_sparse_2 (n : nat) (s x beta : nat -> R) : option (nat -> R) :=
  oloop n (fun _ => 0) (fun i f =>
    let f := upd f i (f i - s i) in
    oloop i f (fun j f =>
      let aux := x i * x j in
      obind (sdiv aux (1 + aux)) (fun aux_value =>
      if Rlt_dec 0 aux_value then
        obind (sdiv aux_value (beta i + beta j)) (fun d =>
        let f := upd f i (f i + d) in
        Some (upd f j (f j + d)))
      else Some f))).

(** models_functions.py:1475-1498 [loglikelihood_hessian_diag_crema_undirected_sparse],
    entry [i]. *)
Definition loglikelihood_hessian_diag_crema_undirected_sparse (n : nat) (x beta : nat -> R) (i : nat) : fval :=
  let aux := fun j => x i * x j in
  let aux_value := fun j => fdiv (aux j) (1 + aux j) in
  let aux := fun j => fquo (aux_value j) (Fin ((beta i + beta j) ^ 2)) in
  fsub (Fin 0) (fsub (fsum n aux) (aux i)).

(** models_functions.py:1502-1530 [loglikelihood_hessian_diag_crema_sparse_2]. *)
Definition loglikelihood_hessian_diag_crema_sparse_2 (n : nat) (x beta : nat -> R) : option (nat -> R) :=
  oloop n (fun _ => 0) (fun i f =>
    oloop i f (fun j f =>
      if negb (Nat.eqb i j) then
        let aux := x i * x j in
        obind (sdiv aux (1 + aux)) (fun aux_value =>
        if Rlt_dec 0 aux_value then
          obind (sdiv aux_value ((beta i + beta j) ^ 2)) (fun d =>
          let f := upd f i (f i - d) in
          Some (upd f j (f j - d)))
        else Some f)
      else Some f)).

(** models_functions.py:1632-1653 [expected_strength_crema_undirected_sparse]. *)
Definition expected_strength_crema_undirected_sparse (n : nat) (x sol : nat -> R) : option (nat -> R) :=
  oloop n (fun _ => 0) (fun i f =>
    oloop i f (fun j f =>
      let aux := x i * x j in
      obind (sdiv aux (1 + aux)) (fun aux_value =>
      if Rlt_dec 0 aux_value then
        obind (sdiv aux_value (sol i + sol j)) (fun d =>
        let f := upd f i (f i + d) in
        Some (upd f j (f j + d)))
      else Some f))).

(** * Directed *)

(** models_functions.py:3821-3861 [iterative_crema_directed]; [xd] and [yd] are
    the two blocks of one array. *)
Definition iterative_crema_directed (n : nat) (s_out s_in : nat -> R) (es : list edge) (nzo nzi : list nat)
    (beta : nat -> R) : option (nat -> R) :=
  obind (eloop es (fun _ => 0) (fun i j w f =>
    obind (sdiv (beta (j + n)%nat) (beta i)) (fun q =>
    obind (sdiv w (1 + q)) (fun d =>
    let f := upd f i (f i - d) in
    obind (sdiv (beta i) (beta (j + n)%nat)) (fun q =>
    obind (sdiv w (1 + q)) (fun d =>
    Some (upd f (j + n)%nat (f (j + n)%nat - d)))))))) (fun f =>
  obind (olloop nzo f (fun i f => obind (sdiv (f i) (s_out i)) (fun d => Some (upd f i d)))) (fun f =>
  olloop nzi f (fun i f => obind (sdiv (f (i + n)%nat) (s_in i)) (fun d => Some (upd f (i + n)%nat d))))).

(** [v.nonzero()[0]] *)
Definition nonzero_of (n : nat) (v : nat -> R) : list nat :=
  filter (fun i => if Req_EM_T (v i) 0 then false else true) (seq 0 n).

(** models_functions.py:3865-3916 [iterative_crema_directed_sparse].  The prange
    loops are run in order: iterations of the first touch distinct entries; those
    of the second need not (line 3913-3914 write [yd[j]], [j] the position in the
    index array, and read [yd[index]]), so the real result may also depend on the
    schedule. *)
Definition iterative_crema_directed_sparse (n : nat) (s_out s_in x y beta : nat -> R) : nat -> fval :=
  let e := exp (- (100)) in
  let f := lloop (nonzero_of n x) (fun _ => Fin 0) (fun index f =>
    let aux := fun j => x index * y j in
    let aux_entry := fun j => fdiv (aux j) (1 + aux j) in
    let aux := fun j => fquo (aux_entry j) (fadd (Fin 1) (fdiv (beta (j + n)%nat) (beta index + e))) in
    let f := upd f index (fsub (f index) (fsub (fsum n aux) (aux index))) in
    upd f index (fquo (f index) (Fin (s_out index + e)))) in
  let y_indices := nonzero_of n y in
  loop (length y_indices) f (fun j f =>
    let index := nth j y_indices O in
    let aux := fun i => x i * y index in
    let aux_entry := fun i => fdiv (aux i) (1 + aux i) in
    let aux := fun i => fquo (aux_entry i) (fadd (Fin 1) (fdiv (beta i) (beta (index + n)%nat + e))) in
    let f := upd f (j + n)%nat (fsub (f (j + n)%nat) (fsub (fsum n aux) (aux index))) in
    upd f (j + n)%nat (fquo (f (index + n)%nat) (Fin (s_in index + e)))).

(** models_functions.py:3920-3966 [iterative_crema_directed_sparse_2]. *)
Definition iterative_crema_directed_sparse_2 (n : nat) (s_out s_in x y : nat -> R) (nzo nzi : list nat)
    (beta : nat -> R) : option (nat -> R) :=
  obind (olloop (nonzero_of n x) (fun _ => 0) (fun i f =>
    olloop (nonzero_of n y) f (fun j f =>
      if negb (Nat.eqb i j) then
        let aux := x i * y j in
        obind (sdiv aux (1 + aux)) (fun aux_entry =>
        if Rlt_dec 0 aux_entry then
          obind (sdiv (beta (j + n)%nat) (beta i)) (fun q =>
          obind (sdiv aux_entry (1 + q)) (fun d =>
          let f := upd f i (f i - d) in
          obind (sdiv (beta i) (beta (j + n)%nat)) (fun q =>
          obind (sdiv aux_entry (1 + q)) (fun d =>
          Some (upd f (j + n)%nat (f (j + n)%nat - d))))))
        else Some f)
      else Some f))) (fun f =>
  obind (olloop nzo f (fun i f => obind (sdiv (f i) (s_out i)) (fun d => Some (upd f i d)))) (fun f =>
  olloop nzi f (fun i f => obind (sdiv (f (i + n)%nat) (s_in i)) (fun d => Some (upd f (i + n)%nat d))))).

(** models_functions.py:3970-4009 [loglikelihood_crema_directed]. *)
Definition loglikelihood_crema_directed (n : nat) (s_out s_in : nat -> R) (es : list edge) (nzo nzi : list nat)
    (beta : nat -> R) : R :=
  let f := lloop nzo 0 (fun i f => f - s_out i * beta i) in
  let f := lloop nzi f (fun i f => f - s_in i * beta (i + n)%nat) in
  fold_left (fun f e => f + snd e * ln (beta (fst (fst e)) + beta (snd (fst e) + n)%nat)) es f.

(** models_functions.py:4013-4056 [loglikelihood_crema_directed_sparse]. *)
Definition loglikelihood_crema_directed_sparse (n : nat) (s_out s_in x y : nat -> R) (nzo nzi : list nat)
    (beta : nat -> R) : option R :=
  obind (olloop nzo 0 (fun i f =>
    let f := f - s_out i * beta i in
    olloop nzi f (fun j f =>
      if negb (Nat.eqb i j) then
        let aux := x i * y j in
        obind (sdiv aux (1 + aux)) (fun aux_entry =>
        if Rlt_dec 0 aux_entry then Some (f + aux_entry * ln (beta i + beta (j + n)%nat)) else Some f)
      else Some f))) (fun f =>
  Some (lloop nzi f (fun i f => f - s_in i * beta (i + n)%nat))).

(** models_functions.py:4060-4099 [loglikelihood_prime_crema_directed]. *)
Definition loglikelihood_prime_crema_directed (n : nat) (s_out s_in : nat -> R) (es : list edge)
    (nzo nzi : list nat) (beta : nat -> R) : option (nat -> R) :=
  let f := lloop nzo (fun _ => 0) (fun i f => upd f i (f i - s_out i)) in
  let f := lloop nzi f (fun i f => upd f (i + n)%nat (f (i + n)%nat - s_in i)) in
  eloop es f (fun i j w f =>
    obind (sdiv w (beta i + beta (j + n)%nat)) (fun d =>
    let f := upd f i (f i + d) in
    Some (upd f (j + n)%nat (f (j + n)%nat + d)))).

(** models_functions.py:4103-4151 [loglikelihood_prime_crema_directed_sparse],
    entry [r]. *)
Definition loglikelihood_prime_crema_directed_sparse (n : nat) (s_out s_in x y : nat -> R) (nzo nzi : list nat)
    (beta : nat -> R) (r : nat) : fval :=
  if Nat.ltb r n then
    let index := r in
    if memb index nzo then
      let aux := fun j => x index * y j in
      let aux_value := fun j => fdiv (aux j) (1 + aux j) in
      let aux := fun j => fquo (aux_value j) (Fin (beta index + beta (j + n)%nat)) in
      fadd (Fin (- s_out index)) (fsub (fsum n aux) (aux index))
    else Fin 0
  else
    let index := (r - n)%nat in
    if memb index nzi then
      let aux := fun i => x i * y index in
      let aux_value := fun i => fdiv (aux i) (1 + aux i) in
      let aux := fun i => fquo (aux_value i) (Fin (beta i + beta (index + n)%nat)) in
      fadd (Fin (- s_in index)) (fsub (fsum n aux) (aux index))
    else Fin 0.

(** models_functions.py:4155-4201 [loglikelihood_prime_crema_directed_sparse_2]. *)
Definition loglikelihood_prime_crema_directed_sparse_2 (n : nat) (s_out s_in x y beta : nat -> R)
    : option (nat -> R) :=
  obind (olloop (nonzero_of n x) (fun _ => 0) (fun i f =>
    let f := upd f i (f i - s_out i) in
    olloop (nonzero_of n y) f (fun j f =>
      if negb (Nat.eqb i j) then
        let aux := x i * y j in
        obind (sdiv aux (1 + aux)) (fun aux_value =>
        if Rlt_dec 0 aux_value then
          obind (sdiv aux_value (beta i + beta (j + n)%nat)) (fun d =>
          let f := upd f i (f i + d) in
          Some (upd f (j + n)%nat (f (j + n)%nat + d)))
        else Some f)
      else Some f))) (fun f =>
  Some (lloop (nonzero_of n y) f (fun j f => upd f (j + n)%nat (f (j + n)%nat - s_in j)))).

(** models_functions.py:4205-4243 [loglikelihood_hessian_crema_directed]. *)
Definition loglikelihood_hessian_crema_directed (n : nat) (es : list edge) (beta : nat -> R)
    : option (nat -> nat -> R) :=
  eloop es (fun _ _ => 0) (fun i j w f =>
    obind (sdiv w ((beta i + beta (j + n)%nat) ^ 2)) (fun aux =>
    let f := upd2 f i i (f i i + - aux) in
    let f := upd2 f i (j + n) (- aux) in
    let f := upd2 f (j + n) i (- aux) in
    Some (upd2 f (j + n) (j + n) (f (j + n)%nat (j + n)%nat + - aux)))).

(** models_functions.py:4247-4282 [loglikelihood_hessian_diag_crema_directed]. *)
Definition loglikelihood_hessian_diag_crema_directed (n : nat) (es : list edge) (beta : nat -> R)
    : option (nat -> R) :=
  eloop es (fun _ => 0) (fun i j w f =>
    obind (sdiv w ((beta i + beta (j + n)%nat) ^ 2)) (fun aux =>
    let f := upd f i (f i - aux) in
    Some (upd f (j + n)%nat (f (j + n)%nat - aux)))).

(** models_functions.py:4286-4329 [loglikelihood_hessian_diag_crema_directed_sparse],
    entry [r]. *)
Definition loglikelihood_hessian_diag_crema_directed_sparse (n : nat) (x y beta : nat -> R) (r : nat) : fval :=
  let e := exp (- (100)) in
  if Nat.ltb r n then
    let i := r in
    let aux := fun j => x i * y j in
    let aux_entry := fun j => fdiv (aux j) (1 + aux j) in
    let aux := fun j => fquo (aux_entry j) (Fin ((beta i + beta (j + n)%nat) ^ 2 + e)) in
    fsub (Fin 0) (fsub (fsum n aux) (aux i))
  else
    let i := (r - n)%nat in
    let aux := fun j => x j * y i in
    let aux_entry := fun j => fdiv (aux j) (1 + aux j) in
    let aux := fun j => fquo (aux_entry j) (Fin ((beta j + beta (i + n)%nat) ^ 2 + e)) in
    fsub (Fin 0) (fsub (fsum n aux) (aux i)).

(** models_functions.py:4333-4379 [loglikelihood_hessian_diag_crema_directed_sparse_2]. *)
Definition loglikelihood_hessian_diag_crema_directed_sparse_2 (n : nat) (x y beta : nat -> R)
    : option (nat -> R) :=
  oloop n (fun _ => 0) (fun i f =>
    oloop n f (fun j f =>
      if negb (Nat.eqb i j) then
        let aux := x i * y j in
        obind (sdiv aux (1 + aux)) (fun aux_entry =>
        obind (if Rlt_dec 0 aux_entry then
            obind (sdiv aux_entry ((beta i + beta (j + n)%nat) ^ 2)) (fun d => Some (upd f i (f i - d)))
          else Some f) (fun f =>
        let aux := x j * y i in
        obind (sdiv aux (1 + aux)) (fun aux_entry =>
        if Rlt_dec 0 aux_entry then
          obind (sdiv aux_entry ((beta j + beta (i + n)%nat) ^ 2)) (fun d =>
          Some (upd f (i + n)%nat (f (i + n)%nat - d)))
        else Some f)))
      else Some f)).

(** models_functions.py:4383-4405 [expected_out_strength_crema_directed]. *)
Definition expected_out_strength_crema_directed (n : nat) (es : list edge) (sol : nat -> R) : option (nat -> R) :=
  eloop es (fun _ => 0) (fun i j w s =>
    obind (sdiv w (sol i + sol (j + n)%nat)) (fun d => Some (upd s i (s i + d)))).

(** models_functions.py:4438-4461 [expected_in_strength_crema_directed]. *)
Definition expected_in_strength_crema_directed (n : nat) (es : list edge) (sol : nat -> R) : option (nat -> R) :=
  eloop es (fun _ => 0) (fun i j w s =>
    obind (sdiv w (sol i + sol (j + n)%nat)) (fun d => Some (upd s j (s j + d)))).

(** models_functions.py:4409-4434 [expected_out_strength_crema_directed_sparse]. *)
Definition expected_out_strength_crema_directed_sparse (n : nat) (x y sol : nat -> R) : option (nat -> R) :=
  oloop n (fun _ => 0) (fun i s =>
    oloop n s (fun j s =>
      if negb (Nat.eqb i j) then
        let aux := x i * y j in
        obind (sdiv aux (1 + aux)) (fun aux_entry =>
        if Rlt_dec 0 aux_entry then
          obind (sdiv aux_entry (sol i + sol (j + n)%nat)) (fun d => Some (upd s i (s i + d)))
        else Some s)
      else Some s)).

(** models_functions.py:4465-4491 [expected_in_stregth_crema_directed_sparse]. *)
Definition expected_in_stregth_crema_directed_sparse (n : nat) (x y sol : nat -> R) : option (nat -> R) :=
  oloop n (fun _ => 0) (fun i s =>
    oloop n s (fun j s =>
      if negb (Nat.eqb i j) then
        let aux := x j * y i in
        obind (sdiv aux (1 + aux)) (fun aux_entry =>
        if Rlt_dec 0 aux_entry then
          obind (sdiv aux_entry (sol j + sol (i + n)%nat)) (fun d => Some (upd s i (s i + d)))
        else Some s)
      else Some s)).
