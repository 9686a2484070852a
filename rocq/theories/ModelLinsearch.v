(** The line searches of models_functions.py and the sufficient decrease condition
    of solver_functions.py.  Points and directions are real vectors of length [n]
    (infinite exponents are not modelled here); the objective [step_fun] may return
    NaN or an infinity. *)
From Coq Require Import Reals List Arith.
From Verif Require Import Base ModelDCM ModelCReMa.
Import ListNotations.
Local Open Scope R_scope.

(** [<] on doubles: false as soon as one side is NaN. *)
Definition flt (a b : fval) : bool :=
  match a, b with
  | NaN, _ | _, NaN => false
  | Fin a, Fin b => if Rlt_dec a b then true else false
  | MInf, MInf => false | MInf, _ => true
  | _, PInf => match a with PInf => false | _ => true end
  | _, _ => false
  end.

Definition dot (n : nat) (a b : nat -> R) : R := rsum n (fun i => a i * b i).
Definition norm2 (n : nat) (a : nat -> R) : R := sqrt (dot n a a).
Definition axpy (x : nat -> R) (alfa : R) (dx : nat -> R) : nat -> R := fun i => x i + alfa * dx i.

(** solver_functions.py:44-68 [sufficient_decrease_condition], default [c1]. *)
Definition sufficient_decrease_condition (n : nat) (f_old f_new : fval) (alpha : R) (grad_f p : nat -> R) : bool :=
  let sup := fadd f_old (Fin (/ 10000 * alpha * dot n grad_f p)) in
  flt f_new sup.

(** models_functions.py:202-206 (same text in CM_fixed, ECM, ECM_fixed): the step is
    reduced so that no coordinate loses more than 99% of its value.  The quotient is
    an array operation, so a zero [dx] gives an infinity or NaN; neither changes
    [alfa]. *)
Definition clamp_ge (n : nat) (x dx : nat -> R) (alfa : R) : R :=
  loop n alfa (fun i alfa =>
    match fdiv ((/ 100 - 1) * x i) (dx i) with
    | Fin a => if Rle_dec 0 a then Rmin alfa a else alfa
    | PInf | MInf | NaN => alfa
    end).

(** models_functions.py:2002-2006 (same text in DCM_fixed, DECM, DECM_fixed): the
    same over [np.nonzero(dx)], with a strict test. *)
Definition clamp_gt (n : nat) (x dx : nat -> R) (alfa : R) : R :=
  loop n alfa (fun i alfa =>
    if Req_EM_T (dx i) 0 then alfa
    else let a := (/ 100 - 1) * x i / dx i in if Rlt_dec 0 a then Rmin alfa a else alfa).

(** The loops [while (not cond) and i < 50: alfa *= beta], [k] iterations left. *)
Fixpoint halve (cond : R -> bool) (beta : R) (k : nat) (alfa : R) : R :=
  match k with
  | O => alfa
  | S k => if cond alfa then alfa else halve cond beta k (alfa * beta)
  end.

(** models_functions.py:208-218 (same in all newton/quasinewton searches). *)
Definition decrease_loop (n : nat) (step_fun : (nat -> R) -> fval) (x dx : nat -> R) (beta alfa : R) (f : nat -> R) : R :=
  let s_old := fopp (step_fun x) in
  halve (fun alfa => sufficient_decrease_condition n s_old (fopp (step_fun (axpy x alfa dx))) alfa f dx) beta 50 alfa.

(** models_functions.py:247-257 (same in all fixed-point searches); [step] is the
    number of completed iterations.  [np.linalg.norm]. *)
Definition norm_loop (n : nat) (dx dx_old : nat -> R) (alfa beta : R) (step : nat) : R :=
  match step with
  | O => alfa
  | S _ => halve (fun alfa => if Rlt_dec (norm2 n (fun i => alfa * dx i)) (norm2 n dx_old) then true else false) beta 50 alfa
  end.

(** The loops [while True: if cond: break else alfa *= beta]; [None] when the fuel
    is exhausted. *)
Fixpoint feasible_loop (cond : R -> bool) (beta : R) (fuel : nat) (alfa : R) : option R :=
  match fuel with
  | O => None
  | S fuel => if cond alfa then Some alfa else feasible_loop cond beta fuel (alfa * beta)
  end.

(** [v.argsort()[-2:][::-1]] then indexing: the (at most) two largest entries,
    largest first; computed in one pass instead of by sorting. *)
Definition top2 (n : nat) (v : nat -> R) : list R :=
  loop n [] (fun i t =>
    match t with
    | [] => [v i]
    | [a] => if Rle_dec (v i) a then [a; v i] else [v i; a]
    | a :: b :: _ => if Rle_dec (v i) b then [a; b] else if Rle_dec (v i) a then [a; v i] else [v i; a]
    end).
(** [v.argsort()[:2]] then indexing: the two smallest entries. *)
Definition bot2 (n : nat) (v : nat -> R) : list R := map Ropp (top2 n (fun i => - v i)).
(** [np.prod], [np.sum] of a short array. *)
Definition lprod (l : list R) : R := fold_left Rmult l 1.
Definition lsum2 (l : list R) : R := fold_left Rplus l 0.

(** [v[np.argmax(v)]], [v[np.argmin(v)]] for a non-empty array. *)
Definition vmax (n : nat) (v : nat -> R) : R := loop (n - 1) (v 0%nat) (fun i m => Rmax m (v (i + 1)%nat)).
Definition vmin (n : nat) (v : nat -> R) : R := loop (n - 1) (v 0%nat) (fun i m => Rmin m (v (i + 1)%nat)).

(** models_functions.py:178-218 [linsearch_fun_CM]. *)
Definition linsearch_fun_CM (n : nat) (step_fun : (nat -> R) -> fval) (x dx : nat -> R) (beta alfa : R) (f : nat -> R) : R :=
  decrease_loop n step_fun x dx beta (clamp_ge n x dx alfa) f.

(** models_functions.py:222-258 [linsearch_fun_CM_fixed]. *)
Definition linsearch_fun_CM_fixed (n : nat) (x dx dx_old : nat -> R) (alfa beta : R) (step : nat) : R :=
  norm_loop n dx dx_old (clamp_ge n x dx alfa) beta step.

(** models_functions.py:441-477 [linsearch_fun_CM_exp], 1534-1571
    [linsearch_fun_crema_undirected], 3161-3196 [linsearch_fun_DCM_exp], 4495-4536
    [linsearch_fun_crema_directed]: no clamp. *)
Definition linsearch_fun_CM_exp (n : nat) (step_fun : (nat -> R) -> fval) (x dx : nat -> R) (beta alfa : R) (f : nat -> R) : R :=
  decrease_loop n step_fun x dx beta alfa f.
Definition linsearch_fun_crema_undirected := linsearch_fun_CM_exp.
Definition linsearch_fun_DCM_exp := linsearch_fun_CM_exp.
Definition linsearch_fun_crema_directed := linsearch_fun_CM_exp.

(** models_functions.py:481-512 [linsearch_fun_CM_exp_fixed], 1575-1605
    [linsearch_fun_crema_undirected_fixed], 3200-3229 [linsearch_fun_DCM_exp_fixed]
    (its masks [dx != np.inf] are no-ops on finite vectors), 4540-4567
    [linsearch_fun_crema_directed_fixed]. *)
Definition linsearch_fun_CM_exp_fixed (n : nat) (dx dx_old : nat -> R) (alfa beta : R) (step : nat) : R :=
  norm_loop n dx dx_old alfa beta step.
Definition linsearch_fun_crema_undirected_fixed := linsearch_fun_CM_exp_fixed.
Definition linsearch_fun_DCM_exp_fixed := linsearch_fun_CM_exp_fixed.
Definition linsearch_fun_crema_directed_fixed := linsearch_fun_CM_exp_fixed.

(** models_functions.py:1979-2025 [linsearch_fun_DCM]. *)
Definition linsearch_fun_DCM (n : nat) (step_fun : (nat -> R) -> fval) (x dx : nat -> R) (beta alfa : R) (f : nat -> R) : R :=
  decrease_loop n step_fun x dx beta (clamp_gt n x dx alfa) f.

(** models_functions.py:2029-2062 [linsearch_fun_DCM_fixed]. *)
Definition linsearch_fun_DCM_fixed (n : nat) (x dx dx_old : nat -> R) (alfa beta : R) (step : nat) : R :=
  norm_loop n dx dx_old (clamp_gt n x dx alfa) beta step.

(** models_functions.py:765-773, 819-827: the strength block [x[nnn:]]; the length
    of [x] is [2 * n]. *)
Definition ecm_cond (n : nat) (x dx : nat -> R) (alfa : R) : bool :=
  if Rlt_dec (lprod (top2 n (fun i => axpy x alfa dx (i + n)%nat))) 1 then true else false.

(** models_functions.py:736-786 [linsearch_fun_ECM]. *)
Definition linsearch_fun_ECM (fuel n : nat) (step_fun : (nat -> R) -> fval) (x dx : nat -> R) (beta alfa : R) (f : nat -> R) : option R :=
  match feasible_loop (ecm_cond n x dx) beta fuel (clamp_ge (2 * n) x dx alfa) with
  | None => None
  | Some alfa => Some (decrease_loop (2 * n) step_fun x dx beta alfa f)
  end.

(** models_functions.py:790-836 [linsearch_fun_ECM_fixed]. *)
Definition linsearch_fun_ECM_fixed (fuel n : nat) (x dx dx_old : nat -> R) (alfa beta : R) (step : nat) : option R :=
  match feasible_loop (ecm_cond n x dx) beta fuel (clamp_ge (2 * n) x dx alfa) with
  | None => None
  | Some alfa => Some (norm_loop (2 * n) dx dx_old alfa beta step)
  end.

(** models_functions.py:1105-1115, 1155-1165; [1e-14]. *)
Definition ecm_exp_cond (n : nat) (x dx : nat -> R) (alfa : R) : bool :=
  if Rlt_dec (/ 10 ^ 14) (lsum2 (bot2 n (fun i => axpy x alfa dx (i + n)%nat))) then true else false.

(** models_functions.py:1081-1129 [linsearch_fun_ECM_exp]. *)
Definition linsearch_fun_ECM_exp (fuel n : nat) (step_fun : (nat -> R) -> fval) (x dx : nat -> R) (beta alfa : R) (f : nat -> R) : option R :=
  match feasible_loop (ecm_exp_cond n x dx) beta fuel alfa with
  | None => None
  | Some alfa => Some (decrease_loop (2 * n) step_fun x dx beta alfa f)
  end.

(** models_functions.py:1133-1177 [linsearch_fun_ECM_exp_fixed]. *)
Definition linsearch_fun_ECM_exp_fixed (fuel n : nat) (x dx dx_old : nat -> R) (alfa beta : R) (step : nat) : option R :=
  match feasible_loop (ecm_exp_cond n x dx) beta fuel alfa with
  | None => None
  | Some alfa => Some (norm_loop (2 * n) dx dx_old alfa beta step)
  end.

(** models_functions.py:2585-2597, 2641-2653: the length of [x] is [4 * n]. *)
Definition decm_cond (n : nat) (x dx : nat -> R) (alfa : R) : bool :=
  if Rlt_dec (vmax n (fun i => axpy x alfa dx (i + 2 * n)%nat) * vmax n (fun i => axpy x alfa dx (i + 3 * n)%nat)) 1
  then true else false.

(** models_functions.py:2556-2612 [linsearch_fun_DECM]. *)
Definition linsearch_fun_DECM (fuel n : nat) (step_fun : (nat -> R) -> fval) (x dx : nat -> R) (beta alfa : R) (f : nat -> R) : option R :=
  match feasible_loop (decm_cond n x dx) beta fuel (clamp_gt (4 * n) x dx alfa) with
  | None => None
  | Some alfa => Some (decrease_loop (4 * n) step_fun x dx beta alfa f)
  end.

(** models_functions.py:2616-2664 [linsearch_fun_DECM_fixed]. *)
Definition linsearch_fun_DECM_fixed (fuel n : nat) (x dx dx_old : nat -> R) (alfa beta : R) (step : nat) : option R :=
  match feasible_loop (decm_cond n x dx) beta fuel (clamp_gt (4 * n) x dx alfa) with
  | None => None
  | Some alfa => Some (norm_loop (4 * n) dx dx_old alfa beta step)
  end.

(** models_functions.py:3728-3744, 3786-3803. *)
Definition decm_exp_cond (n : nat) (x dx : nat -> R) (alfa : R) : bool :=
  let tmp := vmin n (fun i => x (i + 2 * n)%nat) + vmin n (fun i => x (i + 3 * n)%nat) in
  if Rlt_dec (tmp * / 100)
       (vmin n (fun i => axpy x alfa dx (i + 2 * n)%nat) + vmin n (fun i => axpy x alfa dx (i + 3 * n)%nat))
  then true else false.

(** models_functions.py:3704-3758 [linsearch_fun_DECM_exp]. *)
Definition linsearch_fun_DECM_exp (fuel n : nat) (step_fun : (nat -> R) -> fval) (x dx : nat -> R) (beta alfa : R) (f : nat -> R) : option R :=
  match feasible_loop (decm_exp_cond n x dx) beta fuel alfa with
  | None => None
  | Some alfa => Some (decrease_loop (4 * n) step_fun x dx beta alfa f)
  end.

(** models_functions.py:3762-3814 [linsearch_fun_DECM_exp_fixed] (masks as above). *)
Definition linsearch_fun_DECM_exp_fixed (fuel n : nat) (x dx dx_old : nat -> R) (alfa beta : R) (step : nat) : option R :=
  match feasible_loop (decm_exp_cond n x dx) beta fuel alfa with
  | None => None
  | Some alfa => Some (norm_loop (4 * n) dx dx_old alfa beta step)
  end.

(** * Matrix regularisers (solver_functions.py) *)
(** solver_functions.py:19, 36: [b = (b + b.transpose()) * 0.5]. *)
Definition symmetrise (b : nat -> nat -> R) (i j : nat) : R := (b i j + b j i) * / 2.
Definition identity (i j : nat) : R := if Nat.eqb i j then 1 else 0.
Definition diag (t : nat -> R) (i j : nat) : R := if Nat.eqb i j then t i else 0.
Definition matmul (n : nat) (a b : nat -> nat -> R) (i j : nat) : R := rsum n (fun k => a i k * b k j).
Definition transpose (a : nat -> nat -> R) (i j : nat) : R := a j i.

(** solver_functions.py:8-22 [matrix_regulariser_function]. *)
Definition matrix_regulariser_function (b : nat -> nat -> R) (eps : R) : nat -> nat -> R :=
  let b := symmetrise b in
  fun i j => b i j + identity i j * eps.

(** solver_functions.py:25-41 [matrix_regulariser_function_eigen_based]; [eigh] is
    the external eigen-decomposition, returning eigenvalues and the matrix whose
    columns are the eigenvectors. *)
Definition matrix_regulariser_function_eigen_based
    (eigh : (nat -> nat -> R) -> (nat -> R) * (nat -> nat -> R)) (n : nat) (b : nat -> nat -> R) (eps : R) : nat -> nat -> R :=
  let b := symmetrise b in
  let t := fst (eigh b) in
  let e := snd (eigh b) in
  let ll := fun i => if Rlt_dec eps (t i) then 0 else eps - t i in
  matmul n (matmul n e (fun i j => diag ll i j + diag t i j)) (transpose e).
