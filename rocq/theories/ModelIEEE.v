(** The functions of models_functions.py as the compiled code evaluates them outside the
    domain of the formulas: a scalar division by zero raises (numba's default error
    model), [np.log] returns -inf at zero and NaN below it.  The formulas are those of
    ModelCM, ModelECM, ModelDCM and ModelDECM; this file adds, for each function, the
    divisors it meets and, where a logarithm may leave the reals, its value as an IEEE
    number.  Rounding is not modelled. *)
From Coq Require Import Reals List Arith Bool.
From Verif Require Import Base ModelDCM ModelDECM ModelCReMa.
Import ListNotations.
Local Open Scope R_scope.

(** [np.log] of a double, and the product of a number with a double. *)
Definition flog (a : R) : fval := if Rlt_dec 0 a then Fin (ln a) else if Req_EM_T a 0 then MInf else NaN.
Definition fmul (w : R) (v : fval) : fval :=
  match v with
  | Fin a => Fin (w * a)
  | NaN => NaN
  | PInf => if Req_EM_T w 0 then NaN else if Rlt_dec 0 w then PInf else MInf
  | MInf => if Req_EM_T w 0 then NaN else if Rlt_dec 0 w then MInf else PInf
  end.

(** ** Divisors *)
Definition nonzero (a : R) : bool := if Req_EM_T a 0 then false else true.
(** [for i in range(n): for j in range(n)], all pairs, pairs with [i != j], pairs with
    [j < i]. *)
Definition every (n : nat) (p : nat -> bool) : bool := forallb p (seq 0 n).
Definition every_pair (n : nat) (p : nat -> nat -> bool) : bool := every n (fun i => every n (p i)).
Definition every_other (n : nat) (p : nat -> nat -> bool) : bool :=
  every_pair n (fun i j => Nat.eqb i j || p i j).
Definition every_below (n : nat) (p : nat -> nat -> bool) : bool := every n (fun i => every i (p i)).

(** models_functions.py:30-32, 84-86, 112-120, 148-152: [1 + x[i] * x[j]]. *)
Definition cm_pairs (n : nat) (x : nat -> R) : bool := every_pair n (fun i j => nonzero (1 + x i * x j)).
(** 81, 109, 145: [x[i]], and the pairs. *)
Definition cm_divisors (n : nat) (x : nat -> R) : bool := every n (fun i => nonzero (x i)) && cm_pairs n x.
(** 545-546, 613-616, 652-690, 726-731, and 895-896, 968-971, 1008-1039, 1073-1076 with
    [x = np.exp(-sol[:n])], [y = np.exp(-sol[n:])]: [1 - aux2] and [1 - aux2 + aux1 * aux2]. *)
Definition ecm_pairs (n : nat) (x y : nat -> R) : bool :=
  every_other n (fun i j => nonzero (1 - y i * y j) && nonzero (1 - y i * y j + x i * x j * (y i * y j))).
(** 607-608, 643-644, 718-719: [x[i]] and [y[i]], and the pairs. *)
Definition ecm_divisors (n : nat) (sol : nat -> R) : bool :=
  every n (fun i => nonzero (sol i) && nonzero (sol (i + n)%nat)) && ecm_pairs n sol (fun i => sol (i + n)%nat).
Definition ecm_exp_divisors (n : nat) (sol : nat -> R) : bool :=
  ecm_pairs n (fun i => exp (- sol i)) (fun i => exp (- sol (i + n)%nat)).
(** 582 and 935: the quotients of the log-likelihoods. *)
Definition ecm_below (n : nat) (sol : nat -> R) : bool :=
  every_below n (fun i j => let aux := sol (i + n)%nat * sol (j + n)%nat in nonzero (1 - aux + sol i * sol j * aux)).
Definition ecm_exp_below (n : nat) (sol : nat -> R) : bool :=
  every_below n (fun i j => nonzero (1 - exp (- sol (i + n)%nat) * exp (- sol (j + n)%nat))).
(** 1687-1696: [1 + x[i] * x[j + n]] over [range(n)]; the last division is one of arrays. *)
Definition dcm_pairs (n : nat) (x : nat -> R) : bool := every_pair n (fun i j => nonzero (1 + x i * x (j + n)%nat)).
(** 1774-1790, 1820-1845, 1885-1903: the entries and pairs of the two index lists. *)
Definition dcm_divisors (n : nat) (nzo nzi : list nat) (x : nat -> R) : bool :=
  forallb (fun i => nonzero (x i)) nzo && forallb (fun j => nonzero (x (j + n)%nat)) nzi &&
  forallb (fun i => forallb (fun j => nonzero (1 + x i * x (j + n)%nat)) nzi) nzo.
(** 2099-2113, 2207-2220, 2270-2290, 2356-2550, and 3269-3286, 3512-3557, 3611-3632 with
    [x = np.exp(-theta)]: [1 - tmp] and [1 - tmp + x[i] * x[j + n] * tmp].  (2212-2216 skip
    the pairs of one of the two sums when [x[i]] is 0; 2218-2220 meet the same pairs.) *)
Definition decm_pair_divisors (n : nat) (x : nat -> R) : bool :=
  every_other n (fun i j => let tmp := x (i + 2 * n)%nat * x (j + 3 * n)%nat in
    nonzero (1 - tmp) && nonzero (1 - tmp + x i * x (j + n)%nat * tmp)).
(** 2221-2236, 2291-2306, 2341-2351: a parameter divides when its constraint is nonzero. *)
Definition decm_divisors (n : nat) (k_out k_in s_out s_in x : nat -> R) : bool :=
  every n (fun i => (negb (nonzero (k_out i)) || nonzero (x i)) && (negb (nonzero (k_in i)) || nonzero (x (i + n)%nat)) &&
                    (negb (nonzero (s_out i)) || nonzero (x (i + 2 * n)%nat)) &&
                    (negb (nonzero (s_in i)) || nonzero (x (i + 3 * n)%nat))) && decm_pair_divisors n x.
Definition decm_exp_divisors (n : nat) (theta : nat -> R) : bool := decm_pair_divisors n (fun r => exp (- theta r)).
(** 3410: [1 - tmp]. *)
Definition decm_exp_loglik_divisors (n : nat) (x : nat -> R) : bool :=
  every_other n (fun i j => nonzero (1 - exp (- x (i + 2 * n)%nat - x (j + 3 * n)%nat))).

(** ** Log-likelihoods *)
(** models_functions.py:39-61 [loglikelihood_cm]. *)
Definition floglikelihood_cm (n : nat) (k c x : nat -> R) : fval :=
  loop n (Fin 0) (fun i f =>
    let f := fadd f (fmul (c i * k i) (flog (x i))) in
    loop n f (fun j f =>
      if Nat.eqb i j then fsub f (fmul (/ 2) (fmul (c i * (c i - 1)) (flog (1 + (x i) ^ 2))))
      else fsub f (fmul (/ 2) (fmul (c i * c j) (flog (1 + x i * x j)))))).
(** models_functions.py:1706-1738 [loglikelihood_dcm]. *)
Definition floglikelihood_dcm (n : nat) (k_out k_in : nat -> R) (nzo nzi : list nat) (c x : nat -> R) : fval :=
  let f := lloop nzo (Fin 0) (fun i f =>
    let f := fadd f (fmul (c i * k_out i) (flog (x i))) in
    lloop nzi f (fun j f =>
      if negb (Nat.eqb i j) then fsub f (fmul (c i * c j) (flog (1 + x i * x (n + j)%nat)))
      else fsub f (fmul (c i * (c i - 1)) (flog (1 + x i * x (n + j)%nat))))) in
  lloop nzi f (fun j f => fadd f (fmul (c j * k_in j) (flog (x (j + n)%nat)))).
(** models_functions.py:1270-1295 [loglikelihood_crema_undirected]. *)
Definition floglikelihood_crema_undirected (n : nat) (s : nat -> R) (es : list edge) (beta : nat -> R) : fval :=
  fold_left (fun f e => fadd f (fmul (snd e) (flog (beta (fst (fst e)) + beta (snd (fst e)))))) es
    (Fin (loop n 0 (fun i f => f - s i * beta i))).
(** models_functions.py:3970-4009 [loglikelihood_crema_directed]. *)
Definition floglikelihood_crema_directed (n : nat) (s_out s_in : nat -> R) (es : list edge) (nzo nzi : list nat)
    (beta : nat -> R) : fval :=
  let f := lloop nzo 0 (fun i f => f - s_out i * beta i) in
  let f := lloop nzi f (fun i f => f - s_in i * beta (i + n)%nat) in
  fold_left (fun f e => fadd f (fmul (snd e) (flog (beta (fst (fst e)) + beta (snd (fst e) + n)%nat)))) es (Fin f).
(** models_functions.py:1299-1325 [loglikelihood_crema_undirected_sparse], with the IEEE
    logarithm; the quotient [aux/(1+aux)] raises for [aux = -1]. *)
Definition floglikelihood_crema_undirected_sparse (n : nat) (s x beta : nat -> R) : option fval :=
  oloop n (Fin 0) (fun i f =>
    let f := fsub f (Fin (s i * beta i)) in
    oloop i f (fun j f =>
      let aux := x i * x j in
      obind (sdiv aux (1 + aux)) (fun aux_value =>
      if Rlt_dec 0 aux_value then Some (fadd f (fmul aux_value (flog (beta i + beta j)))) else Some f))).
(** models_functions.py:4013-4056 [loglikelihood_crema_directed_sparse], likewise. *)
Definition floglikelihood_crema_directed_sparse (n : nat) (s_out s_in x y : nat -> R) (nzo nzi : list nat)
    (beta : nat -> R) : option fval :=
  obind (olloop nzo (Fin 0) (fun i f =>
    let f := fsub f (Fin (s_out i * beta i)) in
    olloop nzi f (fun j f =>
      if negb (Nat.eqb i j) then
        let aux := x i * y j in
        obind (sdiv aux (1 + aux)) (fun aux_entry =>
        if Rlt_dec 0 aux_entry then Some (fadd f (fmul aux_entry (flog (beta i + beta (j + n)%nat)))) else Some f)
      else Some f))) (fun f =>
  Some (lloop nzi f (fun i f => fsub f (Fin (s_in i * beta (i + n)%nat))))).
(** models_functions.py:559-583 [loglikelihood_ecm]; the quotient is a scalar division,
    whose ZeroDivisionError is represented by NaN here and by [ecm_below] in [mof]. *)
Definition floglikelihood_ecm (n : nat) (k s : nat -> R) (sol : nat -> R) : fval :=
  let x := fun i => sol i in
  let y := fun i => sol (i + n)%nat in
  loop n (Fin 0) (fun i f =>
    let f := fadd f (fadd (fmul (k i) (flog (x i))) (fmul (s i) (flog (y i)))) in
    loop i f (fun j f =>
      let aux := y i * y j in
      fadd f (match sdiv (1 - aux) (1 - aux + x i * x j * aux) with Some q => flog q | None => NaN end))).
(** models_functions.py:909-936 [loglikelihood_ecm_exp]. *)
Definition floglikelihood_ecm_exp (n : nat) (k s : nat -> R) (sol : nat -> R) : fval :=
  let x := fun i => exp (- sol i) in
  let y := fun i => exp (- sol (i + n)%nat) in
  loop n (Fin 0) (fun i f =>
    let f := fsub f (Fin (k i * (- ln (x i)) + s i * (- ln (y i)))) in
    loop i f (fun j f =>
      let aux1 := x i * x j in
      let aux2 := y i * y j in
      fsub f (flog (1 + (aux1 * (aux2 / (1 - aux2))))))).
(** models_functions.py:2143-2176 [loglikelihood_decm]. *)
Definition floglikelihood_decm (n : nat) (k_out k_in s_out s_in x : nat -> R) : fval :=
  loop n (Fin 0) (fun i f =>
    let f := if Req_EM_T (k_out i) 0 then f else fadd f (fmul (k_out i) (flog (x i))) in
    let f := if Req_EM_T (k_in i) 0 then f else fadd f (fmul (k_in i) (flog (x (i + n)%nat))) in
    let f := if Req_EM_T (s_out i) 0 then f else fadd f (fmul (s_out i) (flog (x (i + 2 * n)%nat))) in
    let f := if Req_EM_T (s_in i) 0 then f else fadd f (fmul (s_in i) (flog (x (i + 3 * n)%nat))) in
    loop n f (fun j f => if negb (Nat.eqb i j) then
      let tmp := x (i + 2 * n)%nat * x (j + 3 * n)%nat in
      let f := fadd f (flog (1 - tmp)) in
      fsub f (flog (1 - tmp + tmp * x i * x (j + n)%nat)) else f)).
(** models_functions.py:3370-3412 [loglikelihood_decm_exp]. *)
Definition floglikelihood_decm_exp (n : nat) (k_out k_in s_out s_in x : nat -> R) : fval :=
  loop n (Fin 0) (fun i f =>
    let f := if Req_EM_T (k_out i) 0 then f else fsub f (Fin (k_out i * x i)) in
    let f := if Req_EM_T (k_in i) 0 then f else fsub f (Fin (k_in i * x (i + n)%nat)) in
    let f := if Req_EM_T (s_out i) 0 then f else fsub f (Fin (s_out i * x (i + 2 * n)%nat)) in
    let f := if Req_EM_T (s_in i) 0 then f else fsub f (Fin (s_in i * x (i + 3 * n)%nat)) in
    loop n f (fun j f => if negb (Nat.eqb i j) then
      let tmp := exp (- x (i + 2 * n)%nat - x (j + 3 * n)%nat) in
      fsub f (flog (1 + exp (- x i - x (j + n)%nat) * tmp / (1 - tmp))) else f)).

(** ** Fixed-point maps with a logarithm *)
(** models_functions.py:285-311 [iterative_cm_exp], entry [i]. *)
Definition fiterative_cm_exp (n : nat) (k c x : nat -> R) (i : nat) : fval :=
  let x1 := fun j => exp (- x j) in
  let fx := loop n 0 (fun j fx =>
    if Nat.eqb i j then fx + (c j - 1) * (x1 j / (1 + x1 j * x1 i))
    else fx + c j * (x1 j / (1 + x1 j * x1 i))) in
  if Req_EM_T fx 0 then Fin 0 else fneglog (Fin (k i / fx)).
(** models_functions.py:868-905 [iterative_ecm_exp], entry [r]. *)
Definition fiterative_ecm_exp (n : nat) (k s : nat -> R) (sol : nat -> R) (r : nat) : fval :=
  let x := fun i => exp (- sol i) in
  let y := fun i => exp (- sol (i + n)%nat) in
  if Nat.ltb r n then
    let i := r in
    let fx := loop n 0 (fun j fx =>
      if negb (Nat.eqb i j) then
        let aux1 := x i * x j in
        let aux2 := y i * y j in
        fx + (x j * aux2) / (1 - aux2 + aux1 * aux2)
      else fx) in
    if Req_EM_T fx 0 then Fin 0 else fneglog (Fin (k i / fx))
  else
    let i := (r - n)%nat in
    let fy := loop n 0 (fun j fy =>
      if negb (Nat.eqb i j) then
        let aux1 := x i * x j in
        let aux2 := y i * y j in
        fy + (aux1 * y j) / ((1 - aux2) * (1 - aux2 + aux1 * aux2))
      else fy) in
    if Req_EM_T fy 0 then Fin 0 else fneglog (Fin (s i / fy)).

(** models_functions.py:3416-3468 [loglikelihood_prime_decm_exp], entry [r]: not compiled
    (the decorator is commented out), so its quotients are numpy's; a zero denominator is
    taken to be [+0]. *)
Definition floglikelihood_prime_decm_exp (n : nat) (k_out k_in s_out s_in theta : nat -> R) (r : nat) : fval :=
  let x := fun r => exp (- theta r) in
  let fa := fun tmp0 tmp1 => fdiv (tmp0 * tmp1) (1 - tmp0 + tmp0 * tmp1) in
  let fb := fun tmp0 tmp1 => fdiv (tmp0 * tmp1) ((1 - tmp0 + tmp0 * tmp1) * (1 - tmp0)) in
  let sum := fun i f => loop n (Fin 0) (fun j acc => if negb (Nat.eqb i j) then fadd acc (f j) else acc) in
  by_block n r
    (fun i => fadd (Fin (- k_out i)) (sum i (fun j => fa (x (i + 2 * n)%nat * x (j + 3 * n)%nat) (x i * x (j + n)%nat))))
    (fun i => fadd (Fin (- k_in i)) (sum i (fun j => fa (x (j + 2 * n)%nat * x (i + 3 * n)%nat) (x j * x (i + n)%nat))))
    (fun i => fadd (Fin (- s_out i)) (sum i (fun j => fb (x (i + 2 * n)%nat * x (j + 3 * n)%nat) (x i * x (j + n)%nat))))
    (fun i => fadd (Fin (- s_in i)) (sum i (fun j => fb (x (j + 2 * n)%nat * x (i + 3 * n)%nat) (x j * x (i + n)%nat)))).
