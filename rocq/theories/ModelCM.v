(** UBCM: transcription of models_functions.py, lines 7-512.
    Floats are exact reals; vectors are functions read below [n]
    ([n] is [len(k)], passed explicitly). *)
From Coq Require Import Reals List Arith.
From Verif Require Import Base.
Local Open Scope R_scope.

(** models_functions.py:12-35 [iterative_cm]: component [i] of the returned
    array.  [if fx:] is the test [fx <> 0]; otherwise [f[i]] keeps its initial 0. *)
Definition iterative_cm (n : nat) (k c x : nat -> R) (i : nat) : R :=
  let fx := loop n 0 (fun j fx =>
    if Nat.eqb i j then fx + (c j - 1) * (x j / (1 + x j * x i))
    else fx + c j * (x j / (1 + x j * x i))) in
  if Req_EM_T fx 0 then 0 else k i / fx.

(** models_functions.py:39-61 [loglikelihood_cm]. *)
Definition loglikelihood_cm (n : nat) (k c x : nat -> R) : R :=
  loop n 0 (fun i f =>
    let f := f + c i * k i * ln (x i) in
    loop n f (fun j f =>
      if Nat.eqb i j then f - (c i * (c i - 1) * ln (1 + (x i) ^ 2)) / 2
      else f - (c i * c j * ln (1 + x i * x j)) / 2)).

(** models_functions.py:65-87 [loglikelihood_prime_cm], component [i]. *)
Definition loglikelihood_prime_cm (n : nat) (k c x : nat -> R) (i : nat) : R :=
  let f := 0 + c i * k i / x i in
  loop n f (fun j f =>
    if Nat.eqb i j then f - c i * (c j - 1) * (x j / (1 + (x j) ^ 2))
    else f - c i * c j * (x j / (1 + x i * x j))).

(** models_functions.py:106-121, the value [aux_f] computed for row [i] and
    column [j], [i <= j]. *)
Definition hessian_cm_aux (n : nat) (k c x : nat -> R) (i j : nat) : R :=
  if Nat.eqb i j then
    loop n (- k i / (x i * x i) * c i) (fun h aux_f =>
      if Nat.eqb i h then
        let aux := 1 + x h * x h in
        aux_f + ((x h * x h) / (aux * aux)) * c i * (c h - 1)
      else
        let aux := 1 + x i * x h in
        aux_f + ((x h * x h) / (aux * aux)) * c i * c h)
  else
    let aux := 1 + x i * x j in
    ((x j * x j - aux) / (aux * aux)) * c i * c j.

(** models_functions.py:91-124 [loglikelihood_hessian_cm], entry [(i,j)]:
    [aux_f] is computed for [i <= j] and written at [(i,j)] and [(j,i)]. *)
Definition loglikelihood_hessian_cm (n : nat) (k c x : nat -> R) (i j : nat) : R :=
  if Nat.leb i j then hessian_cm_aux n k c x i j else hessian_cm_aux n k c x j i.

(** models_functions.py:128-153 [loglikelihood_hessian_diag_cm], component [i]. *)
Definition loglikelihood_hessian_diag_cm (n : nat) (k c x : nat -> R) (i : nat) : R :=
  let f := 0 - k i / (x i * x i) * c i in
  loop n f (fun j f =>
    if Nat.eqb i j then
      let aux := 1 + x j * x j in
      f + ((x j * x j) / (aux * aux)) * c i * (c j - 1)
    else
      let aux := 1 + x i * x j in
      f + ((x j * x j) / (aux * aux)) * c i * c j).

(** models_functions.py:156-174 [pmatrix_cm], entry [(i,j)]: written for
    [i < j] at both positions, 0 elsewhere. *)
Definition pmatrix_cm (x : nat -> R) (i j : nat) : R :=
  if Nat.ltb i j then
    let aux := x i * x j in aux / (1 + aux)
  else if Nat.ltb j i then
    let aux := x j * x i in aux / (1 + aux)
  else 0.

(** models_functions.py:262-278 [expected_degree_cm], component [i]. *)
Definition expected_degree_cm (n : nat) (sol : nat -> R) (i : nat) : R :=
  loop n 0 (fun j ex_k =>
    if Nat.eqb i j then ex_k
    else let aux := sol i * sol j in ex_k + aux / (1 + aux)).

(** models_functions.py:285-311 [iterative_cm_exp], component [i]. *)
Definition iterative_cm_exp (n : nat) (k c x : nat -> R) (i : nat) : R :=
  let x1 := fun j => exp (- x j) in
  let fx := loop n 0 (fun j fx =>
    if Nat.eqb i j then fx + (c j - 1) * (x1 j / (1 + x1 j * x1 i))
    else fx + c j * (x1 j / (1 + x1 j * x1 i))) in
  if Req_EM_T fx 0 then 0 else - ln (k i / fx).

(** models_functions.py:315-339 [loglikelihood_cm_exp]. *)
Definition loglikelihood_cm_exp (n : nat) (k c x : nat -> R) : R :=
  let x1 := fun j => exp (- x j) in
  loop n 0 (fun i f =>
    let f := f - c i * k i * x i in
    loop n f (fun j f =>
      if Nat.eqb i j then f - (c i * (c i - 1) * ln (1 + (x1 i) ^ 2)) / 2
      else f - (c i * c j * ln (1 + x1 i * x1 j)) / 2)).

(** models_functions.py:343-369 [loglikelihood_prime_cm_exp], component [i]. *)
Definition loglikelihood_prime_cm_exp (n : nat) (k c x : nat -> R) (i : nat) : R :=
  let x1 := fun j => exp (- x j) in
  let f := 0 - c i * k i in
  loop n f (fun j f =>
    if Nat.eqb i j then
      let aux := (x1 i) ^ 2 in
      f + c i * (c i - 1) * (aux / (1 + aux))
    else
      let aux := x1 i * x1 j in
      f + c i * c j * (aux / (1 + aux))).

(** models_functions.py:390-403, the value [aux_f] for row [i], column [j], [i <= j]. *)
Definition hessian_cm_exp_aux (n : nat) (c x : nat -> R) (i j : nat) : R :=
  let x1 := fun j => exp (- x j) in
  if Nat.eqb i j then
    loop n 0 (fun h aux_f =>
      if Nat.eqb i h then
        let aux := (x1 h) ^ 2 in
        aux_f - (aux / (1 + aux) ^ 2) * c i * (c h - 1)
      else
        let aux := x1 i * x1 h in
        aux_f - (aux / (1 + aux) ^ 2) * c i * c h)
  else
    let aux := x1 i * x1 j in
    - (aux / (1 + aux) ^ 2) * c i * c j.

(** models_functions.py:373-407 [loglikelihood_hessian_cm_exp], entry [(i,j)]. *)
Definition loglikelihood_hessian_cm_exp (n : nat) (c x : nat -> R) (i j : nat) : R :=
  if Nat.leb i j then hessian_cm_exp_aux n c x i j else hessian_cm_exp_aux n c x j i.

(** models_functions.py:411-437 [loglikelihood_hessian_diag_cm_exp], component [i]. *)
Definition loglikelihood_hessian_diag_cm_exp (n : nat) (c x : nat -> R) (i : nat) : R :=
  let x1 := fun j => exp (- x j) in
  loop n 0 (fun j f =>
    if Nat.eqb i j then
      let aux := (x1 j) ^ 2 in
      f - (aux / (1 + aux)) * c i * (c j - 1)
    else
      let aux := x1 i * x1 j in
      f - (aux / (1 + aux)) * c i * c j).
