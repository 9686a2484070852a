(** UECM: transcription of models_functions.py, lines 515-1077.
    [sol] is read as [x = sol[:n]], [y = sol[n:]]; [n = len(k)] is explicit.
    Line searches (736-836, 1081-1177) are in ModelLinsearch. *)
From Coq Require Import Reals List Arith.
From Verif Require Import Base.
Local Open Scope R_scope.

(** models_functions.py:519-555 [iterative_ecm]: entry [r] of the returned
    array ([r < n]: the degree part, otherwise the strength part).
    [if fx:] is [fx <> 0]. *)
Definition iterative_ecm (n : nat) (k s : nat -> R) (sol : nat -> R) (r : nat) : R :=
  let x := fun i => sol i in
  let y := fun i => sol (i + n)%nat in
  if Nat.ltb r n then
    let i := r in
    let fx := loop n 0 (fun j fx =>
      if negb (Nat.eqb i j) then
        let aux1 := x i * x j in
        let aux2 := y i * y j in
        fx + (x j * aux2) / (1 - aux2 + aux1 * aux2)
      else fx) in
    if Req_EM_T fx 0 then 0 else k i / fx
  else
    let i := (r - n)%nat in
    let fy := loop n 0 (fun j fy =>
      if negb (Nat.eqb i j) then
        let aux1 := x i * x j in
        let aux2 := y i * y j in
        fy + (aux1 * y j) / ((1 - aux2) * (1 - aux2 + aux1 * aux2))
      else fy) in
    if Req_EM_T fy 0 then 0 else s i / fy.

(** models_functions.py:559-583 [loglikelihood_ecm]. *)
Definition loglikelihood_ecm (n : nat) (k s : nat -> R) (sol : nat -> R) : R :=
  let x := fun i => sol i in
  let y := fun i => sol (i + n)%nat in
  loop n 0 (fun i f =>
    let f := f + (k i * ln (x i) + s i * ln (y i)) in
    loop i f (fun j f =>
      let aux := y i * y j in
      f + ln ((1 - aux) / (1 - aux + x i * x j * aux)))).

(** models_functions.py:587-617 [loglikelihood_prime_ecm], entry [r]. *)
Definition loglikelihood_prime_ecm (n : nat) (k s : nat -> R) (sol : nat -> R) (r : nat) : R :=
  let x := fun i => sol i in
  let y := fun i => sol (i + n)%nat in
  if Nat.ltb r n then
    let i := r in
    loop n (0 + k i / x i) (fun j f =>
      if negb (Nat.eqb i j) then
        let aux1 := x i * x j in
        let aux2 := y i * y j in
        f - (x j * aux2) / (1 - aux2 + aux1 * aux2)
      else f)
  else
    let i := (r - n)%nat in
    loop n (0 + s i / y i) (fun j f =>
      if negb (Nat.eqb i j) then
        let aux1 := x i * x j in
        let aux2 := y i * y j in
        f - (aux1 * y j) / ((1 - aux2) * (1 - aux2 + aux1 * aux2))
      else f).

(** models_functions.py:640-669: the three accumulators [f1], [f2], [f3] of the
    diagonal case [i == j]. *)
Definition hessian_ecm_f1 (n : nat) (k : nat -> R) (sol : nat -> R) (i : nat) : R :=
  let x := fun i => sol i in
  let y := fun i => sol (i + n)%nat in
  loop n (- k i / (x i) ^ 2) (fun h f1 =>
    if negb (Nat.eqb h i) then
      let aux1 := x i * x h in
      let aux2 := y i * y h in
      let aux4 := (1 - aux2 + aux1 * aux2) ^ 2 in
      f1 + ((x h * aux2) ^ 2) / aux4
    else f1).
Definition hessian_ecm_f2 (n : nat) (s : nat -> R) (sol : nat -> R) (i : nat) : R :=
  let x := fun i => sol i in
  let y := fun i => sol (i + n)%nat in
  loop n (- s i / (y i) ^ 2) (fun h f2 =>
    if negb (Nat.eqb h i) then
      let aux1 := x i * x h in
      let aux2 := y i * y h in
      let aux3 := (1 - aux2) ^ 2 in
      let aux4 := (1 - aux2 + aux1 * aux2) ^ 2 in
      f2 + (aux1 * y h * (aux1 * y h * (1 - 2 * aux2) - 2 * y h * (1 - aux2)))
           / (aux3 * aux4)
    else f2).
Definition hessian_ecm_f3 (n : nat) (sol : nat -> R) (i : nat) : R :=
  let x := fun i => sol i in
  let y := fun i => sol (i + n)%nat in
  loop n 0 (fun h f3 =>
    if negb (Nat.eqb h i) then
      let aux1 := x i * x h in
      let aux2 := y i * y h in
      let aux4 := (1 - aux2 + aux1 * aux2) ^ 2 in
      f3 - (x h * y h) / aux4
    else f3).

(** models_functions.py:670-690, the four values written in the case [i < j]:
    at (i,j)/(j,i); (i,j+n)/(j+n,i); (i+n,j+n)/(j+n,i+n); (i+n,j)/(j,i+n). *)
Definition hessian_ecm_xx (n : nat) (sol : nat -> R) (i j : nat) : R :=
  let x := fun i => sol i in
  let y := fun i => sol (i + n)%nat in
  let aux1 := x i * x j in
  let aux2 := y i * y j in
  let aux4 := (1 - aux2 + aux1 * aux2) ^ 2 in
  - (aux2 * (1 - aux2)) / aux4.
Definition hessian_ecm_xy (n : nat) (sol : nat -> R) (i j : nat) : R :=
  let x := fun i => sol i in
  let y := fun i => sol (i + n)%nat in
  let aux1 := x i * x j in
  let aux2 := y i * y j in
  let aux4 := (1 - aux2 + aux1 * aux2) ^ 2 in
  - (x j * y i) / aux4.
Definition hessian_ecm_yy (n : nat) (sol : nat -> R) (i j : nat) : R :=
  let x := fun i => sol i in
  let y := fun i => sol (i + n)%nat in
  let aux1 := x i * x j in
  let aux2 := y i * y j in
  let aux3 := (1 - aux2) ^ 2 in
  let aux4 := (1 - aux2 + aux1 * aux2) ^ 2 in
  - (aux1 * (1 - aux2 ^ 2 + aux1 * (aux2 ^ 2))) / (aux3 * aux4).
Definition hessian_ecm_yx (n : nat) (sol : nat -> R) (i j : nat) : R :=
  let x := fun i => sol i in
  let y := fun i => sol (i + n)%nat in
  let aux1 := x i * x j in
  let aux2 := y i * y j in
  let aux4 := (1 - aux2 + aux1 * aux2) ^ 2 in
  - (x i * y j) / aux4.

(** Assembly of the [2n] by [2n] matrix from blocks written for [i <= j];
    [r = i] or [i + n] for the node [i]. Shared by the plain and exp Hessians
    (models_functions.py:665-690 and 1010-1039). *)
Definition assemble2 (n : nat) (d1 d2 d3 : nat -> R) (xx xy yy yx : nat -> nat -> R)
    (r t : nat) : R :=
  let i := if Nat.ltb r n then r else (r - n)%nat in
  let j := if Nat.ltb t n then t else (t - n)%nat in
  match Nat.ltb r n, Nat.ltb t n with
  | true, true => if Nat.eqb i j then d1 i else if Nat.ltb i j then xx i j else xx j i
  | false, false => if Nat.eqb i j then d2 i else if Nat.ltb i j then yy i j else yy j i
  | true, false => if Nat.eqb i j then d3 i else if Nat.ltb i j then xy i j else yx j i
  | false, true => if Nat.eqb i j then d3 i else if Nat.ltb i j then yx i j else xy j i
  end.

(** models_functions.py:621-692 [loglikelihood_hessian_ecm], entry [(r,t)]. *)
Definition loglikelihood_hessian_ecm (n : nat) (k s : nat -> R) (sol : nat -> R) (r t : nat) : R :=
  assemble2 n (hessian_ecm_f1 n k sol) (hessian_ecm_f2 n s sol) (hessian_ecm_f3 n sol)
    (hessian_ecm_xx n sol) (hessian_ecm_xy n sol) (hessian_ecm_yy n sol) (hessian_ecm_yx n sol) r t.

(** models_functions.py:696-732 [loglikelihood_hessian_diag_ecm], entry [r]. *)
Definition loglikelihood_hessian_diag_ecm (n : nat) (k s : nat -> R) (sol : nat -> R) (r : nat) : R :=
  let x := fun i => sol i in
  let y := fun i => sol (i + n)%nat in
  if Nat.ltb r n then
    let i := r in
    loop n (0 - k i / (x i * x i)) (fun j f =>
      if negb (Nat.eqb j i) then
        let aux1 := x i * x j in
        let aux2 := y i * y j in
        let aux4 := (1 - aux2 + aux1 * aux2) ^ 2 in
        f + ((x j * aux2) ^ 2) / aux4
      else f)
  else
    let i := (r - n)%nat in
    loop n (0 - s i / (y i * y i)) (fun j f =>
      if negb (Nat.eqb j i) then
        let aux1 := x i * x j in
        let aux2 := y i * y j in
        let aux3 := (1 - aux2) ^ 2 in
        let aux4 := (1 - aux2 + aux1 * aux2) ^ 2 in
        f + (aux1 * y j * (aux1 * y j * (1 - 2 * aux2) - 2 * y j * (1 - aux2)))
            / (aux3 * aux4)
      else f).

(** models_functions.py:840-861 [expected_ecm], entry [r]. *)
Definition expected_ecm (n : nat) (sol : nat -> R) (r : nat) : R :=
  let x := fun i => sol i in
  let y := fun i => sol (i + n)%nat in
  if Nat.ltb r n then
    let i := r in
    loop n 0 (fun j f =>
      if negb (Nat.eqb i j) then
        let aux1 := x i * x j in
        let aux2 := y i * y j in
        f + (aux1 * aux2) / (1 - aux2 + aux1 * aux2)
      else f)
  else
    let i := (r - n)%nat in
    loop n 0 (fun j f =>
      if negb (Nat.eqb i j) then
        let aux1 := x i * x j in
        let aux2 := y i * y j in
        f + (aux1 * aux2) / ((1 - aux2 + aux1 * aux2) * (1 - aux2))
      else f).

(** models_functions.py:868-905 [iterative_ecm_exp], entry [r]. *)
Definition iterative_ecm_exp (n : nat) (k s : nat -> R) (sol : nat -> R) (r : nat) : R :=
  let x := fun i => exp (- sol i) in
  let y := fun i => exp (- sol (i + n)%nat) in
  if Nat.ltb r n then
    let i := r in
    let fx := loop n 0 (fun j fx =>
      if negb (Nat.eqb i j) then
        let aux1 := x i * x j in
        let aux2 := y i * y j in
        fx + (x j * aux2) / (1 - aux2 + aux1 * aux2)
      else fx) in
    if Req_EM_T fx 0 then 0 else - ln (k i / fx)
  else
    let i := (r - n)%nat in
    let fy := loop n 0 (fun j fy =>
      if negb (Nat.eqb i j) then
        let aux1 := x i * x j in
        let aux2 := y i * y j in
        fy + (aux1 * y j) / ((1 - aux2) * (1 - aux2 + aux1 * aux2))
      else fy) in
    if Req_EM_T fy 0 then 0 else - ln (s i / fy).

(** models_functions.py:909-936 [loglikelihood_ecm_exp]. *)
Definition loglikelihood_ecm_exp (n : nat) (k s : nat -> R) (sol : nat -> R) : R :=
  let x := fun i => exp (- sol i) in
  let y := fun i => exp (- sol (i + n)%nat) in
  loop n 0 (fun i f =>
    let f := f - (k i * (- ln (x i)) + s i * (- ln (y i))) in
    loop i f (fun j f =>
      let aux1 := x i * x j in
      let aux2 := y i * y j in
      f - ln (1 + (aux1 * (aux2 / (1 - aux2)))))).

(** models_functions.py:940-972 [loglikelihood_prime_ecm_exp], entry [r]. *)
Definition loglikelihood_prime_ecm_exp (n : nat) (k s : nat -> R) (sol : nat -> R) (r : nat) : R :=
  let x := fun i => exp (- sol i) in
  let y := fun i => exp (- sol (i + n)%nat) in
  if Nat.ltb r n then
    let i := r in
    loop n (0 - k i) (fun j f =>
      if negb (Nat.eqb i j) then
        let aux1 := x i * x j in
        let aux2 := y i * y j in
        f + (aux1 * aux2) / (1 - aux2 + aux1 * aux2)
      else f)
  else
    let i := (r - n)%nat in
    loop n (0 - s i) (fun j f =>
      if negb (Nat.eqb i j) then
        let aux1 := x i * x j in
        let aux2 := y i * y j in
        f + (aux1 * aux2) / ((1 - aux2) * (1 - aux2 + aux1 * aux2))
      else f).

(** models_functions.py:996-1013: accumulators of the diagonal case. *)
Definition hessian_ecm_exp_f1 (n : nat) (sol : nat -> R) (i : nat) : R :=
  let x := fun i => exp (- sol i) in
  let y := fun i => exp (- sol (i + n)%nat) in
  loop n 0 (fun h f1 =>
    if negb (Nat.eqb h i) then
      let aux1 := x i * x h in
      let aux2 := y i * y h in
      let aux3 := aux1 * aux2 in
      f1 - (aux3 * (1 - aux2)) / ((1 - aux2 + aux3) ^ 2)
    else f1).
Definition hessian_ecm_exp_f2 (n : nat) (sol : nat -> R) (i : nat) : R :=
  let x := fun i => exp (- sol i) in
  let y := fun i => exp (- sol (i + n)%nat) in
  loop n 0 (fun h f2 =>
    if negb (Nat.eqb h i) then
      let aux1 := x i * x h in
      let aux2 := y i * y h in
      let aux3 := aux1 * aux2 in
      f2 - (aux3 * (1 - (aux2 ^ 2) + aux1 * (aux2 ^ 2)))
           / (((1 - aux2) ^ 2) * ((1 - aux2 + aux3) ^ 2))
    else f2).
Definition hessian_ecm_exp_f3 (n : nat) (sol : nat -> R) (i : nat) : R :=
  let x := fun i => exp (- sol i) in
  let y := fun i => exp (- sol (i + n)%nat) in
  loop n 0 (fun h f3 =>
    if negb (Nat.eqb h i) then
      let aux1 := x i * x h in
      let aux2 := y i * y h in
      let aux3 := aux1 * aux2 in
      f3 - aux3 / ((1 - aux2 + aux3) ^ 2)
    else f3).

(** models_functions.py:1014-1039: values written in the case [i < j]. *)
Definition hessian_ecm_exp_xx (n : nat) (sol : nat -> R) (i j : nat) : R :=
  let x := fun i => exp (- sol i) in
  let y := fun i => exp (- sol (i + n)%nat) in
  let aux1 := x i * x j in
  let aux2 := y i * y j in
  let aux3 := aux1 * aux2 in
  let aux4 := (1 - aux2 + aux3) ^ 2 in
  - aux3 * (1 - aux2) / aux4.
Definition hessian_ecm_exp_xy (n : nat) (sol : nat -> R) (i j : nat) : R :=
  let x := fun i => exp (- sol i) in
  let y := fun i => exp (- sol (i + n)%nat) in
  let aux1 := x i * x j in
  let aux2 := y i * y j in
  let aux3 := aux1 * aux2 in
  let aux4 := (1 - aux2 + aux3) ^ 2 in
  - aux3 / aux4.
Definition hessian_ecm_exp_yy (n : nat) (sol : nat -> R) (i j : nat) : R :=
  let x := fun i => exp (- sol i) in
  let y := fun i => exp (- sol (i + n)%nat) in
  let aux1 := x i * x j in
  let aux2 := y i * y j in
  let aux3 := aux1 * aux2 in
  - (aux3 * (1 - (aux2 ^ 2) + aux1 * (aux2 ^ 2)))
    / (((1 - aux2) ^ 2) * ((1 - aux2 + aux3) ^ 2)).
Definition hessian_ecm_exp_yx (n : nat) (sol : nat -> R) (i j : nat) : R :=
  let x := fun i => exp (- sol i) in
  let y := fun i => exp (- sol (i + n)%nat) in
  let aux1 := x i * x j in
  let aux2 := y i * y j in
  let aux3 := aux1 * aux2 in
  let aux4 := (1 - aux2 + aux3) ^ 2 in
  - aux3 / aux4.

(** models_functions.py:976-1041 [loglikelihood_hessian_ecm_exp], entry [(r,t)]. *)
Definition loglikelihood_hessian_ecm_exp (n : nat) (sol : nat -> R) (r t : nat) : R :=
  assemble2 n (hessian_ecm_exp_f1 n sol) (hessian_ecm_exp_f2 n sol) (hessian_ecm_exp_f3 n sol)
    (hessian_ecm_exp_xx n sol) (hessian_ecm_exp_xy n sol)
    (hessian_ecm_exp_yy n sol) (hessian_ecm_exp_yx n sol) r t.

(** models_functions.py:1045-1077 [loglikelihood_hessian_diag_ecm_exp], entry [r]. *)
Definition loglikelihood_hessian_diag_ecm_exp (n : nat) (sol : nat -> R) (r : nat) : R :=
  let x := fun i => exp (- sol i) in
  let y := fun i => exp (- sol (i + n)%nat) in
  if Nat.ltb r n then
    let i := r in
    loop n 0 (fun j f =>
      if negb (Nat.eqb j i) then
        let aux1 := x i * x j in
        let aux2 := y i * y j in
        let aux3 := aux1 * aux2 in
        f - (aux3 * (1 - aux2)) / ((1 - aux2 + aux3) ^ 2)
      else f)
  else
    let i := (r - n)%nat in
    loop n 0 (fun j f =>
      if negb (Nat.eqb j i) then
        let aux1 := x i * x j in
        let aux2 := y i * y j in
        let aux3 := aux1 * aux2 in
        f - (aux1 * aux2 * (1 - (aux2 ^ 2) + aux1 * (aux2 ^ 2)))
            / (((1 - aux2) ^ 2) * ((1 - aux2 + aux3) ^ 2))
      else f).
