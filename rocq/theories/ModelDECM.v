(** DECM: transcription of models_functions.py, lines 2065-2552, 2667-2727 and
    3232-3700.  The parameter array is [x = (a_out, a_in, b_out, b_in)], four
    blocks of [n = len(k_out)] entries.  Each function is given entry by entry;
    the accumulators of the code are independent of each other, so each entry
    keeps only its own.  A zero denominator inside an accumulator (scalar
    division, an exception in the code) is outside the domain of the theorems;
    the divisions of the fixed-point maps are modelled with the exception.
    Line searches are in ModelLinsearch. *)
From Coq Require Import Reals List Arith Bool.
From Verif Require Import Base ModelDCM.
Local Open Scope R_scope.

(** Block and position of an entry of a [4n] array. *)
Definition blk (n r : nat) : nat :=
  if Nat.ltb r n then 0 else if Nat.ltb r (2 * n) then 1 else if Nat.ltb r (3 * n) then 2 else 3.
Definition pos (n r : nat) : nat := (r - blk n r * n)%nat.
Definition by_block {A : Type} (n r : nat) (f0 f1 f2 f3 : nat -> A) : A :=
  match blk n r with
  | O => f0 (pos n r) | 1%nat => f1 (pos n r) | 2%nat => f2 (pos n r) | _ => f3 (pos n r)
  end.

(** Scalar division inside a jitted function: ZeroDivisionError is [None]. *)
Definition sdiv (a b : R) : option R := if Req_EM_T b 0 then None else Some (a / b).
(** [-np.log] of the quotient. *)
Definition sneglog (v : option R) : option fval :=
  match v with None => None | Some q => Some (fneglog (Fin q)) end.

(** models_functions.py:2069-2139 [iterative_decm], entry [r]. *)
Definition iterative_decm (n : nat) (k_out k_in s_out s_in x : nat -> R) (r : nat) : option R :=
  by_block n r
    (fun i =>
      let fa_out := loop n 0 (fun j f => if negb (Nat.eqb i j) then
        let tmp := x (i + 2 * n)%nat * x (j + 3 * n)%nat in
        f + x (j + n)%nat * tmp / (1 - tmp + x i * x (j + n)%nat * tmp) else f) in
      if Req_EM_T (k_out i) 0 then Some 0 else sdiv (k_out i) fa_out)
    (fun i =>
      let fa_in := loop n 0 (fun j f => if negb (Nat.eqb i j) then
        let tmp := x (j + 2 * n)%nat * x (i + 3 * n)%nat in
        f + x j * tmp / (1 - tmp + x j * x (i + n)%nat * tmp) else f) in
      if Req_EM_T (k_in i) 0 then Some 0 else sdiv (k_in i) fa_in)
    (fun i =>
      let fb_out := loop n 0 (fun j f => if negb (Nat.eqb i j) then
        let tmp := x (j + 3 * n)%nat * x (i + 2 * n)%nat in
        let tmp0 := x (j + n)%nat * x i in
        f + (x (j + 3 * n)%nat / (1 - tmp)
             + (tmp0 - 1) * x (j + 3 * n)%nat / (1 - tmp + tmp0 * tmp)) else f) in
      if Req_EM_T (s_out i) 0 then Some 0 else sdiv (s_out i) fb_out)
    (fun i =>
      let fb_in := loop n 0 (fun j f => if negb (Nat.eqb i j) then
        let tmp := x (i + 3 * n)%nat * x (j + 2 * n)%nat in
        let tmp0 := x (i + n)%nat * x j in
        f + (x (j + 2 * n)%nat / (1 - tmp)
             + (tmp0 - 1) * x (j + 2 * n)%nat / (1 - tmp + tmp0 * tmp)) else f) in
      if Req_EM_T (s_in i) 0 then Some 0 else sdiv (s_in i) fb_in).

(** models_functions.py:2143-2176 [loglikelihood_decm]. *)
Definition loglikelihood_decm (n : nat) (k_out k_in s_out s_in x : nat -> R) : R :=
  loop n 0 (fun i f =>
    let f := if Req_EM_T (k_out i) 0 then f else f + k_out i * ln (x i) in
    let f := if Req_EM_T (k_in i) 0 then f else f + k_in i * ln (x (i + n)%nat) in
    let f := if Req_EM_T (s_out i) 0 then f else f + s_out i * ln (x (i + 2 * n)%nat) in
    let f := if Req_EM_T (s_in i) 0 then f else f + s_in i * ln (x (i + 3 * n)%nat) in
    loop n f (fun j f => if negb (Nat.eqb i j) then
      let tmp := x (i + 2 * n)%nat * x (j + 3 * n)%nat in
      let f := f + ln (1 - tmp) in
      f - ln (1 - tmp + tmp * x i * x (j + n)%nat) else f)).

(** models_functions.py:2180-2238 [loglikelihood_prime_decm], entry [r]. *)
Definition loglikelihood_prime_decm (n : nat) (k_out k_in s_out s_in x : nat -> R) (r : nat) : R :=
  by_block n r
    (fun i =>
      let fa_out := loop n 0 (fun j f => if negb (Nat.eqb i j) then
        let tmp := x (i + 2 * n)%nat * x (j + 3 * n)%nat in
        f + x (j + n)%nat * tmp / (1 - tmp + x i * x (j + n)%nat * tmp) else f) in
      if Req_EM_T (k_out i) 0 then - fa_out else k_out i / x i - fa_out)
    (fun i =>
      let fa_in := loop n 0 (fun j f => if negb (Nat.eqb i j) then
        let tmp := x (j + 2 * n)%nat * x (i + 3 * n)%nat in
        f + x j * tmp / (1 - tmp + x j * x (i + n)%nat * tmp) else f) in
      if Req_EM_T (k_in i) 0 then - fa_in else k_in i / x (i + n)%nat - fa_in)
    (fun i =>
      let fb_out := loop n 0 (fun j f => if negb (Nat.eqb i j) then
        let tmp := x (j + 3 * n)%nat * x (i + 2 * n)%nat in
        if Req_EM_T (x i) 0 then f + 0 else
        f + (x (j + 3 * n)%nat / (1 - tmp)
             + (x (j + n)%nat * x i - 1) * x (j + 3 * n)%nat
               / (1 - tmp + x i * x (j + n)%nat * tmp)) else f) in
      if Req_EM_T (s_out i) 0 then - fb_out else s_out i / x (i + 2 * n)%nat - fb_out)
    (fun i =>
      let fb_in := loop n 0 (fun j f => if negb (Nat.eqb i j) then
        let tmp := x (i + 3 * n)%nat * x (j + 2 * n)%nat in
        f + (x (j + 2 * n)%nat / (1 - tmp)
             + (x (i + n)%nat * x j - 1) * x (j + 2 * n)%nat
               / (1 - tmp + x j * x (i + n)%nat * tmp)) else f) in
      if Req_EM_T (s_in i) 0 then - fb_in else s_in i / x (i + 3 * n)%nat - fb_in).

(** models_functions.py:2242-2308 [loglikelihood_hessian_diag_decm], entry [r]. *)
Definition loglikelihood_hessian_diag_decm (n : nat) (k_out k_in s_out s_in x : nat -> R)
    (r : nat) : R :=
  by_block n r
    (fun i =>
      let fa_out := loop n 0 (fun j f => if negb (Nat.eqb i j) then
        let tmp0 := x (i + 2 * n)%nat * x (j + 3 * n)%nat in
        let tmp := (x (j + n)%nat * tmp0) / (1 - tmp0 + x i * x (j + n)%nat * tmp0) in
        f + tmp * tmp else f) in
      if Req_EM_T (k_out i) 0 then fa_out else - k_out i / (x i) ^ 2 + fa_out)
    (fun i =>
      let fa_in := loop n 0 (fun j f => if negb (Nat.eqb i j) then
        let tmp0 := x (j + 2 * n)%nat * x (i + 3 * n)%nat in
        let tmp := (x j * tmp0) / (1 - tmp0 + x j * x (i + n)%nat * tmp0) in
        f + tmp * tmp else f) in
      if Req_EM_T (k_in i) 0 then fa_in else - k_in i / (x (i + n)%nat) ^ 2 + fa_in)
    (fun i =>
      let fb_out := loop n 0 (fun j f => if negb (Nat.eqb i j) then
        let tmp0 := x (j + 3 * n)%nat * x (i + 2 * n)%nat in
        let tmp1 := x (j + 3 * n)%nat / (1 - tmp0) in
        let tmp2 := ((x (j + n)%nat * x i - 1) * x (j + 3 * n)%nat)
                    / (1 - tmp0 + x i * x (j + n)%nat * tmp0) in
        f + (tmp1 * tmp1 - tmp2 * tmp2) else f) in
      if Req_EM_T (s_out i) 0 then - fb_out else - s_out i / (x (i + 2 * n)%nat) ^ 2 - fb_out)
    (fun i =>
      let fb_in := loop n 0 (fun j f => if negb (Nat.eqb i j) then
        let tmp0 := x (i + 3 * n)%nat * x (j + 2 * n)%nat in
        let tmp1 := x (j + 2 * n)%nat / (1 - tmp0) in
        let tmp2 := ((x (i + n)%nat * x j - 1) * x (j + 2 * n)%nat)
                    / (1 - tmp0 + x j * x (i + n)%nat * tmp0) in
        f + (tmp1 * tmp1 - tmp2 * tmp2) else f) in
      if Req_EM_T (s_in i) 0 then fb_in else - s_in i / (x (i + 3 * n)%nat) ^ 2 - fb_in).

(** models_functions.py:2312-2552 [loglikelihood_hessian_decm], entry
    [(h + p n, t + q n)].  Entries written by neither branch stay 0. *)
Definition loglikelihood_hessian_decm (n : nat) (k_out k_in s_out s_in x : nat -> R)
    (r u : nat) : R :=
  let a_out := fun i => x i in
  let a_in := fun i => x (i + n)%nat in
  let b_out := fun i => x (i + 2 * n)%nat in
  let b_in := fun i => x (i + 3 * n)%nat in
  let h := pos n r in
  let t := pos n u in
  match blk n r, blk n u with
  | O, O => if Nat.eqb h t then
      loop n (if Req_EM_T (k_out h) 0 then 0 else - k_out h / (a_out h) ^ 2) (fun j f =>
        if negb (Nat.eqb j h) then
          f + (a_in j * b_in j * b_out h) ^ 2
              / (1 - b_in j * b_out h + a_in j * a_out h * b_in j * b_out h) ^ 2 else f)
      else 0
  | O, 1%nat => if Nat.eqb h t then 0 else
      - b_in t * b_out h * (1 - b_in t * b_out h)
      / (1 - b_in t * b_out h + a_in t * a_out h * b_in t * b_out h) ^ 2
  | O, 2%nat => if Nat.eqb h t then
      loop n 0 (fun j f => if negb (Nat.eqb j h) then
        f - a_in j * b_in j / (1 - b_in j * b_out h + a_in j * a_out h * b_in j * b_out h) ^ 2
        else f)
      else 0
  | O, _ => if Nat.eqb h t then 0 else
      - a_in t * b_out h / (1 - b_in t * b_out h + a_in t * a_out h * b_in t * b_out h) ^ 2
  | 1%nat, O => if Nat.eqb h t then 0 else
      - b_in h * b_out t * (1 - b_in h * b_out t)
      / (1 - b_in h * b_out t + a_in h * a_out t * b_in h * b_out t) ^ 2
  | 1%nat, 1%nat => if Nat.eqb h t then
      loop n (if Req_EM_T (k_in h) 0 then 0 else - k_in h / (a_in h) ^ 2) (fun j f =>
        if negb (Nat.eqb j h) then
          f + (a_out j * b_in h * b_out j
               / (1 - b_in h * b_out j + a_in h * a_out j * b_in h * b_out j)) ^ 2 else f)
      else 0
  | 1%nat, 2%nat => if Nat.eqb h t then 0 else
      - a_out t * b_in h / (1 - b_in h * b_out t + a_in h * a_out t * b_in h * b_out t) ^ 2
  | 1%nat, _ => if Nat.eqb h t then
      loop n 0 (fun j f => if negb (Nat.eqb j h) then
        f - a_out j * b_out j / (1 - b_in h * b_out j + a_in h * a_out j * b_in h * b_out j) ^ 2
        else f)
      else 0
  | 2%nat, O => if Nat.eqb h t then
      loop n 0 (fun j f => if negb (Nat.eqb j h) then
        f - a_in j * b_in j / (1 - b_in j * b_out h + a_in j * a_out h * b_in j * b_out h) ^ 2
        else f)
      else 0
  | 2%nat, 1%nat => if Nat.eqb h t then 0 else
      - a_out h * b_in t / (1 - b_in t * b_out h + a_in t * a_out h * b_in t * b_out h) ^ 2
  | 2%nat, 2%nat => if Nat.eqb h t then
      loop n (if Req_EM_T (s_out h) 0 then 0 else - s_out h / (b_out h) ^ 2) (fun j f =>
        if negb (Nat.eqb j h) then
          f - (b_in j / (1 - b_in j * b_out h)) ^ 2
          + ((a_in j * a_out h - 1) * b_in j
             / (1 - b_in j * b_out h + a_in j * a_out h * b_in j * b_out h)) ^ 2 else f)
      else 0
  | 2%nat, _ => if Nat.eqb h t then 0 else
      - 1 / (1 - b_in t * b_out h) ^ 2
      - (a_in t * a_out h - 1) / (1 - b_in t * b_out h + a_in t * a_out h * b_in t * b_out h) ^ 2
  | _, O => if Nat.eqb h t then 0 else
      - a_in h * b_out t / (1 - b_in h * b_out t + a_in h * a_out t * b_in h * b_out t) ^ 2
  | _, 1%nat => if Nat.eqb h t then
      loop n 0 (fun j f => if negb (Nat.eqb j h) then
        f - a_out j * b_out j / (1 - b_in h * b_out j + a_in h * a_out j * b_in h * b_out j) ^ 2
        else f)
      else 0
  | _, 2%nat => if Nat.eqb h t then 0 else
      - 1 / (1 - b_in h * b_out t) ^ 2
      - (a_out t * a_in h - 1) / (1 - b_in h * b_out t + a_in h * a_out t * b_in h * b_out t) ^ 2
  | _, _ => if Nat.eqb h t then
      loop n (if Req_EM_T (s_in h) 0 then 0 else - s_in h / (b_in h) ^ 2) (fun j f =>
        if negb (Nat.eqb j h) then
          f - (b_out j / (1 - b_in h * b_out j)) ^ 2
          + (b_out j * (a_in h * a_out j - 1)
             / (1 - b_in h * b_out j + a_in h * a_out j * b_in h * b_out j)) ^ 2 else f)
      else 0
  end.

(** models_functions.py:2668-2727 [expected_decm], entry [r]. *)
Definition expected_decm (n : nat) (x : nat -> R) (r : nat) : R :=
  by_block n r
    (fun i => x i * loop n 0 (fun j f => if negb (Nat.eqb i j) then
        f + x (j + n)%nat * x (i + 2 * n)%nat * x (j + 3 * n)%nat
            / (1 - x (i + 2 * n)%nat * x (j + 3 * n)%nat
               + x i * x (j + n)%nat * x (i + 2 * n)%nat * x (j + 3 * n)%nat) else f))
    (fun i => x (i + n)%nat * loop n 0 (fun j f => if negb (Nat.eqb i j) then
        f + x j * x (j + 2 * n)%nat * x (i + 3 * n)%nat
            / (1 - x (j + 2 * n)%nat * x (i + 3 * n)%nat
               + x j * x (i + n)%nat * x (j + 2 * n)%nat * x (i + 3 * n)%nat) else f))
    (fun i => x (i + 2 * n)%nat * loop n 0 (fun j f => if negb (Nat.eqb i j) then
        f + (x (j + 3 * n)%nat / (1 - x (j + 3 * n)%nat * x (i + 2 * n)%nat)
             + (x (j + n)%nat * x i - 1) * x (j + 3 * n)%nat
               / (1 - x (i + 2 * n)%nat * x (j + 3 * n)%nat
                  + x i * x (j + n)%nat * x (i + 2 * n)%nat * x (j + 3 * n)%nat)) else f))
    (fun i => x (i + 3 * n)%nat * loop n 0 (fun j f => if negb (Nat.eqb i j) then
        f + (x (j + 2 * n)%nat / (1 - x (i + 3 * n)%nat * x (j + 2 * n)%nat)
             + (x (i + n)%nat * x j - 1) * x (j + 2 * n)%nat
               / (1 - x (j + 2 * n)%nat * x (i + 3 * n)%nat
                  + x j * x (i + n)%nat * x (j + 2 * n)%nat * x (i + 3 * n)%nat)) else f)).

(** * Exponential version *)

(** models_functions.py:3236-3308 [iterative_decm_exp], entry [r]. *)
Definition iterative_decm_exp (n : nat) (k_out k_in s_out s_in theta : nat -> R) (r : nat)
    : option fval :=
  let x := fun r => exp (- theta r) in
  by_block n r
    (fun i =>
      let fa_out := loop n 0 (fun j f => if negb (Nat.eqb i j) then
        let tmp0 := x i * x (j + n)%nat in
        let tmp1 := x (i + 2 * n)%nat * x (j + 3 * n)%nat in
        f + x (j + n)%nat * tmp1 / (1 - tmp1 + tmp0 * tmp1) else f) in
      if Req_EM_T (k_out i) 0 then Some (Fin 1000) else sneglog (sdiv (k_out i) fa_out))
    (fun i =>
      let fa_in := loop n 0 (fun j f => if negb (Nat.eqb i j) then
        let tmp0 := x j * x (i + n)%nat in
        let tmp1 := x (j + 2 * n)%nat * x (i + 3 * n)%nat in
        f + x (j + n)%nat * tmp1 / (1 - tmp1 + tmp0 * tmp1) else f) in
      if Req_EM_T (k_in i) 0 then Some (Fin 1000) else sneglog (sdiv (k_in i) fa_in))
    (fun i =>
      let fb_out := loop n 0 (fun j f => if negb (Nat.eqb i j) then
        let tmp0 := x i * x (j + n)%nat in
        let tmp1 := x (i + 2 * n)%nat * x (j + 3 * n)%nat in
        f + tmp0 * x (j + 3 * n)%nat / ((1 - tmp1) * (1 - tmp1 + tmp0 * tmp1)) else f) in
      if Req_EM_T (s_out i) 0 then Some (Fin 1000) else sneglog (sdiv (s_out i) fb_out))
    (fun i =>
      let fb_in := loop n 0 (fun j f => if negb (Nat.eqb i j) then
        let tmp0 := x j * x (i + n)%nat in
        let tmp1 := x (j + 2 * n)%nat * x (i + 3 * n)%nat in
        f + tmp0 * x (j + 3 * n)%nat / ((1 - tmp1) * (1 - tmp1 + tmp0 * tmp1)) else f) in
      if Req_EM_T (s_in i) 0 then Some (Fin 1000) else sneglog (sdiv (s_in i) fb_in)).

(** models_functions.py:3312-3366 [iterative_decm_exp_2], entry [r]. *)
Definition iterative_decm_exp_2 (n : nat) (k_out k_in s_out s_in theta : nat -> R) (r : nat)
    : option fval :=
  let x := fun r => exp (- theta r) in
  by_block n r
    (fun i =>
      let fa_out := loop n 0 (fun j f => if negb (Nat.eqb i j) then
        let tmp0 := x (i + 2 * n)%nat * x (j + 3 * n)%nat in
        let tmp1 := tmp0 / (1 - tmp0) in
        let tmp2 := x i * x (j + n)%nat in
        f + x (j + n)%nat * tmp1 / (1 + tmp2 * tmp1) else f) in
      sneglog (sdiv (k_out i) fa_out))
    (fun i =>
      let fa_in := loop n 0 (fun j f => if negb (Nat.eqb i j) then
        let tmp0 := x (j + 2 * n)%nat * x (i + 3 * n)%nat in
        let tmp1 := tmp0 / (1 - tmp0) in
        let tmp2 := x j * x (i + n)%nat in
        f + x j * tmp1 / (1 + tmp2 * tmp1) else f) in
      sneglog (sdiv (k_in i) fa_in))
    (fun i =>
      let fb_out := loop n 0 (fun j f => if negb (Nat.eqb i j) then
        let tmp0 := x (i + 2 * n)%nat * x (j + 3 * n)%nat in
        let tmp2 := x i * x (j + n)%nat in
        f + tmp2 * x (j + 3 * n)%nat / ((1 + tmp0 * tmp2) * (1 - tmp0)) else f) in
      sneglog (sdiv (s_out i) fb_out))
    (fun i =>
      let fb_in := loop n 0 (fun j f => if negb (Nat.eqb i j) then
        let tmp0 := x (j + 2 * n)%nat * x (i + 3 * n)%nat in
        let tmp2 := x j * x (i + n)%nat in
        f + tmp2 * x (j + 2 * n)%nat / ((1 + tmp0 * tmp2) * (1 - tmp0)) else f) in
      sneglog (sdiv (s_in i) fb_in)).

(** models_functions.py:3370-3412 [loglikelihood_decm_exp]. *)
Definition loglikelihood_decm_exp (n : nat) (k_out k_in s_out s_in x : nat -> R) : R :=
  loop n 0 (fun i f =>
    let f := if Req_EM_T (k_out i) 0 then f else f - k_out i * x i in
    let f := if Req_EM_T (k_in i) 0 then f else f - k_in i * x (i + n)%nat in
    let f := if Req_EM_T (s_out i) 0 then f else f - s_out i * x (i + 2 * n)%nat in
    let f := if Req_EM_T (s_in i) 0 then f else f - s_in i * x (i + 3 * n)%nat in
    loop n f (fun j f => if negb (Nat.eqb i j) then
      let tmp := exp (- x (i + 2 * n)%nat - x (j + 3 * n)%nat) in
      f - ln (1 + exp (- x i - x (j + n)%nat) * tmp / (1 - tmp)) else f)).

(** models_functions.py:3416-3468 [loglikelihood_prime_decm_exp], entry [r]. *)
Definition loglikelihood_prime_decm_exp (n : nat) (k_out k_in s_out s_in theta : nat -> R)
    (r : nat) : R :=
  let x := fun r => exp (- theta r) in
  by_block n r
    (fun i => - k_out i + loop n 0 (fun j f => if negb (Nat.eqb i j) then
        let tmp0 := x (i + 2 * n)%nat * x (j + 3 * n)%nat in
        let tmp1 := x i * x (j + n)%nat in
        f + tmp0 * tmp1 / (1 - tmp0 + tmp0 * tmp1) else f))
    (fun i => - k_in i + loop n 0 (fun j f => if negb (Nat.eqb i j) then
        let tmp0 := x (j + 2 * n)%nat * x (i + 3 * n)%nat in
        let tmp1 := x j * x (i + n)%nat in
        f + tmp0 * tmp1 / (1 - tmp0 + tmp0 * tmp1) else f))
    (fun i => - s_out i + loop n 0 (fun j f => if negb (Nat.eqb i j) then
        let tmp0 := x (i + 2 * n)%nat * x (j + 3 * n)%nat in
        let tmp1 := x i * x (j + n)%nat in
        f + tmp0 * tmp1 / ((1 - tmp0 + tmp0 * tmp1) * (1 - tmp0)) else f))
    (fun i => - s_in i + loop n 0 (fun j f => if negb (Nat.eqb i j) then
        let tmp0 := x (j + 2 * n)%nat * x (i + 3 * n)%nat in
        let tmp1 := x j * x (i + n)%nat in
        f + tmp0 * tmp1 / ((1 - tmp0 + tmp0 * tmp1) * (1 - tmp0)) else f)).

(** models_functions.py:3472-3567 [loglikelihood_hessian_decm_exp], entry
    [(h + p n, t + q n)].  The last loops replace NaN by 0; no entry is NaN on
    the domain of the theorems. *)
Definition loglikelihood_hessian_decm_exp (n : nat) (theta : nat -> R) (r u : nat) : R :=
  let x := fun r => exp (- theta r) in
  let a_out := fun i => x i in
  let a_in := fun i => x (i + n)%nat in
  let b_out := fun i => x (i + 2 * n)%nat in
  let b_in := fun i => x (i + 3 * n)%nat in
  (* written at (i, j+n) and (j+n, i) *)
  let e01 := fun i j =>
    let tmp0 := a_out i * a_in j in let tmp1 := b_out i * b_in j in
    - (1 - tmp1) * tmp0 * tmp1 / (1 + (tmp0 - 1) * tmp1) ^ 2 in
  (* written at (i, j+3n) and (j+3n, i) *)
  let e03 := fun i j =>
    let tmp0 := a_out i * a_in j in let tmp1 := b_out i * b_in j in
    - tmp0 * tmp1 / (1 + (tmp0 - 1) * tmp1) ^ 2 in
  (* written at (i+2n, j+3n) and (j+3n, i+2n) *)
  let e23 := fun i j =>
    let tmp0 := a_out i * a_in j in let tmp1 := b_out i * b_in j in
    - tmp0 * tmp1 * (1 + (tmp0 - 1) * tmp1 ^ 2)
    / (((1 - tmp1) ^ 2) * ((1 + (tmp0 - 1) * tmp1) ^ 2)) in
  (* written at (i+n, j+2n) and (j+2n, i+n) *)
  let e12 := fun i j =>
    let tmp0 := a_out j * a_in i in let tmp1 := b_out j * b_in i in
    - tmp0 * tmp1 / (1 + (tmp0 - 1) * tmp1) ^ 2 in
  (* accumulated at (i, i+2n), copied to (i+2n, i) *)
  let d02 := fun i => loop n 0 (fun j f => if negb (Nat.eqb j i) then
    let tmp0 := a_out i * a_in j in let tmp1 := b_out i * b_in j in
    f - tmp0 * tmp1 / (1 + (tmp0 - 1) * tmp1) ^ 2 else f) in
  (* accumulated at (i+n, i+3n), copied to (i+3n, i+n) *)
  let d13 := fun i => loop n 0 (fun j f => if negb (Nat.eqb j i) then
    let tmp0 := a_out j * a_in i in let tmp1 := b_out j * b_in i in
    f - tmp0 * tmp1 / (1 + (tmp0 - 1) * tmp1) ^ 2 else f) in
  let h := pos n r in
  let t := pos n u in
  match blk n r, blk n u with
  | O, O => if Nat.eqb h t then loop n 0 (fun j f => if negb (Nat.eqb j h) then
        let tmp0 := a_out h * a_in j in let tmp1 := b_out h * b_in j in
        f - (1 - tmp1) * tmp0 * tmp1 / ((1 + (-1 + tmp0) * tmp1) ^ 2) else f) else 0
  | O, 1%nat => if Nat.eqb h t then 0 else e01 h t
  | O, 2%nat => if Nat.eqb h t then d02 h else 0
  | O, _ => if Nat.eqb h t then 0 else e03 h t
  | 1%nat, O => if Nat.eqb h t then 0 else e01 t h
  | 1%nat, 1%nat => if Nat.eqb h t then loop n 0 (fun j f => if negb (Nat.eqb j h) then
        let tmp0 := a_out j * a_in h in let tmp1 := b_out j * b_in h in
        f - (1 - tmp1) * tmp0 * tmp1 / (1 + (tmp0 - 1) * tmp1) ^ 2 else f) else 0
  | 1%nat, 2%nat => if Nat.eqb h t then 0 else e12 h t
  | 1%nat, _ => if Nat.eqb h t then d13 h else 0
  | 2%nat, O => if Nat.eqb h t then d02 h else 0
  | 2%nat, 1%nat => if Nat.eqb h t then 0 else e12 t h
  | 2%nat, 2%nat => if Nat.eqb h t then loop n 0 (fun j f => if negb (Nat.eqb j h) then
        let tmp0 := a_out h * a_in j in let tmp1 := b_out h * b_in j in
        f - tmp0 * tmp1 * (1 + (tmp0 - 1) * (tmp1 ^ 2))
            / ((1 - tmp1) * (1 + (tmp0 - 1) * tmp1)) ^ 2 else f) else 0
  | 2%nat, _ => if Nat.eqb h t then 0 else e23 h t
  | _, O => if Nat.eqb h t then 0 else e03 t h
  | _, 1%nat => if Nat.eqb h t then d13 h else 0
  | _, 2%nat => if Nat.eqb h t then 0 else e23 t h
  | _, _ => if Nat.eqb h t then loop n 0 (fun j f => if negb (Nat.eqb j h) then
        let tmp0 := a_out j * a_in h in let tmp1 := b_out j * b_in h in
        f - tmp0 * tmp1 * (1 + (tmp0 - 1) * tmp1 ^ 2)
            / (((1 - tmp1) ^ 2) * ((1 + (tmp0 - 1) * tmp1) ^ 2)) else f) else 0
  end.

(** models_functions.py:3571-3636 [loglikelihood_hessian_diag_decm_exp], entry [r]. *)
Definition loglikelihood_hessian_diag_decm_exp (n : nat) (theta : nat -> R) (r : nat) : R :=
  let x := fun r => exp (- theta r) in
  let a_out := fun i => x i in
  let a_in := fun i => x (i + n)%nat in
  let b_out := fun i => x (i + 2 * n)%nat in
  let b_in := fun i => x (i + 3 * n)%nat in
  by_block n r
    (fun i => loop n 0 (fun j f => if negb (Nat.eqb j i) then
        let tmp0 := a_out i * a_in j in let tmp1 := b_out i * b_in j in
        f - (1 - tmp1) * tmp0 * tmp1 / ((1 - tmp1 + tmp0 * tmp1) ^ 2) else f))
    (fun i => loop n 0 (fun j f => if negb (Nat.eqb j i) then
        let tmp0 := a_out j * a_in i in let tmp1 := b_out j * b_in i in
        f - (1 - tmp1) * tmp0 * tmp1 / (1 - tmp1 + tmp0 * tmp1) ^ 2 else f))
    (fun i => loop n 0 (fun j f => if negb (Nat.eqb j i) then
        let tmp0 := a_out i * a_in j in let tmp1 := b_out i * b_in j in
        f - tmp0 * tmp1 * (1 - tmp1 ^ 2 + tmp0 * (tmp1 ^ 2))
            / ((1 - tmp1) * (1 - tmp1 + tmp0 * tmp1)) ^ 2 else f))
    (fun i => loop n 0 (fun j f => if negb (Nat.eqb j i) then
        let tmp0 := a_out j * a_in i in let tmp1 := b_out j * b_in i in
        f - tmp0 * tmp1 * (1 - tmp1 ^ 2 + tmp0 * tmp1 ^ 2)
            / (((1 - tmp1) ^ 2) * ((1 - tmp1 + tmp0 * tmp1) ^ 2)) else f)).

(** models_functions.py:3640-3700 [expected_decm_exp], entry [r]. *)
Definition expected_decm_exp (n : nat) (theta : nat -> R) (r : nat) : R :=
  let x := fun r => exp (- theta r) in
  by_block n r
    (fun i => x i * loop n 0 (fun j f => if negb (Nat.eqb i j) then
        f + x (j + n)%nat * x (i + 2 * n)%nat * x (j + 3 * n)%nat
            / (1 - x (i + 2 * n)%nat * x (j + 3 * n)%nat
               + x i * x (j + n)%nat * x (i + 2 * n)%nat * x (j + 3 * n)%nat) else f))
    (fun i => x (i + n)%nat * loop n 0 (fun j f => if negb (Nat.eqb i j) then
        f + x j * x (j + 2 * n)%nat * x (i + 3 * n)%nat
            / (1 - x (j + 2 * n)%nat * x (i + 3 * n)%nat
               + x j * x (i + n)%nat * x (j + 2 * n)%nat * x (i + 3 * n)%nat) else f))
    (fun i => x (i + 2 * n)%nat * loop n 0 (fun j f => if negb (Nat.eqb i j) then
        f + (x (j + 3 * n)%nat / (1 - x (j + 3 * n)%nat * x (i + 2 * n)%nat)
             + (x (j + n)%nat * x i - 1) * x (j + 3 * n)%nat
               / (1 - x (i + 2 * n)%nat * x (j + 3 * n)%nat
                  + x i * x (j + n)%nat * x (i + 2 * n)%nat * x (j + 3 * n)%nat)) else f))
    (fun i => x (i + 3 * n)%nat * loop n 0 (fun j f => if negb (Nat.eqb i j) then
        f + (x (j + 2 * n)%nat / (1 - x (i + 3 * n)%nat * x (j + 2 * n)%nat)
             + (x (i + n)%nat * x j - 1) * x (j + 2 * n)%nat
               / (1 - x (j + 2 * n)%nat * x (i + 3 * n)%nat
                  + x j * x (i + n)%nat * x (j + 2 * n)%nat * x (i + 3 * n)%nat)) else f)).
