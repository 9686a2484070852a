(** DBCM: transcription of models_functions.py, lines 1656-1975 and 2730-3157.
    The parameter array is [x = sol[:n]] (out) followed by [sol[n:]] (in);
    [n = len(k_out)] is explicit.  [nzo], [nzi] are the index arrays
    [args[2]], [args[3]].  Line searches are in ModelLinsearch. *)
From Coq Require Import Reals List Arith Bool.
From Verif Require Import Base.
Local Open Scope R_scope.
Import ListNotations.

(** [for j in l: a = body j a]. *)
Definition lloop {A : Type} (l : list nat) (a : A) (body : nat -> A -> A) : A :=
  fold_left (fun a j => body j a) l a.
Definition memb (i : nat) (l : list nat) : bool := existsb (Nat.eqb i) l.

(** IEEE results of the array divisions and logarithms (the denominators are
    sums of non-negative terms, so a zero denominator is [+0]). *)
Inductive fval : Type := Fin (r : R) | PInf | MInf | NaN.
Definition fdiv (a b : R) : fval :=
  if Req_EM_T b 0 then
    if Req_EM_T a 0 then NaN else if Rlt_dec 0 a then PInf else MInf
  else Fin (a / b).
Definition fneglog (v : fval) : fval :=
  match v with
  | Fin r => if Rlt_dec 0 r then Fin (- ln r) else if Req_EM_T r 0 then PInf else NaN
  | PInf => MInf | MInf => NaN | NaN => NaN
  end.

(** models_functions.py:1688-1698 (same text at 2773-2783): the two families of
    sums, over [range(n)]. *)
Definition dcm_f_out (n : nat) (c x : nat -> R) (i : nat) : R :=
  loop n 0 (fun j f =>
    if negb (Nat.eqb j i) then f + c j * x (j + n)%nat / (1 + x i * x (j + n)%nat)
    else f + (c j - 1) * x (j + n)%nat / (1 + x i * x (j + n)%nat)).
Definition dcm_f_in (n : nat) (c x : nat -> R) (j : nat) : R :=
  loop n 0 (fun i f =>
    if negb (Nat.eqb j i) then f + c i * x i / (1 + x i * x (j + n)%nat)
    else f + (c i - 1) * x i / (1 + x i * x (j + n)%nat)).

(** models_functions.py:1660-1702 [iterative_dcm], entry [r]. *)
Definition iterative_dcm (n : nat) (k_out k_in c x : nat -> R) (r : nat) : fval :=
  if Nat.ltb r n then fdiv (k_out r) (dcm_f_out n c x r)
  else fdiv (k_in (r - n)%nat) (dcm_f_in n c x (r - n)%nat).

(** models_functions.py:1706-1738 [loglikelihood_dcm]. *)
Definition loglikelihood_dcm (n : nat) (k_out k_in : nat -> R) (nzo nzi : list nat)
    (c x : nat -> R) : R :=
  let f := lloop nzo 0 (fun i f =>
    let f := f + c i * k_out i * ln (x i) in
    lloop nzi f (fun j f =>
      if negb (Nat.eqb i j) then f - c i * c j * ln (1 + x i * x (n + j)%nat)
      else f - c i * (c i - 1) * ln (1 + x i * x (n + j)%nat))) in
  lloop nzi f (fun j f => f + c j * k_in j * ln (x (j + n)%nat)).

(** models_functions.py:1742-1792 [loglikelihood_prime_dcm], entry [r]. *)
Definition loglikelihood_prime_dcm (n : nat) (k_out k_in : nat -> R) (nzo nzi : list nat)
    (c x : nat -> R) (r : nat) : R :=
  if Nat.ltb r n then
    let i := r in
    if memb i nzo then
      let fx := lloop nzi 0 (fun j fx =>
        let const := if negb (Nat.eqb i j) then c i * c j else c i * (c j - 1) in
        fx + const * x (j + n)%nat / (1 + x i * x (j + n)%nat)) in
      - fx + c i * k_out i / x i
    else 0
  else
    let j := (r - n)%nat in
    if memb j nzi then
      let fy := lloop nzo 0 (fun i fy =>
        let const := if negb (Nat.eqb i j) then c i * c j else c i * (c j - 1) in
        fy + const * x i / (1 + x (j + n)%nat * x i)) in
      - fy + c j * k_in j / x (j + n)%nat
    else 0.

(** models_functions.py:1796-1847 [loglikelihood_hessian_dcm], entry [(r,t)].
    Entries not written by the two loops stay 0. *)
Definition loglikelihood_hessian_dcm (n : nat) (k_out k_in : nat -> R) (nzo nzi : list nat)
    (c x : nat -> R) (r t : nat) : R :=
  match Nat.ltb r n, Nat.ltb t n with
  | true, true =>
      let h := r in
      if andb (Nat.eqb r t) (memb h nzo) then
        lloop nzi (- c h * k_out h / (x h) ^ 2) (fun i o =>
          let const := if Nat.eqb i h then c h * (c h - 1) else c h * c i in
          o + const * (x (i + n)%nat / (1 + x h * x (i + n)%nat)) ^ 2)
      else 0
  | true, false =>
      let h := r in let i := (t - n)%nat in
      if andb (memb h nzo) (memb i nzi) then
        let const := if Nat.eqb i h then c h * (c h - 1) else c h * c i in
        - const / (1 + x (i + n)%nat * x h) ^ 2
      else 0
  | false, true =>
      let i := (r - n)%nat in let h := t in
      if andb (memb h nzo) (memb i nzi) then
        let const := if Nat.eqb i h then c h * (c h - 1) else c h * c i in
        - const / (1 + x (i + n)%nat * x h) ^ 2
      else 0
  | false, false =>
      let i := (r - n)%nat in
      if andb (Nat.eqb r t) (memb i nzi) then
        lloop nzo (- c i * k_in i / (x (i + n)%nat * x (i + n)%nat)) (fun h o =>
          let const := if Nat.eqb i h then c h * (c h - 1) else c h * c i in
          o + const * ((x h) ^ 2) / (1 + x (i + n)%nat * x h) ^ 2)
      else 0
  end.

(** models_functions.py:1851-1907 [loglikelihood_hessian_diag_dcm], entry [r]. *)
Definition loglikelihood_hessian_diag_dcm (n : nat) (k_out k_in : nat -> R) (nzo nzi : list nat)
    (c x : nat -> R) (r : nat) : R :=
  if Nat.ltb r n then
    let i := r in
    if memb i nzo then
      let fx := lloop nzi 0 (fun j fx =>
        let const := if negb (Nat.eqb i j) then c j else c i - 1 in
        let tmp := 1 + x i * x (j + n)%nat in
        fx + const * x (j + n)%nat * x (j + n)%nat / (tmp * tmp)) in
      fx - k_out i / (x i * x i)
    else 0
  else
    let j := (r - n)%nat in
    if memb j nzi then
      let fy := lloop nzo 0 (fun i fy =>
        let const := if negb (Nat.eqb i j) then c i else c j - 1 in
        let tmp := (1 + x (j + n)%nat * x i) * (1 + x (j + n)%nat * x i) in
        fy + const * x i * x i / tmp) in
      fy - k_in j / (x (j + n)%nat * x (j + n)%nat)
    else 0.

(** models_functions.py:1911-1932 [pmatrix_dcm], entry [(i,j)]. *)
Definition pmatrix_dcm (n : nat) (index_out index_in : list nat) (x : nat -> R) (i j : nat) : R :=
  if andb (memb i index_out) (memb j index_in) then
    if negb (Nat.eqb i j) then
      let aux := x i * x (j + n)%nat in aux / (1 + aux)
    else 0
  else 0.

(** models_functions.py:1936-1954 [expected_out_degree_dcm]; the index arrays
    [nonzero()[0]] are tests on the values. *)
Definition expected_out_degree_dcm (n : nat) (sol : nat -> R) (i : nat) : R :=
  let a_out := fun i => sol i in
  let a_in := fun j => sol (j + n)%nat in
  if Req_EM_T (a_out i) 0 then 0
  else loop n 0 (fun j k =>
    if Req_EM_T (a_in j) 0 then k
    else if negb (Nat.eqb i j) then k + a_in j * a_out i / (1 + a_in j * a_out i) else k).

(** models_functions.py:1958-1975 [expected_in_degree_dcm]. *)
Definition expected_in_degree_dcm (n : nat) (sol : nat -> R) (i : nat) : R :=
  let a_out := fun i => sol i in
  let a_in := fun j => sol (j + n)%nat in
  if Req_EM_T (a_in i) 0 then 0
  else loop n 0 (fun j k =>
    if Req_EM_T (a_out j) 0 then k
    else if negb (Nat.eqb i j) then k + a_in i * a_out j / (1 + a_in i * a_out j) else k).

(** * Exponential version *)

(** A parameter of the exponential version; [None] is [+inf]. *)
Definition expneg (t : option R) : R := match t with Some t => exp (- t) | None => 0 end.

(** models_functions.py:2734-2791 [iterative_dcm_exp], entry [r]. *)
Definition iterative_dcm_exp (n : nat) (k_out k_in c : nat -> R) (theta : nat -> option R)
    (r : nat) : fval :=
  let x := fun r => expneg (theta r) in
  if Nat.ltb r n then fneglog (fdiv (k_out r) (dcm_f_out n c x r))
  else fneglog (fdiv (k_in (r - n)%nat) (dcm_f_in n c x (r - n)%nat)).

(** models_functions.py:2795-2844 [iterative_dcm_exp_2], entry [r]: sums over
    the index arrays only, and [-inf] as the quotient of a zero degree. *)
Definition iterative_dcm_exp_2 (n : nat) (k_out k_in : nat -> R) (nzo nzi : list nat) (c : nat -> R)
    (theta : nat -> option R) (r : nat) : fval :=
  let x := fun r => expneg (theta r) in
  if Nat.ltb r n then
    let i := r in
    let f := if memb i nzo then
      lloop nzi 0 (fun j f =>
        if negb (Nat.eqb j i) then f + c j * x (j + n)%nat / (1 + x i * x (j + n)%nat)
        else f + (c j - 1) * x (j + n)%nat / (1 + x i * x (j + n)%nat)) else 0 in
    fneglog (if Req_EM_T (k_out i) 0 then MInf else fdiv (k_out i) f)
  else
    let j := (r - n)%nat in
    let f := if memb j nzi then
      lloop nzo 0 (fun i f =>
        if negb (Nat.eqb j i) then f + c i * x i / (1 + x i * x (j + n)%nat)
        else f + (c i - 1) * x i / (1 + x i * x (j + n)%nat)) else 0 in
    fneglog (if Req_EM_T (k_in j) 0 then MInf else fdiv (k_in j) f).

(** models_functions.py:2848-2903 [loglikelihood_dcm_exp]. *)
Definition loglikelihood_dcm_exp (n : nat) (k_out k_in : nat -> R) (nzo nzi : list nat)
    (c theta : nat -> R) : R :=
  let f := lloop nzo 0 (fun i f =>
    let f := f - c i * k_out i * theta i in
    lloop nzi f (fun j f =>
      if negb (Nat.eqb i j) then f - c i * c j * ln (1 + exp (- theta i - theta (n + j)%nat))
      else f - c i * (c i - 1) * ln (1 + exp (- theta i - theta (n + j)%nat)))) in
  lloop nzi f (fun j f => f - c j * k_in j * theta (j + n)%nat).

(** models_functions.py:2907-2972 [loglikelihood_prime_dcm_exp], entry [r]. *)
Definition loglikelihood_prime_dcm_exp (n : nat) (k_out k_in : nat -> R) (nzo nzi : list nat)
    (c theta : nat -> R) (r : nat) : R :=
  let x := fun r => exp (- theta r) in
  if Nat.ltb r n then
    let i := r in
    if memb i nzo then
      let fx := lloop nzi 0 (fun j fx =>
        let const := if negb (Nat.eqb i j) then c i * c j else c i * (c j - 1) in
        fx + const * x (j + n)%nat / (1 + x i * x (j + n)%nat)) in
      x i * fx - c i * k_out i
    else 0
  else
    let j := (r - n)%nat in
    if memb j nzi then
      let fy := lloop nzo 0 (fun i fy =>
        let const := if negb (Nat.eqb i j) then c i * c j else c i * (c j - 1) in
        fy + const * x i / (1 + x (j + n)%nat * x i)) in
      fy * x (j + n)%nat - c j * k_in j
    else 0.

(** models_functions.py:2976-3040 [loglikelihood_hessian_dcm_exp], entry [(r,t)]. *)
Definition loglikelihood_hessian_dcm_exp (n : nat) (nzo nzi : list nat)
    (c theta : nat -> R) (r t : nat) : R :=
  let x := fun r => exp (- theta r) in
  match Nat.ltb r n, Nat.ltb t n with
  | true, true =>
      let h := r in
      if andb (Nat.eqb r t) (memb h nzo) then
        - lloop nzi 0 (fun i tmp_sum =>
          let const := if Nat.eqb i h then c h * (c h - 1) else c h * c i in
          let tmp := x (i + n)%nat * x h in
          tmp_sum + const * tmp / (1 + tmp) ^ 2)
      else 0
  | true, false =>
      let h := r in let i := (t - n)%nat in
      if andb (memb h nzo) (memb i nzi) then
        let const := if Nat.eqb i h then c h * (c h - 1) else c h * c i in
        let tmp := x (i + n)%nat * x h in
        - const * tmp / (1 + tmp) ^ 2
      else 0
  | false, true =>
      let i := (r - n)%nat in let h := t in
      if andb (memb h nzo) (memb i nzi) then
        let const := if Nat.eqb i h then c h * (c h - 1) else c h * c i in
        let tmp := x h * x (i + n)%nat in
        - const * tmp / (1 + tmp) ^ 2
      else 0
  | false, false =>
      let i := (r - n)%nat in
      if andb (Nat.eqb r t) (memb i nzi) then
        - lloop nzo 0 (fun h tmp_sum =>
          let const := if Nat.eqb i h then c h * (c h - 1) else c h * c i in
          let tmp := x h * x (i + n)%nat in
          tmp_sum + const * tmp / (1 + tmp) ^ 2)
      else 0
  end.

(** models_functions.py:3044-3113 [loglikelihood_hessian_diag_dcm_exp], entry [r]. *)
Definition loglikelihood_hessian_diag_dcm_exp (n : nat) (nzo nzi : list nat)
    (c theta : nat -> R) (r : nat) : R :=
  let x := fun r => exp (- theta r) in
  if Nat.ltb r n then
    let i := r in
    if memb i nzo then
      let fx := lloop nzi 0 (fun j fx =>
        let const := if negb (Nat.eqb i j) then c i * c j else c i * (c j - 1) in
        let tmp := x (j + n)%nat * x i in
        fx + const * tmp / (1 + tmp) ^ 2) in
      - fx
    else 0
  else
    let j := (r - n)%nat in
    if memb j nzi then
      let fy := lloop nzo 0 (fun i fy =>
        let const := if negb (Nat.eqb i j) then c i * c j else c i * (c j - 1) in
        let tmp := x i * x (j + n)%nat in
        fy + const * tmp / (1 + tmp) ^ 2) in
      - fy
    else 0.

(** models_functions.py:3117-3134 [expected_out_degree_dcm_exp]. *)
Definition expected_out_degree_dcm_exp (n : nat) (sol : nat -> R) (i : nat) : R :=
  loop n 0 (fun j k =>
    if negb (Nat.eqb i j) then
      let aux := exp (- sol i) * exp (- sol j) in k + aux / (1 + aux)
    else k).

(** models_functions.py:3138-3157 [expected_in_degree_dcm_exp]. *)
Definition expected_in_degree_dcm_exp (n : nat) (theta : nat -> R) (i : nat) : R :=
  let a_out := fun i => exp (- theta i) in
  let a_in := fun j => exp (- theta (j + n)%nat) in
  loop n 0 (fun j k =>
    if negb (Nat.eqb i j) then k + a_in i * a_out j / (1 + a_in i * a_out j) else k).
