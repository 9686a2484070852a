(** Model of the motif counts (network_functions.py:435-1175) and of their expectation,
    standard deviation and z-score under the DBCM (ensemble_functions.py:12-1041).

    Matrices have real entries.  [sol] is the array [x_0..x_{n-1} y_0..y_{n-1}], of length [2n].
    A scalar division by zero raises in compiled code; the divisors are [1 + x_i y_j] or
    products of such, and the theorems are about nonnegative [sol]. *)
From Coq Require Import Reals List Arith Bool ZArith String.
From Verif Require Import Base ModelDECM ModelNetwork.
Local Open Scope R_scope.
Import ListNotations.

(** * Two-node motifs *)
(** Number of entries of [t] passing a test: [len(t[mask])], [np.count_nonzero]. *)
Definition count_entries (n : nat) (t : matrix) (test : R -> bool) : nat :=
  loop n O (fun i s => loop n s (fun j s => if test (t i j) then S s else s)).
Definition equalsb (v : R) (r : R) : bool := if Req_EM_T r v then true else false.
(** [a + a.transpose()]. *)
Definition plus_transpose (a : matrix) : matrix := fun i j => a i j + a j i.

(** network_functions.py:435-443 [count_2motif_2], on an [np.ndarray]. *)
Definition count_2motif_2 (n : nat) (a : matrix) : nat :=
  let tmp := plus_transpose a in count_entries n tmp (equalsb 2).
(** network_functions.py:446-454 [count_2motif_1], on an [np.ndarray]. *)
Definition count_2motif_1 (n : nat) (a : matrix) : nat :=
  let tmp := plus_transpose a in Nat.div (count_entries n tmp (equalsb 1)) 2.
(** Class of the argument: [np.ndarray], [scipy.sparse.csr_array], a subclass of
    [scipy.sparse.spmatrix] such as [csr_matrix], anything else. *)
Inductive motif_kind : Type := KNdarray | KCsrArray | KSpmatrix | KOther.
(** network_functions.py:457-476 [count_2motif_0]; [None] is Python's [None]. *)
Definition count_2motif_0 (k : motif_kind) (n : nat) (a : matrix) : option Z :=
  let tmp := plus_transpose a in
  let v := (Z.of_nat n * (Z.of_nat n - 1) - Z.of_nat (count_entries n tmp (fun r => negb (equalsb 0 r))))%Z in
  match k with KNdarray => Some v | KCsrArray => Some v | _ => None end.

(** ensemble_functions.py:12-32 [expected_dcm_2motif_2] (there [y] is the first half). *)
Definition expected_dcm_2motif_2 (n : nat) (sol : nat -> R) : R :=
  let y := fun i => sol i in let x := fun i => sol (n + i)%nat in
  loop n 0 (fun i er =>
    let temp := loop n 0 (fun j temp => temp + x j * y j / ((1 + x i * y j) * (1 + y i * x j))) in
    let temp := temp - x i * y i / ((1 + x i * y i) * (1 + y i * x i)) in
    er + x i * y i * temp).
(** ensemble_functions.py:58-79 [expected_dcm_2motif_1]. *)
Definition expected_dcm_2motif_1 (n : nat) (sol : nat -> R) : R :=
  let y := fun i => sol i in let x := fun i => sol (n + i)%nat in
  loop n 0 (fun i er =>
    let temp := loop n 0 (fun j temp => temp + y j * x i / ((1 + x i * y j) * (1 + y i * x j))) in
    let temp := temp - x i * y i / ((1 + x i * y i) * (1 + y i * x i)) in
    er + temp).
(** ensemble_functions.py:105-126 [expected_dcm_2motif_0]. *)
Definition expected_dcm_2motif_0 (n : nat) (sol : nat -> R) : R :=
  let y := fun i => sol i in let x := fun i => sol (n + i)%nat in
  loop n 0 (fun i er =>
    let temp := loop n 0 (fun j temp => temp + 1 / ((1 + x i * y j) * (1 + y i * x j))) in
    let temp := temp - 1 / ((1 + x i * y i) * (1 + y i * x i)) in
    er + temp).

(** ensemble_functions.py:35-55 [std_dcm_2motif_2]. *)
Definition std_dcm_2motif_2 (n : nat) (sol : nat -> R) : R :=
  let x := fun i => sol i in let y := fun i => sol (n + i)%nat in
  sqrt (loop n 0 (fun i temp => loop n temp (fun j temp =>
    if negb (Nat.eqb i j) then
      let pij := x i * y j / (1 + x i * y j) in
      let pji := x j * y i / (1 + x j * y i) in
      temp + 2 * pij * pji * (1 - pij * pji)
    else temp))).
(** ensemble_functions.py:82-102 [std_dcm_2motif_1]. *)
Definition std_dcm_2motif_1 (n : nat) (sol : nat -> R) : R :=
  let x := fun i => sol i in let y := fun i => sol (n + i)%nat in
  sqrt (loop n 0 (fun i temp => loop n temp (fun j temp =>
    if negb (Nat.eqb i j) then
      let pij := x i * y j / (1 + x i * y j) in
      let pji := x j * y i / (1 + x j * y i) in
      temp + pij * (1 - pji) * (1 - pij * (1 - pji) - pji * (1 - pij))
    else temp))).
(** ensemble_functions.py:129-149 [std_dcm_2motif_0]. *)
Definition std_dcm_2motif_0 (n : nat) (sol : nat -> R) : R :=
  let x := fun i => sol i in let y := fun i => sol (n + i)%nat in
  sqrt (loop n 0 (fun i temp => loop n temp (fun j temp =>
    if negb (Nat.eqb i j) then
      let pij := x i * y j / (1 + x i * y j) in
      let pji := x j * y i / (1 + x j * y i) in
      temp + 2 * (1 - pij) * (1 - pji) * (1 - (1 - pij) * (1 - pji))
    else temp))).

(** * Three-node motifs: the summands, one definition per function *)
(** network_functions.py:497 (and 756). *)
Definition count_term_1 (aij aji aik aki ajk akj : R) : R :=
  (1 - aij)*aji*(1 - aik)*(1 - aki)*ajk*(1 - akj).
(** network_functions.py:517 (and 776). *)
Definition count_term_2 (aij aji aik aki ajk akj : R) : R :=
  aij*(1 - aji)*(1 - aik)*(1 - aki)*ajk*(1 - akj).
(** network_functions.py:537 (and 796). *)
Definition count_term_3 (aij aji aik aki ajk akj : R) : R :=
  aij*aji*(1 - aik)*(1 - aki)*ajk*(1 - akj).
(** network_functions.py:557 (and 816). *)
Definition count_term_4 (aij aji aik aki ajk akj : R) : R :=
  (1 - aij)*(1 - aji)*aik*(1 - aki)*ajk*(1 - akj).
(** network_functions.py:577 (and 836). *)
Definition count_term_5 (aij aji aik aki ajk akj : R) : R :=
  (1 - aij)*aji*aik*(1 - aki)*ajk*(1 - akj).
(** network_functions.py:597 (and 856). *)
Definition count_term_6 (aij aji aik aki ajk akj : R) : R :=
  aij*aji*aik*(1 - aki)*ajk*(1 - akj).
(** network_functions.py:617 (and 876). *)
Definition count_term_7 (aij aji aik aki ajk akj : R) : R :=
  aij*aji*(1 - aik)*(1 - aki)*(1 - ajk)*akj.
(** network_functions.py:637 (and 896). *)
Definition count_term_8 (aij aji aik aki ajk akj : R) : R :=
  aij*aji*(1 - aik)*(1 - aki)*ajk*akj.
(** network_functions.py:657 (and 916). *)
Definition count_term_9 (aij aji aik aki ajk akj : R) : R :=
  (1 - aij)*aji*aik*(1 - aki)*(1 - ajk)*akj.
(** network_functions.py:677 (and 936). *)
Definition count_term_10 (aij aji aik aki ajk akj : R) : R :=
  (1 - aij)*aji*aik*(1 - aki)*ajk*akj.
(** network_functions.py:697 (and 955). *)
Definition count_term_11 (aij aji aik aki ajk akj : R) : R :=
  aij*(1 - aji)*aik*(1 - aki)*ajk*akj.
(** network_functions.py:717 (and 974). *)
Definition count_term_12 (aij aji aik aki ajk akj : R) : R :=
  aij*aji*aik*(1 - aki)*ajk*akj.
(** network_functions.py:736 (and 992). *)
Definition count_term_13 (aij aji aik aki ajk akj : R) : R :=
  aij*aji*aik*aki*ajk*akj.
(** ensemble_functions.py:200. *)
Definition exp_term_1 (pij pji pik pki pjk pkj : R) : R :=
  (1 - pij)*pji*pjk*(1 - pkj)*(1 - pik)*(1 - pki).
(** ensemble_functions.py:229. *)
Definition exp_term_2 (pij pji pik pki pjk pkj : R) : R :=
  pij*(1 - pji)*(1 - pik)*(1 - pki)*pjk*(1 - pkj).
(** ensemble_functions.py:257. *)
Definition exp_term_3 (pij pji pik pki pjk pkj : R) : R :=
  pij*pji*(1 - pik)*(1 - pki)*pjk*(1 - pkj).
(** ensemble_functions.py:285. *)
Definition exp_term_4 (pij pji pik pki pjk pkj : R) : R :=
  (1-pij)*(1-pji)*(1 - pki)*pik*pjk*(1 - pkj).
(** ensemble_functions.py:312. *)
Definition exp_term_5 (pij pji pik pki pjk pkj : R) : R :=
  (1-pij)*pji*pik*(1 - pki)*pjk*(1 - pkj).
(** ensemble_functions.py:340. *)
Definition exp_term_6 (pij pji pik pki pjk pkj : R) : R :=
  pij*pji*pik*(1 - pki)*pjk*(1 - pkj).
(** ensemble_functions.py:368. *)
Definition exp_term_7 (pij pji pik pki pjk pkj : R) : R :=
  pij*pji*(1 - pik)*(1 - pki)*(1 - pjk)*pkj.
(** ensemble_functions.py:396. *)
Definition exp_term_8 (pij pji pik pki pjk pkj : R) : R :=
  pij*pji*(1 - pik)*(1 - pki)*pjk*pkj.
(** ensemble_functions.py:424. *)
Definition exp_term_9 (pij pji pik pki pjk pkj : R) : R :=
  (1 - pij)*pji*pik*(1 - pki)*(1 - pjk)*pkj.
(** ensemble_functions.py:452. *)
Definition exp_term_10 (pij pji pik pki pjk pkj : R) : R :=
  (1 - pij)*pji*pik*(1 - pki)*pjk*pkj.
(** ensemble_functions.py:480. *)
Definition exp_term_11 (pij pji pik pki pjk pkj : R) : R :=
  pij*(1 - pji)*pik*(1 - pki)*pjk*pkj.
(** ensemble_functions.py:508. *)
Definition exp_term_12 (pij pji pik pki pjk pkj : R) : R :=
  pij*pji*pik*(1 - pki)*pjk*pkj.
(** ensemble_functions.py:536. *)
Definition exp_term_13 (pij pji pik pki pjk pkj : R) : R :=
  pij*pji*pik*pki*pjk*pkj.
(** ensemble_functions.py:567-569: one pass of the loop on [k]. *)
Definition std_step_1 (pij pik pki pjk pkj : R) (s : R) : R :=
  let s := s - (2*(1-pjk)*pkj*(1-pik)*pki*(1-pij)) in
  let s := s + (-(1-pkj)*(1-pjk)*(1-pki)*pik*pij + (1-pkj)*pjk*(1-pki)*(1-pik)*(1-pij)) in
  let s := s + (-pik*(1-pki)*(1-pkj)*(1-pjk)*pij + pjk*(1-pkj)*(1-pki)*(1-pik)*(1-pij)) in
  s.
(** ensemble_functions.py:601-603: one pass of the loop on [k]. *)
Definition std_step_2 (pij pik pki pjk pkj : R) (s : R) : R :=
  let s := s - (((1-pjk)*pkj*(1-pki)*pik + (1-pkj)*pjk*(1-pik)*pki)*(1-pij)) in
  let s := s + ((-(1-pkj)*(1-pjk)*(1-pik)*pki*pij + (1-pki)*(1-pik)*(1-pjk)*pkj*(1-pij))) in
  let s := s + ((-(1-pik)*(1-pki)*(1-pkj)*pjk*pij + (1 - pjk)*(1-pkj)*(1-pki)*pik*(1-pij))) in
  s.
(** ensemble_functions.py:633-635: one pass of the loop on [k]. *)
Definition std_step_3 (pij pik pki pjk pkj : R) (s : R) : R :=
  let s := s - ((pjk*pkj*pki*(1 - pik) + (1-pjk)*pkj*pik*pki)*(1 - pij)) in
  let s := s + ((-(1-pkj)*(1-pjk)*pik*pki*pij + (1-pki)*(1-pik)*pjk*pkj*(1-pij))) in
  let s := s + (((1-pik)*(1-pki)*(1-pkj)*pjk*pij + (1 - pjk)*(1-pkj)*(1-pki)*pik*pij)) in
  s.
(** ensemble_functions.py:665-667: one pass of the loop on [k]. *)
Definition std_step_4 (pij pik pki pjk pkj : R) (s : R) : R :=
  let s := s + (((1 - pjk)*(1 - pkj)*(1 - pik)*pki*(1 - pij) - (1 - pjk)*pkj*(1 - pik)*(1 - pki)*pij)) in
  let s := s + (-pkj*(1-pjk)*(1 - pik)*(1 - pki)*pij + pki*(1-pik)*(1 - pjk)*(1 - pkj)*(1-pij)) in
  let s := s - (2*(1 - pij)*pik*(1 - pki)*(1 - pkj)*pjk) in
  s.
(** ensemble_functions.py:698-700: one pass of the loop on [k]. *)
Definition std_step_5 (pij pik pki pjk pkj : R) (s : R) : R :=
  let s := s + ((1 - pjk)*pkj*(1-pik)*pki*(1 - 2*pij)) in
  let s := s + ((-pkj*(1 - pjk)*pik*(1 - pki)*pij + pki*(1-pik)*pjk*(1 - pkj)*(1-pij))) in
  let s := s + ((1 - 2*pij)*pik*(1 - pki)*(1 - pkj)*pjk) in
  s.
(** ensemble_functions.py:731-733: one pass of the loop on [k]. *)
Definition std_step_6 (pij pik pki pjk pkj : R) (s : R) : R :=
  let s := s + (pjk*pkj*(1-pik)*pki*(1 - pij) - (1 - pjk)*pkj*pki*pik*pij) in
  let s := s + ((-pkj*(1 - pjk)*pik*pki*pij + pki*(1-pik)*pjk*pkj*(1 - pij))) in
  let s := s + (2*pij*pik*(1 - pki)*(1 - pkj)*pjk) in
  s.
(** ensemble_functions.py:764-766: one pass of the loop on [k]. *)
Definition std_step_7 (pij pik pki pjk pkj : R) (s : R) : R :=
  let s := s - (pjk*pkj*pik*(1 - pki)*(1 - pij) + pjk*(1 - pkj)*pki*pik*(1 - pij)) in
  let s := s + (((1 - pkj)*(1 - pjk)*pik*pki*(1 - pij) - (1 - pki)*(1-pik)*pjk*pkj*pij)) in
  let s := s + (((1 - pik)*pki*(1 - pkj)*(1 - pjk) + (1 - pik)*(1 - pki)*pkj*(1 - pjk))*pij) in
  s.
(** ensemble_functions.py:797-799: one pass of the loop on [k]. *)
Definition std_step_8 (pij pik pki pjk pkj : R) (s : R) : R :=
  let s := s - (2*pkj*pjk*pik*pki*(1 - pij)) in
  let s := s + (pij*((1 - pjk)*(1 - pkj)*pik*pki + pjk*pkj*(1 - pki)*(1 - pik))) in
  let s := s + ((1 - pik)*(1 - pki)*pkj*pjk*pij + pik*pki*(1 - pkj)*(1 - pjk)*pij) in
  s.
(** ensemble_functions.py:830-832: one pass of the loop on [k]. *)
Definition std_step_9 (pij pik pki pjk pkj : R) (s : R) : R :=
  let s := s + (pik*(1 - pki)*pkj*(1 - pjk)*(1 - pij) - pki*(1 - pik)*pjk*(1 - pkj)*pij) in
  let s := s + ((1 - pij)*(1 - pjk)*pkj*pik*(1 - pki) - pjk*(1 - pkj)*pki*(1 - pik)*pij) in
  let s := s + (pik*(1 - pki)*pkj*(1 - pjk)*(1 - pij) - (1 - pik)*pki*(1 - pkj)*pjk*pij) in
  s.
(** ensemble_functions.py:863-865: one pass of the loop on [k]. *)
Definition std_step_10 (pij pik pki pjk pkj : R) (s : R) : R :=
  let s := s + (pkj*(1 - pjk)*pik*pki*(1 - pij) - pjk*pkj*pki*(1 - pik)*pij) in
  let s := s + (pij*((1 - pjk)*pkj*pik*(1 - pki) + pjk*(1 - pkj)*pki*(1 - pik))) in
  let s := s + (pik*(1 - pki)*pkj*pjk*(1 - pij) - pik*pki*(1 - pkj)*pjk*pij) in
  s.
(** ensemble_functions.py:895-897: one pass of the loop on [k]. *)
Definition std_step_11 (pij pik pki pjk pkj : R) (s : R) : R :=
  let s := s + ((1 - pkj)*pjk*pik*pki*(1 - pij) - pjk*pkj*(1 - pki)*pik*pij) in
  let s := s + ((1 - pij)*pjk*(1 - pkj)*pik*pki - pjk*pkj*(1 - pki)*pik*pij) in
  let s := s + (2*(1 - pik)*pki*pkj*(1 - pjk)*pij) in
  s.
(** ensemble_functions.py:927-929: one pass of the loop on [k]. *)
Definition std_step_12 (pij pik pki pjk pkj : R) (s : R) : R :=
  let s := s + (pkj*pjk*pik*pki*(1 - 2*pij)) in
  let s := s + (pij*(pjk*(1 - pkj)*pik*pki + pjk*pkj*(1 - pki)*pik)) in
  let s := s + (pij*(pik*pki*pkj*(1 - pjk) + pki*(1 - pik)*pkj*pjk)) in
  s.
(** ensemble_functions.py:960-960: one pass of the loop on [k]. *)
Definition std_step_13 (pij pik pki pjk pkj : R) (s : R) : R :=
  let s := s + (pij*pjk*pkj*pki*pik) in
  s.

(** * The loops around the summands *)
(** Motif numbers outside 1..13 name no function. *)
Definition count_term (m : nat) : R -> R -> R -> R -> R -> R -> R :=
  match m with
  | 1 => count_term_1 | 2 => count_term_2 | 3 => count_term_3 | 4 => count_term_4 | 5 => count_term_5
  | 6 => count_term_6 | 7 => count_term_7 | 8 => count_term_8 | 9 => count_term_9 | 10 => count_term_10
  | 11 => count_term_11 | 12 => count_term_12 | 13 => count_term_13 | _ => fun _ _ _ _ _ _ => 0%R
  end%nat.
Definition exp_term (m : nat) : R -> R -> R -> R -> R -> R -> R :=
  match m with
  | 1 => exp_term_1 | 2 => exp_term_2 | 3 => exp_term_3 | 4 => exp_term_4 | 5 => exp_term_5
  | 6 => exp_term_6 | 7 => exp_term_7 | 8 => exp_term_8 | 9 => exp_term_9 | 10 => exp_term_10
  | 11 => exp_term_11 | 12 => exp_term_12 | 13 => exp_term_13 | _ => fun _ _ _ _ _ _ => 0%R
  end%nat.
Definition std_step (m : nat) : R -> R -> R -> R -> R -> R -> R :=
  match m with
  | 1 => std_step_1 | 2 => std_step_2 | 3 => std_step_3 | 4 => std_step_4 | 5 => std_step_5
  | 6 => std_step_6 | 7 => std_step_7 | 8 => std_step_8 | 9 => std_step_9 | 10 => std_step_10
  | 11 => std_step_11 | 12 => std_step_12 | 13 => std_step_13 | _ => fun _ _ _ _ _ s => s
  end%nat.

(** The loops shared by the count functions; [is_not] is Python's operator on two
    integers drawn from different [range] iterators. *)
Definition count_loops (is_not : nat -> nat -> bool) (n : nat) (a : matrix) (term : R -> R -> R -> R -> R -> R -> R) : R :=
  loop n 0 (fun i s => loop n s (fun j s =>
    if is_not j i then
      loop n s (fun k s =>
        if is_not k j && is_not k i && is_not i j
        then s + term (a i j) (a j i) (a i k) (a k i) (a j k) (a k j) else s)
    else s)).
(** Compiled code compares integer values. *)
Definition is_not_compiled (i j : nat) : bool := negb (Nat.eqb i j).
(** CPython compares objects: only the integers up to 256 are shared. *)
Definition is_not_object (i j : nat) : bool := negb (Nat.eqb i j) || Nat.ltb 256 i.

(** network_functions.py:481-737 [count_3motif_1_ndarray] ... [count_3motif_13_ndarray]. *)
Definition count_3motif_ndarray (m n : nat) (a : matrix) : R := count_loops is_not_compiled n a (count_term m).
(** network_functions.py:741-993 [count_3motif_1_sparse] ... [count_3motif_13_sparse]: not compiled. *)
Definition count_3motif_sparse (m n : nat) (a : matrix) : R := count_loops is_not_object n a (count_term m).
(** network_functions.py:996-1175 [count_3motif_1] ... [count_3motif_13]; [None] is [TypeError]. *)
Definition count_3motif (k : motif_kind) (m n : nat) (a : matrix) : option R :=
  match k with
  | KNdarray => Some (count_3motif_ndarray m n a)
  | KSpmatrix => Some (count_3motif_sparse m n a)
  | _ => None
  end.

(** ensemble_functions.py:176-537 [expected_dcm_3motif_1] ... [expected_dcm_3motif_13]. *)
Definition expected_dcm_3motif (m n : nat) (sol : nat -> R) : R :=
  let x := fun i => sol i in let y := fun i => sol (n + i)%nat in
  loop n 0 (fun i s => loop n s (fun j s =>
    if is_not_compiled j i then
      let pij := x i * y j / (1 + x i * y j) in
      let pji := x j * y i / (1 + x j * y i) in
      loop n s (fun k s =>
        if is_not_compiled k j && is_not_compiled k i then
          let pik := x i * y k / (1 + x i * y k) in
          let pki := x k * y i / (1 + x k * y i) in
          let pjk := x j * y k / (1 + x j * y k) in
          let pkj := x k * y j / (1 + x k * y j) in
          s + exp_term m pij pji pik pki pjk pkj
        else s)
    else s)).

(** ensemble_functions.py:571, ..., 961: [(s)**2], except motif 13: [(6*s)**2]. *)
Definition std_square (m : nat) (s : R) : R := if Nat.eqb m 13 then (6 * s) ^ 2 else s ^ 2.
(** ensemble_functions.py:540-962 [std_dcm_3motif_1] ... [std_dcm_3motif_13]. *)
Definition std_dcm_3motif (m n : nat) (sol : nat -> R) : R :=
  let x := fun i => sol i in let y := fun i => sol (n + i)%nat in
  sqrt (loop n 0 (fun i tmp => loop n tmp (fun j tmp =>
    if negb (Nat.eqb i j) then
      let pij := x i * y j / (1 + x i * y j) in
      let pji := x j * y i / (1 + x j * y i) in
      let s := loop n 0 (fun k s =>
        if negb (Nat.eqb i k) && negb (Nat.eqb j k) then
          let pik := x i * y k / (1 + x i * y k) in
          let pki := x k * y i / (1 + x k * y i) in
          let pjk := x j * y k / (1 + x j * y k) in
          let pkj := x k * y j / (1 + x k * y j) in
          std_step m pij pik pki pjk pkj s
        else s) in
      tmp + (1 - pji) * pji * std_square m s
    else tmp))).

(** * z-scores *)
(** [(count - exp)/std]; [None]: exception, infinity or not-a-number. *)
Definition zscore_of (count exp std : R) : option R := sdiv (count - exp) std.
(** ensemble_functions.py:152-170 [zscore_dcm_2motif_2], [_1] on an [np.ndarray]. *)
Definition zscore_dcm_2motif_2 (n : nat) (sol : nat -> R) (a : matrix) : option R :=
  zscore_of (INR (count_2motif_2 n a)) (expected_dcm_2motif_2 n sol) (std_dcm_2motif_2 n sol).
Definition zscore_dcm_2motif_1 (n : nat) (sol : nat -> R) (a : matrix) : option R :=
  zscore_of (INR (count_2motif_1 n a)) (expected_dcm_2motif_1 n sol) (std_dcm_2motif_1 n sol).
(** ... [zscore_dcm_2motif_0]: [None - exp] raises. *)
Definition zscore_dcm_2motif_0 (k : motif_kind) (n : nat) (sol : nat -> R) (a : matrix) : option R :=
  match count_2motif_0 k n a with
  | None => None
  | Some c => zscore_of (IZR c) (expected_dcm_2motif_0 n sol) (std_dcm_2motif_0 n sol)
  end.
(** ensemble_functions.py:965-1041 [zscore_dcm_3motif_1] ... [zscore_dcm_3motif_13]. *)
Definition zscore_dcm_3motif (k : motif_kind) (m n : nat) (sol : nat -> R) (a : matrix) : option R :=
  match count_3motif k m n a with
  | None => None
  | Some c => zscore_of c (expected_dcm_3motif m n sol) (std_dcm_3motif m n sol)
  end.

(** [np.concatenate((self.x, self.y))]. *)
Definition concatenate (n : nat) (x y : nat -> R) : nat -> R := fun r => if Nat.ltb r n then x r else y (r - n)%nat.
(** graph_classes.py:2604-2628 [DirectedGraph.zscore_2motifs], on a graph whose adjacency is
    an [np.ndarray]: the dictionary as a list; an entry [None] is not a number (or raises). *)
Definition zscore_2motifs (model : string) (n : nat) (x y : nat -> R) (adjacency : matrix) : list (nat * option R) :=
  if String.eqb model "dcm" then
    let sol := concatenate n x y in
    [(0, zscore_dcm_2motif_0 KNdarray n sol adjacency); (1, zscore_dcm_2motif_1 n sol adjacency);
     (2, zscore_dcm_2motif_2 n sol adjacency)]%nat
  else [].
(** graph_classes.py:2630-2674 [DirectedGraph.zscore_3motifs]. *)
Definition zscore_3motifs (model : string) (k : motif_kind) (n : nat) (x y : nat -> R) (adjacency : matrix)
    : list (nat * option R) :=
  if String.eqb model "dcm" then
    let sol := concatenate n x y in
    map (fun m => (m, zscore_dcm_3motif k m n sol adjacency)) (seq 1 13)
  else [].
