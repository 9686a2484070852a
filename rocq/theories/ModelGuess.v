(** Initial guesses: transcription of the [_set_initial_guess_*] methods of
    graph_classes.py.  Arrays are functions with explicit lengths; entries of the
    result may be infinite or NaN (array divisions and logarithms).  Integer user
    arrays (whose assignments truncate) and graphs without the sequence a model
    needs are not modelled.  The numbers returned by the successive calls of
    [np.random.rand] are the sequence [rnd]. *)
From Coq Require Import Reals List Arith Bool String.
From Verif Require Import Base ModelDCM ModelNetwork.
Import ListNotations.
Local Open Scope R_scope.

(** The [initial_guess] argument: a string, an array of length [m], anything else. *)
Inductive guess : Type := GStr (s : string) | GArr (m : nat) (a : nat -> R) | GOther.
Inductive failure : Type := ValueError | TypeError | IndexError.
(** [g_x0] is the attribute [x0]; [g_user] is the content of the user's array when the
    method returns (None when no array was given). *)
Record started : Type := { g_x0 : nat -> fval; g_user : option (nat -> fval) }.
Definition guessed : Type := (started + failure)%type.
Definition gbind {A B : Type} (r : A + failure) (k : A -> B + failure) : B + failure :=
  match r with inl a => k a | inr e => inr e end.

(** [v[seq == 0] = c]. *)
Definition where_zero (seq : nat -> R) (c : R) (v : nat -> fval) : nat -> fval :=
  fun i => if Req_EM_T (seq i) 0 then Fin c else v i.
(** [v[v != 0] = -np.log(v[v != 0])]. *)
Definition neglog_nonzero (v : nat -> fval) : nat -> fval :=
  fun i => match v i with
           | Fin r => if Req_EM_T r 0 then Fin r else fneglog (Fin r)
           | w => fneglog w
           end.
(** [np.concatenate] of two blocks, the first of length [n]. *)
Definition cat2 (n : nat) (a b : nat -> fval) : nat -> fval :=
  fun r => if Nat.ltb r n then a r else b (r - n)%nat.
Definition cat4 (n : nat) (a b c d : nat -> fval) : nat -> fval :=
  fun r => if Nat.ltb r n then a r else if Nat.ltb r (2 * n) then b (r - n)%nat
           else if Nat.ltb r (3 * n) then c (r - 2 * n)%nat else d (r - 3 * n)%nat.
(** [seq > 0] as a float array. *)
Definition positive01 (seq : nat -> R) (i : nat) : R := if Rlt_dec 0 (seq i) then 1 else 0.
Definition fin (a : nat -> R) : nat -> fval := fun i => Fin (a i).
(** The user's array when the method only copies from it. *)
Definition untouched (g : guess) : option (nat -> fval) := match g with GArr _ a => Some (fin a) | _ => None end.

(** ** Binary models: names common to cm, cm_exp, dcm and dcm_exp
    (graph_classes.py:400-419; one block of 1636-1659 and 1683-1711).  [k] is the reduced
    degree sequence, [rnd] the random block. *)
Definition binary_named (n_edges : R) (k rnd : nat -> R) (s : string) : (nat -> fval) + failure :=
  if String.eqb s "degrees_minor" then inl (fun i => fdiv (k i) (sqrt n_edges + 1))
  else if String.eqb s "random" then inl (fin rnd)
  else if String.eqb s "uniform" then inl (fun _ => Fin (/ 2))
  else if String.eqb s "degrees" then inl (fin k)
  else if String.eqb s "chung_lu" then inl (fun i => fdiv (k i) (2 * n_edges))
  else inr ValueError.

(** graph_classes.py:392-432 [_set_initial_guess_cm]; [expo] is [last_model == "cm_exp"]. *)
Definition set_initial_guess_cm (expo : bool) (dseq : list nat) (rnd : nat -> R) (g : guess) : guessed :=
  let '(r_dseq, r_index_dseq, _, _) := degree_reduction_und dseq in
  let k := fun i => INR (nth i r_dseq O) in
  let n_edges := np_sum (List.length dseq) (fun i => INR (nth i dseq O)) / 2 in
  gbind (match g with
         | GArr m a => if forallb (fun i => Nat.ltb i m) r_index_dseq
                       then inl (fun i => Fin (a (nth i r_index_dseq O))) else inr IndexError
         | GStr s => binary_named n_edges k rnd s
         | GOther => inr TypeError
         end) (fun r_x =>
  let r_x := where_zero k 0 r_x in
  inl {| g_x0 := match g with
                 | GStr _ => if expo then neglog_nonzero r_x else r_x
                 | _ => r_x
                 end;
         g_user := untouched g |}).

(** graph_classes.py:1618-1666 [_set_initial_guess_dcm] and 1668-1721
    [_set_initial_guess_dcm_exp], which differ after the choice of the values. *)
Definition dcm_values (dseq_out dseq_in : list nat) (rnd : nat -> R) (g : guess)
    : ((nat -> fval) * (nat -> fval)) + failure :=
  let r := degree_reduction_dir dseq_out dseq_in in
  let n := List.length (combine dseq_out dseq_in) in
  let ko := fun i => INR (nth i (rnz_dseq_out r) O) in
  let ki := fun i => INR (nth i (rnz_dseq_in r) O) in
  let n_edges := np_sum (List.length dseq_out) (fun i => INR (nth i dseq_out O)) in
  match g with
  | GArr m a =>
      if forallb (fun i => Nat.ltb i (Nat.min n m) && Nat.ltb i (m - n)) (r_index_dseq r)
      then inl (fun i => Fin (a (nth i (r_index_dseq r) O)), fun i => Fin (a (nth i (r_index_dseq r) O + n)%nat))
      else inr IndexError
  | GStr s =>
      gbind (binary_named n_edges ko rnd s) (fun x =>
      gbind (binary_named n_edges ki (fun i => rnd (i + rnz_n_out r)%nat) s) (fun y => inl (x, y)))
  | GOther => inr TypeError
  end.
Definition set_initial_guess_dcm (dseq_out dseq_in : list nat) (rnd : nat -> R) (g : guess) : guessed :=
  let r := degree_reduction_dir dseq_out dseq_in in
  let ko := fun i => INR (nth i (rnz_dseq_out r) O) in
  let ki := fun i => INR (nth i (rnz_dseq_in r) O) in
  gbind (dcm_values dseq_out dseq_in rnd g) (fun xy =>
  let r_x := where_zero ko 0 (fst xy) in
  let r_y := where_zero ki 0 (snd xy) in
  inl {| g_x0 := cat2 (rnz_n_out r) r_x r_y; g_user := untouched g |}).
Definition set_initial_guess_dcm_exp (dseq_out dseq_in : list nat) (rnd : nat -> R) (g : guess) : guessed :=
  let r := degree_reduction_dir dseq_out dseq_in in
  let ko := fun i => INR (nth i (rnz_dseq_out r) O) in
  let ki := fun i => INR (nth i (rnz_dseq_in r) O) in
  gbind (dcm_values dseq_out dseq_in rnd g) (fun xy =>
  let r_x := where_zero ko 1000 (neglog_nonzero (fst xy)) in
  let r_y := where_zero ki 1000 (neglog_nonzero (snd xy)) in
  inl {| g_x0 := cat2 (rnz_n_out r) r_x r_y; g_user := untouched g |}).

(** ** CReMa: one block of names (graph_classes.py:439-448, 1736-1753). *)
Definition crema_named (n : nat) (s rnd : nat -> R) (nm : string) : (nat -> fval) + failure :=
  if String.eqb nm "strengths" then inl (fun i => fdiv (positive01 s i) (np_sum n s))
  else if String.eqb nm "strengths_minor" then inl (fun i => fdiv (positive01 s i) (s i + 1))
  else if String.eqb nm "random" then inl (fin rnd)
  else inr ValueError.

(** graph_classes.py:434-460 [_set_initial_guess_crema_undirected].  [beta] is the user's
    array itself, so the assignment of line 458 writes into it; a mask of another length
    raises (before anything is written). *)
Definition set_initial_guess_crema_undirected (n : nat) (s rnd : nat -> R) (g : guess) : guessed :=
  gbind (match g with
         | GArr m a => if Nat.eqb m n then inl (fin a) else inr IndexError
         | GStr nm => crema_named n s rnd nm
         | GOther => inr TypeError
         end) (fun beta =>
  let beta := where_zero s 0 beta in
  inl {| g_x0 := beta; g_user := match g with GArr _ _ => Some beta | _ => None end |}).

(** graph_classes.py:1723-1764 [_set_initial_guess_crema_directed]: the two blocks are views
    of the user's array. *)
Definition set_initial_guess_crema_directed (n : nat) (s_out s_in rnd : nat -> R) (g : guess) : guessed :=
  gbind (match g with
         | GArr m a => if Nat.eqb m (2 * n) then inl (fin a, fun i => Fin (a (i + n)%nat)) else inr IndexError
         | GStr nm =>
             gbind (crema_named n s_out rnd nm) (fun b_out =>
             gbind (crema_named n s_in (fun i => rnd (i + n)%nat) nm) (fun b_in => inl (b_out, b_in)))
         | GOther => inr TypeError
         end) (fun b =>
  let b_out := where_zero s_out 0 (fst b) in
  let b_in := where_zero s_in 0 (snd b) in
  inl {| g_x0 := cat2 n b_out b_in;
         g_user := match g with GArr _ _ => Some (cat2 n b_out b_in) | _ => None end |}).

(** ** UECM and DECM *)
(** graph_classes.py:468-490 (one degree block and one strength block; [u] is the value of
    "uniform"); the same text in 1780-1806 and 1834-1861. *)
Definition degree_named (n_edges u : R) (k rnd : nat -> R) (nm : string) : (nat -> fval) + failure :=
  if String.eqb nm "strengths" then inl (fun i => fdiv (k i) (n_edges + 1))
  else if String.eqb nm "strengths_minor" then inl (fun i => fdiv 1 (k i + 1))
  else if String.eqb nm "random" then inl (fin rnd)
  else if String.eqb nm "uniform" then inl (fun _ => Fin u)
  else inr ValueError.
Definition strength_named (n : nat) (u : R) (s rnd : nat -> R) (nm : string) : (nat -> fval) + failure :=
  if String.eqb nm "strengths" then inl (fun i => fdiv (s i) (np_sum n s))
  else if String.eqb nm "strengths_minor" then inl (fun i => fdiv 1 (s i + 1))
  else if String.eqb nm "random" then inl (fin rnd)
  else if String.eqb nm "uniform" then inl (fun _ => Fin u)
  else inr ValueError.

(** graph_classes.py:462-509 [_set_initial_guess_ecm]; [x] and [y] are views of the user's
    array.  [expo] is [last_model == "ecm_exp"]. *)
Definition set_initial_guess_ecm (expo : bool) (n : nat) (k s rnd : nat -> R) (g : guess) : guessed :=
  let n_edges := np_sum n k / 2 in
  gbind (match g with
         | GArr m a => if Nat.eqb m (2 * n) then inl (fin a, fun i => Fin (a (i + n)%nat)) else inr IndexError
         | GStr nm =>
             gbind (degree_named n_edges (/ 1000) k rnd nm) (fun x =>
             gbind (strength_named n (/ 1000) s (fun i => rnd (i + n)%nat) nm) (fun y => inl (x, y)))
         | GOther => inr TypeError
         end) (fun xy =>
  let x := where_zero k 0 (fst xy) in
  let y := where_zero s 0 (snd xy) in
  inl {| g_x0 := match g with
                 | GStr _ => if expo then cat2 n (neglog_nonzero x) (neglog_nonzero y) else cat2 n x y
                 | _ => cat2 n x y
                 end;
         g_user := match g with GArr _ _ => Some (cat2 n x y) | _ => None end |}).

(** The four blocks of graph_classes.py:1773-1812 ([u = 0.9]) and 1828-1867 ([u = 0.1]). *)
Definition decm_values (u : R) (n : nat) (k_out k_in s_out s_in rnd : nat -> R) (g : guess)
    : ((nat -> fval) * (nat -> fval) * (nat -> fval) * (nat -> fval)) + failure :=
  let n_edges := np_sum n k_out in
  match g with
  | GArr m a =>
      if Nat.eqb m (4 * n)
      then inl (fin a, fun i => Fin (a (i + n)%nat), fun i => Fin (a (i + 2 * n)%nat), fun i => Fin (a (i + 3 * n)%nat))
      else inr IndexError
  | GStr nm =>
      gbind (degree_named n_edges u k_out rnd nm) (fun x =>
      gbind (degree_named n_edges u k_in (fun i => rnd (i + n)%nat) nm) (fun y =>
      gbind (strength_named n u s_out (fun i => rnd (i + 2 * n)%nat) nm) (fun bo =>
      gbind (strength_named n u s_in (fun i => rnd (i + 3 * n)%nat) nm) (fun bi => inl (x, y, bo, bi)))))
  | GOther => inr TypeError
  end.
(** graph_classes.py:1766-1820 [_set_initial_guess_decm]. *)
Definition set_initial_guess_decm (n : nat) (k_out k_in s_out s_in rnd : nat -> R) (g : guess) : guessed :=
  gbind (decm_values (9 / 10) n k_out k_in s_out s_in rnd g) (fun v =>
  let '(x, y, bo, bi) := v in
  let x0 := cat4 n (where_zero k_out 0 x) (where_zero k_in 0 y) (where_zero s_out 0 bo) (where_zero s_in 0 bi) in
  inl {| g_x0 := x0; g_user := match g with GArr _ _ => Some x0 | _ => None end |}).
(** graph_classes.py:1822-1889 [_set_initial_guess_decm_exp]: the logarithms are also taken
    of the user's values, in place. *)
Definition set_initial_guess_decm_exp (n : nat) (k_out k_in s_out s_in rnd : nat -> R) (g : guess) : guessed :=
  gbind (decm_values (/ 10) n k_out k_in s_out s_in rnd g) (fun v =>
  let '(x, y, bo, bi) := v in
  let x0 := cat4 n (where_zero k_out 1000 (neglog_nonzero x)) (where_zero k_in 1000 (neglog_nonzero y))
                   (where_zero s_out 1000 (neglog_nonzero bo)) (where_zero s_in 1000 (neglog_nonzero bi)) in
  inl {| g_x0 := x0; g_user := match g with GArr _ _ => Some x0 | _ => None end |}).
