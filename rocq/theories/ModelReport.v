(** What [_solution_error] writes besides the absolute errors: transcription of
    graph_classes.py:512-575 (UndirectedGraph) and 1891-1988 (DirectedGraph).

    The attributes are those of [measures]; an attribute never assigned is [None].
    Simplifications: arrays are finite real vectors and divisions follow IEEE ([fdiv],
    exact quotients otherwise); [np.exp(-100)] is the real number exp(-100); an addition
    [k + np.exp(-100)] is exact (in binary64 it returns [k] for [k] >= 1e-27). *)
From Coq Require Import Reals List Arith Bool String.
From Verif Require Import Base ModelCM ModelECM ModelDCM ModelDECM ModelCReMa ModelNetwork ModelDispatch ModelSolve.
Import ListNotations.
Local Open Scope R_scope.

(** [expected_dseq], [expected_strength_seq], [expected_stregth_seq] (misspelt at 533 and
    1928), [relative_error_degree], [relative_error_strength].  [__init__] creates the last
    two as [None] and does not create the first three. *)
Record measures : Type := {
  m_edseq : option (nat -> R); m_estr : option (nat -> R); m_estreg : option (nat -> R);
  m_rk : option fval; m_rs : option fval
}.
Definition m_fresh : measures := {| m_edseq := None; m_estr := None; m_estreg := None; m_rk := None; m_rs := None |}.

(** Python's [abs] on float64. *)
Definition fabs (v : fval) : fval :=
  match v with Fin r => Fin (Rabs r) | PInf => PInf | MInf => PInf | NaN => NaN end.
(** IEEE [a > b]: false when either is NaN. *)
Definition fgt (a b : fval) : bool :=
  match a, b with
  | NaN, _ | _, NaN => false
  | MInf, _ => false
  | _, MInf => true
  | PInf, PInf => false
  | PInf, Fin _ => true
  | Fin _, PInf => false
  | Fin r, Fin s => if Rlt_dec s r then true else false
  end.
Definition is_nan (a : fval) : bool := match a with NaN => true | _ => false end.
(** [np.max] and [np.linalg.norm(., ord=np.inf)] of an array of length [m] > 0: a NaN
    anywhere makes the result NaN. *)
Definition np_fmax (m : nat) (v : nat -> fval) : fval :=
  fold_left (fun acc i => if is_nan acc then acc else if is_nan (v i) then NaN else if fgt (v i) acc then v i else acc)
            (seq 1 (m - 1)) (v O).
(** The built-in [max] over an array of length [m] > 0: the first item, replaced by each
    later item that is greater. *)
Definition py_max (m : nat) (v : nat -> fval) : fval :=
  fold_left (fun acc i => if fgt (v i) acc then v i else acc) (seq 1 (m - 1)) (v O).
(** The guard [np.exp(-100)]. *)
Definition guard : R := exp (-100).

(** graph_classes.py:514-542 and 549-575. *)
Definition u_measures (g : unet) (o : ustate) (m : measures) : measures :=
  let n := un_n g in
  let k := at_list (un_dseq g) in
  let s := un_str g in
  match us_last o with
  | None => m
  | Some l =>
      if among l ["cm"; "cm_exp"; "crema"; "crema-sparse"]%string then
        let m1 :=
          match us_x o with
          | None => m
          | Some x =>
              let ex := expected_degree_cm n x in
              {| m_edseq := Some ex; m_estr := m_estr m; m_estreg := m_estreg m;
                 m_rk := Some (np_fmax n (fun i => fabs (fdiv (ex i - k i) (k i + guard)))); m_rs := m_rs m |}
          end in
        match us_beta o, us_adj o with
        | Some beta, Some adj =>
            match (if us_sparse o then expected_strength_crema_undirected_sparse n (adj0 adj) beta
                   else obind (adj_edges adj) (fun es => expected_strength_crema_undirected es beta)) with
            | None => m1
            | Some ex =>
                {| m_edseq := m_edseq m1; m_estr := m_estr m1; m_estreg := Some ex; m_rk := m_rk m1;
                   m_rs := Some (np_fmax n (fun i => fabs (fdiv (ex i - s i) (s i + guard)))) |}
            end
        | _, _ => m1
        end
      else if among l ["ecm"; "ecm_exp"]%string then
        match us_x o, us_y o with
        | Some x, Some y =>
            let ex := expected_ecm n (join2 n x y) in
            let es := drop n ex in
            {| m_edseq := Some ex; m_estr := Some es; m_estreg := m_estreg m;
               m_rk := Some (py_max n (fun i => fabs (fdiv (k i - ex i) (k i))));
               m_rs := Some (py_max n (fun i => fabs (fdiv (s i - es i) (s i)))) |}
        | _, _ => m
        end
      else m
  end.
(** graph_classes.py:932-1031 with the attributes of [measures]: when the solve raises,
    [_solution_error] is not reached. *)
Definition u_solve_measured (g : unet) (c : call) (o : ustate) (m : measures) : ran ustate * measures :=
  let r :=
    if among (c_model c) ["cm"; "cm_exp"; "ecm"; "ecm_exp"]%string then
      u_solve_problem g (c_model c) (c_method c) (c_guess c) (c_out c) o
    else if among (c_model c) ["crema"; "crema-sparse"]%string then u_solve_crema g c o
    else ok o in
  match snd r with
  | Some _ => (r, m)
  | None => (u_solution_error g (fst r), u_measures g (fst r) m)
  end.

(** graph_classes.py:1893-1947 and 1950-1988.  [np.concatenate((a, b) + np.exp(-100))]
    (1977, 1985): NumPy turns the tuple into a 2 x n array and adds the guard to every
    entry, so the denominators are [a + guard] and [b + guard]. *)
Definition d_measures (g : dnet) (o : dstate) (m : measures) : measures :=
  let n := dn_n g in
  let k := join2 n (at_list (dn_out g)) (at_list (dn_in g)) in
  let s := join2 n (dn_sout g) (dn_sin g) in
  match ds_last o with
  | None => m
  | Some l =>
      if among l ["dcm_exp"; "dcm"; "crema"; "crema-sparse"]%string then
        let m1 :=
          match ds_x o, ds_y o with
          | Some x, Some y =>
              let sol := join2 n x y in
              let ex := join2 n (expected_out_degree_dcm n sol) (expected_in_degree_dcm n sol) in
              {| m_edseq := Some ex; m_estr := m_estr m; m_estreg := m_estreg m;
                 m_rk := Some (np_fmax (n + n) (fun i => fabs (fdiv (ex i - k i) (k i + guard)))); m_rs := m_rs m |}
          | _, _ => m
          end in
        match ds_bo o, ds_bi o, ds_adj o with
        | Some bo, Some bi, Some adj =>
            let sol := join2 n bo bi in
            match (if ds_sparse o then
                     obind (adj1 adj) (fun y =>
                     obind (expected_out_strength_crema_directed_sparse n (adj0 adj) y sol) (fun eo =>
                     obind (expected_in_stregth_crema_directed_sparse n (adj0 adj) y sol) (fun ei => Some (join2 n eo ei))))
                   else
                     obind (adj_edges adj) (fun es =>
                     obind (expected_out_strength_crema_directed n es sol) (fun eo =>
                     obind (expected_in_strength_crema_directed n es sol) (fun ei => Some (join2 n eo ei))))) with
            | None => m1
            | Some ex =>
                {| m_edseq := m_edseq m1; m_estr := m_estr m1; m_estreg := Some ex; m_rk := m_rk m1;
                   m_rs := Some (np_fmax (n + n) (fun i => fabs (fdiv (ex i - s i) (s i + guard)))) |}
            end
        | _, _, _ => m1
        end
      else if among l ["decm"; "decm_exp"]%string then
        match ds_x o, ds_y o, ds_bo o, ds_bi o with
        | Some x, Some y, Some bo, Some bi =>
            let ex := expected_decm n (join4 n x y bo bi) in
            let es := drop (2 * n) ex in
            {| m_edseq := Some ex; m_estr := Some es; m_estreg := m_estreg m;
               m_rk := Some (py_max (n + n) (fun i => fabs (fdiv (k i - ex i) (k i + guard))));
               m_rs := Some (py_max (n + n) (fun i => fabs (fdiv (s i - es i) (s i + guard)))) |}
        | _, _, _, _ => m
        end
      else m
  end.
(** graph_classes.py:2395-2494. *)
Definition d_solve_measured (g : dnet) (c : call) (o : dstate) (m : measures) : ran dstate * measures :=
  let r :=
    if among (c_model c) ["dcm"; "dcm_exp"; "decm"; "decm_exp"]%string then
      d_solve_problem g (c_full c) (c_model c) (c_method c) (c_guess c) (c_out c) o
    else if among (c_model c) ["crema"; "crema-sparse"]%string then d_solve_crema g c o
    else ok o in
  match snd r with
  | Some _ => (r, m)
  | None => (d_solution_error g (fst r), d_measures g (fst r) m)
  end.
