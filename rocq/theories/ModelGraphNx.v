(** Model of the generators of matrix_generator.py that weight a graph made by networkx. *)
From Coq Require Import Reals List Arith Bool ZArith String.
From Verif Require Import Base ModelGenerators.
Import ListNotations.
Local Open Scope R_scope.

Section Source.
Variable G : source.
Local Notation state := (mstate G).
Local Notation matrix := (nat -> nat -> R).
(** [plw.Power_Law(xmin=1, xmax=sup_ext, parameters=[alpha], discrete=True).generate_random(1)],
    which draws from numpy's generator, as an oracle. *)
Variable power : nat -> R -> state -> R * state.
(** The largest component of the networkx graph made with the seed, as the list of its links in the
    order of [nx_graph_lcc.edges], or [None] when networkx raises (no node, impossible parameters).
    networkx uses its own generator. *)
Variable topology : Z -> option (list (nat * nat)).

(** matrix_generator.py:514-515 and 569-570: [seed = np.random.randint(0, n ** 2)] when no seed is
    given, which raises for no nodes. *)
Definition choose_seed (n : nat) (seed : option Z) (s : state) : option (Z * state) :=
  match seed with
  | Some k => Some (k, s)
  | None => if Nat.eqb (n * n) 0 then None else let (r, s) := m_randint G (n * n) s in Some (Z.of_nat r, s)
  end.
(** matrix_generator.py:484-537 [random_graph_nx] and 540-592 [barabasi_albert_graph_nx]; the two
    differ in [topology] only.  [np.random.randint(0, sup_ext)] raises for [sup_ext = 0] when there
    is a link.  [is_weighted] other than the three words leaves the links without weights, which
    networkx writes as 1.  [sup_ext] is a natural number.  The storage, chosen by [is_sparse], is
    not modelled. *)
Definition graph_nx (n sup_ext : nat) (alpha : R) (seed : option Z) (is_weighted : option string) (s : state) : option (matrix * state) :=
  match choose_seed n seed s with
  | None => None
  | Some (k, s) =>
    match topology k with
    | None => None
    | Some links =>
      match reseed G (Some k) s with
      | None => None
      | Some s =>
        match is_weighted with
        | Some "uniform"%string =>
            if andb (Nat.eqb sup_ext 0) (negb (Nat.eqb (List.length links) 0)) then None else Some (put_weights G (int_draw G sup_ext) false true links s)
        | Some "gaussian"%string => Some (put_weights G (m_normal G (INR sup_ext) (INR sup_ext / (11 / 2))) false true links s)
        | Some "powerlaw"%string => Some (put_weights G (power sup_ext alpha) false true links s)
        | _ => Some (put_weights G (const_draw G 1) false true links s)
        end
      end
    end
  end.
End Source.
