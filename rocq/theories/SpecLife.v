(** What the user of a graph object may expect from its life cycle. *)
From Coq Require Import Reals List Arith Bool.
From Verif Require Import Base SpecNetwork ModelNetwork ModelLife.
Import ListNotations.
Local Open Scope R_scope.

Definition nonneg_matrix (n : nat) (a : matrix) : Prop := forall i j, (i < n)%nat -> (j < n)%nat -> 0 <= a i j.
Definition nonneg_list (v : list R) : Prop := forall r, In r v -> 0 <= r.
Definition binary_matrix (n : nat) (a : matrix) : Prop := forall i j, (i < n)%nat -> (j < n)%nat -> a i j = 0 \/ a i j = 1.
(** Some entry differs from zero and one. *)
Definition weighted_matrix (n : nat) (a : matrix) : Prop := exists i j, (i < n)%nat /\ (j < n)%nat /\ a i j <> 0 /\ a i j <> 1.

(** Excess over one of the positive entries. *)
Definition excess (n : nat) (a : matrix) : R :=
  rsum n (fun i => rsum n (fun j => if Req_EM_T (a i j) 0 then 0 else a i j - 1)).

(** Degrees and strengths read off a matrix: positive entries and sums of rows, columns. *)
Definition row_degrees (n : nat) (a : matrix) : list R :=
  map (fun i => INR (count (fun j => positiveb (a i j)) (seq 0 n))) (seq 0 n).
Definition col_degrees (n : nat) (a : matrix) : list R :=
  map (fun j => INR (count (fun i => positiveb (a i j)) (seq 0 n))) (seq 0 n).
Definition row_strengths (n : nat) (a : matrix) : list R := map (fun i => rsum n (fun j => a i j)) (seq 0 n).
Definition col_strengths (n : nat) (a : matrix) : list R := map (fun j => rsum n (fun i => a i j)) (seq 0 n).

Section Data.
  Context {L : Type}.
  Variables (leb eqb : L -> L -> bool).

  (** Arguments the methods must accept (arrays, csr and coo matrices, non-empty lists of
      edges, arrays of degrees). *)
  Definition u_accepted (c : @call L) : Prop :=
    match c with
    | SetAdjacency (ArrayAdj n a) => (0 < n)%nat /\ nonneg_matrix n a
    | SetAdjacency (SparseAdj k stored n a) => k <> OtherKind /\ (0 < stored)%nat /\ nonneg_matrix n a
    | SetEdgelist (PairEdges es) => es <> []
    | SetEdgelist (TripleEdges es) => es <> []
    | SetDegrees (SeqArray v) => v <> [] /\ nonneg_list v
    | _ => False
    end.
  Definition d_accepted (c : @call L) : Prop :=
    match c with
    | SetDegrees (SeqArray v) => v <> [] /\ nonneg_list v /\ Nat.Even (length v)
    | SetDegrees (SeqList v) => v <> [] /\ nonneg_list v /\ Nat.Even (length v)
    | _ => u_accepted c
    end.
  (** Arguments that describe no network, with the exception to raise. *)
  Definition invalid (c : @call L) : option pyexn -> Prop := fun ex =>
    match c with
    | SetAdjacency OtherAdj => ex = Some TypeError
    | SetAdjacency (ArrayAdj n a) => ~ nonneg_matrix n a /\ ex = Some TypeError
    | SetAdjacency (SparseAdj k stored n a) => (0 < stored)%nat /\ ~ nonneg_matrix n a /\ ex = Some TypeError
    | SetEdgelist OtherEdges => ex = Some TypeError
    | SetEdgelist WideEdges => ex = Some ValueError
    | SetDegrees SeqOther => ex = Some TypeError
    | SetDegrees SeqText => ex = Some TypeError
    | SetDegrees (SeqArray v) => ~ nonneg_list v /\ ex = Some ValueError
    | SetDegrees (SeqList v) => ~ nonneg_list v /\ ex = Some ValueError
    | _ => False
    end.

  (** The degrees an accepted argument stands for. *)
  Definition u_describes (c : @call L) (d : list R) : Prop :=
    match c with
    | SetAdjacency (ArrayAdj n a) => d = row_degrees n a
    | SetAdjacency (SparseAdj k stored n a) => d = row_degrees n a
    | SetEdgelist (PairEdges es) => exists nodes, increasing leb nodes /\ (forall v, In v nodes <-> is_end v es) /\
        d = map (fun v => INR (incidences eqb v es)) nodes
    | SetEdgelist (TripleEdges es) => exists nodes, increasing leb nodes /\ (forall v, In v nodes <-> is_end v (map fst es)) /\
        d = map (fun v => INR (incidences eqb v (map fst es))) nodes
    | SetDegrees (SeqArray v) => d = v
    | _ => False
    end.
  Definition d_describes (c : @call L) (o i : list R) : Prop :=
    match c with
    | SetAdjacency (ArrayAdj n a) => o = row_degrees n a /\ i = col_degrees n a
    | SetAdjacency (SparseAdj k stored n a) => o = row_degrees n a /\ i = col_degrees n a
    | SetEdgelist (PairEdges es) => exists nodes, increasing leb nodes /\ (forall v, In v nodes <-> is_end v es) /\
        o = map (fun v => INR (count (fun e => eqb (fst e) v) es)) nodes /\
        i = map (fun v => INR (count (fun e => eqb (snd e) v) es)) nodes
    | SetEdgelist (TripleEdges es) => exists nodes, increasing leb nodes /\ (forall v, In v nodes <-> is_end v (map fst es)) /\
        o = map (fun v => INR (count (fun e => eqb (fst (fst e)) v) es)) nodes /\
        i = map (fun v => INR (count (fun e => eqb (snd (fst e)) v) es)) nodes
    | SetDegrees (SeqArray v) => length o = length i /\ v = o ++ i
    | SetDegrees (SeqList v) => length o = length i /\ v = o ++ i
    | _ => False
    end.

  (** A new object given the argument of a call. *)
  Definition u_new (c : @call L) : @ugraph L + pyexn :=
    match c with
    | SetAdjacency a => u_construct leb eqb a NoEdges NoSeq NoSeq
    | SetEdgelist e => u_construct leb eqb NoAdj e NoSeq NoSeq
    | SetDegrees d => u_construct leb eqb NoAdj NoEdges d NoSeq
    | CleanEdges => u_construct leb eqb NoAdj NoEdges NoSeq NoSeq
    end.
  Definition d_new (c : @call L) : @dgraph L + pyexn :=
    match c with
    | SetAdjacency a => d_construct leb eqb a NoEdges NoSeq NoSeq
    | SetEdgelist e => d_construct leb eqb NoAdj e NoSeq NoSeq
    | SetDegrees d => d_construct leb eqb NoAdj NoEdges d NoSeq
    | CleanEdges => d_construct leb eqb NoAdj NoEdges NoSeq NoSeq
    end.

  (** [current acc cs c]: after the calls [cs] the argument in force is that of [c]: the
      first accepted one since the last [clean_edges]. *)
  Inductive current (acc : @call L -> Prop) : list call -> option call -> Prop :=
    | cur_nil : current acc [] None
    | cur_clean cs o : current acc cs o -> current acc (cs ++ [CleanEdges]) None
    | cur_keep cs c c' : current acc cs (Some c) -> c' <> CleanEdges -> current acc (cs ++ [c']) (Some c)
    | cur_new cs c : current acc cs None -> acc c -> current acc (cs ++ [c]) (Some c)
    | cur_rejected cs c : current acc cs None -> c <> CleanEdges -> ~ acc c -> current acc (cs ++ [c]) None.
End Data.
