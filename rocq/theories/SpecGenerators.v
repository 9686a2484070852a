(** Specification vocabulary for the generators. *)
From Coq Require Import Reals List Arith Bool ZArith.
From Verif Require Import Base ModelGenerators.
Local Open Scope R_scope.

(** What numpy documents about its generator. *)
Definition source_contract (G : source) : Prop :=
  (forall s, 0 <= fst (m_random G s) < 1) /\ (forall n s, (0 < n)%nat -> (fst (m_randint G n s) < n)%nat).
(** No normal number with this mean and deviation is exactly zero. *)
Definition normal_nonzero (G : source) (mean sigma : R) : Prop := forall s, fst (m_normal G mean sigma s) <> 0.

Definition zero_diagonal (n : nat) (A : nat -> nat -> R) : Prop := forall i, (i < n)%nat -> A i i = 0.
Definition symmetric (n : nat) (A : nat -> nat -> R) : Prop := forall i j, (i < n)%nat -> (j < n)%nat -> A i j = A j i.
Definition touched (n : nat) (A : nat -> nat -> R) (i : nat) : Prop := exists j, (j < n)%nat /\ (A i j <> 0 \/ A j i <> 0).
Definition no_isolated (n : nat) (A : nat -> nat -> R) : Prop := forall i, (i < n)%nat -> touched n A i.
Definition entries (n : nat) (P : R -> Prop) (A : nat -> nat -> R) : Prop := forall i j, (i < n)%nat -> (j < n)%nat -> P (A i j).
Definition is_binary (v : R) : Prop := v = 0 \/ v = 1.
Definition between (a b v : R) : Prop := a <= v <= b.
Definition is_integer (v : R) : Prop := exists k : Z, v = IZR k.

(** A valid adjacency matrix. *)
Definition valid_adjacency (n : nat) (sym : bool) (P : R -> Prop) (A : nat -> nat -> R) : Prop :=
  zero_diagonal n A /\ (sym = true -> symmetric n A) /\ entries n P A /\ no_isolated n A.

(** The proposals of the loop for isolated nodes.  Directed: a random number, a value, a node. *)
Definition dir_step (G : source) (draw : mstate G -> R * mstate G) (n : nat) (s : mstate G) : mstate G :=
  snd (m_randint G n (snd (draw (snd (m_random G s))))).
Definition dir_value (G : source) (draw : mstate G -> R * mstate G) (s : mstate G) : R := fst (draw (snd (m_random G s))).
Definition dir_node (G : source) (draw : mstate G -> R * mstate G) (n : nat) (s : mstate G) : nat := fst (m_randint G n (snd (draw (snd (m_random G s))))).
(** Symmetric: a node, then a value when the node is another one. *)
Definition sym_node (G : source) (n : nat) (s : mstate G) : nat := fst (m_randint G n s).
Definition sym_value (G : source) (draw : mstate G -> R * mstate G) (n : nat) (s : mstate G) : R := fst (draw (snd (m_randint G n s))).
Definition sym_step (G : source) (draw : mstate G -> R * mstate G) (n ind : nat) (s : mstate G) : mstate G :=
  if Nat.eqb (sym_node G n s) ind then snd (m_randint G n s) else snd (draw (snd (m_randint G n s))).
Fixpoint iter {A : Type} (k : nat) (f : A -> A) (a : A) : A := match k with O => a | S k => iter k f (f a) end.
(** The stream proposes, sooner or later, another node with a non-zero value. *)
Definition dir_proposes (G : source) (draw : mstate G -> R * mstate G) (n ind : nat) (s : mstate G) : Prop :=
  exists k, let t := iter k (dir_step G draw n) s in dir_node G draw n t <> ind /\ dir_value G draw t <> 0.
Definition sym_proposes (G : source) (draw : mstate G -> R * mstate G) (n ind : nat) (s : mstate G) : Prop :=
  exists k, let t := iter k (sym_step G draw n ind) s in sym_node G n t <> ind /\ sym_value G draw n t <> 0.
(** Seeds numpy accepts. *)
Definition valid_seed (seed : option Z) : Prop := match seed with None => True | Some k => (0 <= k < 4294967296)%Z end.
(** From every state the stream proposes, sooner or later, another node with a non-zero value. *)
Definition fair_dir (G : source) (draw : mstate G -> R * mstate G) (n : nat) : Prop := forall ind s, (ind < n)%nat -> dir_proposes G draw n ind s.
Definition fair_sym (G : source) (draw : mstate G -> R * mstate G) (n : nat) : Prop := forall ind s, (ind < n)%nat -> sym_proposes G draw n ind s.
Definition fair (G : source) (sym : bool) (draw : mstate G -> R * mstate G) (n : nat) : Prop := if sym then fair_sym G draw n else fair_dir G draw n.
(** Entries of a uniform weighted matrix. *)
Definition uniform_entry (sup_ext : R) (intweights : bool) (v : R) : Prop :=
  if intweights then between 0 (ceil sup_ext) v /\ is_integer v else between 0 sup_ext v.
(** The links of a network made by networkx: within [n] nodes, without loops, each once. *)
Definition simple_links (n : nat) (links : list (nat * nat)) : Prop :=
  NoDup links /\ forall e, In e links -> (fst e < n)%nat /\ (snd e < n)%nat /\ fst e <> snd e.
Definition linked (sym : bool) (links : list (nat * nat)) (a b : nat) : Prop := In (a, b) links \/ (sym = true /\ In (b, a) links).
