(** Data and calls that meet the conditions under which [solve_tool] is bound to reach its
    tolerance. *)
From Coq Require Import Reals List Arith Bool ZArith String Lia Lra.
From Verif Require Import Base SpecGraph SpecNetwork SpecLife SpecLinsearch SpecDispatch SpecGuess SpecRun SpecSolve SpecTool SpecReach SpecReachTool
  ModelNetwork ModelLife ModelDispatch ModelGuess ModelSolve ModelTool ModelObject SpecObject.
From Verif Require Import ProofsUnique ProofsReachNet WitnessTool WitnessStart WitnessObject.
Import ListNotations.
Local Open Scope R_scope.

Lemma numpy_exists m : exists e, sound_numpy m e /\
  forall model meth nm tol M eps, In meth descent_methods -> exists t, exp_call model nm e tol M eps t /\ t_method t = meth.
Proof.
  destruct (solvers_exist m) as (linsolve & eigh & H1 & H2 & H3).
  exists {| v_linsolve := linsolve; v_eigh_ok := fun _ => true; v_eigh := eigh; v_fuel := 100; v_rnd := half; v_rnd_adjacency := half |}.
  split; [split; [exact H1|]; split; [exact H2|]; split; [exact H3|exact half_draws]|]. intros model meth nm tol M eps Hm.
  exists {| t_model := model; t_method := meth; t_guess := GStr nm; t_adjacency := AdjOther; t_method_adjacency := ""; t_guess_adjacency := GOther;
     t_max_steps := M; t_full := false; t_verbose := false; t_linsearch := true; t_tol := tol; t_eps := eps |}.
  split; [|reflexivity]. repeat split; try assumption; discriminate.
Qed.

(** A path of three nodes beside an isolated node, with weights; three nodes with directed
    links, one of them with no incoming link. *)
Definition lone_path (i j : nat) : R := nth (4 * i + j)%nat [0; 2; 0; 0; 2; 0; 3; 0; 0; 3; 0; 0; 0; 0; 0; 0] 0.
Definition source_net (i j : nat) : R := nth (3 * i + j)%nat [0; 1; 1; 0; 0; 1; 0; 1; 0] 0.
Ltac decide_entry := cbn; unfold positiveb; repeat (match goal with |- context [Rlt_dec ?x ?y] => destruct (Rlt_dec x y); [|] end; try lra).
Lemma lone_degrees : row_degrees 4 lone_path = map INR [1; 2; 1; 0]%nat.
Proof. unfold row_degrees, lone_path, count. decide_entry. reflexivity. Qed.
Lemma source_degrees : row_degrees 3 source_net = map INR [2; 1; 1]%nat /\ col_degrees 3 source_net = map INR [0; 2; 2]%nat.
Proof. split; unfold row_degrees, col_degrees, source_net, count; decide_entry; reflexivity. Qed.
Lemma lone_meets : exists ds e, (0 < 4)%nat /\ INR 4 <= 10 ^ 22 /\ nonneg_matrix 4 lone_path /\ symmetric 4 lone_path /\ (forall i, (i < 4)%nat -> lone_path i i = 0) /\
  distinct (row_degrees 4 lone_path) ds /\ sound_numpy (List.length ds) e /\
  forall meth nm tol M eps, In meth descent_methods -> exists t, exp_call "cm_exp" nm e tol M eps t /\ t_method t = meth.
Proof.
  destruct (numpy_exists 3) as (e & H1 & H2). exists (map INR [0; 1; 2]%nat), e. split; [lia|]. split; [simpl; lra|]. split.
  { intros i j _ _. unfold lone_path. generalize (4 * i + j)%nat as q. intros q. do 16 (destruct q as [|q]; [cbn; lra|]). destruct q; cbn; lra. }
  split. { intros i j Hi Hj. do 4 (destruct i as [|i]; [do 4 (destruct j as [|j]; [reflexivity|]); lia|]). lia. }
  split. { intros i Hi. do 4 (destruct i as [|i]; [reflexivity|]). lia. }
  split; [|split; [exact H1|intros; apply H2; assumption]].
  rewrite lone_degrees. split; [cbn; repeat constructor; cbn; intros Q; repeat (destruct Q as [Q|Q]; [lra|]); exact Q|]. intros v. cbn. tauto.
Qed.
Lemma source_meets : exists ds e, (0 < 3)%nat /\ INR 3 <= 10 ^ 21 /\ nonneg_matrix 3 source_net /\ (forall i, (i < 3)%nat -> source_net i i = 0) /\
  distinct (combine (row_degrees 3 source_net) (col_degrees 3 source_net)) ds /\ sound_numpy (2 * List.length ds) e /\
  forall meth nm tol M eps, In meth descent_methods -> exists t, exp_call "dcm_exp" nm e tol M eps t /\ t_method t = meth.
Proof.
  destruct (numpy_exists 4) as (e & H1 & H2). exists [(INR 2, INR 0); (INR 1, INR 2)], e. split; [lia|]. split; [simpl; lra|]. split.
  { intros i j _ _. unfold source_net. generalize (3 * i + j)%nat as q. intros q. do 9 (destruct q as [|q]; [cbn; lra|]). destruct q; cbn; lra. }
  split. { intros i Hi. do 3 (destruct i as [|i]; [reflexivity|]). lia. }
  split; [|split; [exact H1|intros; apply H2; assumption]].
  destruct source_degrees as [-> ->]. split; [cbn; repeat constructor; cbn; intros Q; repeat (destruct Q as [Q|Q]; [inversion Q; lra|]); exact Q|]. intros v. cbn. tauto.
Qed.
Lemma edges_meet : exists g ds e, total_order Nat.leb Nat.eqb /\ map fst path_edges <> [] /\ simple_edges false (map fst path_edges) /\ INR (List.length (map fst path_edges)) <= 10 ^ 21 /\
  u_construct Nat.leb Nat.eqb NoAdj (PairEdges (map fst path_edges)) NoSeq NoSeq = inl g /\
  NoDup ds /\ (forall d, In d ds <-> exists v, is_end v (map fst path_edges) /\ d = INR (incidences Nat.eqb v (map fst path_edges))) /\ sound_numpy (List.length ds) e.
Proof.
  destruct (numpy_exists 2) as (e & H1 & _). eexists. exists [1; 2], e. destruct edges_case as (E1 & _ & E2 & _). split; [exact E1|]. split; [discriminate|]. split; [exact E2|].
  split; [simpl; lra|]. split; [reflexivity|]. split; [repeat constructor; cbn; intros Q; repeat (destruct Q as [Q|Q]; [lra|]); exact Q|]. split; [|exact H1].
  intros d. cbn. split.
  - intros [<-|[<-|[]]]; [exists 10%nat|exists 20%nat]; (split; [|cbn; lra]); eexists; (split; [left; reflexivity|]); cbn; tauto.
  - intros (v & (ed & Hin & Hv) & ->). cbn in Hin. destruct Hin as [<-|[<-|[]]], Hv as [<-|<-]; cbn; lra.
Qed.
Lemma edges_meet_dir : exists g ds e, total_order Nat.leb Nat.eqb /\ map fst tri_edges <> [] /\ simple_edges true (map fst tri_edges) /\ INR (List.length (map fst tri_edges)) <= 10 ^ 20 /\
  d_construct Nat.leb Nat.eqb NoAdj (PairEdges (map fst tri_edges)) NoSeq NoSeq = inl g /\
  NoDup ds /\ (forall d, In d ds <-> exists v, is_end v (map fst tri_edges) /\ d = (INR (count (fun e => Nat.eqb (fst e) v) (map fst tri_edges)), INR (count (fun e => Nat.eqb (snd e) v) (map fst tri_edges)))) /\
  sound_numpy (2 * List.length ds) e /\ (forall v, is_end v (map fst tri_edges) -> (exists u, In (u, v) (map fst tri_edges)) /\ (exists u, In (v, u) (map fst tri_edges))).
Proof.
  destruct (numpy_exists 6) as (e & H1 & _). eexists. exists [(INR 1, INR 1); (INR 1, INR 2); (INR 2, INR 1)], e. destruct edges_case as (E1 & _ & _ & _ & _ & E2 & _). split; [exact E1|]. split; [discriminate|]. split; [exact E2|].
  split; [simpl; lra|]. split; [reflexivity|]. split; [cbn; repeat constructor; cbn; intros Q; repeat (destruct Q as [Q|Q]; [inversion Q; lra|]); exact Q|]. split; [|split; [exact H1|]].
  - intros d. split.
    + intros [<-|[<-|[<-|[]]]]; [exists 10%nat|exists 20%nat|exists 30%nat]; (split; [|reflexivity]).
      * exists (10, 20)%nat. cbn. tauto.
      * exists (10, 20)%nat. cbn. tauto.
      * exists (20, 30)%nat. cbn. tauto.
    + intros (v & (ed & Hin & Hv) & ->). cbn in Hin. destruct Hin as [<-|[<-|[<-|[<-|[]]]]], Hv as [<-|<-]; cbn; tauto.
  - intros v (ed & Hin & Hv). cbn in Hin. destruct Hin as [<-|[<-|[<-|[<-|[]]]]], Hv as [<-|<-]; cbn; split; eexists; eauto 6.
Qed.
