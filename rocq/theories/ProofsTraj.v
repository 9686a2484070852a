(** The infinite sequence of points that a fixed-point run follows until it stops. *)
From Coq Require Import Reals List Arith Bool Lia Lra Psatz.
From Verif Require Import Base ModelDCM ModelLinsearch ModelSolver ModelRun ProofsLinsearch ProofsConverge.
Import ListNotations.
Local Open Scope R_scope.

Section Traj.
  Variables (linsolve : (nat -> nat -> R) -> (nat -> R) -> option (nat -> R)) (ok : (nat -> nat -> R) -> bool) (m : nat).
  Variables (P : problem (nat -> R) (nat -> nat -> R) R) (search : bool) (x0 : nat -> R).
  Local Notation N := (run_numerics linsolve ok m).

  Definition gval (x : nat -> R) : nat -> R := match p_fun P x with Some f => f | None => x end.
  Definition aval (x old : nat -> R) (t : nat) : R :=
    if search then match p_lin_fp P x (fun i => gval x i - x i) old 1 (/ 2) t with Some a => a | None => 1 end else 1.
  Fixpoint traj (t : nat) : (nat -> R) * (nat -> R) :=
    match t with
    | O => (x0, fun _ => 0)
    | S t => let x := fst (traj t) in let a := aval x (snd (traj t)) t in
             (axpy x a (fun i => gval x i - x i), fun i => a * (gval x i - x i))
    end.
  Definition X (t : nat) : nat -> R := fst (traj t).
  Definition A (t : nat) : R := aval (X t) (snd (traj t)) t.
  Lemma X_0 : X 0 = x0. Proof. reflexivity. Qed.
  Lemma X_S t i : X (S t) i = (1 - A t) * X t i + A t * gval (X t) i.
  Proof. unfold X, A. cbn [traj fst]. unfold axpy. fold (X t). ring. Qed.

  Hypothesis Tf : forall t, p_fun P (X t) <> None.
  Hypothesis Tl : search = true -> forall t old, p_lin_fp P (X t) (fun i => gval (X t) i - X t i) old 1 (/ 2) t <> None.

  Variable O : options R.
  Hypotheses (OM : o_method O = FixedPoint) (OL : o_linsearch O = search) (OF : o_full_return O = true).

  Definition at_time (t : nat) (s : state (nat -> R) R) : Prop :=
    s_x s = X t /\ s_f s = gval (X t) /\ s_dx_old s = snd (traj t) /\ s_n s = t /\
    (forall u, t = S u -> s_diff s = norm2 m (fun i => X (S u) i - X u i)) /\ (t = 0%nat -> s_diff s = 1) /\
    s_norm s = norm2 m (gval (X t)) /\ s_norms s = map (fun u => norm2 m (gval (X u))) (seq 0 (S t)).

  Lemma p_fun_traj t : p_fun P (X t) = Some (gval (X t)).
  Proof. unfold gval. destruct (p_fun P (X t)) eqn:E; [reflexivity|]. exfalso. exact (Tf t E). Qed.
  Lemma step_traj t s : at_time t s -> exists s', solver_step N P O s = Some s' /\ at_time (S t) s'.
  Proof.
    intros (Ex & Ef & Ed & En & _ & _ & _ & El). unfold solver_step, solver_dx. rewrite OM. cbn [sbind]. unfold solver_alfa. rewrite OL, OM.
    assert (Hx : forall al, vaxpy N (s_x s) al (vinf_fix N (s_x s) (vsub N (s_f s) (s_x s))) = axpy (X t) al (fun i => gval (X t) i - X t i))
      by (intros al; rewrite Ex, Ef; reflexivity).
    assert (Go : forall al l, al = A t -> exists s', sbind (p_fun P (vaxpy N (s_x s) al (vinf_fix N (s_x s) (vsub N (s_f s) (s_x s))))) (fun f =>
      if o_verbose O && false then None else
      Some {| s_x := vaxpy N (s_x s) al (vinf_fix N (s_x s) (vsub N (s_f s) (s_x s))); s_f := f; s_norm := vnorm N f;
        s_diff := vnorm N (vnan_fix N (vsub N (vaxpy N (s_x s) al (vinf_fix N (s_x s) (vsub N (s_f s) (s_x s)))) (s_x s)));
        s_dx_old := vscale N al (vinf_fix N (s_x s) (vsub N (s_f s) (s_x s))); s_n := s_n s + 1;
        s_norms := if o_full_return O then s_norms s ++ [vnorm N f] else s_norms s;
        s_diffs := if o_full_return O then s_diffs s ++ [vnorm N (vnan_fix N (vsub N (vaxpy N (s_x s) al (vinf_fix N (s_x s) (vsub N (s_f s) (s_x s)))) (s_x s)))] else s_diffs s;
        s_alfas := l |}) = Some s' /\ at_time (S t) s').
    { intros al l ->. rewrite Hx. change (axpy (X t) (A t) (fun i => gval (X t) i - X t i)) with (X (S t)). rewrite (p_fun_traj (S t)). cbn [sbind].
      rewrite andb_false_r. eexists. split; [reflexivity|]. repeat split; cbn [s_x s_f s_dx_old s_n s_diff].
      - rewrite Ex, Ef. reflexivity.
      - lia.
      - intros u Eu. injection Eu as <-. rewrite Ex. reflexivity.
      - discriminate.
      - rewrite OF. cbn [s_norms]. rewrite El, (seq_S (S t)), map_app. reflexivity. }
    destruct search eqn:Es.
    - assert (Hl : p_lin_fp P (s_x s) (vinf_fix N (s_x s) (vsub N (s_f s) (s_x s))) (s_dx_old s) (sone N) (shalf N) (s_n s) = Some (A t)).
      { rewrite Ex, Ef, Ed, En. unfold A, aval.
        change (p_lin_fp P (X t) (vinf_fix N (X t) (vsub N (gval (X t)) (X t))) (snd (traj t)) (sone N) (shalf N) t)
          with (p_lin_fp P (X t) (fun i => gval (X t) i - X t i) (snd (traj t)) 1 (/ 2) t).
        rewrite Es. destruct (p_lin_fp P (X t) (fun i => gval (X t) i - X t i) (snd (traj t)) 1 (/ 2) t) eqn:E; [reflexivity|].
        exfalso. exact (Tl eq_refl t _ E). }
      rewrite Hl. cbn [sbind fst snd]. apply Go. reflexivity.
    - cbn [sbind fst snd]. apply Go. unfold A, aval. rewrite Es. reflexivity.
  Qed.
  Lemma loop_traj fuel t s : at_time t s -> (t <= o_max_steps O < t + fuel)%nat -> exists k ns ds als,
    solver_loop N P O fuel s = Full (X k) k ns ds als /\ (t <= k <= o_max_steps O)%nat /\
    (forall u, (t <= S u < k)%nat -> o_eps O < norm2 m (fun i => X (S u) i - X u i)) /\
    ns = map (fun u => norm2 m (gval (X u))) (seq 0 (S k)) /\
    (o_eps O < 1 -> k = o_max_steps O \/ norm2 m (gval (X k)) <= o_tol O \/ exists u, k = S u /\ norm2 m (fun i => X (S u) i - X u i) <= o_eps O).
  Proof.
    revert t s. induction fuel as [|fuel IH]; intros t s Hs Hm; [lia|].
    cbn [solver_loop]. destruct (solver_continue N O s) eqn:E.
    - assert (Es := E). unfold solver_continue in E. apply andb_prop in E. destruct E as [E1 E]. apply andb_prop in E1. destruct E1 as [_ E1].
      assert (Hs0 := Hs). destruct Hs0 as (_ & _ & _ & En & Hd & _). rewrite En in E1. apply Nat.ltb_lt in E1.
      destruct (step_traj t s Hs) as (s' & -> & Hs'). destruct (IH (S t) s' Hs' ltac:(lia)) as (k & ns & ds & als & Ek & L & G & G2).
      exists k, ns, ds, als. split; [exact Ek|]. split; [lia|]. split; [|exact G2]. intros u Hu. destruct (Nat.eq_dec (S u) t) as [Eu|Nu]; [|apply G; lia].
      cbn [gtb run_numerics] in E. rewrite (Hd u) in E by lia. destruct (Rlt_dec _ _) in E; [assumption|discriminate].
    - rewrite OF. destruct Hs as (Ex & _ & _ & En & Hd & Hd0 & Hn & Hl). rewrite Ex, En. exists t, (s_norms s), (s_diffs s), (s_alfas s).
      split; [reflexivity|]. split; [lia|]. split; [intros u Hu; lia|]. split; [exact Hl|]. intros He.
      unfold solver_continue in E. cbn [gtb run_numerics] in E. rewrite Hn, En in E.
      destruct (Rlt_dec (o_tol O) (norm2 m (gval (X t)))) as [_|Q]; [|right; left; lra].
      destruct (Nat.ltb_spec t (o_max_steps O)) as [_|Q]; [|left; lia].
      destruct (Rlt_dec (o_eps O) (s_diff s)) as [_|Q]; [discriminate E|]. right. right.
      destruct t as [|u]; [rewrite (Hd0 eq_refl) in Q; lra|]. exists u. split; [reflexivity|]. rewrite <- (Hd u eq_refl). lra.
  Qed.
  Lemma run_traj : exists k ns ds als, solver N P O x0 = Full (X k) k ns ds als /\ (k <= o_max_steps O)%nat /\
    (forall u, (S u < k)%nat -> o_eps O < norm2 m (fun i => X (S u) i - X u i)) /\
    ns = map (fun u => norm2 m (gval (X u))) (seq 0 (S k)) /\
    (o_eps O < 1 -> k = o_max_steps O \/ norm2 m (gval (X k)) <= o_tol O \/ exists u, k = S u /\ norm2 m (fun i => X (S u) i - X u i) <= o_eps O).
  Proof.
    unfold solver, solver_init. rewrite <- X_0, (p_fun_traj 0). cbn [sbind].
    destruct (loop_traj (S (o_max_steps O)) 0 {| s_x := X 0; s_f := gval (X 0); s_norm := vnorm N (gval (X 0)); s_diff := sone N;
        s_dx_old := vzeros N (X 0); s_n := 0; s_norms := if o_full_return O then [vnorm N (gval (X 0))] else [];
        s_diffs := if o_full_return O then [sone N] else []; s_alfas := [] |}) as (k & ns & ds & als & E & L & G & G2).
    - repeat split; try reflexivity; [intros u Eu; discriminate|]. cbn [s_norms]. rewrite OF. reflexivity.
    - lia.
    - exists k, ns, ds, als. split; [exact E|]. split; [lia|]. split; [|exact G2]. intros u Hu. apply G. lia.
  Qed.
End Traj.
