(** Networks for the fixed-point runs of CReMa. *)
From Coq Require Import Reals List Arith Bool String Lia Lra Psatz.
From Verif Require Import Base SpecGraph SpecEnsemble SpecCReMa SpecDispatch SpecExist SpecConverge SpecAscend SpecDirected ModelDCM ModelCReMa ModelLinsearch ModelSolver ModelDispatch ModelRun
  ProofsLinsearch ProofsCReMa ProofsMainCReMa ProofsDirCReMa ProofsTraj ProofsConvergeRun ProofsAscend ProofsAscendRun.
Import ListNotations.
Local Open Scope R_scope.

(** A path of three nodes with strengths 2, 5, 3. *)
Definition asc_path : topology := [(0%nat, 1%nat, 1); (1%nat, 2%nat, 1)].
Definition asc_path_s (i : nat) : R := match i with 0%nat => 2 | 1%nat => 5 | _ => 3 end.
Definition asc_path_z (i : nat) : R := match i with 0%nat => 1 / 3 | _ => 1 / 6 end.
Lemma asc_path_case : pairs_below 3 asc_path /\ positive_weights asc_path /\ positive_ends asc_path (fun _ => 1) /\
  positive_solution 3 asc_path_s asc_path asc_path_z /\ crema_strengths asc_path (fun _ => 1) 1%nat <> asc_path_s 1%nat.
Proof.
  split; [|split; [|split; [|split; [split|]]]].
  - intros i j w [E|[E|[]]]; injection E as <- <- <-; lia.
  - intros i j w [E|[E|[]]]; injection E as <- <- <-; lra.
  - intros i j w _. lra.
  - intros i j w [E|[E|[]]]; injection E as <- <- <-; cbn; lra.
  - intros k Hk. destruct k as [|[|[|k]]]; [cbn; field ..|lia].
  - cbn. lra.
Qed.
(** Three nodes, arcs 0 -> 1 and 1 -> 0 (probability 1/2); node 2 has no strength. *)
Definition asc_arcs : topology := [(0%nat, 1%nat, 1); (1%nat, 0%nat, 1 / 2)].
Definition asc_out (i : nat) : R := match i with 0%nat => 1 | 1%nat => 1 / 2 | _ => 0 end.
Definition asc_in (i : nat) : R := match i with 0%nat => 1 / 2 | 1%nat => 1 | _ => 0 end.
Lemma asc_dir_case : pairs_below 3 asc_arcs /\ positive_weights asc_arcs /\ nonzero_list 3 asc_out [0; 1]%nat /\ nonzero_list 3 asc_in [0; 1]%nat /\
  positive_ends (two_sided 3 asc_arcs) (fun _ => 2) /\
  positive_solution (3 + 3) (two_arrays 3 asc_out asc_in) (two_sided 3 asc_arcs) (fun _ => 1 / 2) /\
  crema_strengths (two_sided 3 asc_arcs) (fun _ => 2) 0%nat <> asc_out 0%nat.
Proof.
  assert (N : forall f, f 0%nat <> 0 -> f 1%nat <> 0 -> f 2%nat = 0 -> nonzero_list 3 f [0; 1]%nat).
  { intros f H0 H1 H2. split; [repeat constructor; cbn; intuition lia|]. intros i. split.
    - intros [<-|[<-|[]]]; split; solve [lia|assumption].
    - intros [Hi Hf]. destruct i as [|[|[|i]]]; [left; reflexivity|right; left; reflexivity|contradiction|lia]. }
  split; [|split; [|split; [|split; [|split; [|split; [split|]]]]]].
  - intros i j w [E|[E|[]]]; injection E as <- <- <-; lia.
  - intros i j w [E|[E|[]]]; injection E as <- <- <-; lra.
  - apply N; cbn; lra.
  - apply N; cbn; lra.
  - intros i j w _. lra.
  - intros i j w _. lra.
  - intros k Hk. destruct k as [|[|[|[|[|[|k]]]]]]; [cbn; field ..|lia].
  - cbn. lra.
Qed.

(** A triangle with weights 1, 1, 1/3: its only solution has a negative parameter. *)
Definition asc_tri : topology := [(0%nat, 1%nat, 1); (0%nat, 2%nat, 1); (1%nat, 2%nat, 1)].
Definition asc_tri_s (i : nat) : R := match i with 0%nat => 2 | _ => 4 / 3 end.
Definition asc_tri_z (i : nat) : R := match i with 0%nat => - (1 / 2) | _ => 3 / 2 end.
Lemma tri_positive_far x : 0 < x 0%nat -> 0 < x 1%nat -> 0 < x 2%nat -> exists k, (k < 3)%nat /\ / 20 < Rabs (crema_strengths asc_tri x k - asc_tri_s k).
Proof.
  intros P0 P1 P2. set (a := x 0%nat) in *. set (b := x 1%nat) in *. set (c := x 2%nat) in *.
  destruct (Rlt_dec (/ 20) (Rabs (crema_strengths asc_tri x 0%nat - asc_tri_s 0%nat))) as [L|L0]; [exists 0%nat; split; [lia|exact L]|].
  destruct (Rlt_dec (/ 20) (Rabs (crema_strengths asc_tri x 1%nat - asc_tri_s 1%nat))) as [L|L1]; [exists 1%nat; split; [lia|exact L]|].
  destruct (Rlt_dec (/ 20) (Rabs (crema_strengths asc_tri x 2%nat - asc_tri_s 2%nat))) as [L|L2]; [exists 2%nat; split; [lia|exact L]|]. exfalso.
  apply Rnot_lt_le in L0, L1, L2.
  assert (A : forall v, Rabs v <= / 20 -> - / 20 <= v <= / 20) by (intros v; unfold Rabs; destruct (Rcase_abs v); lra).
  apply A in L0, L1, L2. cbn in L0, L1, L2. fold a b c in L0, L1, L2.
  set (p := 1 / (a + b)) in *. set (q := 1 / (a + c)) in *. set (r := 1 / (b + c)) in *.
  assert (Ep : p * (a + b) = 1) by (unfold p; field; lra). assert (Eq : q * (a + c) = 1) by (unfold q; field; lra). assert (Er : r * (b + c) = 1) by (unfold r; field; lra).
  clearbody p q r.
  assert (Hp : 37 / 40 <= p) by lra. assert (Hq : 37 / 40 <= q) by lra. assert (Hr : r <= 49 / 120) by lra. assert (Pr : 0 < r) by nra.
  assert (a + b <= 40 / 37) by nra. assert (a + c <= 40 / 37) by nra. assert (120 / 49 <= b + c) by nra. lra.
Qed.
Lemma asc_tri_below : pairs_below 3 asc_tri.
Proof. intros i j w [E|[E|[E|[]]]]; injection E as <- <- <-; lia. Qed.
Lemma asc_tri_runs linsolve ok eigh fuel reg search x0 : (forall k, (k < 3)%nat -> 0 < x0 k) ->
  accepted u_dispatch "crema" "fixed-point" reg (fun D => forall O, fixed_point_options search O -> exists x t ns ds als,
    solver (run_numerics linsolve ok 3) (run_problem eigh fuel 3 D (A3 3 asc_tri_s (Triples asc_tri))) O x0 = Full x t ns ds als /\ forall k, (k < 3)%nat -> 0 < x k).
Proof.
  intros H0. eexists. split; [reflexivity|]. cbv beta.
  match goal with |- forall O, _ -> exists x t ns ds als, solver _ (run_problem _ _ _ ?d _) _ _ = _ /\ _ => set (D := d) end.
  assert (HB := asc_tri_below). assert (Hs : forall k, (k < 3)%nat -> 0 < asc_tri_s k) by (intros k _; destruct k; cbn; lra).
  destruct (crema_fp_fun eigh fuel 3 asc_tri_s asc_tri reg D eq_refl) as [Pf Pl]. set (P := run_problem eigh fuel 3 D (A3 3 asc_tri_s (Triples asc_tri))) in *.
  assert (Ra := A_range eigh fuel 3 (A3 3 asc_tri_s (Triples asc_tri)) search x0 D Pl). fold P in Ra.
  assert (AP : forall t k, (k < 3)%nat -> 0 < X P search x0 t k).
  { induction t as [|t IH]; intros k Hk; [apply H0; exact Hk|].
    assert (Hpos : positive_ends asc_tri (X P search x0 t)) by (intros i j w Hin; destruct (HB i j w Hin); split; apply IH; assumption).
    assert (Ge := gval_em eigh fuel 3 (A3 3 asc_tri_s (Triples asc_tri)) asc_tri_s asc_tri D Pf (X P search x0 t) k Hpos Hk). fold P in Ge. rewrite X_S, Ge.
    assert (Px := IH k Hk). assert (R := Ra t). assert (Q := amin_range). assert (PE : 0 < em asc_tri_s asc_tri (X P search x0 t) k).
    { unfold em. assert (S := Hs k Hk). destruct (Req_EM_T (asc_tri_s k) 0); [lra|]. apply Rdiv_lt_0_compat; [|exact S]. apply Rmult_lt_0_compat; [exact Px|].
      rewrite <- strengths_cE. assert (P0 := IH 0%nat ltac:(lia)). assert (P1 := IH 1%nat ltac:(lia)). assert (P2 := IH 2%nat ltac:(lia)).
      set (x := X P search x0 t) in *. assert (0 < 1 / (x 0%nat + x 1%nat)) by (apply Rdiv_lt_0_compat; lra). assert (0 < 1 / (x 0%nat + x 2%nat)) by (apply Rdiv_lt_0_compat; lra). assert (0 < 1 / (x 1%nat + x 2%nat)) by (apply Rdiv_lt_0_compat; lra).
      destruct k as [|[|[|k]]]; [cbn; lra ..|lia]. }
    nra. }
  assert (AE : forall t, positive_ends asc_tri (X P search x0 t)) by (intros t i j w Hin; destruct (HB i j w Hin); split; apply AP; assumption).
  intros O (OM & OL & OF).
  destruct (run_traj linsolve ok 3 P search x0 (total_f eigh fuel 3 (A3 3 asc_tri_s (Triples asc_tri)) search x0 asc_tri_s asc_tri D Pf AE) (total_l eigh fuel 3 (A3 3 asc_tri_s (Triples asc_tri)) search x0 D Pl) O OM OL OF)
    as (k & ns & ds & als & E & _).
  exists (X P search x0 k), k, ns, ds, als. split; [exact E|]. apply AP.
Qed.
Lemma crema_fixed_point_fails : exists n s es z, pairs_below n es /\ positive_weights es /\ (forall k, (k < n)%nat -> 0 < s k) /\ crema_dom es z /\
  (forall k, (k < n)%nat -> crema_strengths es z k = s k) /\
  forall linsolve ok eigh fuel reg search x0, (forall k, 0 < x0 k) ->
    accepted u_dispatch "crema" "fixed-point" reg (run_fails linsolve ok eigh fuel n (A3 n s (Triples es)) search x0 s es (/ 20)).
Proof.
  exists 3%nat, asc_tri_s, asc_tri, asc_tri_z. split; [exact asc_tri_below|].
  split; [intros i j w [E|[E|[E|[]]]]; injection E as <- <- <-; lra|]. split; [intros k _; destruct k; cbn; lra|].
  split; [intros i j w [E|[E|[E|[]]]]; injection E as <- <- <-; cbn; lra|].
  split; [intros k Hk; destruct k as [|[|[|k]]]; [cbn; field ..|lia]|].
  intros linsolve ok eigh fuel reg search x0 H0. destruct (asc_tri_runs linsolve ok eigh fuel reg search x0 (fun k _ => H0 k)) as (D & HD & HR). exists D. split; [exact HD|].
  intros O HO. destruct (HR O HO) as (x & t & ns & ds & als & E & HP). exists x, t, ns, ds, als. split; [exact E|]. apply tri_positive_far; apply HP; lia.
Qed.
