(** Whole fixed-point calls of [solve_tool] for the binary models. *)
From Coq Require Import Reals List Arith Bool String Lia Lra Psatz.
From Verif Require Import Base SpecGraph SpecDirected SpecDispatch SpecExist SpecGuess SpecTool SpecConverge
  ModelCM ModelDCM ModelNetwork ModelLinsearch ModelSolver ModelDispatch ModelGuess ModelRun ModelSolve ModelTool.
From Verif Require Import ProofsGraph ProofsUnique ProofsCM ProofsMainCM ProofsDCM ProofsMainDCM ProofsExist ProofsGuess ProofsSolveU ProofsSolveD ProofsTool ProofsToolD
  ProofsConvergeRun WitnessTool.
Import ListNotations.
Local Open Scope R_scope.

(** * Nodes and classes *)
Lemma class_mean_nodes n m cls c x y i : classes n m cls c -> (i < n)%nat ->
  class_mean m c (p_dbcm x y) (cls i) = rsum n (fun j => if Nat.eqb i j then 0 else p_dbcm (fun v => x (cls v)) (fun v => y (cls v)) i j).
Proof.
  intros H Hi. unfold class_mean.
  rewrite (rsum_ext m _ (fun q => c q * p_dbcm x y (cls i) q - (if Nat.eqb q (cls i) then p_dbcm x y (cls i) q else 0))).
  2:{ intros q _. rewrite (Nat.eqb_sym q). destruct (Nat.eqb (cls i) q); ring. }
  rewrite rsum_minus, (rsum_single m (cls i) (fun q => p_dbcm x y (cls i) q)) by (apply H; exact Hi).
  rewrite <- (class_group n m cls c (fun q => p_dbcm x y (cls i) q) H), (rsum_pull n i) by exact Hi.
  match goal with |- ?a + ?b - ?a' = _ => replace (a + b - a') with b by ring end.
  apply rsum_ext. intros j _. rewrite Nat.eqb_sym. reflexivity.
Qed.
Lemma finite_choice m (Q : nat -> nat -> Prop) : (forall q, (q < m)%nat -> exists i, Q q i) -> exists f, forall q, (q < m)%nat -> Q q (f q).
Proof.
  induction m as [|m IH]; intros H; [exists (fun _ => O); intros; lia|].
  destruct IH as (f & Hf); [intros q Hq; apply H; lia|]. destruct (H m ltac:(lia)) as (i & Hi).
  exists (fun q => if Nat.eqb q m then i else f q). intros q Hq. destruct (Nat.eqb_spec q m) as [->|N]; [exact Hi|apply Hf; lia].
Qed.

(** * Nodes with the same degrees have the same parameters *)
Definition rest (n i j : nat) (f : nat -> R) : R := rsum n (fun l => if Nat.eqb l i then 0 else if Nat.eqb l j then 0 else f l).
Lemma row_split n i j (p : nat -> R) : (i < n)%nat -> (j < n)%nat -> i <> j ->
  rsum n (fun l => if Nat.eqb i l then 0 else p l) = p j + rest n i j p.
Proof.
  intros Hi Hj N. rewrite (rsum_pull n j) by exact Hj. destruct (Nat.eqb_spec i j) as [|_]; [contradiction|]. f_equal.
  apply rsum_ext. intros l _. rewrite (Nat.eqb_sym i l). destruct (Nat.eqb l j), (Nat.eqb l i); reflexivity.
Qed.
Lemma rest_swap n i j f : rest n i j f = rest n j i f.
Proof. apply rsum_ext. intros l _. destruct (Nat.eqb l i), (Nat.eqb l j); reflexivity. Qed.
Definition pr (u : R) : R := u / (1 + u).
Lemma pr_lt u v : 0 <= u -> u < v -> pr u < pr v.
Proof.
  intros Hu L. unfold pr. replace (u / (1 + u)) with (1 - / (1 + u)) by (field; lra). replace (v / (1 + v)) with (1 - / (1 + v)) by (field; lra).
  assert (/ (1 + v) < / (1 + u)); [|lra]. apply Rinv_lt_contravar; [|lra]. apply Rmult_lt_0_compat; lra.
Qed.
Lemma pr_le u v : 0 <= u -> u <= v -> pr u <= pr v.
Proof. intros Hu [L|<-]; [left; apply pr_lt; assumption|lra]. Qed.
Lemma pr_below u : 0 <= u -> pr u < 1.
Proof. intros H. unfold pr. apply Rmult_lt_reg_r with (1 + u); [lra|]. unfold Rdiv. rewrite Rmult_assoc, Rinv_l by lra. lra. Qed.
Lemma rest_le n i j f g : (forall l, (l < n)%nat -> l <> i -> l <> j -> f l <= g l) -> rest n i j f <= rest n i j g.
Proof. intros H. apply rsum_le. intros l Hl. destruct (Nat.eqb_spec l i), (Nat.eqb_spec l j); try lra. apply H; assumption. Qed.
Lemma rest_lt n i j f g h : (forall l, (l < n)%nat -> l <> i -> l <> j -> f l <= g l) -> (h < n)%nat -> h <> i -> h <> j -> f h < g h -> rest n i j f < rest n i j g.
Proof.
  intros H Hh N1 N2 L. unfold rest. rewrite (rsum_pull n h), (rsum_pull n h (fun l => if Nat.eqb l i then 0 else if Nat.eqb l j then 0 else g l)) by exact Hh.
  destruct (Nat.eqb_spec h i) as [|_]; [contradiction|]. destruct (Nat.eqb_spec h j) as [|_]; [contradiction|].
  apply Rplus_lt_le_compat; [exact L|]. apply rsum_le. intros l Hl. destruct (Nat.eqb l h), (Nat.eqb_spec l i), (Nat.eqb_spec l j); try lra. apply H; assumption.
Qed.
Lemma some_positive n i j (y : nat -> R) : (forall l, (l < n)%nat -> 0 <= y l) ->
  (exists h, (h < n)%nat /\ h <> i /\ h <> j /\ 0 < y h) \/ (forall l, (l < n)%nat -> l <> i -> l <> j -> y l = 0).
Proof.
  induction n as [|n IH]; intros Hy; [right; intros; lia|]. destruct IH as [(h & Hh & R)|Z]; [intros; apply Hy; lia|left; exists h; split; [lia|exact R]|].
  destruct (Nat.eq_dec n i) as [Ei|Ni]; [right; intros l Hl N1 N2; apply Z; lia|]. destruct (Nat.eq_dec n j) as [Ej|Nj]; [right; intros l Hl N1 N2; apply Z; lia|].
  destruct (Hy n ltac:(lia)) as [P|E]; [left; exists n; repeat split; try assumption; lia|].
  right. intros l Hl N1 N2. destruct (Nat.eq_dec l n) as [->|]; [auto|apply Z; lia].
Qed.
Section Twins.
  Variables (n : nat) (x y : nat -> R) (i j : nat) (ko ki : R).
  Hypotheses (Hi : (i < n)%nat) (Hj : (j < n)%nat) (N : i <> j).
  Hypotheses (Px : forall l, (l < n)%nat -> 0 <= x l) (Py : forall l, (l < n)%nat -> 0 <= y l).
  Hypotheses (Oi : rsum n (fun l => if Nat.eqb i l then 0 else p_dbcm x y i l) = ko) (Oj : rsum n (fun l => if Nat.eqb j l then 0 else p_dbcm x y j l) = ko).
  Hypotheses (Ii : rsum n (fun l => if Nat.eqb i l then 0 else p_dbcm y x i l) = ki) (Ij : rsum n (fun l => if Nat.eqb j l then 0 else p_dbcm y x j l) = ki).
  Hypothesis Hk : 0 < x i -> 1 <= ko.
  Lemma twins_le : x i <= x j.
  Proof.
    destruct (Rle_dec (x i) (x j)) as [L|L]; [exact L|]. exfalso. assert (G : x j < x i) by lra. clear L.
    assert (Xj := Px j Hj). assert (Xi := Px i Hi). assert (Yj := Py j Hj). assert (Yi := Py i Hi).
    rewrite (row_split n i j _ Hi Hj N) in Oi. rewrite (row_split n i j _ Hi Hj N) in Ii.
    rewrite (row_split n j i _ Hj Hi (not_eq_sym N)), rest_swap in Oj. rewrite (row_split n j i _ Hj Hi (not_eq_sym N)), rest_swap in Ij.
    unfold p_dbcm in *. fold (pr (x i * y j)) in Oi. fold (pr (x j * y i)) in Oj. fold (pr (y i * x j)) in Ii. fold (pr (y j * x i)) in Ij.
    rewrite (Rmult_comm (y i)) in Ii. rewrite (Rmult_comm (y j)) in Ij.
    assert (S1 : rest n i j (fun l => x j * y l / (1 + x j * y l)) < rest n i j (fun l => x i * y l / (1 + x i * y l))).
    { destruct (some_positive n i j y Py) as [(h & Hh & H1 & H2 & P)|Z].
      - apply (rest_lt n i j _ _ h); try assumption.
        + intros l Hl _ _. specialize (Py l Hl). apply pr_le; nra.
        + apply pr_lt; nra.
      - exfalso. assert (E : rest n i j (fun l => x i * y l / (1 + x i * y l)) = 0).
        { unfold rest. rewrite (rsum_ext n _ (fun _ => 0)); [rewrite rsum_const; ring|]. intros l Hl. destruct (Nat.eqb_spec l i); [reflexivity|]. destruct (Nat.eqb_spec l j); [reflexivity|].
          rewrite Z by assumption. rewrite Rmult_0_r. unfold Rdiv. ring. }
        assert (B := pr_below (x i * y j) ltac:(nra)). specialize (Hk ltac:(lra)). lra. }
    assert (D : pr (x i * y j) < pr (x j * y i)) by lra.
    assert (D' : x i * y j < x j * y i).
    { destruct (Rlt_dec (x i * y j) (x j * y i)) as [L|L]; [exact L|]. exfalso. assert (pr (x j * y i) <= pr (x i * y j)) by (apply pr_le; nra). lra. }
    assert (S2 : rest n i j (fun l => y i * x l / (1 + y i * x l)) < rest n i j (fun l => y j * x l / (1 + y j * x l))) by lra.
    assert (T : y i < y j).
    { destruct (Rlt_dec (y i) (y j)) as [L|L]; [exact L|]. exfalso.
      assert (rest n i j (fun l => y j * x l / (1 + y j * x l)) <= rest n i j (fun l => y i * x l / (1 + y i * x l))); [|lra].
      apply rest_le. intros l Hl _ _. specialize (Px l Hl). apply pr_le; nra. }
    nra.
  Qed.
End Twins.
Lemma twins n x y ko ki i j : (i < n)%nat -> (j < n)%nat -> cm_full n ko x -> cm_full n ki y ->
  (forall l, (l < n)%nat -> ko l <> 0 -> 1 <= ko l) -> (forall l, (l < n)%nat -> ki l <> 0 -> 1 <= ki l) ->
  (forall l, (l < n)%nat -> rsum n (fun v => if Nat.eqb l v then 0 else p_dbcm x y l v) = ko l /\ rsum n (fun v => if Nat.eqb l v then 0 else p_dbcm y x l v) = ki l) ->
  ko i = ko j -> ki i = ki j -> x i = x j /\ y i = y j.
Proof.
  intros Hi Hj Fx Fy Ko Ki HS Eo Ei. destruct (Nat.eq_dec i j) as [->|N]; [split; reflexivity|].
  assert (Px : forall l, (l < n)%nat -> 0 <= x l) by (intros l Hl; destruct (Fx l Hl) as [A B]; destruct (Req_dec (ko l) 0) as [E|E]; [rewrite B by exact E; lra|left; auto]).
  assert (Py : forall l, (l < n)%nat -> 0 <= y l) by (intros l Hl; destruct (Fy l Hl) as [A B]; destruct (Req_dec (ki l) 0) as [E|E]; [rewrite B by exact E; lra|left; auto]).
  assert (Kx : forall l, (l < n)%nat -> 0 < x l -> 1 <= ko l) by (intros l Hl P; apply Ko; [exact Hl|]; intros E; apply (Fx l Hl) in E; lra).
  assert (Ky : forall l, (l < n)%nat -> 0 < y l -> 1 <= ki l) by (intros l Hl P; apply Ki; [exact Hl|]; intros E; apply (Fy l Hl) in E; lra).
  destruct (HS i Hi) as [O1 I1]. destruct (HS j Hj) as [O2 I2].
  assert (O2' := O2). assert (I2' := I2). rewrite <- Eo in O2'. rewrite <- Ei in I2'.
  assert (O1' := O1). assert (I1' := I1). rewrite Eo in O1'. rewrite Ei in I1'.
  assert (L1 := twins_le n x y i j (ko i) (ki i) Hi Hj N Px Py O1 O2' I1 I2' (Kx i Hi)).
  assert (L2 := twins_le n x y j i (ko j) (ki j) Hj Hi (not_eq_sym N) Px Py O2 O1' I2 I1' (Kx j Hj)).
  assert (L3 := twins_le n y x i j (ki i) (ko i) Hi Hj N Py Px I1 I2' O1 O2' (Ky i Hi)).
  assert (L4 := twins_le n y x j i (ki j) (ko j) Hj Hi (not_eq_sym N) Py Px I2 I1' O2 O1' (Ky j Hj)).
  split; lra.
Qed.

(** * UndirectedGraph *)
Section Undirected.
  Variable g : unet.
  Local Notation n := (un_n g).
  Local Notation k := (at_list (un_dseq g)).
  Local Notation m := (List.length (np_unique Nat.leb Nat.eqb (un_dseq g))).
  Local Notation kc := (at_list (np_unique Nat.leb Nat.eqb (un_dseq g))).
  Local Notation c := (at_list (np_counts Nat.leb Nat.eqb (un_dseq g))).

  Lemma u_rep q : (q < m)%nat -> exists i, (i < n)%nat /\ u_class g i = q.
  Proof.
    intros Hq. destruct (u_class_rep g q Hq) as (i & Hi & _ & E). exists i. split; [exact Hi|]. unfold u_class. apply nth_error_nth. exact E.
  Qed.
  Lemma u_class_lt i : (i < n)%nat -> (u_class g i < m)%nat.
  Proof. apply (u_classes g). Qed.
  Lemma u_integer q : kc q = 0 \/ 1 <= kc q.
  Proof.
    unfold at_list. destruct (nth q (np_unique Nat.leb Nat.eqb (un_dseq g)) O) as [|v]; [left; reflexivity|right]. apply (le_INR 1). lia.
  Qed.
  Lemma u_class_degrees : class_degrees m c kc.
  Proof.
    split; intros q Hq; [|apply u_integer]. destruct (u_rep q Hq) as (i & Hi & <-). apply u_count_ge. exact Hi.
  Qed.
  Lemma u_nonempty : (exists i, (i < n)%nat /\ nth i (un_dseq g) O <> O) -> nonempty m kc.
  Proof.
    intros (i & Hi & N). exists (u_class g i). split; [apply u_class_lt; exact Hi|]. rewrite u_class_degree by exact Hi. apply not_0_INR. exact N.
  Qed.
  Lemma u_mean_classes x i : (i < n)%nat -> class_mean m c (p_ubcm x) (u_class g i) = expected_degree_cm n (fun v => x (u_class g v)) i.
  Proof.
    intros Hi. change (p_ubcm x) with (p_dbcm x x). rewrite (class_mean_nodes n m (u_class g) c x x i (u_classes g) Hi), expected_degree_cm_nf by exact Hi.
    reflexivity.
  Qed.
  Lemma u_solution p : inner_und n k p -> exists xs, cm_solution m c kc xs.
  Proof.
    intros Hp. destruct (solution_cm_exists n k p Hp) as (x & HF & HS).
    destruct (finite_choice m (fun q i => (i < n)%nat /\ u_class g i = q) u_rep) as (f & Hf).
    assert (E : forall i, (i < n)%nat -> x (f (u_class g i)) = x i).
    { intros i Hi. destruct (Hf _ (u_class_lt i Hi)) as [L C].
      assert (Ek : k (f (u_class g i)) = k i) by (rewrite <- (u_class_degree g _ L), C; apply u_class_degree; exact Hi).
      apply (twins n x x k k); try assumption.
      - intros l Hl N. unfold at_list in *. destruct (nth l (un_dseq g) O) as [|v]; [contradiction N; reflexivity|]. apply (le_INR 1). lia.
      - intros l Hl N. unfold at_list in *. destruct (nth l (un_dseq g) O) as [|v]; [contradiction N; reflexivity|]. apply (le_INR 1). lia.
      - intros l Hl. specialize (HS l Hl). rewrite expected_degree_cm_nf in HS by exact Hl. split; exact HS. }
    exists (fun q => x (f q)). split.
    - intros q Hq. destruct (Hf q Hq) as [L C]. rewrite <- C at 1 3. rewrite u_class_degree by exact L. apply HF. exact L.
    - intros q Hq. destruct (Hf q Hq) as [L C]. rewrite <- C. rewrite u_mean_classes, u_class_degree by exact L. rewrite <- (HS _ L).
      rewrite !expected_degree_cm_nf by exact L. apply rsum_ext. intros j Hj. unfold p_ubcm. rewrite !E by assumption. reflexivity.
  Qed.

  Lemma start_cm_full rnd nm : In nm binary_names -> draws rnd -> exists x0, u_start g "cm" rnd (GStr nm) = Some x0 /\ cm_full m kc x0.
  Proof.
    intros Hn Hr. unfold u_start. names. destruct (guess_cm_inside (un_dseq g) rnd nm Hn Hr) as (s & Es & Hs).
    change (String.eqb "cm" "cm_exp") with false. rewrite Es. cbn [start_of]. change (u_length g "cm") with m.
    assert (V : forall q, (q < m)%nat -> exists x, g_x0 s q = Fin x /\ starts_inside (kc q) x).
    { intros q Hq. destruct (u_class_rep g q Hq) as (i & Hi & E1 & E2). destruct (Hs i _ q E1 E2) as (x & Ex & I). exists x. split; [exact Ex|].
      destruct (u_class_rep g q Hq) as (i' & Hi' & E1' & E2'). assert (C : u_class g i = q) by (unfold u_class; apply nth_error_nth; exact E2).
      rewrite <- C, u_class_degree by exact Hi. exact I. }
    destruct (all_fin_some' m (g_x0 s)) as (x0 & E0); [intros q Hq; destruct (V q Hq) as (x & E & _); exists x; exact E|].
    exists x0. split; [exact E0|]. intros q Hq. destruct (V q Hq) as (x & E & I). rewrite (all_fin_inv _ _ _ E0 q Hq) in E. injection E as ->. exact I.
  Qed.

  (** From a result on classes to the call. *)
  Lemma u_call_from e t o model D x0 : In model ["cm"; "cm_exp"]%string -> t_model t = model -> t_method t = "fixed-point"%string ->
    us_beta o = None -> (0 < n)%nat -> u_dispatch model "fixed-point" None = inl D -> u_start g model (v_rnd e) (t_guess t) = Some x0 ->
    forall x steps ns ds als,
    solver (run_numerics (v_linsolve e) (v_eigh_ok e) m) (run_problem (v_eigh e) (v_fuel e) m D (A2 m kc c)) (t_options t "fixed-point" (t_linsearch t)) x0 = Full x steps ns ds als ->
    exists o' z err, u_tool e g t o = (o', None) /\ u_report e g t o = Some {| r_steps := steps; r_norms := ns; r_diffs := ds; r_alfas := als |} /\
      us_x o' = Some z /\ us_err o' = Some err /\ z = (fun i => (if String.eqb model "cm" then x else expn x) (u_class g i)) /\
      exists i, (i < n)%nat /\ err = Rabs (class_mean m c (p_ubcm (if String.eqb model "cm" then x else expn x)) (u_class g i) - kc (u_class g i)).
  Proof.
    intros Hm Em Eme Hb Hn HD Hz x steps ns ds als HR.
    assert (Hm' : In (t_model t) ["cm"; "cm_exp"]%string) by (rewrite Em; exact Hm).
    assert (ER : u_result e g t o = Full x steps ns ds als).
    { rewrite <- HR. unfold u_result, u_solver, solve_with. rewrite Em, Eme.
      assert (EA : among model ["crema"; "crema-sparse"]%string = false) by (destruct Hm as [<-|[<-|[]]]; reflexivity).
      rewrite EA, HD, (args_cm g model None Hm), Hz.
      assert (EL : u_length g model = m) by (destruct Hm as [<-|[<-|[]]]; reflexivity). rewrite EL. reflexivity. }
    destruct (u_completes e g t o x0 D {| o_x := x; o_inf := fun _ => false |}) as (o' & H).
    - rewrite Em. destruct Hm as [<-|[<-|[]]]; cbn; tauto.
    - exact Hb.
    - rewrite Em. exact Hz.
    - rewrite Em, Eme. exact HD.
    - rewrite ER. reflexivity.
    - destruct (tool_cm_state e g t o o' Hn Hb Hm' H) as (v & z & err & Ev & Ez & Ee & Ezz & i & Hi & Ei).
      rewrite ER in Ev. injection Ev as <-. exists o', z, err. split; [exact H|]. split; [unfold u_report; rewrite ER; reflexivity|]. split; [exact Ez|]. split; [exact Ee|].
      assert (EZ : z = (fun i => (if String.eqb model "cm" then x else expn x) (u_class g i))).
      { rewrite Ezz, Em. destruct Hm as [<-|[<-|[]]]; reflexivity. }
      split; [exact EZ|]. exists i. split; [exact Hi|]. rewrite Ei, EZ, Rabs_minus_sym, u_mean_classes, u_class_degree by exact Hi. reflexivity.
  Qed.
  Lemma k_sum q : (q < m)%nat -> 0 <= kc q <= rsum m kc.
  Proof.
    intros Hq. assert (P : forall j, (j < m)%nat -> 0 <= kc j) by (intros j _; apply pos_INR). split; [apply P; exact Hq|]. apply rsum_ge_term; assumption.
  Qed.
  Lemma close_err e x i : 0 <= e -> cm_close m c kc e x -> (i < n)%nat -> Rabs (class_mean m c (p_ubcm x) (u_class g i) - kc (u_class g i)) <= e * rsum m kc.
  Proof.
    intros He H Hi. refine (Rle_trans _ _ _ (H _ (u_class_lt i Hi)) _). apply Rmult_le_compat_l; [exact He|]. apply k_sum. apply u_class_lt. exact Hi.
  Qed.
End Undirected.

(** * From runs to calls *)
Lemma call_options s ls t model : fixed_point_call model s ls t -> fixed_point_options ls (t_options t "fixed-point" (t_linsearch t)).
Proof. intros (_ & _ & _ & <- & F). split; [reflexivity|]. split; [reflexivity|]. exact F. Qed.

Lemma calls_from {S : Type} (tool : settings -> S -> ran S) (reported : settings -> S -> option report) (error : S -> option R) (fresh : S -> Prop)
    model s ls linsolve ok eigh fuel m a x0 r good near D A :
  0 < r -> 0 <= A -> run_converges linsolve ok eigh fuel m a ls x0 r good near D ->
  (forall t o x steps ns ds als, fixed_point_call model s ls t -> fresh o ->
     solver (run_numerics linsolve ok m) (run_problem eigh fuel m D a) (t_options t "fixed-point" (t_linsearch t)) x0 = Full x steps ns ds als ->
     exists o' err, tool t o = (o', None) /\ reported t o = Some {| r_steps := steps; r_norms := ns; r_diffs := ds; r_alfas := als |} /\ error o' = Some err /\
       (forall e, 0 <= e -> good e x -> err <= e * A) /\ (forall e, near e x -> err <= e)) ->
  calls_converge tool reported error fresh model s ls r.
Proof.
  intros Hr HA ((K & B & HK & HB & HR) & HN) HC. split.
  - exists (K * A), B. split; [nra|]. split; [exact HB|]. intros t o Ht Ho. pose proof (call_options _ _ _ _ Ht) as HO.
    destruct (HR _ HO) as (x & st & ns & last & ds & als & E & L & G & St).
    destruct (HC t o _ _ _ _ _ Ht Ho E) as (o' & err & E1 & E2 & E3 & Eg & En). exists o'. eexists _, err. split; [exact E1|]. split; [exact E2|]. split; [exact E3|].
    assert (P : 0 <= K * r ^ st) by (apply Rmult_le_pos; [exact HK|apply pow_le; lra]).
    assert (EB : err <= K * A * r ^ st) by (specialize (Eg _ P G); lra).
    split; [exact L|]. split; [exact EB|]. intros NT He. cbn [o_eps t_options] in St. destruct (St He) as [St1|[St1|St1]].
    + cbn [o_max_steps t_options] in St1. rewrite St1 in EB. refine (Rle_trans _ _ _ EB (Rmax_l _ _)).
    + exfalso. apply NT. exists ns, last. split; [reflexivity|exact St1].
    + refine (Rle_trans _ _ _ (En _ St1) (Rmax_r _ _)).
  - intros eps He. destruct (HN eps He) as (N & HNN). exists N. intros t o rep Ht Ho Hle Hrep. pose proof (call_options _ _ _ _ Ht) as HO.
    destruct (HR _ HO) as (x & st & ns & last & ds & als & E & _). destruct (HC t o _ _ _ _ _ Ht Ho E) as (o' & err & E1 & E2 & _).
    rewrite E2 in Hrep. injection Hrep as <-. exact (HNN _ _ _ _ _ _ HO Hle E).
Qed.
Lemma unused_from {S : Type} (tool : settings -> S -> ran S) (reported : settings -> S -> option report) (error : S -> option R) (fresh : S -> Prop)
    model s ls linsolve ok eigh fuel m a x0 r good near D tol : 0 < tol ->
  run_converges linsolve ok eigh fuel m a ls x0 r good near D -> norms_above linsolve ok eigh fuel m a ls x0 tol D ->
  (forall t o x steps ns ds als, fixed_point_call model s ls t -> fresh o ->
     solver (run_numerics linsolve ok m) (run_problem eigh fuel m D a) (t_options t "fixed-point" (t_linsearch t)) x0 = Full x steps ns ds als ->
     reported t o = Some {| r_steps := steps; r_norms := ns; r_diffs := ds; r_alfas := als |}) ->
  tolerance_unused reported fresh model s ls.
Proof.
  intros Ht ((K & B & HK & HB & HR) & _) HV HC. exists tol. split; [exact Ht|]. intros t o rep Hc Ho Hrep Hlt (l & b & Eb & Hb).
  pose proof (call_options _ _ _ _ Hc) as HO. destruct (HR _ HO) as (x & st & ns & last & ds & als & E & _).
  pose proof (HC t o _ _ _ _ _ Hc Ho E) as E2. rewrite E2 in Hrep. injection Hrep as <-. cbn [r_norms] in Eb.
  pose proof (HV _ _ _ _ _ _ HO E b). rewrite Eb in H. specialize (H (in_or_app _ _ _ (or_intror (in_eq _ _)))). lra.
Qed.

Lemma tool_cm_fixed_point g p : (0 < un_n g)%nat -> inner_und (un_n g) (at_list (un_dseq g)) p -> (exists i, (i < un_n g)%nat /\ nth i (un_dseq g) O <> O) ->
  exists r, 0 < r < 1 /\ forall e nm ls, In nm binary_names -> draws (v_rnd e) ->
    calls_converge (u_tool e g) (u_report e g) us_err (fun o => us_beta o = None) "cm" (GStr nm) ls r /\
    tolerance_unused (u_report e g) (fun o => us_beta o = None) "cm" (GStr nm) ls.
Proof.
  intros Hn Hp Hne. destruct (u_solution g p Hp) as (xs & Hxs).
  destruct (cm_fixed_point _ _ _ xs (u_class_degrees g) (u_nonempty g Hne) Hxs) as (r & Hr & HR). exists r. split; [exact Hr|]. intros e nm ls Hnm Hd.
  destruct (start_cm_full g (v_rnd e) nm Hnm Hd) as (x0 & E0 & F0).
  destruct (HR (v_linsolve e) (v_eigh_ok e) (v_eigh e) (v_fuel e) None ls x0 F0) as (D & HD & HC & tol & Ht & HA).
  pose proof (fun t o x steps ns ds als (C : fixed_point_call "cm" (GStr nm) ls t) Ho E => u_call_from g e t o "cm" D x0 (or_introl eq_refl) (proj1 C) (proj1 (proj2 C)) Ho Hn HD
    (eq_trans (f_equal (u_start g "cm" (v_rnd e)) (proj1 (proj2 (proj2 C)))) E0) x steps ns ds als E) as CC.
  split.
  - refine (calls_from _ _ _ _ _ _ _ _ _ _ _ _ _ x0 r _ _ D (rsum (List.length (np_unique Nat.leb Nat.eqb (un_dseq g))) (at_list (np_unique Nat.leb Nat.eqb (un_dseq g)))) (proj1 Hr) (rsum_nonneg _ _ (fun _ _ => pos_INR _)) HC _).
    intros t o x steps ns ds als Ct Ho E. destruct (CC _ _ _ _ _ _ _ Ct Ho E) as (o' & z & err & E1 & E2 & _ & E3 & _ & i & Hi & Ei). exists o', err.
    split; [exact E1|]. split; [exact E2|]. split; [exact E3|]. split.
    + intros v Hv [_ G]. rewrite Ei. apply close_err; assumption.
    + intros v G. rewrite Ei. apply G. apply u_class_lt. exact Hi.
  - refine (unused_from (u_tool e g) _ us_err _ _ _ _ _ _ _ _ _ _ x0 r _ _ D tol Ht HC HA _).
    intros t o x steps ns ds als Ct Ho E. destruct (CC _ _ _ _ _ _ _ Ct Ho E) as (o' & z & err & E1 & E2 & _). exact E2.
Qed.
Lemma tool_cm_exp_fixed_point g p : (0 < un_n g)%nat -> inner_und (un_n g) (at_list (un_dseq g)) p -> (forall i, (i < un_n g)%nat -> nth i (un_dseq g) O <> O) ->
  exists r, 0 < r < 1 /\ forall e s ls x0, u_start g "cm_exp" (v_rnd e) s = Some x0 ->
    calls_converge (u_tool e g) (u_report e g) us_err (fun o => us_beta o = None) "cm_exp" s ls r.
Proof.
  intros Hn Hp Hne. destruct (u_solution g p Hp) as (xs & F & Hxs).
  set (m := List.length (np_unique Nat.leb Nat.eqb (un_dseq g))) in *. set (kc := at_list (np_unique Nat.leb Nat.eqb (un_dseq g))) in *. set (c := at_list (np_counts Nat.leb Nat.eqb (un_dseq g))) in *.
  assert (K1 : forall q, (q < m)%nat -> 1 <= c q /\ 1 <= kc q).
  { intros q Hq. split; [apply (u_class_degrees g); exact Hq|]. destruct (u_rep g q Hq) as (i & Hi & <-). unfold kc. rewrite u_class_degree by exact Hi. apply (le_INR 1).
    specialize (Hne i Hi). lia. }
  assert (Hm : (0 < m)%nat) by (pose proof (u_class_lt g O Hn) as HH; fold m in HH; lia).
  assert (EX : cm_solution m c kc (expn (fun q => - ln (xs q)))).
  { assert (E : forall q, (q < m)%nat -> expn (fun q => - ln (xs q)) q = xs q).
    { intros q Hq. unfold expn. rewrite Ropp_involutive, exp_ln; [reflexivity|]. apply F; [exact Hq|]. pose proof (proj2 (K1 q Hq)). lra. }
    split.
    - intros q Hq. rewrite E by exact Hq. apply F. exact Hq.
    - intros q Hq. rewrite <- Hxs by exact Hq. unfold class_mean. apply rsum_ext. intros j Hj. unfold p_ubcm. rewrite !E by assumption. reflexivity. }
  destruct (cm_exp_fixed_point _ _ _ _ Hm K1 EX) as (r & Hr & HR). exists r. split; [exact Hr|]. intros e s ls x0 E0.
  destruct (HR (v_linsolve e) (v_eigh_ok e) (v_eigh e) (v_fuel e) None ls x0) as (D & HD & HC).
  refine (calls_from _ _ _ _ _ _ _ _ _ _ _ _ _ x0 r _ _ D (rsum m kc) (proj1 Hr) (rsum_nonneg _ _ (fun _ _ => pos_INR _)) HC _).
  intros t o x steps ns ds als (C1 & C2 & C3 & C4 & C5) Ho E. assert (E0' : u_start g "cm_exp" (v_rnd e) (t_guess t) = Some x0) by (rewrite C3; exact E0).
  destruct (u_call_from g e t o "cm_exp" D x0 (or_intror (or_introl eq_refl)) C1 C2 Ho Hn HD E0' x steps ns ds als E) as (o' & z & err & E1 & E2 & _ & E3 & _ & i & Hi & Ei).
  exists o', err. split; [exact E1|]. split; [exact E2|]. split; [exact E3|]. change (String.eqb "cm_exp" "cm") with false in Ei. cbv iota in Ei. split.
  + intros v Hv [_ G]. rewrite Ei. apply close_err; assumption.
  + intros v G. rewrite Ei. apply G. apply u_class_lt. exact Hi.
Qed.

(** * DirectedGraph *)
Section Directed.
  Variable g : dnet.
  Hypothesis HL : d_paired g.
  Local Notation n := (dn_n g).
  Local Notation m := (d_classes_n g).
  Local Notation koc := (at_list (rnz_dseq_out (d_red g))).
  Local Notation kic := (at_list (rnz_dseq_in (d_red g))).
  Local Notation c := (at_list (r_multiplicity (d_red g))).

  Lemma d_class_lt i : (i < n)%nat -> (d_class g i < m)%nat.
  Proof. apply (d_classes g HL). Qed.
  Lemma at_integer l q : at_list l q = 0 \/ 1 <= at_list l q.
  Proof. unfold at_list. destruct (nth q l O) as [|v]; [left; reflexivity|right]. apply (le_INR 1). lia. Qed.
  Lemma d_degrees_out : class_degrees m c koc.
  Proof.
    split; intros q Hq; [|apply at_integer]. destruct (d_class_rep g q HL Hq) as (i & Hi & <-). apply d_count_ge; assumption.
  Qed.
  Lemma d_degrees_in : class_degrees m c kic.
  Proof.
    split; intros q Hq; [|apply at_integer]. destruct (d_class_rep g q HL Hq) as (i & Hi & <-). apply d_count_ge; assumption.
  Qed.
  Lemma d_nonempty_out : (exists i, (i < n)%nat /\ nth i (dn_out g) O <> O) -> nonempty m koc.
  Proof.
    intros (i & Hi & N). exists (d_class g i). split; [apply d_class_lt; exact Hi|]. rewrite (proj1 (d_class_degrees g i HL Hi)). apply not_0_INR. exact N.
  Qed.
  Lemma d_nonempty_in : (exists i, (i < n)%nat /\ nth i (dn_in g) O <> O) -> nonempty m kic.
  Proof.
    intros (i & Hi & N). exists (d_class g i). split; [apply d_class_lt; exact Hi|]. rewrite (proj2 (d_class_degrees g i HL Hi)). apply not_0_INR. exact N.
  Qed.
  Lemma full_split l k x : nonzero_list m k l -> (forall i, In i l -> 0 < x i) -> (forall i, (i < m)%nat -> ~ In i l -> x i = 0) -> cm_full m k x.
  Proof.
    intros [_ H] P Z i Hi. split; intros E.
    - apply P, H. tauto.
    - apply Z; [exact Hi|]. intros C. apply H in C. tauto.
  Qed.
  Lemma nodes_full l N k x : nonzero_list N k l -> (forall i, In i l -> 0 < x i) -> (forall i, (i < N)%nat -> ~ In i l -> x i = 0) -> cm_full N k x.
  Proof.
    intros [_ H] P Z i Hi. split; intros E.
    - apply P, H. tauto.
    - apply Z; [exact Hi|]. intros C. apply H in C. tauto.
  Qed.
  Lemma d_mean_out x y i : (i < n)%nat -> class_mean m c (p_dbcm x y) (d_class g i) =
    expected_out_degree_dcm n (join2 n (fun v => x (d_class g v)) (fun v => y (d_class g v))) i.
  Proof.
    intros Hi. rewrite (class_mean_nodes n m (d_class g) c x y i (proj1 (d_classes g HL)) Hi), expected_out_degree_dcm_nf by exact Hi.
    apply rsum_ext. intros j Hj. destruct (Nat.eqb i j); [reflexivity|]. unfold p_dbcm, join2. apply Nat.ltb_lt in Hi. rewrite Hi.
    assert (E : Nat.ltb (j + n) n = false) by (apply Nat.ltb_ge; lia). rewrite E, Nat.add_sub. reflexivity.
  Qed.
  Lemma d_mean_in x y i : (i < n)%nat -> class_mean m c (p_dbcm y x) (d_class g i) =
    expected_in_degree_dcm n (join2 n (fun v => x (d_class g v)) (fun v => y (d_class g v))) i.
  Proof.
    intros Hi. rewrite (class_mean_nodes n m (d_class g) c y x i (proj1 (d_classes g HL)) Hi), expected_in_degree_dcm_nf by exact Hi.
    apply rsum_ext. intros j Hj. destruct (Nat.eqb i j); [reflexivity|]. unfold p_dbcm, join2. apply Nat.ltb_lt in Hj. rewrite Hj.
    assert (E : Nat.ltb (i + n) n = false) by (apply Nat.ltb_ge; lia). rewrite E, Nat.add_sub.
    rewrite (Rmult_comm (x (d_class g j))). reflexivity.
  Qed.
  Definition nz_nat (l : list nat) : list nat := filter (fun i => negb (Nat.eqb (nth i l O) O)) (seq 0 (List.length l)).
  Lemma nz_nat_ok l : nonzero_list (List.length l) (at_list l) (nz_nat l).
  Proof.
    split; [apply NoDup_filter, seq_NoDup|]. intros i. unfold nz_nat. rewrite filter_In, in_seq. unfold at_list. split.
    - intros [H1 H2]. split; [lia|]. apply Bool.negb_true_iff, Nat.eqb_neq in H2. apply not_0_INR. exact H2.
    - intros [H1 H2]. split; [lia|]. apply Bool.negb_true_iff, Nat.eqb_neq. intros E. apply H2. rewrite E. reflexivity.
  Qed.
  Lemma d_solution p : inner_dir n (at_list (dn_out g)) (at_list (dn_in g)) p -> exists xs, dcm_solution m c koc kic xs.
  Proof.
    intros Hp. assert (Li : List.length (dn_in g) = n) by exact HL.
    assert (NO : nonzero_list n (at_list (dn_out g)) (nz_nat (dn_out g))) by apply nz_nat_ok.
    assert (NI : nonzero_list n (at_list (dn_in g)) (nz_nat (dn_in g))) by (rewrite <- Li; apply nz_nat_ok).
    destruct (solution_dcm_exists n _ _ _ _ p NO NI Hp) as (x & ((Px & Py) & Zx & Zy) & HS).
    pose proof (nodes_full _ _ _ x NO Px Zx) as Fx. pose proof (nodes_full _ _ _ (shift n x) NI Py Zy) as Fy.
    destruct (finite_choice m (fun q i => (i < n)%nat /\ d_class g i = q) (fun q Hq => d_class_rep g q HL Hq)) as (f & Hf).
    assert (E : forall i, (i < n)%nat -> x (f (d_class g i)) = x i /\ shift n x (f (d_class g i)) = shift n x i).
    { intros i Hi. destruct (Hf _ (d_class_lt i Hi)) as [L C].
      pose proof (d_class_degrees g _ HL L) as [D1 D2]. pose proof (d_class_degrees g _ HL Hi) as [D3 D4]. rewrite C in D1, D2.
      apply (twins n x (shift n x) (at_list (dn_out g)) (at_list (dn_in g))); try assumption.
      - intros l Hl N. destruct (at_integer (dn_out g) l) as [E|E]; [contradiction|exact E].
      - intros l Hl N. destruct (at_integer (dn_in g) l) as [E|E]; [contradiction|exact E].
      - intros l Hl. destruct (HS l Hl) as [S1 S2]. rewrite expected_out_degree_dcm_nf in S1 by exact Hl. rewrite expected_in_degree_dcm_nf in S2 by exact Hl.
        split; [exact S1|]. rewrite <- S2. apply rsum_ext. intros v _. destruct (Nat.eqb l v); [reflexivity|]. unfold p_dbcm, shift.
        rewrite (Rmult_comm (x v)). reflexivity.
      - congruence.
      - congruence. }
    exists (join2 m (fun q => x (f q)) (fun q => shift n x (f q))).
    assert (J1 : forall q, (q < m)%nat -> join2 m (fun q => x (f q)) (fun q => shift n x (f q)) q = x (f q)) by (intros q Hq; unfold join2; apply Nat.ltb_lt in Hq; rewrite Hq; reflexivity).
    assert (J2 : forall q, shift m (join2 m (fun q => x (f q)) (fun q => shift n x (f q))) q = shift n x (f q)).
    { intros q. unfold join2. unfold shift at 1. assert (EE : Nat.ltb (q + m) m = false) by (apply Nat.ltb_ge; lia). rewrite EE, Nat.add_sub. reflexivity. }
    split; [|split].
    - intros q Hq. rewrite J1 by exact Hq. destruct (Hf q Hq) as [L C]. rewrite <- C at 1 3. rewrite (proj1 (d_class_degrees g _ HL L)). apply Fx. exact L.
    - intros q Hq. rewrite J2. destruct (Hf q Hq) as [L C]. rewrite <- C at 1 3. rewrite (proj2 (d_class_degrees g _ HL L)). apply Fy. exact L.
    - intros q Hq. destruct (Hf q Hq) as [L C]. destruct (HS _ L) as [S1 S2]. rewrite expected_out_degree_dcm_nf in S1 by exact L. rewrite expected_in_degree_dcm_nf in S2 by exact L.
      rewrite <- C. destruct (d_class_degrees g _ HL L) as [D1 D2]. rewrite D1, D2. split.
      + rewrite (class_mean_nodes n m (d_class g) c _ _ _ (proj1 (d_classes g HL)) L). rewrite <- S1. apply rsum_ext. intros j Hj. destruct (Nat.eqb (f q) j); [reflexivity|].
        unfold p_dbcm. rewrite J2, J1 by (apply d_class_lt; exact L). rewrite (proj1 (E _ L)), (proj2 (E _ Hj)). reflexivity.
      + rewrite (class_mean_nodes n m (d_class g) c _ _ _ (proj1 (d_classes g HL)) L). rewrite <- S2. apply rsum_ext. intros j Hj. destruct (Nat.eqb (f q) j); [reflexivity|].
        unfold p_dbcm. rewrite J2, J1 by (apply d_class_lt; exact Hj). rewrite (proj1 (E _ Hj)), (proj2 (E _ L)). unfold shift. rewrite (Rmult_comm (x j)). reflexivity.
  Qed.

  Lemma start_dcm_full rnd nm : In nm binary_names -> draws rnd -> balanced (dn_out g) (dn_in g) ->
    exists x0, d_start g "dcm" rnd (GStr nm) = Some x0 /\ cm_full m koc x0 /\ cm_full m kic (shift m x0).
  Proof.
    intros Hn Hr Hb. assert (S : exists x0, d_start g "dcm" rnd (GStr nm) = Some x0).
    { unfold d_start. names. destruct (guess_dcm_inside (dn_out g) (dn_in g) rnd nm Hn Hr (eq_sym HL) Hb) as (s & Es & Hs). rewrite Es. cbn [start_of].
      apply all_fin_some'. change (d_length g "dcm") with (2 * m)%nat. intros q Hq. destruct (lt_dec q m) as [L|L].
      - destruct (d_class_error g q HL L) as (i & Hi & Eq & Eo & Ei & Er). destruct (Hs i _ _ q Eo Ei Er) as (x & y & X1 & Y1 & SX & SY). exists x. exact X1.
      - destruct (d_class_error g (q - m) HL ltac:(lia)) as (i & Hi & Eq & Eo & Ei & Er). destruct (Hs i _ _ _ Eo Ei Er) as (x & y & X1 & Y1 & SX & SY). exists y.
        fold (d_red g) in Y1. fold (d_classes_n g) in Y1. rewrite <- Y1. f_equal. lia. }
    destruct S as (x0 & E0). exists x0. split; [exact E0|]. destruct (directed_start_inside g rnd nm x0 HL Hn Hr Hb E0) as ((P1 & P2) & Z1 & Z2).
    pose proof (d_classes g HL) as (_ & NO & NI). split; [exact (full_split _ _ x0 NO P1 Z1)|exact (full_split _ _ (shift m x0) NI P2 Z2)].
  Qed.

  Lemma d_call_from e t o model D x0 : In model ["dcm"; "dcm_exp"]%string -> t_model t = model -> t_method t = "fixed-point"%string ->
    ds_bo o = None -> (0 < n)%nat -> d_dispatch model "fixed-point" None = inl D -> d_start g model (v_rnd e) (t_guess t) = Some x0 ->
    forall x steps ns ds als,
    solver (run_numerics (v_linsolve e) (v_eigh_ok e) (2 * m)) (run_problem (v_eigh e) (v_fuel e) (2 * m) D (d_args_dcm g)) (t_options t "fixed-point" (t_linsearch t)) x0 = Full x steps ns ds als ->
    let z := if String.eqb model "dcm" then x else expn x in
    exists o' err, d_tool e g t o = (o', None) /\ d_report e g t o = Some {| r_steps := steps; r_norms := ns; r_diffs := ds; r_alfas := als |} /\
      ds_err o' = Some err /\
      exists i, (i < n)%nat /\ (err = Rabs (class_mean m c (p_dbcm z (shift m z)) (d_class g i) - koc (d_class g i)) \/
                                err = Rabs (class_mean m c (p_dbcm (shift m z) z) (d_class g i) - kic (d_class g i))).
  Proof.
    intros Hm Em Eme Hb Hn HD Hz x steps ns ds als HR z.
    assert (Hm' : In (t_model t) ["dcm"; "dcm_exp"]%string) by (rewrite Em; exact Hm).
    assert (ER : d_result e g t o = Full x steps ns ds als).
    { rewrite <- HR. unfold d_result, d_solver, solve_with. rewrite Em, Eme.
      assert (EA : among model ["crema"; "crema-sparse"]%string = false) by (destruct Hm as [<-|[<-|[]]]; reflexivity).
      rewrite EA, HD, (dargs_dcm g model None Hm), Hz.
      assert (EL : d_length g model = (2 * m)%nat) by (destruct Hm as [<-|[<-|[]]]; reflexivity). rewrite EL. reflexivity. }
    destruct (WitnessTool.d_completes e g t o x0 D {| o_x := x; o_inf := fun _ => false |}) as (o' & H).
    - rewrite Em. destruct Hm as [<-|[<-|[]]]; cbn; tauto.
    - exact Hb.
    - rewrite Em. exact Hz.
    - rewrite Em, Eme. exact HD.
    - rewrite ER. reflexivity.
    - destruct (tool_dcm_state e g t o o' Hn HL Hb Hm' H) as (v & xa & ya & err & Ev & Ex & Ey & Ee & Exx & Eyy & i & Hi & Ei).
      rewrite ER in Ev. injection Ev as <-. exists o', err. split; [exact H|]. split; [unfold d_report; rewrite ER; reflexivity|]. split; [exact Ee|].
      assert (EF : dir_factor "dcm" (t_model t) {| o_x := x; o_inf := fun _ => false |} = z).
      { unfold z. rewrite Em. destruct Hm as [<-|[<-|[]]]; reflexivity. }
      rewrite EF in Exx, Eyy. exists i. split; [exact Hi|]. rewrite (d_mean_out z (shift m z) i Hi), (d_mean_in z (shift m z) i Hi).
      destruct (d_class_degrees g i HL Hi) as [D1 D2]. rewrite D1, D2, Rabs_minus_sym, (Rabs_minus_sym (expected_in_degree_dcm _ _ _)).
      destruct Ei as [Ei|Ei]; rewrite Ei, Exx, Eyy; [left|right]; reflexivity.
  Qed.
  Lemma d_near_err e z i err : dcm_near m c koc kic e z -> (i < n)%nat ->
    (err = Rabs (class_mean m c (p_dbcm z (shift m z)) (d_class g i) - koc (d_class g i)) \/
     err = Rabs (class_mean m c (p_dbcm (shift m z) z) (d_class g i) - kic (d_class g i))) -> err <= e.
  Proof. intros H Hi [->| ->]; apply H, d_class_lt; exact Hi. Qed.
  Lemma d_close_err e z i err : 0 <= e -> dcm_close m c koc kic e z -> (i < n)%nat ->
    (err = Rabs (class_mean m c (p_dbcm z (shift m z)) (d_class g i) - koc (d_class g i)) \/
     err = Rabs (class_mean m c (p_dbcm (shift m z) z) (d_class g i) - kic (d_class g i))) -> err <= e * (rsum m koc + rsum m kic).
  Proof.
    intros He H Hi HE. pose proof (d_class_lt i Hi) as Hq.
    pose proof (rsum_ge_term m koc (d_class g i) (fun _ _ => pos_INR _) Hq) as A1. pose proof (rsum_ge_term m kic (d_class g i) (fun _ _ => pos_INR _) Hq) as A2.
    pose proof (pos_INR (nth (d_class g i) (rnz_dseq_out (d_red g)) O)) as B1. pose proof (pos_INR (nth (d_class g i) (rnz_dseq_in (d_red g)) O)) as B2.
    destruct (H _ Hq) as [H1 H2]. unfold relatively in H1, H2. fold (koc (d_class g i)) in B1. fold (kic (d_class g i)) in B2.
    destruct HE as [->| ->].
    - refine (Rle_trans _ _ _ H1 _). apply Rmult_le_compat_l; [exact He|lra].
    - refine (Rle_trans _ _ _ H2 _). apply Rmult_le_compat_l; [exact He|lra].
  Qed.
  Lemma d_scale_pos : 0 <= rsum m koc + rsum m kic.
  Proof. pose proof (rsum_nonneg m koc (fun _ _ => pos_INR _)). pose proof (rsum_nonneg m kic (fun _ _ => pos_INR _)). lra. Qed.
End Directed.

Lemma tool_dcm_fixed_point g p : (0 < dn_n g)%nat -> d_paired g -> balanced (dn_out g) (dn_in g) ->
  inner_dir (dn_n g) (at_list (dn_out g)) (at_list (dn_in g)) p ->
  (exists i, (i < dn_n g)%nat /\ nth i (dn_out g) O <> O) -> (exists i, (i < dn_n g)%nat /\ nth i (dn_in g) O <> O) ->
  exists r, 0 < r < 1 /\ forall e nm ls, In nm binary_names -> draws (v_rnd e) ->
    calls_converge (d_tool e g) (d_report e g) ds_err (fun o => ds_bo o = None) "dcm" (GStr nm) ls r /\
    tolerance_unused (d_report e g) (fun o => ds_bo o = None) "dcm" (GStr nm) ls.
Proof.
  intros Hn HL Hbal Hp Hno Hni. destruct (d_solution g HL p Hp) as (xs & Hxs).
  destruct (dcm_fixed_point _ _ _ _ xs (d_degrees_out g HL) (d_degrees_in g HL) (d_nonempty_out g HL Hno) (d_nonempty_in g HL Hni) Hxs) as (r & Hr & HR).
  exists r. split; [exact Hr|]. intros e nm ls Hnm Hd.
  destruct (start_dcm_full g HL (v_rnd e) nm Hnm Hd Hbal) as (x0 & E0 & F0 & F1).
  destruct (HR (v_linsolve e) (v_eigh_ok e) (v_eigh e) (v_fuel e) None ls (nz_index_out (d_red g)) (nz_index_in (d_red g)) x0 F0 F1) as (zz & _ & D & HD & HC & tol & Ht & HA).
  pose proof (fun t o x steps ns ds als (C : fixed_point_call "dcm" (GStr nm) ls t) Ho E => d_call_from g HL e t o "dcm" D x0 (or_introl eq_refl) (proj1 C) (proj1 (proj2 C)) Ho Hn HD
    (eq_trans (f_equal (d_start g "dcm" (v_rnd e)) (proj1 (proj2 (proj2 C)))) E0) x steps ns ds als E) as CC.
  split.
  - refine (calls_from _ _ _ _ _ _ _ _ _ _ _ _ _ x0 r _ _ D _ (proj1 Hr) (d_scale_pos g) HC _).
    intros t o x steps ns ds als Ct Ho E. destruct (CC _ _ _ _ _ _ _ Ct Ho E) as (o' & err & E1 & E2 & E3 & i & Hi & Ei). exists o', err.
    split; [exact E1|]. split; [exact E2|]. split; [exact E3|]. split.
    + intros v Hv [_ G]. exact (d_close_err g HL v x i err Hv G Hi Ei).
    + intros v G. exact (d_near_err g HL v x i err G Hi Ei).
  - refine (unused_from (d_tool e g) _ ds_err _ _ _ _ _ _ _ _ _ _ x0 r _ _ D tol Ht HC HA _).
    intros t o x steps ns ds als Ct Ho E. destruct (CC _ _ _ _ _ _ _ Ct Ho E) as (o' & err & E1 & E2 & _). exact E2.
Qed.
Lemma tool_dcm_exp_fixed_point g p : (0 < dn_n g)%nat -> d_paired g ->
  inner_dir (dn_n g) (at_list (dn_out g)) (at_list (dn_in g)) p ->
  (forall i, (i < dn_n g)%nat -> nth i (dn_out g) O <> O /\ nth i (dn_in g) O <> O) ->
  exists r, 0 < r < 1 /\ forall e s ls x0, d_start g "dcm_exp" (v_rnd e) s = Some x0 ->
    calls_converge (d_tool e g) (d_report e g) ds_err (fun o => ds_bo o = None) "dcm_exp" s ls r.
Proof.
  intros Hn HL Hp Hne. destruct (d_solution g HL p Hp) as (xs & F & G & Hxs).
  set (m := d_classes_n g) in *. set (koc := at_list (rnz_dseq_out (d_red g))) in *. set (kic := at_list (rnz_dseq_in (d_red g))) in *. set (c := at_list (r_multiplicity (d_red g))) in *.
  assert (K1 : forall q, (q < m)%nat -> 1 <= c q /\ 1 <= koc q /\ 1 <= kic q).
  { intros q Hq. split; [apply (d_degrees_out g HL); exact Hq|]. destruct (d_class_rep g q HL Hq) as (i & Hi & <-). unfold koc, kic.
    destruct (d_class_degrees g i HL Hi) as [D1 D2]. rewrite D1, D2. destruct (Hne i Hi). split; apply (le_INR 1); lia. }
  assert (Hm : (0 < m)%nat) by (pose proof (d_class_lt g HL O Hn) as HH; fold m in HH; lia).
  assert (EX : dcm_solution m c koc kic (expn (fun q => - ln (xs q)))).
  { assert (E : forall q, (q < m)%nat -> expn (fun q => - ln (xs q)) q = xs q).
    { intros q Hq. unfold expn. rewrite Ropp_involutive, exp_ln; [reflexivity|]. apply F; [exact Hq|]. destruct (K1 q Hq) as (_ & ? & _). lra. }
    assert (E' : forall q, (q < m)%nat -> shift m (expn (fun q => - ln (xs q))) q = shift m xs q).
    { intros q Hq. unfold expn, shift. rewrite Ropp_involutive, exp_ln; [reflexivity|]. apply G; [exact Hq|]. destruct (K1 q Hq) as (_ & _ & ?). lra. }
    split; [|split].
    - intros q Hq. rewrite E by exact Hq. apply F. exact Hq.
    - intros q Hq. rewrite E' by exact Hq. apply G. exact Hq.
    - intros q Hq. destruct (Hxs q Hq) as [<- <-]. unfold class_mean. split; apply rsum_ext; intros j Hj; unfold p_dbcm; rewrite E, E' by assumption; reflexivity. }
  destruct (dcm_exp_fixed_point _ _ _ _ _ Hm K1 EX) as (r & Hr & HR). exists r. split; [exact Hr|]. intros e s ls x0 E0.
  destruct (HR (v_linsolve e) (v_eigh_ok e) (v_eigh e) (v_fuel e) None ls (nz_index_out (d_red g)) (nz_index_in (d_red g)) x0) as (zz & _ & D & HD & HC).
  refine (calls_from _ _ _ _ _ _ _ _ _ _ _ _ _ x0 r _ _ D _ (proj1 Hr) (d_scale_pos g) HC _).
  intros t o x steps ns ds als (C1 & C2 & C3 & C4 & C5) Ho E. assert (E0' : d_start g "dcm_exp" (v_rnd e) (t_guess t) = Some x0) by (rewrite C3; exact E0).
  destruct (d_call_from g HL e t o "dcm_exp" D x0 (or_intror (or_introl eq_refl)) C1 C2 Ho Hn HD E0' x steps ns ds als E) as (o' & err & E1 & E2 & E3 & i & Hi & Ei).
  exists o', err. split; [exact E1|]. split; [exact E2|]. split; [exact E3|]. change (String.eqb "dcm_exp" "dcm") with false in Ei. cbv iota in Ei. split.
  + intros v Hv [_ Q]. exact (d_close_err g HL v _ i err Hv Q Hi Ei).
  + intros v Q. exact (d_near_err g HL v _ i err Q Hi Ei).
Qed.

Lemma tool_cm_converges g p : (0 < un_n g)%nat -> inner_und (un_n g) (at_list (un_dseq g)) p -> (exists i, (i < un_n g)%nat /\ nth i (un_dseq g) O <> O) ->
  exists r, 0 < r < 1 /\ forall e nm ls, In nm binary_names -> draws (v_rnd e) ->
    calls_converge (u_tool e g) (u_report e g) us_err (fun o => us_beta o = None) "cm" (GStr nm) ls r.
Proof. intros H1 H2 H3. destruct (tool_cm_fixed_point g p H1 H2 H3) as (r & Hr & H). exists r. split; [exact Hr|]. intros. apply H; assumption. Qed.
Lemma tool_cm_unused g p e nm ls : (0 < un_n g)%nat -> inner_und (un_n g) (at_list (un_dseq g)) p -> (exists i, (i < un_n g)%nat /\ nth i (un_dseq g) O <> O) ->
  In nm binary_names -> draws (v_rnd e) -> tolerance_unused (u_report e g) (fun o => us_beta o = None) "cm" (GStr nm) ls.
Proof. intros H1 H2 H3 H4 H5. destruct (tool_cm_fixed_point g p H1 H2 H3) as (r & Hr & H). apply H; assumption. Qed.
Lemma tool_dcm_converges g p : (0 < dn_n g)%nat -> d_paired g -> balanced (dn_out g) (dn_in g) ->
  inner_dir (dn_n g) (at_list (dn_out g)) (at_list (dn_in g)) p ->
  (exists i, (i < dn_n g)%nat /\ nth i (dn_out g) O <> O) -> (exists i, (i < dn_n g)%nat /\ nth i (dn_in g) O <> O) ->
  exists r, 0 < r < 1 /\ forall e nm ls, In nm binary_names -> draws (v_rnd e) ->
    calls_converge (d_tool e g) (d_report e g) ds_err (fun o => ds_bo o = None) "dcm" (GStr nm) ls r.
Proof. intros H1 H2 H3 H4 H5 H6. destruct (tool_dcm_fixed_point g p H1 H2 H3 H4 H5 H6) as (r & Hr & H). exists r. split; [exact Hr|]. intros. apply H; assumption. Qed.
Lemma tool_dcm_unused g p e nm ls : (0 < dn_n g)%nat -> d_paired g -> balanced (dn_out g) (dn_in g) ->
  inner_dir (dn_n g) (at_list (dn_out g)) (at_list (dn_in g)) p ->
  (exists i, (i < dn_n g)%nat /\ nth i (dn_out g) O <> O) -> (exists i, (i < dn_n g)%nat /\ nth i (dn_in g) O <> O) ->
  In nm binary_names -> draws (v_rnd e) -> tolerance_unused (d_report e g) (fun o => ds_bo o = None) "dcm" (GStr nm) ls.
Proof. intros H1 H2 H3 H4 H5 H6 H7 H8. destruct (tool_dcm_fixed_point g p H1 H2 H3 H4 H5 H6) as (r & Hr & H). apply H; assumption. Qed.
