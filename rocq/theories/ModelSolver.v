(** The iterative solver: transcription of solver_functions.py:71-302.  The matrix
    regularisers are in ModelLinsearch.v. *)
From Coq Require Import List Arith Bool.
Import ListNotations.

(** The [method] string. *)
Inductive method : Type := Newton | QuasiNewton | FixedPoint | OtherMethod.

(** Arrays [V], matrices [M], scalars [S] and the numpy operations the solver
    applies to them.  Nothing is assumed about these: they may be IEEE operations
    with NaN and infinities.  Failing operations return [None] (an exception). *)
Record numerics (V M S : Type) : Type := {
  vnorm : V -> S;                  (* np.linalg.norm *)
  gtb : S -> S -> bool;            (* > on scalars *)
  sone : S;                        (* 1 *)
  shalf : S;                       (* 0.5 *)
  vzeros : V -> V;                 (* np.zeros_like *)
  vneg : V -> V;
  vsub : V -> V -> V;
  vaxpy : V -> S -> V -> V;        (* x + alfa * dx *)
  vscale : S -> V -> V;            (* alfa * dx.copy() *)
  vdiv : V -> V -> option V;       (* elementwise / *)
  vmaxabs : V -> S;                (* np.max(np.abs(.)) *)
  smul : S -> S -> S;
  vfloor : V -> S -> V;            (* np.maximum(b, b * 0 + m) *)
  vinf_fix : V -> V -> V;          (* dx[i] = inf where x[i] == inf *)
  vnan_fix : V -> V;               (* v[isnan(v)] = -1 *)
  lsolve : M -> V -> option V;     (* np.linalg.solve *)
  eigh_ok : M -> bool              (* scipy.linalg.eigh does not raise *)
}.
Arguments vnorm {V M S}. Arguments gtb {V M S}. Arguments sone {V M S}. Arguments shalf {V M S}.
Arguments vzeros {V M S}. Arguments vneg {V M S}. Arguments vsub {V M S}. Arguments vaxpy {V M S}.
Arguments vscale {V M S}. Arguments vdiv {V M S}. Arguments vmaxabs {V M S}. Arguments smul {V M S}.
Arguments vfloor {V M S}. Arguments vinf_fix {V M S}. Arguments vnan_fix {V M S}. Arguments lsolve {V M S}.
Arguments eigh_ok {V M S}.

(** The function arguments of [solver]: [fun], [fun_jac] (a matrix for newton, a
    vector for quasinewton), [hessian_regulariser], [linsearch_fun] (two calling
    conventions).  [step_fun] is only called by the verbose printing. *)
Record problem (V M S : Type) : Type := {
  p_fun : V -> option V;
  p_jac_m : V -> option M;
  p_jac_v : V -> option V;
  p_reg : M -> S -> option M;
  p_lin_nq : V -> V -> S -> S -> V -> option S;
  p_lin_fp : V -> V -> V -> S -> S -> nat -> option S
}.
Arguments p_fun {V M S}. Arguments p_jac_m {V M S}. Arguments p_jac_v {V M S}. Arguments p_reg {V M S}.
Arguments p_lin_nq {V M S}. Arguments p_lin_fp {V M S}.

(** The keyword arguments. *)
Record options (S : Type) : Type := {
  o_tol : S; o_eps : S; o_max_steps : nat; o_method : method;
  o_verbose : bool; o_regularise : bool; o_regularise_eps : S; o_full_return : bool; o_linsearch : bool
}.
Arguments o_tol {S}. Arguments o_eps {S}. Arguments o_max_steps {S}. Arguments o_method {S}.
Arguments o_verbose {S}. Arguments o_regularise {S}. Arguments o_regularise_eps {S}.
Arguments o_full_return {S}. Arguments o_linsearch {S}.

(** Local variables carried around the loop. *)
Record state (V S : Type) : Type := {
  s_x : V; s_f : V; s_norm : S; s_diff : S; s_dx_old : V; s_n : nat;
  s_norms : list S; s_diffs : list S; s_alfas : list S
}.
Arguments s_x {V S}. Arguments s_f {V S}. Arguments s_norm {V S}. Arguments s_diff {V S}.
Arguments s_dx_old {V S}. Arguments s_n {V S}. Arguments s_norms {V S}. Arguments s_diffs {V S}. Arguments s_alfas {V S}.

(** Return values: [x]; the tuple of full_return (without the wall-clock time); an
    exception; [Fuel] stands for "the model's iteration bound was too small". *)
Inductive result (V S : Type) : Type :=
  | Sol (x : V)
  | Full (x : V) (n_steps : nat) (norm_seq diff_seq alfa_seq : list S)
  | Raised
  | Fuel.
Arguments Sol {V S}. Arguments Full {V S}. Arguments Raised {V S}. Arguments Fuel {V S}.

Definition sbind {A B : Type} (a : option A) (k : A -> option B) : option B :=
  match a with None => None | Some a => k a end.

Section Solver.
  Context {V M S : Type}.
  Variables (N : numerics V M S) (P : problem V M S) (Opt : options S).

  (** solver_functions.py:135-151: before the loop; [diff = 1]. *)
  Definition solver_init (x0 : V) : option (state V S) :=
    sbind (p_fun P x0) (fun f =>
    let norm := vnorm N f in
    let diff := sone N in
    Some {| s_x := x0; s_f := f; s_norm := norm; s_diff := diff; s_dx_old := vzeros N x0; s_n := 0;
            s_norms := if o_full_return Opt then [norm] else [];
            s_diffs := if o_full_return Opt then [diff] else [];
            s_alfas := [] |}).

  (** solver_functions.py:166-168: the loop condition. *)
  Definition solver_continue (s : state V S) : bool :=
    gtb N (s_norm s) (o_tol Opt) && Nat.ltb (s_n s) (o_max_steps Opt) && gtb N (s_diff s) (o_eps Opt).

  (** solver_functions.py:172-215: matrix and direction; any other method leaves
      [dx] undefined (UnboundLocalError). *)
  Definition solver_dx (s : state V S) : option V :=
    match o_method Opt with
    | Newton =>
        sbind (p_jac_m P (s_x s)) (fun H =>
        if o_verbose Opt && negb (eigh_ok N H) then None else
        sbind (if o_regularise Opt then
                 sbind (p_fun P (s_x s)) (fun fx =>
                 sbind (p_reg P H (smul N (vmaxabs N fx) (o_regularise_eps Opt))) (fun B =>
                 if o_verbose Opt && negb (eigh_ok N B) then None else Some B))
               else Some H) (fun B =>
        lsolve N B (vneg N (s_f s))))
    | QuasiNewton =>
        sbind (p_jac_v P (s_x s)) (fun b =>
        sbind (if o_regularise Opt then
                 sbind (p_fun P (s_x s)) (fun fx =>
                 Some (vfloor N b (smul N (vmaxabs N fx) (o_regularise_eps Opt))))
               else Some b) (fun b =>
        vdiv N (vneg N (s_f s)) b))
    | FixedPoint => Some (vinf_fix N (s_x s) (vsub N (s_f s) (s_x s)))
    | OtherMethod => None
    end.

  (** solver_functions.py:221-235: step length; [alfa_seq] grows only with a line
      search. *)
  Definition solver_alfa (s : state V S) (dx : V) : option (S * list S) :=
    if o_linsearch Opt then
      match o_method Opt with
      | Newton | QuasiNewton =>
          sbind (p_lin_nq P (s_x s) dx (shalf N) (sone N) (s_f s)) (fun alfa =>
          Some (alfa, if o_full_return Opt then s_alfas s ++ [alfa] else s_alfas s))
      | FixedPoint =>
          sbind (p_lin_fp P (s_x s) dx (s_dx_old s) (sone N) (shalf N) (s_n s)) (fun alfa =>
          Some (alfa, if o_full_return Opt then s_alfas s ++ [alfa] else s_alfas s))
      | OtherMethod => Some (sone N, s_alfas s)
      end
    else Some (sone N, s_alfas s).

  (** solver_functions.py:170-288: one iteration.  The verbose printing of a newton
      run without regularisation reads [new_ml], which is unbound. *)
  Definition solver_step (s : state V S) : option (state V S) :=
    sbind (solver_dx s) (fun dx =>
    sbind (solver_alfa s dx) (fun al =>
    let alfa := fst al in
    let x := vaxpy N (s_x s) alfa dx in
    let dx_old := vscale N alfa dx in
    sbind (p_fun P x) (fun f =>
    let norm := vnorm N f in
    let diff := vnorm N (vnan_fix N (vsub N x (s_x s))) in
    if o_verbose Opt && (match o_method Opt with Newton => negb (o_regularise Opt) | _ => false end) then None else
    Some {| s_x := x; s_f := f; s_norm := norm; s_diff := diff; s_dx_old := dx_old; s_n := s_n s + 1;
            s_norms := if o_full_return Opt then s_norms s ++ [norm] else s_norms s;
            s_diffs := if o_full_return Opt then s_diffs s ++ [diff] else s_diffs s;
            s_alfas := snd al |}))).

  (** solver_functions.py:166-302: the loop and the return statement. *)
  Fixpoint solver_loop (fuel : nat) (s : state V S) : result V S :=
    match fuel with
    | O => Fuel
    | Datatypes.S fuel =>
        if solver_continue s then
          match solver_step s with
          | None => Raised
          | Some s => solver_loop fuel s
          end
        else if o_full_return Opt then Full (s_x s) (s_n s) (s_norms s) (s_diffs s) (s_alfas s)
        else Sol (s_x s)
    end.

  (** solver_functions.py:71-302 [solver], with [max_steps + 1] tests of the loop
      condition available. *)
  Definition solver (x0 : V) : result V S :=
    match solver_init x0 with
    | None => Raised
    | Some s => solver_loop (Datatypes.S (o_max_steps Opt)) s
    end.
End Solver.
