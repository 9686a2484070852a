(** Lemmas on the choice of functions. *)
From Coq Require Import Reals List Arith Bool String Lra Lia.
From Coquelicot Require Import Coquelicot.
From Verif Require Import Base SpecDeriv SpecGraph SpecEnsemble SpecWeighted SpecDirected SpecCReMa
  ModelCM ModelECM ModelDCM ModelDECM ModelCReMa ModelLinsearch ModelSolver ModelDispatch SpecDispatch.
Import ListNotations.
Local Open Scope R_scope.

(** ** Which names are accepted *)
Fixpoint unprefix (p key : string) : option string :=
  match p, key with
  | EmptyString, _ => Some key
  | String a p, String b key => if Ascii.eqb a b then unprefix p key else None
  | String _ _, EmptyString => None
  end.
Fixpoint strip {A : Type} (p : string) (d : list (string * A)) : list (string * A) :=
  match d with
  | [] => []
  | (k, v) :: d => match unprefix p k with Some k' => (k', v) :: strip p d | None => strip p d end
  end.
Lemma unprefix_eqb p key m :
  String.eqb key (p ++ m) = match unprefix p key with Some k => String.eqb k m | None => false end.
Proof.
  revert key. induction p as [|a p IH]; intro key; [reflexivity|].
  destruct key as [|b key]; [reflexivity|]. cbn [append unprefix String.eqb].
  rewrite Ascii.eqb_sym. destruct (Ascii.eqb a b); [apply IH|reflexivity].
Qed.
Lemma lookup_strip {A : Type} p m (d : list (string * A)) : lookup (p ++ m) d = lookup m (strip p d).
Proof.
  induction d as [|[k v] d IH]; [reflexivity|]. cbn [lookup strip]. rewrite unprefix_eqb.
  destruct (unprefix p k) as [k'|]; [cbn [lookup]; now rewrite IH|exact IH].
Qed.

Lemma append_assoc_str (a b c : string) : (a ++ b ++ c = (a ++ b) ++ c)%string.
Proof. induction a as [|x a IH]; [reflexivity|]. cbn [append]. now rewrite IH. Qed.

(** The table behind a model, indexed by the method alone. *)
Lemma dispatch_strip t1 t2 t3 t4 t5 t6 model m reg :
  dispatch t1 t2 t3 t4 t5 t6 model m reg =
  match lookup m (strip (model ++ "-") t1), lookup m (strip (model ++ "-") t2), lookup m (strip (model ++ "-") t3) with
  | Some f, Some j, Some s =>
      match lookup model t4, lookup m (strip (model ++ "-") t5), lookup model t6 with
      | Some o, Some l, Some r =>
          inl {| d_fun := f; d_jac := j; d_step := s; d_lins := l; d_obj := o;
                 d_reg := match regularise_name reg with Some e => e | None => r end |}
      | _, _, _ => inr RefKeyError
      end
  | _, _, _ => inr RefValueError
  end.
Proof.
  unfold dispatch. rewrite <- !lookup_strip.
  replace ((model ++ "-") ++ m)%string with (model ++ "-" ++ m)%string.
  2: { apply append_assoc_str. }
  reflexivity.
Qed.

Ltac methods m :=
  repeat match goal with
  | |- context [String.eqb ?l m] => destruct (String.eqb l m) eqn:?E
  end.
Ltac name_found Hn :=
  match goal with
  | E : String.eqb ?l ?m = true |- _ => apply String.eqb_eq in E; subst m; elim Hn; cbn; tauto
  end.

Lemma u_refuses model m reg :
  In model undirected_models -> ~ In m documented_methods ->
  ~ (model = "crema"%string /\ In m ["sparse-newton"; "sparse-quasinewton"; "sparse-fixed-point"]%string) ->
  u_dispatch model m reg = inr RefValueError.
Proof.
  intros Hm Hn Hc. unfold u_dispatch. rewrite dispatch_strip.
  cbn [undirected_models In] in Hm. 
  destruct Hm as [<-|[<-|[<-|[<-|[<-|[<-|[]]]]]]];
    match goal with |- context [strip ?p u_fun] => let t := eval vm_compute in (strip p u_fun) in change (strip p u_fun) with t end;
    cbn [lookup]; methods m; try name_found Hn; try reflexivity.
  all: match goal with
  | E : String.eqb ?l ?m = true |- _ => apply String.eqb_eq in E; subst m; elim Hc; split; [reflexivity|cbn; tauto]
  end.
Qed.
Lemma d_refuses model m reg :
  In model directed_models -> ~ In m documented_methods ->
  ~ (model = "crema"%string /\ In m ["sparse-newton"; "sparse-quasinewton"; "sparse-fixed-point"]%string) ->
  d_dispatch model m reg = inr RefValueError.
Proof.
  intros Hm Hn Hc. unfold d_dispatch. rewrite dispatch_strip.
  cbn [directed_models In] in Hm. 
  destruct Hm as [<-|[<-|[<-|[<-|[<-|[<-|[]]]]]]];
    match goal with |- context [strip ?p d_fun_] => let t := eval vm_compute in (strip p d_fun_) in change (strip p d_fun_) with t end;
    cbn [lookup]; methods m; try name_found Hn; try reflexivity.
  all: match goal with
  | E : String.eqb ?l ?m = true |- _ => apply String.eqb_eq in E; subst m; elim Hc; split; [reflexivity|cbn; tauto]
  end.
Qed.
Lemma u_accepts model m reg :
  In model undirected_models -> In m documented_methods -> exists D, u_dispatch model m reg = inl D.
Proof.
  intros Hm Hn. cbn in Hm, Hn.
  destruct Hm as [<-|[<-|[<-|[<-|[<-|[<-|[]]]]]]]; destruct Hn as [<-|[<-|[<-|[]]]]; eexists; reflexivity.
Qed.
Lemma d_accepts model m reg :
  In model directed_models -> In m documented_methods -> exists D, d_dispatch model m reg = inl D.
Proof.
  intros Hm Hn. cbn in Hm, Hn.
  destruct Hm as [<-|[<-|[<-|[<-|[<-|[<-|[]]]]]]]; destruct Hn as [<-|[<-|[<-|[]]]]; eexists; reflexivity.
Qed.
