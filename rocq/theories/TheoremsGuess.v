(** Starting points: the properties.  Each proof is one [exact] of a lemma. *)
From Coq Require Import Reals List Arith Bool String Lra Lia.
From Verif Require Import Base ModelDCM ModelNetwork ModelGuess SpecNetwork SpecWeighted SpecGuess ProofsGuess ProofsGuessW ProofsGuessV WitnessGuess.
Import ListNotations.
Local Open Scope R_scope.

(** C59.  Binary models: every documented name gives positive factors, 0 for nodes without
    links. *)
Theorem C59_cm_inside :
  forall dseq rnd nm,
  In nm binary_names -> draws rnd ->
  exists o, set_initial_guess_cm false dseq rnd (GStr nm) = inl o /\
  forall v d q, nth_error dseq v = Some d -> nth_error (snd (fst (degree_reduction_und dseq))) v = Some q ->
  exists x, g_x0 o q = Fin x /\ starts_inside (INR d) x.
Proof. exact guess_cm_inside. Qed.
Print Assumptions C59_cm_inside.

Example C59_binary_case :
  draws w_rnd /\ In "chung_lu"%string binary_names /\
  nth_error w_dseq 1 = Some 2%nat /\ nth_error (snd (fst (degree_reduction_und w_dseq))) 1 = Some 2%nat /\
  nth_error w_dseq 3 = Some 0%nat /\ nth_error (snd (fst (degree_reduction_und w_dseq))) 3 = Some 0%nat /\
  volume w_dseq = 4 /\ exists o, set_initial_guess_cm true w_dseq w_rnd (GStr "uniform") = inl o.
Proof. exact binary_case. Qed.

Theorem C59_cm_values :
  forall dseq rnd nm o v d q,
  set_initial_guess_cm false dseq rnd (GStr nm) = inl o ->
  nth_error dseq v = Some d -> d <> O -> nth_error (snd (fst (degree_reduction_und dseq))) v = Some q ->
  exists x, g_x0 o q = Fin x /\ binary_start (volume dseq / 2) (rnd q) nm (INR d) x.
Proof. exact guess_cm_values. Qed.
Print Assumptions C59_cm_values.

Theorem C59_dcm_inside :
  forall dout din rnd nm,
  In nm binary_names -> draws rnd -> List.length dout = List.length din -> balanced dout din ->
  exists o, set_initial_guess_dcm dout din rnd (GStr nm) = inl o /\
  forall v ko ki q, nth_error dout v = Some ko -> nth_error din v = Some ki ->
    nth_error (r_invert_dseq (degree_reduction_dir dout din)) v = Some q ->
  exists x y, g_x0 o q = Fin x /\ g_x0 o (q + rnz_n_out (degree_reduction_dir dout din))%nat = Fin y /\
    starts_inside (INR ko) x /\ starts_inside (INR ki) y.
Proof. exact guess_dcm_inside. Qed.
Print Assumptions C59_dcm_inside.

Example C59_binary_directed_case :
  List.length w_dout = List.length w_din /\ balanced w_dout w_din /\ volume w_dout = 2 /\
  nth_error w_dout 1 = Some 1%nat /\ nth_error w_din 1 = Some 1%nat /\
  (exists q, nth_error (r_invert_dseq (degree_reduction_dir w_dout w_din)) 1 = Some q).
Proof. exact binary_directed_case. Qed.

Theorem C59_dcm_values :
  forall dout din rnd nm o v ko ki q,
  List.length dout = List.length din -> balanced dout din ->
  set_initial_guess_dcm dout din rnd (GStr nm) = inl o ->
  nth_error dout v = Some ko -> nth_error din v = Some ki ->
  nth_error (r_invert_dseq (degree_reduction_dir dout din)) v = Some q ->
  (ko <> O -> exists x, g_x0 o q = Fin x /\ binary_start (volume dout) (rnd q) nm (INR ko) x) /\
  (ki <> O -> exists y, g_x0 o (q + rnz_n_out (degree_reduction_dir dout din))%nat = Fin y /\
     binary_start (volume dout) (rnd (q + rnz_n_out (degree_reduction_dir dout din))%nat) nm (INR ki) y).
Proof. exact guess_dcm_values. Qed.
Print Assumptions C59_dcm_values.

(** The exponential versions start at the same factors; DBCM puts absent nodes at a factor
    below every double. *)
Theorem C59_cm_exp_start :
  forall dseq rnd nm,
  In nm binary_names -> draws rnd ->
  exists o o', set_initial_guess_cm true dseq rnd (GStr nm) = inl o /\ set_initial_guess_cm false dseq rnd (GStr nm) = inl o' /\
  forall v d q, nth_error dseq v = Some d -> nth_error (snd (fst (degree_reduction_und dseq))) v = Some q ->
  exists t, g_x0 o q = Fin t /\ (d <> O -> g_x0 o' q = Fin (exp (- t))).
Proof. exact guess_cm_exp_finite. Qed.
Print Assumptions C59_cm_exp_start.

Theorem C59_dcm_exp_start :
  forall dout din rnd nm,
  In nm binary_names -> draws rnd -> List.length dout = List.length din -> balanced dout din ->
  exists o o', set_initial_guess_dcm_exp dout din rnd (GStr nm) = inl o /\ set_initial_guess_dcm dout din rnd (GStr nm) = inl o' /\
  forall v ko ki q, nth_error dout v = Some ko -> nth_error din v = Some ki ->
    nth_error (r_invert_dseq (degree_reduction_dir dout din)) v = Some q ->
  exists x y, g_x0 o q = Fin x /\ g_x0 o (q + rnz_n_out (degree_reduction_dir dout din))%nat = Fin y /\
    (ko = O -> factor_vanishes x) /\ (ki = O -> factor_vanishes y) /\
    (ko <> O -> g_x0 o' q = Fin (exp (- x))) /\
    (ki <> O -> g_x0 o' (q + rnz_n_out (degree_reduction_dir dout din))%nat = Fin (exp (- y))).
Proof. exact guess_dcm_exp_inside. Qed.
Print Assumptions C59_dcm_exp_start.

(** ... but UBCM puts them at factor 1. *)
Theorem C59_cm_exp_isolated_refuted :
  forall dseq rnd g o v q,
  set_initial_guess_cm true dseq rnd g = inl o ->
  nth_error dseq v = Some O -> nth_error (snd (fst (degree_reduction_und dseq))) v = Some q ->
  g_x0 o q = Fin 0 /\ ~ factor_vanishes 0.
Proof. exact guess_cm_exp_isolated_refuted. Qed.
Print Assumptions C59_cm_exp_isolated_refuted.

(** Weighted models. *)
Theorem C59_ecm_inside :
  forall n k s rnd nm,
  In nm weighted_names -> nonneg n k -> nonneg n s -> draws rnd ->
  exists o x, set_initial_guess_ecm false n k s rnd (GStr nm) = inl o /\ finite_array (2 * n) (g_x0 o) x /\
  (forall i, (i < n)%nat -> starts_inside (k i) (x i) /\ starts_inside (s i) (x (i + n)%nat)) /\
  (forall i j, (i < n)%nat -> (j < n)%nat -> i <> j -> x (i + n)%nat * x (j + n)%nat < 1).
Proof. exact guess_ecm_inside. Qed.
Print Assumptions C59_ecm_inside.

Example C59_weighted_case :
  nonneg 4 (w_vec 1 2 1 0) /\ nonneg 4 (w_vec 1 3 2 0) /\ In "strengths"%string weighted_names /\
  (forall i, (i < 3)%nat -> w_vec 1 3 2 0 i <> 0) /\ w_vec 1 3 2 0 3%nat = 0.
Proof. exact weighted_case. Qed.

Theorem C59_ecm_values :
  forall n k s rnd nm o i,
  nonneg n k -> nonneg n s -> set_initial_guess_ecm false n k s rnd (GStr nm) = inl o ->
  (i < n)%nat -> k i <> 0 -> s i <> 0 ->
  exists a b, g_x0 o i = Fin a /\ g_x0 o (i + n)%nat = Fin b /\
  weighted_start (rsum n k / 2) (rsum n s) (/ 1000) (rnd i) (rnd (i + n)%nat) nm (k i) (s i) a b.
Proof. exact guess_ecm_values. Qed.
Print Assumptions C59_ecm_values.

Theorem C59_ecm_exp_start :
  forall n k s rnd nm,
  In nm weighted_names -> nonneg n k -> nonneg n s -> draws rnd ->
  exists o o' t x, set_initial_guess_ecm true n k s rnd (GStr nm) = inl o /\ set_initial_guess_ecm false n k s rnd (GStr nm) = inl o' /\
  finite_array (2 * n) (g_x0 o) t /\ finite_array (2 * n) (g_x0 o') x /\
  (forall i, (i < n)%nat -> (k i <> 0 -> x i = exp (- t i)) /\ (s i <> 0 -> x (i + n)%nat = exp (- t (i + n)%nat))) /\
  ((forall i, (i < n)%nat -> s i <> 0) -> ecm_exp_dom n t).
Proof. exact guess_ecm_exp_start. Qed.
Print Assumptions C59_ecm_exp_start.

Theorem C59_ecm_exp_isolated_refuted :
  forall n k s rnd g o i j,
  set_initial_guess_ecm true n k s rnd g = inl o ->
  (i < n)%nat -> (j < n)%nat -> i <> j -> s i = 0 -> s j = 0 ->
  g_x0 o (i + n)%nat = Fin 0 /\ g_x0 o (j + n)%nat = Fin 0 /\
  forall t, finite_array (2 * n) (g_x0 o) t -> ~ ecm_exp_dom n t.
Proof. exact guess_ecm_exp_isolated_refuted. Qed.
Print Assumptions C59_ecm_exp_isolated_refuted.

Example C59_isolated_case :
  exists o, set_initial_guess_ecm true 4 (w_vec 1 1 0 0) (w_vec 3 3 0 0) w_rnd (GStr "random") = inl o /\
  w_vec 3 3 0 0 2%nat = 0 /\ w_vec 3 3 0 0 3%nat = 0 /\ (2 <> 3)%nat.
Proof. exact isolated_case. Qed.

(** DECM: admissible exactly when the name is not "strengths" or no single pair carries all
    the weight. *)
Theorem C59_decm_inside :
  forall n k_out k_in s_out s_in rnd nm,
  In nm weighted_names ->
  nonneg n k_out -> nonneg n k_in -> nonneg n s_out -> nonneg n s_in -> draws rnd ->
  exists o x, set_initial_guess_decm n k_out k_in s_out s_in rnd (GStr nm) = inl o /\ finite_array (4 * n) (g_x0 o) x /\
  (forall r, (r < 4 * n)%nat -> starts_inside (decm_constraint n k_out k_in s_out s_in r) (x r)) /\
  (decm_dom n x <-> (nm <> "strengths"%string \/ ~ single_flow n s_out s_in)).
Proof. exact guess_decm_inside. Qed.
Print Assumptions C59_decm_inside.

Theorem C59_decm_exp_start :
  forall n k_out k_in s_out s_in rnd nm,
  In nm weighted_names ->
  nonneg n k_out -> nonneg n k_in -> nonneg n s_out -> nonneg n s_in -> draws rnd ->
  exists o t, set_initial_guess_decm_exp n k_out k_in s_out s_in rnd (GStr nm) = inl o /\ finite_array (4 * n) (g_x0 o) t /\
  (forall r, (r < 4 * n)%nat -> decm_constraint n k_out k_in s_out s_in r = 0 -> factor_vanishes (t r)) /\
  (nm = "uniform"%string -> forall r, (r < 4 * n)%nat -> decm_constraint n k_out k_in s_out s_in r <> 0 -> exp (- t r) = / 10) /\
  (nm <> "uniform"%string -> forall o' x, set_initial_guess_decm n k_out k_in s_out s_in rnd (GStr nm) = inl o' -> finite_array (4 * n) (g_x0 o') x ->
     forall r, (r < 4 * n)%nat -> decm_constraint n k_out k_in s_out s_in r <> 0 -> exp (- t r) = x r) /\
  (decm_exp_dom n t <-> (nm <> "strengths"%string \/ ~ single_flow n s_out s_in)).
Proof. exact guess_decm_exp_start. Qed.
Print Assumptions C59_decm_exp_start.

Example C59_directed_case :
  nonneg 3 (w_vec 1 1 0 0) /\ nonneg 3 (w_vec 0 0 2 0) /\ ~ single_flow 3 (w_vec 1 1 0 0) (w_vec 0 0 2 0) /\
  single_flow 2 (w_vec 1 0 0 0) (w_vec 0 1 0 0).
Proof. exact directed_case. Qed.

Theorem C59_decm_values :
  forall n k_out k_in s_out s_in rnd nm o i,
  nonneg n k_out -> nonneg n k_in -> nonneg n s_out -> nonneg n s_in ->
  set_initial_guess_decm n k_out k_in s_out s_in rnd (GStr nm) = inl o -> (i < n)%nat ->
  (k_out i <> 0 -> s_out i <> 0 -> exists a b, g_x0 o i = Fin a /\ g_x0 o (i + 2 * n)%nat = Fin b /\
     weighted_start (rsum n k_out) (rsum n s_out) (9 / 10) (rnd i) (rnd (i + 2 * n)%nat) nm (k_out i) (s_out i) a b) /\
  (k_in i <> 0 -> s_in i <> 0 -> exists a b, g_x0 o (i + n)%nat = Fin a /\ g_x0 o (i + 3 * n)%nat = Fin b /\
     weighted_start (rsum n k_out) (rsum n s_in) (9 / 10) (rnd (i + n)%nat) (rnd (i + 3 * n)%nat) nm (k_in i) (s_in i) a b).
Proof. exact guess_decm_values. Qed.
Print Assumptions C59_decm_values.

Theorem C59_crema_inside :
  forall n s rnd nm,
  In nm ["random"; "strengths"; "strengths_minor"]%string -> nonneg n s -> draws rnd ->
  exists o x, set_initial_guess_crema_undirected n s rnd (GStr nm) = inl o /\ finite_array n (g_x0 o) x /\
  forall i, (i < n)%nat -> starts_inside (s i) (x i).
Proof. exact guess_crema_inside. Qed.
Print Assumptions C59_crema_inside.

Theorem C59_crema_directed_inside :
  forall n s_out s_in rnd nm,
  In nm ["random"; "strengths"; "strengths_minor"]%string ->
  nonneg n s_out -> nonneg n s_in -> draws rnd ->
  exists o x, set_initial_guess_crema_directed n s_out s_in rnd (GStr nm) = inl o /\ finite_array (2 * n) (g_x0 o) x /\
  forall i, (i < n)%nat -> starts_inside (s_out i) (x i) /\ starts_inside (s_in i) (x (i + n)%nat).
Proof. exact guess_crema_directed_inside. Qed.
Print Assumptions C59_crema_directed_inside.

Theorem C59_crema_values :
  forall n s rnd o i,
  nonneg n s -> (i < n)%nat -> s i <> 0 ->
  (set_initial_guess_crema_undirected n s rnd (GStr "random") = inl o -> g_x0 o i = Fin (rnd i)) /\
  (set_initial_guess_crema_undirected n s rnd (GStr "strengths") = inl o -> exists b, g_x0 o i = Fin b /\ b * rsum n s = 1) /\
  (set_initial_guess_crema_undirected n s rnd (GStr "strengths_minor") = inl o -> exists b, g_x0 o i = Fin b /\ b * (s i + 1) = 1).
Proof. exact guess_crema_values. Qed.
Print Assumptions C59_crema_values.

Theorem C59_crema_directed_values :
  forall n s_out s_in rnd nm o i,
  (i < n)%nat ->
  set_initial_guess_crema_directed n s_out s_in rnd (GStr nm) = inl o ->
  exists o1 o2, set_initial_guess_crema_undirected n s_out rnd (GStr nm) = inl o1 /\
    set_initial_guess_crema_undirected n s_in (fun i => rnd (i + n)%nat) (GStr nm) = inl o2 /\
    g_x0 o i = g_x0 o1 i /\ g_x0 o (i + n)%nat = g_x0 o2 i.
Proof. exact guess_crema_directed_values. Qed.
Print Assumptions C59_crema_directed_values.

Theorem C59_crema_uniform_refuted :
  In "uniform"%string weighted_names /\
  (forall n s rnd, set_initial_guess_crema_undirected n s rnd (GStr "uniform") = inr ValueError) /\
  (forall n s_out s_in rnd, set_initial_guess_crema_directed n s_out s_in rnd (GStr "uniform") = inr ValueError).
Proof. exact guess_crema_uniform_refuted. Qed.
Print Assumptions C59_crema_uniform_refuted.

Theorem C59_crema_strengths_refuted :
  exists n s rnd o b, nonneg n s /\ draws rnd /\ s 0%nat < s 1%nat /\
  set_initial_guess_crema_undirected n s rnd (GStr "strengths") = inl o /\ g_x0 o 0%nat = Fin b /\ g_x0 o 1%nat = Fin b.
Proof. exact guess_crema_strengths_refuted. Qed.
Print Assumptions C59_crema_strengths_refuted.

(** Refused guesses. *)
Theorem C59_unknown_name :
  forall nm rnd,
  (~ In nm binary_names -> forall e dseq dout din,
     set_initial_guess_cm e dseq rnd (GStr nm) = inr ValueError /\
     set_initial_guess_dcm dout din rnd (GStr nm) = inr ValueError /\
     set_initial_guess_dcm_exp dout din rnd (GStr nm) = inr ValueError) /\
  (~ In nm weighted_names -> forall e n k s k_out k_in s_out s_in,
     set_initial_guess_ecm e n k s rnd (GStr nm) = inr ValueError /\
     set_initial_guess_decm n k_out k_in s_out s_in rnd (GStr nm) = inr ValueError /\
     set_initial_guess_decm_exp n k_out k_in s_out s_in rnd (GStr nm) = inr ValueError /\
     set_initial_guess_crema_undirected n s rnd (GStr nm) = inr ValueError /\
     set_initial_guess_crema_directed n s_out s_in rnd (GStr nm) = inr ValueError).
Proof. exact guess_unknown_name. Qed.
Print Assumptions C59_unknown_name.

Theorem C59_other_type :
  forall rnd e dseq dout din n k s k_out k_in s_out s_in,
  set_initial_guess_cm e dseq rnd GOther = inr TypeError /\
  set_initial_guess_dcm dout din rnd GOther = inr TypeError /\
  set_initial_guess_dcm_exp dout din rnd GOther = inr TypeError /\
  set_initial_guess_ecm e n k s rnd GOther = inr TypeError /\
  set_initial_guess_decm n k_out k_in s_out s_in rnd GOther = inr TypeError /\
  set_initial_guess_decm_exp n k_out k_in s_out s_in rnd GOther = inr TypeError /\
  set_initial_guess_crema_undirected n s rnd GOther = inr TypeError /\
  set_initial_guess_crema_directed n s_out s_in rnd GOther = inr TypeError.
Proof. exact guess_other_type. Qed.
Print Assumptions C59_other_type.

(** Arrays. *)
Theorem C59_binary_array_untouched :
  forall rnd m a o,
  (forall e dseq, set_initial_guess_cm e dseq rnd (GArr m a) = inl o -> g_user o = Some (fun r => Fin (a r))) /\
  (forall dout din, set_initial_guess_dcm dout din rnd (GArr m a) = inl o -> g_user o = Some (fun r => Fin (a r))) /\
  (forall dout din, set_initial_guess_dcm_exp dout din rnd (GArr m a) = inl o -> g_user o = Some (fun r => Fin (a r))).
Proof. exact guess_binary_array_untouched. Qed.
Print Assumptions C59_binary_array_untouched.

Example C59_array_case :
  (exists o, set_initial_guess_cm true w_dseq w_rnd (GArr 4 (w_vec 1 2 3 4)) = inl o) /\
  (exists o, set_initial_guess_dcm_exp w_dout w_din w_rnd (GArr 8 (fun _ => 1)) = inl o) /\
  ~ In "degree"%string binary_names /\ ~ In "degrees"%string weighted_names.
Proof. exact array_case. Qed.

Theorem C59_ecm_array :
  forall e n k s rnd a,
  exists o u, set_initial_guess_ecm e n k s rnd (GArr (2 * n) a) = inl o /\ g_user o = Some u /\
  (forall r, (r < 2 * n)%nat -> u r = g_x0 o r) /\
  forall i, (i < n)%nat ->
    g_x0 o i = Fin (if Req_EM_T (k i) 0 then 0 else a i) /\
    g_x0 o (i + n)%nat = Fin (if Req_EM_T (s i) 0 then 0 else a (i + n)%nat).
Proof. exact guess_ecm_array. Qed.
Print Assumptions C59_ecm_array.

Theorem C59_crema_array :
  forall n s rnd a,
  exists o u, set_initial_guess_crema_undirected n s rnd (GArr n a) = inl o /\ g_user o = Some u /\
  forall i, u i = g_x0 o i /\ g_x0 o i = Fin (if Req_EM_T (s i) 0 then 0 else a i).
Proof. exact guess_crema_array. Qed.
Print Assumptions C59_crema_array.

Theorem C59_crema_directed_array :
  forall n s_out s_in rnd a,
  exists o u, set_initial_guess_crema_directed n s_out s_in rnd (GArr (2 * n) a) = inl o /\ g_user o = Some u /\
  (forall r, u r = g_x0 o r) /\
  forall i, (i < n)%nat ->
    g_x0 o i = Fin (if Req_EM_T (s_out i) 0 then 0 else a i) /\
    g_x0 o (i + n)%nat = Fin (if Req_EM_T (s_in i) 0 then 0 else a (i + n)%nat).
Proof. exact guess_crema_directed_array. Qed.
Print Assumptions C59_crema_directed_array.

Theorem C59_decm_array :
  forall n k_out k_in s_out s_in rnd a,
  exists o u, set_initial_guess_decm n k_out k_in s_out s_in rnd (GArr (4 * n) a) = inl o /\ g_user o = Some u /\
  forall r, (r < 4 * n)%nat -> u r = g_x0 o r /\
    g_x0 o r = Fin (if Req_EM_T (decm_constraint n k_out k_in s_out s_in r) 0 then 0 else a r).
Proof. exact guess_decm_array. Qed.
Print Assumptions C59_decm_array.

Theorem C59_decm_array_untouched_iff :
  forall n k_out k_in s_out s_in rnd a o u,
  set_initial_guess_decm n k_out k_in s_out s_in rnd (GArr (4 * n) a) = inl o -> g_user o = Some u ->
  ((forall r, (r < 4 * n)%nat -> u r = Fin (a r)) <->
   (forall r, (r < 4 * n)%nat -> decm_constraint n k_out k_in s_out s_in r = 0 -> a r = 0)).
Proof. exact guess_decm_array_untouched_iff. Qed.
Print Assumptions C59_decm_array_untouched_iff.

Theorem C59_decm_exp_array :
  forall n k_out k_in s_out s_in rnd a,
  (forall r, (r < 4 * n)%nat -> 0 < a r) ->
  exists o u, set_initial_guess_decm_exp n k_out k_in s_out s_in rnd (GArr (4 * n) a) = inl o /\ g_user o = Some u /\
  forall r, (r < 4 * n)%nat -> u r = g_x0 o r /\
    g_x0 o r = Fin (if Req_EM_T (decm_constraint n k_out k_in s_out s_in r) 0 then 1000 else - ln (a r)).
Proof. exact guess_decm_exp_array. Qed.
Print Assumptions C59_decm_exp_array.

Theorem C59_array_modified_refuted :
  (exists n k s rnd a o u, forall e, set_initial_guess_ecm e n k s rnd (GArr (2 * n) a) = inl o /\ g_user o = Some u /\ exists r, (r < 2 * n)%nat /\ u r <> Fin (a r)) /\
  (exists n s rnd a o u, set_initial_guess_crema_undirected n s rnd (GArr n a) = inl o /\ g_user o = Some u /\ exists r, (r < n)%nat /\ u r <> Fin (a r)) /\
  (exists n s_out s_in rnd a o u, set_initial_guess_crema_directed n s_out s_in rnd (GArr (2 * n) a) = inl o /\ g_user o = Some u /\ exists r, (r < 2 * n)%nat /\ u r <> Fin (a r)) /\
  (exists n k_out k_in s_out s_in rnd a o u, set_initial_guess_decm n k_out k_in s_out s_in rnd (GArr (4 * n) a) = inl o /\ g_user o = Some u /\ exists r, (r < 4 * n)%nat /\ u r <> Fin (a r)).
Proof. exact guess_array_modified_refuted. Qed.
Print Assumptions C59_array_modified_refuted.

Theorem C59_decm_exp_array_changed_refuted :
  exists n k_out k_in s_out s_in rnd a o u o' a',
  set_initial_guess_decm_exp n k_out k_in s_out s_in rnd (GArr (4 * n) a) = inl o /\
  g_user o = Some u /\ finite_array (4 * n) u a' /\
  (forall r, (r < 4 * n)%nat -> a' r <> a r) /\
  set_initial_guess_decm_exp n k_out k_in s_out s_in rnd (GArr (4 * n) a') = inl o' /\
  (forall r, (r < 4 * n)%nat -> g_x0 o' r <> g_x0 o r).
Proof. exact guess_decm_exp_array_changed_refuted. Qed.
Print Assumptions C59_decm_exp_array_changed_refuted.

Theorem C59_array_meaning :
  forall rnd m a,
  (forall dseq o v q, set_initial_guess_cm true dseq rnd (GArr m a) = inl o ->
     let '(r_dseq, r_index, r_invert, _) := degree_reduction_und dseq in
     nth_error r_index q = Some v -> nth q r_dseq O <> O -> g_x0 o q = Fin (a v)) /\
  (forall dout din o v q, set_initial_guess_dcm_exp dout din rnd (GArr m a) = inl o ->
     let r := degree_reduction_dir dout din in
     nth_error (r_index_dseq r) q = Some v -> (q < rnz_n_out r)%nat -> nth q (rnz_dseq_out r) O <> O -> 0 < a v -> g_x0 o q = Fin (- ln (a v))).
Proof. exact guess_array_meaning. Qed.
Print Assumptions C59_array_meaning.

(** Documented meanings that do not hold. *)
Theorem C59_random_zero_refuted :
  exists dseq rnd o, (forall i, 0 <= rnd i < 1) /\
  set_initial_guess_cm false dseq rnd (GStr "random") = inl o /\
  exists v d q, nth_error dseq v = Some d /\ d <> O /\
    nth_error (snd (fst (degree_reduction_und dseq))) v = Some q /\ g_x0 o q = Fin 0.
Proof. exact guess_random_zero_refuted. Qed.
Print Assumptions C59_random_zero_refuted.

Theorem C59_degrees_minor_refuted :
  exists dseq rnd o x y, 
  set_initial_guess_cm false dseq rnd (GStr "degrees_minor") = inl o /\
  fst (fst (fst (degree_reduction_und dseq))) = [1%nat; 2%nat] /\
  g_x0 o 0%nat = Fin x /\ g_x0 o 1%nat = Fin y /\ x < y.
Proof. exact guess_degrees_minor_increasing_refuted. Qed.
Print Assumptions C59_degrees_minor_refuted.

Theorem C59_chung_lu_refuted :
  forall dseq rnd o v w d d' q q' x x',
  set_initial_guess_cm false dseq rnd (GStr "chung_lu") = inl o ->
  nth_error dseq v = Some d -> d <> O -> nth_error (snd (fst (degree_reduction_und dseq))) v = Some q -> g_x0 o q = Fin x ->
  nth_error dseq w = Some d' -> d' <> O -> nth_error (snd (fst (degree_reduction_und dseq))) w = Some q' -> g_x0 o q' = Fin x' ->
  x * x' * volume dseq = INR d * INR d' / volume dseq /\ (volume dseq <> 1 -> x * x' <> INR d * INR d' / volume dseq).
Proof. exact guess_chung_lu_refuted. Qed.
Print Assumptions C59_chung_lu_refuted.

Theorem C59_uniform_probability :
  forall dseq rnd o v w d d' q q' x x',
  set_initial_guess_cm false dseq rnd (GStr "uniform") = inl o ->
  nth_error dseq v = Some d -> d <> O -> nth_error (snd (fst (degree_reduction_und dseq))) v = Some q -> g_x0 o q = Fin x ->
  nth_error dseq w = Some d' -> d' <> O -> nth_error (snd (fst (degree_reduction_und dseq))) w = Some q' -> g_x0 o q' = Fin x' ->
  x * x' / (1 + x * x') = / 5.
Proof. exact guess_uniform_probability. Qed.
Print Assumptions C59_uniform_probability.
