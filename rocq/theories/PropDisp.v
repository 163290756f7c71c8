(** C68-C71: Python expressions, operator dispatch, truth values, [repr]. *)
From Coq Require Import ZArith List Bool String Reals Lra Lia.
From Verif Require Import Outcome Scalar Model Spec RealOps ExprSpec ProgSpec ModelS SpecS ModelPy Samples ModelDisp DispSpec FactsDisp.
Import ListNotations.
Open Scope string_scope.
Open Scope R_scope.

(** C68.  [py_real e]: the function written down; [py_dom e p]: well-typed and smooth at [p]; [mentions e]:
    a name occurs. *)
Theorem C68_python_expressions_exact : forall (dbg : bool) (order : Z) (n : nat) (e : pysrc R) (p : nat -> R),
  (order = 1 \/ order = 2)%Z -> (Z.of_nat (storage_len order n) <= max_len)%Z -> names_below n e -> py_dom e p ->
  exists rs, py_variables Rops dbg (coords n p) order = Ok rs /\
    if mentions e
    then exists c r, c_ord c = order /\ py_eval Rops (map of_obj rs) e = POk (VNum c r) /\ wf c n r /\ get_f r = Ok (py_real e p) /\
      (forall i, (i < n)%nat -> exists g, get_g c r (Z.of_nat i) = Ok g /\ partial (py_real e) i p g) /\
      (order = 2%Z -> forall i j, (i < n)%nat -> (j < n)%nat ->
         exists h, get_h c r (Z.of_nat i) (Z.of_nat j) = Ok h /\ partial2 (py_real e) i j p h)
    else py_eval Rops (map of_obj rs) e = POk (VFloat (py_real e p)).
Proof. exact py_expression. Qed.
Print Assumptions C68_python_expressions_exact.
Theorem C68_sparse_expressions_exact : forall (n : nat) (nm : nat -> string) (e : pysrc R) (p : nat -> R),
  distinct n nm -> names_below n e -> py_dom e p ->
  let env := map (fun i => VSparse (s_variable Rops (nm i) (p i))) (seq 0 n) in
  if mentions e
  then exists r, py_eval Rops env e = POk (VSparse r) /\ s_get_f r = py_real e p /\
    (forall i, (i < n)%nat -> partial (py_real e) i p (s_get_d Rops r (nm i)))
  else py_eval Rops env e = POk (VFloat (py_real e p)).
Proof. exact py_expression_sparse. Qed.
Print Assumptions C68_sparse_expressions_exact.
(** Any scalar type: [lower] is the library expression the source amounts to, so that all theorems about
    expressions apply; exceptions and undefined behaviour included. *)
Theorem C68_lowering : forall (S : Type) (O : Ops S) (c : cfg) (n : nat) (xs : list (dd S)) (e : pysrc S),
  names_below (List.length xs) e ->
  (forall s, lower O e = Some (LFloat s) -> py_eval O (map (VNum c) xs) e = POk (VFloat s)) /\
  (forall l, lower O e = Some (LExpr l) -> vars_below (List.length xs) l /\
     py_eval O (map (VNum c) xs) e = match run O c n xs l with
       | Ok r => POk (VNum c r) | Throw x => PRaise (ELib x) | Abort => PAbort | UB => PWild end).
Proof. exact @lower_eval'. Qed.
Print Assumptions C68_lowering.
(** 2 * x ** 2 / (1 - y.log(10)) + x.arctan2(y) at x = 3, y = 5; a float expression; the source of -(2**-1). *)
Definition psample : pysrc R :=
  SBin Aadd (SBin Adiv (SBin Amul (SLit 2) (SPow (SName 0) (SLit 2))) (SBin Asub (SLit 1) (SCall1 "log" (SName 1) (SLit 10))))
    (SCall1 "arctan2" (SName 0) (SName 1)).
Example C68_case : names_below 2 psample /\ mentions psample = true /\
  py_dom psample (fun i => match i with O => 3 | _ => 5 end) /\
  py_dom (SNeg (SPow (SLit 2) (SLit (-1)))) (fun _ => 0) /\ mentions (SNeg (SPow (SLit 2) (SLit (-1)))) = false /\
  (exists r, py_eval Zops [VNum dyn1 (mk 1 (full [3; 1]%Z))] (SBin Asub (SBin Amul (SLit 2%Z) (SName 0)) (SName 0)) = POk (VNum dyn1 r) /\
     m_data r = full [3; 1]%Z).
Proof.
  split; [cbn; repeat split; lia|]. split; [reflexivity|]. split; [|split; [|split; [reflexivity|eexists; split; reflexivity]]].
  - cbn. unfold assoc; cbn. repeat split; try lra; try exact I.
    assert (L : ln 5 < ln 10) by (apply ln_increasing; lra). assert (P : 0 < ln 10) by (rewrite <- ln_1; apply ln_increasing; lra).
    intros E. assert (ln 5 / ln 10 = 1) by lra. apply (f_equal (fun t => t * ln 10)) in H. unfold Rdiv in H.
    rewrite Rmult_assoc, Rinv_l in H by lra. lra.
  - cbn. repeat split; try exact I. left. lra.
Qed.

(** C69.  [alike]: numbers of one class, or a float on either side. *)
Theorem C69_other_operands_rejected : forall (S : Type) (O : Ops S) (a b : pval S),
  ~ alike a b -> forall o : aop, py_op O o a b = PRaise EType.
Proof. exact (fun S O a b N o => op_rejects O o a b N). Qed.
Print Assumptions C69_other_operands_rejected.
Theorem C69_other_comparisons : forall (S : Type) (O : Ops S) (a b : pval S), ~ alike a b ->
  py_cmp O Ceq a b = POk false /\ py_cmp O Cne a b = POk true /\
  forall o, o = Clt \/ o = Cgt \/ o = Cle \/ o = Cge -> py_cmp O o a b = PRaise EType.
Proof. exact @cmp_rejects'. Qed.
Print Assumptions C69_other_comparisons.
(** The exponent must be a float, whatever the base. *)
Theorem C69_number_exponents_rejected : forall (S : Type) (O : Ops S) (a b : pval S),
  ~ is_float b -> py_pow O a b = PRaise EType.
Proof. exact @pow_rejects. Qed.
Print Assumptions C69_number_exponents_rejected.
(** A float on the left of a comparison: Python asks the number for the mirrored comparison; the answer is
    the comparison of the float with the value. *)
Theorem C69_float_on_the_left : forall (S : Type) (O : Ops S) (o : cmp) (c : cfg) (x : dd S) (y : ss S) (s v : S),
  (forall a b, o_eq O a b = o_eq O b a) -> get_f x = Ok v ->
  py_cmp O o (VFloat s) (VNum c x) = POk (scmp O o s v) /\ py_cmp O o (VFloat s) (VSparse y) = POk (scmp O o s (s_get_f y)).
Proof. exact @mirror_values. Qed.
Print Assumptions C69_float_on_the_left.
(** Full statement: the module function [hj.hypot] computes what the method computes, for all classes;
    it is not bound for [SScalar]. *)
Theorem C69_module_hypot_partial : forall (S : Type) (O : Ops S) (c : cfg) (x : dd S) (a d : pval S),
  py_hypot O (VNum c x) a = py_call1 O "hypot" (VNum c x) a /\ py_hypot3 O (VNum c x) a d = py_call2 O "hypot" (VNum c x) a d.
Proof. exact @module_hypot. Qed.
Print Assumptions C69_module_hypot_partial.
Theorem C69_module_hypot_refuted : ~ (forall (x y : ss Z), keys_ok x -> keys_ok y ->
  py_hypot Zops (VSparse x) (VSparse y) = py_call1 Zops "hypot" (VSparse x) (VSparse y)).
Proof. exact module_hypot_witness. Qed.
Print Assumptions C69_module_hypot_refuted.
Definition one1 : dd Z := mk 1 (full [1; 1]%Z).
Example C69_case :
  py_op Zops Amul (VNum dyn1 one1) (VNum (sta1 1) one1) = PRaise EType /\ ~ alike (VNum dyn1 one1) (VNum (sta1 1) one1) /\
  py_cmp Zops Ceq (VNum dyn1 one1) (VNum (sta1 1) one1) = POk false /\   (* the same value and derivative *)
  py_cmp Zops Ceq (VNum dyn1 one1) (VNum dyn1 one1) = POk true /\
  py_cmp Zops Clt (VNum dyn1 one1) (VSparse (s_constant 2%Z)) = PRaise EType /\
  py_cmp Zops Clt (VFloat 0%Z) (VNum dyn1 one1) = POk true /\
  py_pow Zops (VFloat 2%Z) (VNum dyn1 one1) = PRaise EType /\ py_pow Zops (VNum dyn1 one1) (VNum dyn1 one1) = PRaise EType /\
  py_call1 Zops "hypot" (VNum dyn1 one1) (VFloat 2%Z) = PRaise EType /\ py_call0 Zops "pow" (VNum dyn1 one1) = PRaise EAttribute.
Proof. repeat split; try (vm_compute; reflexivity). intros (_ & H). discriminate H. Qed.

(** C70.  Full statement: [bool(x)] says whether the value is non-zero, as for floats; [len] never raises. *)
Theorem C70_truth_of_dense_refuted : ~ (forall (c : cfg) (n : nat) (x : dd Z) (v : Z), cfg_ok c -> wf c n x -> get_f x = Ok v ->
  py_truth Zops (VNum c x) = POk (negb (v =? 0)%Z)).
Proof. exact truth_witness. Qed.
Print Assumptions C70_truth_of_dense_refuted.
Theorem C70_truth_of_sparse_refuted : ~ (forall y : ss Z, keys_ok y -> py_truth Zops (VSparse y) = POk (negb (s_get_f y =? 0)%Z)).
Proof. exact truth_sparse_witness. Qed.
Print Assumptions C70_truth_of_sparse_refuted.
(** What it says instead. *)
Theorem C70_truth_is_size : forall (S : Type) (O : Ops S) (c : cfg) (n : nat) (x : dd S), wf c n x ->
  py_truth O (VNum c x) = POk (negb (Nat.eqb n 0)) /\ py_len (VNum c x) = POk (Z.of_nat n).
Proof. exact @truth_dense. Qed.
Print Assumptions C70_truth_is_size.
Theorem C70_truth_is_having_names : forall (S : Type) (O : Ops S) (y : ss S),
  py_truth O (VSparse y) = POk (match names y with [] => false | _ => true end) /\
  py_len (VSparse y) = POk (Z.of_nat (List.length (names y))).
Proof. exact @truth_sparse. Qed.
Print Assumptions C70_truth_is_having_names.
Theorem C70_truth_raises : forall (S : Type) (O : Ops S) (c : cfg) (x : dd S), (size c x < 0)%Z ->
  py_truth O (VNum c x) = PRaise EValue /\ py_len (VNum c x) = PRaise EValue.
Proof. exact @truth_malformed. Qed.
Print Assumptions C70_truth_raises.
(** A variable at 0 is true, the sparse constant 5 false; [DDScalar([])] (C06) has no truth value. *)
Example C70_case : py_truth Zops (VNum dyn1 (mk 1 (full [0; 1]%Z))) = POk true /\
  py_truth Zops (VSparse (s_constant 5%Z)) = POk false /\ py_truth Zops (VFloat 0%Z) = POk false /\
  create dyn1 [] = Ok (mk (S := Z) (-1) []) /\ py_truth Zops (VNum dyn1 (mk (-1) [])) = PRaise EValue.
Proof. run_case. Qed.

(** C71.  [fmt]: what a C++ stream writes for a scalar.  Full statement: equal numbers have equal [repr];
    false for sparse numbers, whose tables are written in iteration order. *)
Theorem C71_dense_repr : forall (S : Type) (fmt : S -> string) (c : cfg) (n : nat) (x : dd S) f g h,
  shows c n x f g h -> dd_repr fmt x = Ok (fmt f ++ "hj").
Proof. exact @dense_repr. Qed.
Print Assumptions C71_dense_repr.
Theorem C71_sparse_repr_partial : forall (S : Type) (O : Ops S) (fmt : S -> string) (y : ss S),
  ss_repr O fmt y = fmt (s_f y) ++ String.concat "" (map (fun e =>
    " " ++ (if o_lt O (snd e) (o_Z O 0) then "" else "+") ++ fmt (snd e) ++ "*d" ++ fst e) (s_d y)).
Proof. exact @sparse_repr. Qed.
Print Assumptions C71_sparse_repr_partial.
Theorem C71_sparse_repr_refuted : ~ (forall (S : Type) (O : Ops S) (fmt : S -> string) (y y' : ss S), keys_ok y -> reorders y y' ->
  ss_repr O fmt y = ss_repr O fmt y').
Proof. exact repr_order_witness. Qed.
Print Assumptions C71_sparse_repr_refuted.
Definition fmtz (z : Z) : string := if (z <? 0)%Z then "-1" else if (z =? 3)%Z then "3" else "2".
Example C71_case : dd_repr fmtz (mk 1 (full [3; 2]%Z)) = Ok "3hj" /\
  ss_repr Zops fmtz (mks 3%Z [("x", (-1)%Z); ("y", 2%Z)]) = "3 -1*dx +2*dy".
Proof. run_case. Qed.
