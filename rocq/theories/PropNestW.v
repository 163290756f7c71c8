(** C120: the values inside nested numbers. *)
From Coq Require Import ZArith List Bool Reals String.
From Verif Require Import Outcome Scalar Model ModelBuf ModelObj Spec RealOps ExprSpec ProgSpec NumSpec ParamSpec ModelS Float64 Ops64 NestSpec NestTSpec NestVSpec Samples FactsNestX FactsNestY.
From Verif Require ParSSpec SpecS.
Import ListNotations.

(** C120.  Full statement: whatever is nested inside, the values are those computed with plain scalars.  Dense numbers inside dense
    numbers, programs; the division is that by the reciprocal (hyperjet.h 1181-1206) ... *)
Theorem C120_dense_programs_partial : forall (S : Type) (O : Ops S) (c0 : cfg) (n0 : nat), inner n0 c0 ->
  forall (c : cfg) (n fuel : nat) (s : stmt (dd S)) (s' : stmt S) (st : list (dd (dd S))) (st' : list (dd S)),
  stmt_rel (carries c0 n0) s s' -> Forall2 (num_rel (carries c0 n0)) st st' ->
  run_rel (Forall2 (num_rel (carries c0 n0))) (exec (dops O c0) c n fuel s st) (exec (by_reciprocal O) c n fuel s' st').
Proof. exact @nested_values. Qed.
Print Assumptions C120_dense_programs_partial.
Theorem C120_dense_sessions_partial : forall (S : Type) (O : Ops S) (c0 : cfg) (n0 : nat), inner n0 c0 ->
  forall (c : cfg) (slack : nat -> nat) (p : list (pstmt (dd S))) (p' : list (pstmt S)), Forall2 (pstmt_rel (carries c0 n0)) p p' ->
  forall (st : heap (dd S)) (st' : heap S), heap_rel (carries c0 n0) st st' ->
  res_rel (heap_rel (carries c0 n0)) (session (dops O c0) c slack p st) (session (by_reciprocal O) c slack p' st').
Proof. exact @nested_sessions. Qed.
Print Assumptions C120_dense_sessions_partial.
(** ... and for exact reals any division. *)
Theorem C120_real_programs : forall (c0 : cfg) (n0 : nat), inner n0 c0 ->
  forall (c : cfg) (n fuel : nat) (s : stmt (dd R)) (s' : stmt R) (st : list (dd (dd R))) (st' : list (dd R)),
  stmt_rel (carries c0 n0) s s' -> Forall2 (num_rel (carries c0 n0)) st st' ->
  run_rel (Forall2 (num_rel (carries c0 n0))) (exec (dops Rops c0) c n fuel s st) (exec Rops c n fuel s' st').
Proof. exact nested_real. Qed.
Print Assumptions C120_real_programs.
(** Dense numbers nested to any depth, with any sizes and orders. *)
Theorem C120_any_depth : forall cs : list cfg, Forall (fun c => inner (nsize c) c) cs ->
  forall (c : cfg) (n fuel : nat) (s : stmt (nest cs)) (s' : stmt R) (st : list (dd (nest cs))) (st' : list (dd R)),
  stmt_rel (bottom cs) s s' -> Forall2 (num_rel (bottom cs)) st st' ->
  run_rel (Forall2 (num_rel (bottom cs))) (exec (nops cs) c n fuel s st) (exec Rops c n fuel s' st').
Proof. exact deep_values. Qed.
Print Assumptions C120_any_depth.
Example C120_depth_three : Forall (fun c => inner (nsize c) c) [sta1 1; sta1 1] /\
  Forall2 (num_rel (bottom [sta1 1; sta1 1])) [mk 1 [Some (deep 3 5); Some (deep 7 2)]] [mk 1 [Some 3%R; Some 7%R]].
Proof. exact deep_case. Qed.
(** Sparse numbers inside sparse numbers, expressions: the values and the names. *)
Theorem C120_sparse_expressions_partial : forall (S : Type) (O : Ops S) (env : nat -> ss (ss S)) (env' : nat -> ss S),
  (forall i, ParSSpec.sparse_rel sees (env i) (env' i)) -> forall (e : expr (ss S)) (e' : expr S), expr_rel sees e e' ->
  ParSSpec.sparse_rel sees (SpecS.s_run (sops O) env e) (SpecS.s_run (by_reciprocal O) env' e').
Proof. exact @twice_values. Qed.
Print Assumptions C120_sparse_expressions_partial.
(** Whatever orders the outer tables are iterated in. *)
Theorem C120_sparse_any_order_partial : forall (S : Type) (O : Ops S) (env : nat -> ss (ss S)) (env' : nat -> ss S),
  (forall i, ParSSpec.sparse_rel sees (env i) (env' i)) -> forall (e : expr (ss S)) (x : ss (ss S)), SpecS.s_runs (sops O) env e x ->
  forall e' : expr S, expr_rel sees e e' -> exists x', SpecS.s_runs (by_reciprocal O) env' e' x' /\ ParSSpec.sparse_rel sees x x'.
Proof. exact @twice_any_order. Qed.
Print Assumptions C120_sparse_any_order_partial.
Theorem C120_real_sparse_expressions : forall (env : nat -> ss (ss R)) (env' : nat -> ss R),
  (forall i, ParSSpec.sparse_rel sees (env i) (env' i)) -> forall (e : expr (ss R)) (e' : expr R), expr_rel sees e e' ->
  ParSSpec.sparse_rel sees (SpecS.s_run (sops Rops) env e) (SpecS.s_run Rops env' e').
Proof. exact twice_real. Qed.
Print Assumptions C120_real_sparse_expressions.
(** Programs, for exact reals: the in-place division of the inner numbers (2308-2324) has the value of their quotient. *)
Theorem C120_real_sparse_programs : forall (fuel : nat) (s : stmt (ss R)) (s' : stmt R) (st : list (ss (ss R))) (st' : list (ss R)),
  stmt_rel sees s s' -> Forall2 (ParSSpec.sparse_rel sees) st st' ->
  run_rel (Forall2 (ParSSpec.sparse_rel sees)) (SpecS.s_exec (sops Rops) fuel s st) (SpecS.s_exec Rops fuel s' st').
Proof. exact twice_programs. Qed.
Print Assumptions C120_real_sparse_programs.
(** With their own division doubles differ: in atan2(1, 3) the derivative 3 / 10 is computed as 3 * (1 / 10). *)
Theorem C120_same_bits_refuted : forall M : libm,
  ~ (forall (c0 : cfg) (n0 : nat), inner n0 c0 ->
     forall (c : cfg) (n : nat) (e : expr (dd b64)) (e' : expr b64) (env : list (dd (dd b64))) (env' : list (dd b64)),
     expr_rel (carries c0 n0) e e' -> Forall2 (num_rel (carries c0 n0)) env env' ->
     res_rel (num_rel (carries c0 n0)) (run (dops (b64ops M) c0) c n env e) (run (b64ops M) c n env' e')).
Proof. exact same_bits_n. Qed.
Print Assumptions C120_same_bits_refuted.
(** Integers: y *= x. *)
Example C120_product : inner 1 (sta1 1) /\ Forall2 (num_rel (carries (sta1 1) 1)) st_n st_v /\
  exec (dops Zops (sta1 1)) dyn1 1 5 (PAsg Amul 1 0) st_n =
    Some (Ok [mk 1 [Some (mk 1 [Some 2; Some 1]); Some (mk 1 [Some 1; Some 0])]; mk 1 [Some (mk 1 [Some 6; Some 17]); Some (mk 1 [Some 5; Some 8])]])%Z /\
  exec (by_reciprocal Zops) dyn1 1 5 (PAsg Amul 1 0) st_v = Some (Ok [mk 1 [Some 2; Some 1]; mk 1 [Some 6; Some 5]])%Z.
Proof. exact product_nested. Qed.
(** x * x with x a variable at both levels: 9, 6 and 2 inside; 9 and 6 outside. *)
Example C120_square : (forall i, ParSSpec.sparse_rel sees (env_t i) (env_p i)) /\
  SpecS.s_run (sops Zops) env_t (EB Bmul (EVar 0) (EVar 0)) = mks (mks 9 [("x"%string, 6)]) [("x"%string, mks 6 [("x"%string, 2)])]%Z /\
  SpecS.s_run (by_reciprocal Zops) env_p (EB Bmul (EVar 0) (EVar 0)) = mks 9 [("x"%string, 6)]%Z.
Proof. exact square_nested. Qed.
