(** C119: the values inside dense numbers of sparse numbers. *)
From Coq Require Import ZArith List Bool Reals String.
From Verif Require Import Outcome Scalar Model ModelBuf ModelObj Spec RealOps ExprSpec ProgSpec NumSpec ParamSpec ModelS Float64 Ops64 NestTSpec NestVSpec Samples FactsNestX.
Import ListNotations.

(** C119.  Full statement: with sparse scalars, a program computes the same values (and fails in the same way) as with plain scalars.
    True for every scalar type once quotients are formed with the reciprocal, as the sparse class does ... *)
Theorem C119_programs_partial : forall (S : Type) (O : Ops S) (c : cfg) (n fuel : nat) (s : stmt (ss S)) (s' : stmt S) (st : list (dd (ss S))) (st' : list (dd S)),
  stmt_rel sees s s' -> Forall2 (num_rel sees) st st' ->
  run_rel (Forall2 (num_rel sees)) (exec (sops O) c n fuel s st) (exec (by_reciprocal O) c n fuel s' st').
Proof. exact @values_programs. Qed.
Print Assumptions C119_programs_partial.
Theorem C119_sessions_partial : forall (S : Type) (O : Ops S) (c : cfg) (slack : nat -> nat) (p : list (pstmt (ss S))) (p' : list (pstmt S)),
  Forall2 (pstmt_rel sees) p p' -> forall (st : heap (ss S)) (st' : heap S), heap_rel sees st st' ->
  res_rel (heap_rel sees) (session (sops O) c slack p st) (session (by_reciprocal O) c slack p' st').
Proof. exact @values_sessions. Qed.
Print Assumptions C119_sessions_partial.
(** ... hence for exact reals as it stands ... *)
Theorem C119_real_programs : forall (c : cfg) (n fuel : nat) (s : stmt (ss R)) (s' : stmt R) (st : list (dd (ss R))) (st' : list (dd R)),
  stmt_rel sees s s' -> Forall2 (num_rel sees) st st' ->
  run_rel (Forall2 (num_rel sees)) (exec (sops Rops) c n fuel s st) (exec Rops c n fuel s' st').
Proof. exact values_real. Qed.
Print Assumptions C119_real_programs.
(** ... but not for doubles: in atan2(1, 3) the derivative 3 / 10 is computed as 3 * (1 / 10). *)
Theorem C119_same_bits_refuted : forall M : libm,
  ~ (forall (c : cfg) (n : nat) (e : expr (ss b64)) (e' : expr b64) (env : list (dd (ss b64))) (env' : list (dd b64)),
     expr_rel sees e e' -> Forall2 (num_rel sees) env env' ->
     res_rel (num_rel sees) (run (sops (b64ops M)) c n env e) (run (b64ops M) c n env' e')).
Proof. exact same_bits. Qed.
Print Assumptions C119_same_bits_refuted.
(** Integers: y *= x. *)
Example C119_product : Forall2 (num_rel sees) st_s st_v /\
  exec (sops Zops) dyn1 1 5 (PAsg Amul 1 0) st_s =
    Some (Ok [mk 1 [Some (mks 2 [("a"%string, 1)]); Some (mks 1 [])]; mk 1 [Some (mks 6 [("b"%string, 2); ("a"%string, 3)]); Some (mks 5 [("a"%string, 1); ("b"%string, 1)])]])%Z /\
  exec (by_reciprocal Zops) dyn1 1 5 (PAsg Amul 1 0) st_v = Some (Ok [mk 1 [Some 2; Some 1]; mk 1 [Some 6; Some 5]])%Z.
Proof. exact product_values. Qed.
