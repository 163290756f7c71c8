(** C90: sparse numbers with only some of their names. *)
From Coq Require Import ZArith List Bool String Permutation.
From Flocq Require Import BinarySingleNaN.
From Verif Require Import Outcome Scalar Float64 Model ExprSpec ProgSpec Ops64 RangeSpec ModelS ModelObj ModelObjS SpecS OnlySpec FactsOnly Samples.
Import ListNotations.
Open Scope list_scope.

(** Whatever the iteration orders of the hash tables are, with all the names and with the names in [p] only. *)
Theorem C90_expressions : forall (S : Type) (O : Ops S) (p : string -> bool) (env : nat -> ss S) (e : expr S) (x y : ss S),
  (forall i, keys_ok (env i)) -> s_runs O env e x -> s_runs O (fun i => only p (env i)) e y -> only_reads O p x y.
Proof. exact @expressions_only. Qed.
Print Assumptions C90_expressions.
Theorem C90_programs : forall (S : Type) (O : Ops S) (p : string -> bool) (s : stmt S) (st st1 st1' : list (ss S)),
  List.Forall keys_ok st -> s_execs O s st st1 -> s_execs O s (map (only p) st) st1' -> Forall2 (only_reads O p) st1 st1'.
Proof. exact @programs_only. Qed.
Print Assumptions C90_programs.
(** With the same orders the run itself is the same: same outcome, same tables entry by entry. *)
Theorem C90_expression_run : forall (S : Type) (O : Ops S) (p : string -> bool) (env : nat -> ss S) (e : expr S),
  s_run O (fun i => only p (env i)) e = only p (s_run O env e).
Proof. exact @run_only. Qed.
Print Assumptions C90_expression_run.
Theorem C90_program_run : forall (S : Type) (O : Ops S) (p : string -> bool) (fuel : nat) (s : stmt S) (st : list (ss S)),
  s_exec O fuel s (map (only p) st) = only_result p (s_exec O fuel s st).
Proof. exact @exec_only. Qed.
Print Assumptions C90_program_run.
(** A Python session in which the variables with other names are created as constants. *)
Theorem C90_sessions : forall (S : Type) (O : Ops S) (p : string -> bool) (w : list (zstmt S)),
  zsession O (map (zonly p) w) zstart = zonly_heap p (zsession O w zstart).
Proof. exact @session_only. Qed.
Print Assumptions C90_sessions.
(** The derivative by [k] depends on the operands' values and their derivatives by [k] only. *)
Theorem C90_one_name : forall (S : Type) (O : Ops S) (k : string) (env env' : nat -> ss S) (e : expr S) (x y : ss S),
  (forall i, keys_ok (env i)) -> (forall i, keys_ok (env' i)) -> (forall i, occurs i e -> same_at O k (env i) (env' i)) ->
  s_runs O env e x -> s_runs O env' e y -> same_at O k x y.
Proof. exact @expressions_local. Qed.
Print Assumptions C90_one_name.
Theorem C90_one_name_programs : forall (S : Type) (O : Ops S) (k : string) (s : stmt S) (st st' st1 st1' : list (ss S)),
  List.Forall keys_ok st -> List.Forall keys_ok st' -> Forall2 (same_at O k) st st' ->
  s_execs O s st st1 -> s_execs O s st' st1' -> Forall2 (same_at O k) st1 st1'.
Proof. exact @programs_local. Qed.
Print Assumptions C90_one_name_programs.

(** (u + v) * u with and without the name "v"; a program that multiplies in place; a session. *)
Definition not_v (k : string) : bool := negb (String.eqb k "v").
Definition eu : nat -> ss Z := fun i => match i with O => mks 3%Z [("u"%string, 1%Z)] | _ => mks 5%Z [("v"%string, 1%Z); ("u"%string, 7%Z)] end.
Definition sum_times : expr Z := EB Bmul (EB Badd (EVar 0) (EVar 1)) (EVar 0).
Example C90_case : s_run Zops eu sum_times = mks 24%Z [("u", 32); ("v", 3)]%string%Z /\
  s_run Zops (fun i => only not_v (eu i)) sum_times = mks 24%Z [("u", 32)]%string%Z /\
  only not_v (eu 1) = mks 5%Z [("u", 7)]%string%Z.
Proof. repeat split. Qed.
Example C90_case_program : s_exec Zops 5 (PSeq (PAsg Amul 0 1) (PAsg Aadd 0 0)) (map (only not_v) [eu 0; eu 1]) =
  Some (Ok [mks 30 [("u", 52)]; mks 5 [("u", 7)]])%string%Z.
Proof. reflexivity. Qed.
Example C90_case_session : map (zonly not_v) [ZVar 0 "u" 3; ZVar 1 "v" 5; ZAsg Amul 0 1]%string%Z = [ZVar 0 "u" 3; ZConst 1 5; ZAsg Amul 0 1]%string%Z /\
  zget (zsession Zops [ZVar 0 "u" 3; ZConst 1 5; ZAsg Amul 0 1]%string%Z zstart) 0 = Some (0%nat, mks 15 [("u", 5)])%string%Z.
Proof. split; reflexivity. Qed.
Example C90_case_one_name : same_at Zops "u" (eu 1) (mks 5 [("u", 7); ("w", 9)])%string%Z.
Proof. repeat split; cbn; tauto. Qed.
(** On doubles a derivative 0 that is stored is not the same as one that is not: times infinity the one is NaN, the other 0. *)
Example C90_case_stored_zero : forall M : libm,
  let inf := B754_infinity false in let z := b64_of_Z 0 in
  let mul d := s_get_d (b64ops M) (s_mul (b64ops M) (mks (b64_of_Z 1) d) (mks inf [])) "u" in
  s_get_d (b64ops M) (mks (b64_of_Z 1) [("u"%string, z)]) "u" = s_get_d (b64ops M) (mks (b64_of_Z 1) []) "u" /\
  nan64 (mul [("u"%string, z)]) /\ mul [] = z.
Proof. repeat split. Qed.
