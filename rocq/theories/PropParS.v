(** C91: sparse numbers depend on the scalar type only through its operations. *)
From Coq Require Import ZArith List Bool String Reals Lra Lia.
From Verif Require Import Outcome Scalar Model ModelObj Spec RealOps ExprSpec ProgSpec ParamSpec ModelS ModelObjS SpecS ParSSpec FactsEncl FactsParS.
Import ListNotations.
Open Scope list_scope.

Theorem C91_expressions : forall (S T : Type) (P : S -> T -> Prop) (O : Ops S) (O' : Ops T), arith_rel P O O' ->
  forall (env : nat -> ss S) (env' : nat -> ss T), (forall i, sparse_rel P (env i) (env' i)) ->
  forall (e : expr S) (e' : expr T), order_rel P O O' \/ no_abs e -> expr_rel P e e' ->
  sparse_rel P (s_run O env e) (s_run O' env' e').
Proof. exact @run_par. Qed.
Print Assumptions C91_expressions.
(** Whatever orders the tables of one side are iterated in, the other side can be run alike. *)
Theorem C91_any_order : forall (S T : Type) (P : S -> T -> Prop) (O : Ops S) (O' : Ops T), arith_rel P O O' ->
  forall (env : nat -> ss S) (env' : nat -> ss T), (forall i, sparse_rel P (env i) (env' i)) ->
  forall (e : expr S) (x : ss S), s_runs O env e x -> forall e' : expr T, order_rel P O O' \/ no_abs e -> expr_rel P e e' ->
  exists x', s_runs O' env' e' x' /\ sparse_rel P x x'.
Proof. exact @runs_par. Qed.
Print Assumptions C91_any_order.
Theorem C91_programs : forall (S T : Type) (P : S -> T -> Prop) (O : Ops S) (O' : Ops T), arith_rel P O O' -> order_rel P O O' ->
  forall (fuel : nat) (s : stmt S) (s' : stmt T) (st : list (ss S)) (st' : list (ss T)), stmt_rel P s s' -> Forall2 (sparse_rel P) st st' ->
  run_rel (Forall2 (sparse_rel P)) (s_exec O fuel s st) (s_exec O' fuel s' st').
Proof. exact @exec_par. Qed.
Print Assumptions C91_programs.
Theorem C91_programs_any_order : forall (S T : Type) (P : S -> T -> Prop) (O : Ops S) (O' : Ops T), arith_rel P O O' -> order_rel P O O' ->
  forall (s : stmt S) (st st1 : list (ss S)), s_execs O s st st1 ->
  forall (s' : stmt T) (st' : list (ss T)), stmt_rel P s s' -> Forall2 (sparse_rel P) st st' ->
  exists st1', s_execs O' s' st' st1' /\ Forall2 (sparse_rel P) st1 st1'.
Proof. exact @execs_par. Qed.
Print Assumptions C91_programs_any_order.
Theorem C91_sessions : forall (S T : Type) (P : S -> T -> Prop) (O : Ops S) (O' : Ops T), arith_rel P O O' -> order_rel P O O' ->
  forall (w : list (zstmt S)) (w' : list (zstmt T)), Forall2 (zstmt_rel P) w w' ->
  forall (st : zheap S) (st' : zheap T), zheap_rel P st st' -> zheap_rel P (zsession O w st) (zsession O' w' st').
Proof. exact @zsession_par. Qed.
Print Assumptions C91_sessions.
Theorem C91_derivatives : forall (S T : Type) (P : S -> T -> Prop) (O : Ops S) (O' : Ops T), arith_rel P O O' ->
  forall (x : ss S) (x' : ss T) (k : string), sparse_rel P x x' -> P (s_get_d O x k) (s_get_d O' x' k).
Proof. exact @get_d_par. Qed.
Print Assumptions C91_derivatives.
Theorem C91_eval : forall (S T : Type) (P : S -> T -> Prop) (O : Ops S) (O' : Ops T), arith_rel P O O' ->
  forall (shared : bool) (x : ss S) (x' : ss T) (d : table S) (d' : table T), sparse_rel P x x' -> table_rel P d d' ->
  res_rel P (s_eval O shared x d) (s_eval O' shared x' d').
Proof. exact @eval_par. Qed.
Print Assumptions C91_eval.
Theorem C91_comparisons : forall (S T : Type) (P : S -> T -> Prop) (O : Ops S) (O' : Ops T), order_rel P O O' ->
  forall (o : cmp) (x : ss S) (x' : ss T) (y : ss S) (y' : ss T), sparse_rel P x x' -> sparse_rel P y y' ->
  ss_compare O o x y = ss_compare O' o x' y'.
Proof. exact @compare_par. Qed.
Print Assumptions C91_comparisons.

(** Reals in integer intervals; [abs] of an interval does not contain [abs] of its elements. *)
Definition ur : ss R := mks (-3)%R [("u"%string, 1%R)].
Definition ui : ss interval := mks (Some (-4, 2)%Z) [("u"%string, Some (1, 1)%Z)].
Example C91_case : arith_rel inside Rops Iops /\ sparse_rel inside ur ui /\
  s_run Iops (fun _ => ui) (EB Bmul (EVar 0) (EU (Usmul (Some (2, 3)%Z)) (EVar 0))) = mks (Some (-24, 48)%Z) [("u"%string, Some (-24, 12)%Z)] /\
  s_run Iops (fun _ => ui) (EU Uabs (EVar 0)) = ui /\ ~ sparse_rel inside (s_run Rops (fun _ => ur) (EU Uabs (EVar 0))) ui.
Proof.
  split; [exact intervals_enclose|]. split; [|split; [reflexivity|split; [reflexivity|]]].
  - split; [cbn; lra|]. constructor; [|constructor]. split; [reflexivity|cbn; lra].
  - intros (H & Ht). cbn [s_run s_apply_u] in H, Ht. unfold s_abs in H, Ht. cbn [o_lt Rops ur s_f] in H, Ht.
    rewrite (proj2 (Rltb_true (-3) (o_Z Rops 0))) in H by (cbn; lra). cbn in H. lra.
Qed.
