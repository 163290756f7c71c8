(** C87, C88: other names for the variables of sparse numbers. *)
From Coq Require Import ZArith List Bool String Permutation Reals Lra Lia.
From Verif Require Import Outcome Scalar Model Spec RealOps ExprSpec ProgSpec ModelS ModelObj ModelObjS SpecS RenSpec FactsRen FactsMerge Samples.
Import ListNotations.
Open Scope list_scope.

(** ** C87: different names stay different *)
(** Whatever the iteration orders of the hash tables are, before and after. *)
Theorem C87_expressions : forall (S : Type) (O : Ops S) (P : string -> Prop) (rho : string -> string), separates P rho ->
  forall (env : nat -> ss S) (e : expr S) (x y : ss S), (forall i, keys_ok (env i)) -> (forall i, within P (env i)) ->
  s_runs O env e x -> s_runs O (fun i => rename rho (env i)) e y -> renamed_reads O P rho x y.
Proof. exact @expressions_renamed. Qed.
Print Assumptions C87_expressions.
Theorem C87_programs : forall (S : Type) (O : Ops S) (P : string -> Prop) (rho : string -> string), separates P rho ->
  forall (s : stmt S) (st st1 st1' : list (ss S)), List.Forall keys_ok st -> List.Forall (within P) st ->
  s_execs O s st st1 -> s_execs O s (map (rename rho) st) st1' -> Forall2 (renamed_reads O P rho) st1 st1'.
Proof. exact @programs_renamed. Qed.
Print Assumptions C87_programs.
(** With the same orders the run itself is the same: same outcome, same tables entry by entry. *)
Theorem C87_expression_run : forall (S : Type) (O : Ops S) (P : string -> Prop) (rho : string -> string) (env : nat -> ss S) (e : expr S),
  separates P rho -> (forall i, within P (env i)) ->
  s_run O (fun i => rename rho (env i)) e = rename rho (s_run O env e).
Proof. exact @expr_renamed. Qed.
Print Assumptions C87_expression_run.
Theorem C87_program_run : forall (S : Type) (O : Ops S) (P : string -> Prop) (rho : string -> string) (fuel : nat) (s : stmt S) (st : list (ss S)),
  separates P rho -> List.Forall (within P) st ->
  s_exec O fuel s (map (rename rho) st) = rename_result rho (s_exec O fuel s st).
Proof. exact @exec_renamed. Qed.
Print Assumptions C87_program_run.
(** A Python session with its variables renamed throughout. *)
Theorem C87_sessions : forall (S : Type) (O : Ops S) (P : string -> Prop) (rho : string -> string) (w : list (zstmt S)),
  separates P rho -> List.Forall (zwithin P) w ->
  zsession O (map (zrename rho) w) zstart = zrename_heap rho (zsession O w zstart).
Proof. exact @session_renamed. Qed.
Print Assumptions C87_sessions.
Theorem C87_eval : forall (S : Type) (O : Ops S) (P : string -> Prop) (rho : string -> string) (se : bool) (x : ss S) (d : table S),
  separates P rho -> within P x -> (forall k, In k (map fst d) -> P k) ->
  s_eval O se (rename rho x) (retable rho d) = s_eval O se x d.
Proof. exact @eval_renamed. Qed.
Print Assumptions C87_eval.

(** The variable of a product is called "q" instead of "u"; then "u" and "v" exchange names. *)
Definition to_q (k : string) : string := if String.eqb k "u" then "q" else k.
Definition swap_uv (k : string) : string := if String.eqb k "u" then "v" else if String.eqb k "v" then "u" else k.
Definition uv (k : string) : Prop := k = "u"%string \/ k = "v"%string.
Example C87_case_separates : separates uv to_q /\ separates uv swap_uv.
Proof. split; intros k k' [-> | ->] [-> | ->]; cbn; congruence. Qed.
Definition eu : nat -> ss Z := fun i => match i with O => mks 3%Z [("u"%string, 1%Z)] | _ => mks 5%Z [("v"%string, 1%Z)] end.
Example C87_case : s_run Zops (fun i => rename to_q (eu i)) (EB Bmul (EVar 0) (EVar 1)) = mks 15%Z [("q"%string, 5%Z); ("v"%string, 3%Z)] /\
  s_run Zops (fun i => rename swap_uv (eu i)) (EB Bmul (EVar 0) (EVar 1)) = mks 15%Z [("v"%string, 5%Z); ("u"%string, 3%Z)].
Proof. split; reflexivity. Qed.
(** With a map that does not separate, the results are others: the two entries become one. *)
Example C87_case_not_separating : let z := fun _ : string => "z"%string in
  s_run Zops (fun i => rename z (eu i)) (EB Bmul (EVar 0) (EVar 1)) = mks 15%Z [("z"%string, 8%Z)] /\
  rename z (s_run Zops eu (EB Bmul (EVar 0) (EVar 1))) = mks 15%Z [("z"%string, 5%Z); ("z"%string, 3%Z)].
Proof. split; reflexivity. Qed.
Example C87_case_session : zsession Zops (map (zrename to_q) [ZVar 0 "u" 3%Z; ZVar 1 "v" 5%Z; ZAlias 2 0; ZAsg Amul 0 1]%string) zstart =
  zrename_heap to_q (zsession Zops [ZVar 0 "u" 3%Z; ZVar 1 "v" 5%Z; ZAlias 2 0; ZAsg Amul 0 1]%string zstart) /\
  zget (zsession Zops (map (zrename to_q) [ZVar 0 "u" 3%Z; ZVar 1 "v" 5%Z; ZAlias 2 0; ZAsg Amul 0 1]%string) zstart) 2 =
  Some (0%nat, mks 15%Z [("q"%string, 5%Z); ("v"%string, 3%Z)]).
Proof.
  split; [|reflexivity]. apply (C87_sessions Z Zops uv to_q); [apply C87_case_separates|].
  repeat apply List.Forall_cons; try apply List.Forall_nil; cbn; unfold uv; auto.
Qed.

(** ** C88: several names become one *)
Open Scope R_scope.
(** The expression evaluated with variables some of which have the same name. *)
Theorem C88_variables : forall (rho : string -> string) (n : nat) (nm : nat -> string) (e : expr R) (p : nat -> R),
  distinct n nm -> vars_below n e ->
  merges rho (map nm (seq 0 n)) (s_run Rops (fun i => s_variable Rops (nm i) (p i)) e)
    (s_run Rops (fun i => s_variable Rops (rho (nm i)) (p i)) e).
Proof. exact variables_merged. Qed.
Print Assumptions C88_variables.
Theorem C88_expressions : forall (rho : string -> string) (L : list string) (env env' : nat -> ss R) (e : expr R),
  (forall i, occurs i e -> merges rho L (env i) (env' i)) -> merges rho L (s_run Rops env e) (s_run Rops env' e).
Proof. exact mg_run. Qed.
Print Assumptions C88_expressions.
(** Programs with loops, branches and in-place operators, aliased operands included: same path, same termination. *)
Theorem C88_programs : forall (rho : string -> string) (L : list string) (fuel : nat) (s : stmt R) (st st' st1 : list (ss R)),
  Forall2 (merges rho L) st st' -> s_exec Rops fuel s st = Some (Ok st1) ->
  exists st1', s_exec Rops fuel s st' = Some (Ok st1') /\ Forall2 (merges rho L) st1 st1'.
Proof. exact exec_merges. Qed.
Print Assumptions C88_programs.
Theorem C88_sessions : forall (rho : string -> string) (L : list string) (w : list (zstmt R)) (r : nat),
  NoDup L -> List.Forall (zplain L) w ->
  match zget (zsession Rops w zstart) r, zget (zsession Rops (map (zrename rho) w) zstart) r with
  | Some (_, x), Some (_, y) => merges rho L x y
  | None, None => True
  | _, _ => False
  end.
Proof. exact session_merged. Qed.
Print Assumptions C88_sessions.

(** [u * v] with both variables called "z": the derivative is the sum of the two partial derivatives. *)
Example C88_case : merges (fun _ => "z"%string) ["u"; "v"]%string
    (s_run Rops (fun i => s_variable Rops (if Nat.eqb i 0 then "u" else "v")%string (if Nat.eqb i 0 then 3 else 5)) (EB Bmul (EVar 0) (EVar 1)))
    (s_run Rops (fun i => s_variable Rops "z" (if Nat.eqb i 0 then 3 else 5)) (EB Bmul (EVar 0) (EVar 1))) /\
  s_get_d Rops (s_run Rops (fun i => s_variable Rops "z" (if Nat.eqb i 0 then 3 else 5)) (EB Bmul (EVar 0) (EVar 1))) "z" = 8.
Proof.
  split.
  - apply (C88_variables (fun _ => "z"%string) 2 (fun i => if Nat.eqb i 0 then "u" else "v")%string (EB Bmul (EVar 0) (EVar 1))
      (fun i => if Nat.eqb i 0 then 3 else 5)).
    + intros i j Hi Hj E. destruct i as [|[|i]], j as [|[|j]]; cbn in E; try reflexivity; try discriminate; lia.
    + cbn. lia.
  - cbn. lra.
Qed.
