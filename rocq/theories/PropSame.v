(** C89: sparse and dense numbers on doubles. *)
From Coq Require Import ZArith List Bool String Permutation Reals Lra Lia.
From Flocq Require Import Core BinarySingleNaN.
From Verif Require Import Outcome Scalar Float64 Model Spec ExprSpec ProgSpec Ops64 RangeSpec ModelS SpecS NumSpec SameSpec FactsSame Samples.
Import ListNotations.
Open Scope list_scope.

(** [mirrors64]: the values are the same bits; a derivative of the sparse number is the one of the dense number, or the
    dense one is NaN, or both are zeros.  [s_runs], [s_execs]: whatever the iteration orders of the hash tables are. *)
Theorem C89_expressions : forall (M : libm) (c : cfg), cfg_ok c -> forall (n : nat) (nm : nat -> string)
  (e : expr b64) (xs : list (dd b64)) (ys : list (ss b64)) (v : b64),
  size_ok c n -> vars_below (List.length xs) e -> Forall2 (mirrors64 M c n nm) xs ys ->
  exists r, run (b64ops M) c n xs e = Ok r /\
    forall y, s_runs (b64ops M) (fun i => nth i ys (s_constant v)) e y -> mirrors64 M c n nm r y.
Proof. exact runs_loose. Qed.
Print Assumptions C89_expressions.
Theorem C89_variables : forall (M : libm) (c : cfg) (nm : nat -> string) (vs : list b64) (v : b64) (e : expr b64),
  let n := List.length vs in cfg_ok c -> size_ok c n -> distinct n nm -> vars_below n e ->
  exists r, evaluate (b64ops M) c vs e = Ok r /\
    forall y, s_runs (b64ops M) (fun i => s_variable (b64ops M) (nm i) (nth i vs v)) e y -> mirrors64 M c n nm r y.
Proof. exact variables_loose. Qed.
Print Assumptions C89_variables.
(** Programs without [r *= r] and [r /= r] take the same branches and stop together. *)
Theorem C89_programs : forall (M : libm) (c : cfg), cfg_ok c -> forall (n : nat) (nm : nat -> string)
  (fuel : nat) (s : stmt b64) (xs : list (dd b64)) (ys : list (ss b64)),
  size_ok c n -> regs_below (List.length xs) s -> no_self_muldiv s -> Forall2 (mirrors64 M c n nm) xs ys ->
  match exec (b64ops M) c n fuel s xs, s_exec (b64ops M) fuel s ys with
  | Some (Ok xs'), Some (Ok ys') => Forall2 (mirrors64 M c n nm) xs' ys'
  | None, None => True
  | _, _ => False
  end.
Proof. exact exec_loose. Qed.
Print Assumptions C89_programs.
Theorem C89_programs_any_order : forall (M : libm) (c : cfg), cfg_ok c -> forall (n : nat) (nm : nat -> string)
  (fuel : nat) (s : stmt b64) (xs xs' : list (dd b64)) (ys ys' : list (ss b64)),
  size_ok c n -> regs_below (List.length xs) s -> no_self_muldiv s -> Forall2 (mirrors64 M c n nm) xs ys ->
  exec (b64ops M) c n fuel s xs = Some (Ok xs') -> s_execs (b64ops M) s ys ys' -> Forall2 (mirrors64 M c n nm) xs' ys'.
Proof. exact execs_loose. Qed.
Print Assumptions C89_programs_any_order.
Definition xn : dd b64 := mk 2 (full [b64_of_Z 0; b64_of_Z 1; b64_of_Z 0]).
Definition yn : ss b64 := mks (b64_of_Z 0) [("u"%string, b64_of_Z 1)].
Example C89_case : forall M : libm, size_ok dyn1 2 /\ mirrors64 M dyn1 2 uv xn yn /\ ~ covers 2 uv yn /\ distinct 2 uv /\
  vars_below 2 kink /\ no_self_muldiv (PSeq (PB 0 Bdiv 0 0) (PAsg Asub 0 (S := b64) 0)).
Proof.
  intros M. split; [split; [discriminate|vm_compute; discriminate]|]. split.
  - split; [repeat constructor; cbn; intuition discriminate|].
    exists (fun i => match i with 0%nat => b64_of_Z 1 | _ => b64_of_Z 0 end), (fun _ _ => b64_of_Z 0).
    split; [split; [apply wf_list; [reflexivity|reflexivity|vm_compute; discriminate]|]|].
    + split; [reflexivity|]. split; [|discriminate]. intros [|[|i]] Hi; [reflexivity|reflexivity|lia].
    + intros [|[|i]] Hi; [right; left; reflexivity|right; left; reflexivity|lia].
  - split; [intros H; destruct (H 1%nat ltac:(lia)) as [H'|[]]; discriminate|]. split; [|cbn; repeat split; lia].
    intros [|[|i]] [|[|j]] Hi Hj E; try lia; discriminate.
Qed.

(** Full statement: the derivatives are the same bits.  True for operands that store all [n] names and formulas without
    numbers made from constants; plain scalars as operands are allowed.  Missing: other operands, where
    [C89_exact_refuted] shows it false. *)
Theorem C89_exact_expressions_partial : forall (M : libm) (c : cfg), cfg_ok c -> forall (n : nat) (nm : nat -> string)
  (e : expr b64) (xs : list (dd b64)) (ys : list (ss b64)) (v : b64),
  const_free e -> size_ok c n -> vars_below (List.length xs) e ->
  Forall2 (fun x y => mirrors (b64ops M) c n nm x y /\ covers n nm y) xs ys ->
  exists r, run (b64ops M) c n xs e = Ok r /\
    forall y, s_runs (b64ops M) (fun i => nth i ys (s_constant v)) e y -> mirrors (b64ops M) c n nm r y /\ covers n nm y.
Proof. exact runs_full. Qed.
Print Assumptions C89_exact_expressions_partial.
Theorem C89_exact_programs_partial : forall (M : libm) (c : cfg), cfg_ok c -> forall (n : nat) (nm : nat -> string)
  (fuel : nat) (s : stmt b64) (xs xs' : list (dd b64)) (ys ys' : list (ss b64)),
  sconst_free s -> size_ok c n -> regs_below (List.length xs) s -> no_self_muldiv s ->
  Forall2 (fun x y => mirrors (b64ops M) c n nm x y /\ covers n nm y) xs ys ->
  exec (b64ops M) c n fuel s xs = Some (Ok xs') -> s_execs (b64ops M) s ys ys' ->
  Forall2 (fun x y => mirrors (b64ops M) c n nm x y /\ covers n nm y) xs' ys'.
Proof. exact execs_full. Qed.
Print Assumptions C89_exact_programs_partial.
Example C89_exact_case : forall (M : libm) (a b d : b64),
  let x := mk 2 (full [a; b; d]) in let y := mks a [("v", d); ("u", b); ("w", a)]%string in
  mirrors (b64ops M) dyn1 2 uv x y /\ covers 2 uv y /\
  const_free (EB Bdiv (EVar 0) (EU (Usadd a) (EU Usqrt (EVar 0)))) /\ sconst_free (PSeq (PAsgS Amul 0 a) (PAsg Aadd 0 0)).
Proof.
  intros M a b d x y. split; [|split; [|cbn; tauto]].
  - split; [repeat constructor; cbn; intuition discriminate|].
    exists (fun _ _ => b64_of_Z 0). split; [apply wf_list; [reflexivity|reflexivity|vm_compute; discriminate]|].
    split; [reflexivity|]. split; [|discriminate]. intros [|[|i]] Hi; [reflexivity|reflexivity|lia].
  - intros [|[|i]] Hi; cbn; [tauto|tauto|lia].
Qed.
(** [sqrt(u) + v] at (0, 1): the derivative by [v] is NaN for dense numbers, 1 for sparse ones. *)
Theorem C89_exact_refuted : forall M : libm,
  (exists r w, evaluate (b64ops M) dyn1 [b64_of_Z 0; b64_of_Z 1] (EB Badd (EU Usqrt (EVar 0)) (EVar 1)) = Ok r /\
     get_g dyn1 r 1 = Ok w /\ nan64 w) /\
  s_get_d (b64ops M) (s_run (b64ops M) (fun i => s_variable (b64ops M) (uv i) (nth i [b64_of_Z 0; b64_of_Z 1] (b64_of_Z 0)))
     (EB Badd (EU Usqrt (EVar 0)) (EVar 1))) "v" = b64_of_Z 1.
Proof. exact kink_differs. Qed.
Print Assumptions C89_exact_refuted.
