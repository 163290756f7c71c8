(** C92: enclosures and error bounds for sparse numbers. *)
From Coq Require Import ZArith List Bool String Reals Lra Lia.
From Flocq Require Import Core BinarySingleNaN.
From Verif Require Import Outcome Scalar Float64 Model Spec RealOps ExprSpec ProgSpec Ops64 NumSpec ParamSpec ErrSpec FmaSpec RelSpec ModelS SpecS FactsEncl FactsFma FactsRel FactsSErr.
Import ListNotations.
Open Scope R_scope.

(** [s_runs]: whatever the iteration orders of the hash tables are, of the computed numbers and of the certificates. *)
Theorem C92_enclosure : forall (T : Type) (O' : Ops T) (mem : R -> T -> Prop) (n : nat) (nm : nat -> string) (e : expr R) (e' : expr T) (box : nat -> T) (y : ss T),
  distinct n nm -> vars_below n e -> no_abs e -> arith_rel mem Rops O' -> expr_rel mem e e' ->
  s_runs O' (fun i => s_variable O' (nm i) (box i)) e' y ->
  forall p, (forall i, mem (p i) (box i)) -> dom e p ->
    mem (rev e p) (s_get_f y) /\ forall i, (i < n)%nat -> exists G, partial (rev e) i p G /\ mem G (s_get_d O' y (nm i)).
Proof. exact @sparse_enclosure. Qed.
Print Assumptions C92_enclosure.
(** Running error bounds, as C67. *)
Theorem C92_running_error : forall (M : libm) (n : nat) (nm : nat -> string) (v : nat -> b64) (e : expr b64) (x : ss b64) (y : ss tracked),
  distinct n nm -> vars_below n e -> no_abs e -> let F := rev (emap val64 e) in let p := fun i => val64 (v i) in dom (emap val64 e) p ->
  s_runs (b64ops M) (fun i => s_variable (b64ops M) (nm i) (v i)) e x ->
  s_runs (Eops M) (fun i => s_variable (Eops M) (nm i) (exactly (v i))) (emap exactly e) y ->
  bounded (F p) (s_get_f x) (s_get_f y) /\
  forall i, (i < n)%nat -> exists G, partial F i p G /\ bounded G (s_get_d (b64ops M) x (nm i)) (s_get_d (Eops M) y (nm i)).
Proof. exact sparse_running_error. Qed.
Print Assumptions C92_running_error.
(** Relative accuracy known in advance, as C83. *)
Theorem C92_relative : forall (M : libm) (m n : nat) (nm : nat -> string) (v : nat -> b64) (e : expr b64) (x : ss b64) (y : ss counted),
  distinct n nm -> vars_below n e -> no_abs e -> libm_good M m ->
  let F := rev (emap val64 e) in let p := fun i => val64 (v i) in dom (emap val64 e) p ->
  s_runs (b64ops M) (fun i => s_variable (b64ops M) (nm i) (v i)) e x ->
  s_runs (Nops m) (fun i => s_variable (Nops m) (nm i) (exactly64 (v i))) (emap exactly64 e) y ->
  confirmed (F p) (s_get_f x) (s_get_f y) /\
  forall i, (i < n)%nat -> exists G, partial F i p G /\ confirmed G (s_get_d (b64ops M) x (nm i)) (s_get_d (Nops m) y (nm i)).
Proof. exact sparse_relative. Qed.
Print Assumptions C92_relative.
(** Error bounds for every choice of fused multiply-adds, as C74; the arithmetic without them is one of the choices. *)
Theorem C92_contraction : forall (M : libm) (k : R) (n : nat) (nm : nat -> string) (v : nat -> b64) (e : expr b64) (x : ss tree) (y : ss ball),
  distinct n nm -> vars_below n e -> no_abs e -> accurate M k ->
  let F := rev (emap val64 e) in let p := fun i => val64 (v i) in dom (emap val64 e) p ->
  s_runs Tops (fun i => s_variable Tops (nm i) (TLit (v i))) (emap TLit e) x ->
  s_runs (Bops k) (fun i => s_variable (Bops k) (nm i) (point (v i))) (emap point e) y ->
  sure M (F p) (s_get_f x) (s_get_f y) /\
  forall i, (i < n)%nat -> exists G, partial F i p G /\ sure M G (s_get_d Tops x (nm i)) (s_get_d (Bops k) y (nm i)).
Proof. exact sparse_contracted. Qed.
Print Assumptions C92_contraction.
Theorem C92_uncontracted : forall (M : libm) (nm : nat -> string) (v : nat -> b64) (e : expr b64) (x : ss b64) (y : ss tree), no_abs e ->
  s_runs (b64ops M) (fun i => s_variable (b64ops M) (nm i) (v i)) e x ->
  s_runs Tops (fun i => s_variable Tops (nm i) (TLit (v i))) (emap TLit e) y ->
  evals M (s_get_f y) (s_get_f x) /\ forall k, evals M (s_get_d Tops y k) (s_get_d (b64ops M) x k).
Proof. exact sparse_unfused. Qed.
Print Assumptions C92_uncontracted.
(** Integers of at most 53 bits: the derivatives are exact, with every choice of fused multiply-adds. *)
Theorem C92_integers : forall (M : libm) (n : nat) (nm : nat -> string) (v : nat -> Z) (e : expr Z) (x : ss tree) (y : ss (option Z)),
  let lit := fun z => TLit (b64_of_Z z) in
  distinct n nm -> vars_below n e -> arith false e -> let F := rev (emap IZR e) in let p := fun i => IZR (v i) in
  s_runs Tops (fun i => s_variable Tops (nm i) (lit (v i))) (emap lit e) x ->
  s_runs int53 (fun i => s_variable int53 (nm i) (small (v i))) (emap small e) y ->
  (forall w, s_get_f y <> None -> evals M (s_get_f x) w -> finite64 w /\ val64 w = F p) /\
  forall i w, (i < n)%nat -> s_get_d int53 y (nm i) <> None -> evals M (s_get_d Tops x (nm i)) w -> finite64 w /\ partial F i p (val64 w).
Proof. exact sparse_integers. Qed.
Print Assumptions C92_integers.

(** u * v: the bound of the derivative by u at (3, 5) is 0; d/du on [1, 2] x [3, 4] is in [3, 4]; integers. *)
Example C92_case : forall M : libm, distinct 2 uv_names /\ vars_below 2 (EB Bmul (EVar 0 (S := b64)) (EVar 1)) /\
  (exists w, s_get_d (Eops M) (s_run (Eops M) (fun i => s_variable (Eops M) (uv_names i) (exactly (at35 i))) (emap exactly (EB Bmul (EVar 0) (EVar 1)))) "u" = Some (w, 0)) /\
  (exists y, s_runs Iops (fun i => s_variable Iops (uv_names i) (match i with O => Some (1, 2)%Z | _ => Some (3, 4)%Z end)) (EB Bmul (EVar 0) (EVar 1)) y /\
     s_get_d Iops y "u" = Some (3, 4)%Z /\ s_get_d Iops y "v" = Some (1, 2)%Z) /\
  (exists y, s_runs int53 (fun i => s_variable int53 (uv_names i) (small (match i with O => 3 | _ => 5 end)%Z)) (EB Bmul (EVar 0) (EVar 1)) y /\
     s_get_d int53 y "u" = Some 5%Z) /\
  (exists k, accurate exact_libm k) /\ libm_good exact_libm 1 /\ arith_rel inside Rops Iops.
Proof.
  intros M. split; [exact uv_distinct|]. split; [cbn; lia|]. split; [exact (tracked_product M)|].
  split; [eexists; split; [apply FactsS.run_runs|split; reflexivity]|]. split; [eexists; split; [apply FactsS.run_runs|reflexivity]|].
  split; [exists u64; exact exact_accurate|]. split; [exact exact_good|exact intervals_enclose].
Qed.
