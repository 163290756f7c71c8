(** C24, C25, C43, C45: programs with registers, in-place operators, branches and loops. *)
From Coq Require Import ZArith List Bool Reals Lra Lia.
From Verif Require Import Outcome Scalar Model Spec RealOps ExprSpec ProgSpec FactsProg Samples.
Import ListNotations.

(** C24.  [both P m m']: neither run has finished, or both finished normally with [P]-related registers.
    Every program, including aliased in-place operators; every scalar type; any mix of static and dynamic
    types and build flags. *)
Theorem C24_first_order_is_truncation : forall (S : Type) (O : Ops S) (c c' : cfg) (n fuel : nat) (s : stmt S)
  (xs ys : list (dd S)),
  cfg_ok c -> cfg_ok c' -> c_ord c = 1%Z -> c_ord c' = 2%Z -> size_ok c n -> size_ok c' n ->
  regs_below (length xs) s -> Forall2 (truncates c c' n) xs ys ->
  both (truncates c c' n) (exec O c n fuel s xs) (exec O c' n fuel s ys).
Proof. exact @truncation. Qed.
Print Assumptions C24_first_order_is_truncation.

(** C25 *)
Theorem C25_static_dynamic_same_data : forall (S : Type) (O : Ops S) (c c' : cfg) (n fuel : nat) (s : stmt S)
  (xs ys : list (dd S)),
  cfg_ok c -> cfg_ok c' -> c_ord c = c_ord c' -> size_ok c n -> size_ok c' n ->
  regs_below (length xs) s -> Forall2 (same_data c c' n) xs ys ->
  both (same_data c c' n) (exec O c n fuel s xs) (exec O c' n fuel s ys).
Proof. exact @static_dynamic. Qed.
Print Assumptions C25_static_dynamic_same_data.

(** while (x0 > 2) { x0 -= 4; x1 *= x0; x1 *= x1 } *)
Definition loopy : stmt Z :=
  PWhile (CRS Cgt 0 2%Z) (PSeq (PAsgS Asub 0 4%Z) (PSeq (PAsg Amul 1 0) (PAsg Amul 1 1))).
Definition ex1a : dd Z := mk 2 (full [7; 1; 2]%Z).
Definition ex1b : dd Z := mk 2 (full [3; 6; 5]%Z).
Example C24_case : size_ok dyn1 2 /\ size_ok (sta2 2) 2 /\ regs_below 2 loopy /\
  exec Zops dyn1 2 9 loopy [ex1a; ex1b] = Some (Ok [mk 2 (full [-1; 1; 2]%Z); mk 2 (full [6561; 48114; 34992]%Z)]) /\
  exec Zops (sta2 2) 2 9 loopy [exa; exb] = exec Zops dyn2 2 9 loopy [exa; exb].
Proof.
  split; [split; [discriminate|vm_compute; discriminate]|]. split; [split; [reflexivity|vm_compute; discriminate]|].
  split; [cbn; repeat split; lia|]. run_case.
Qed.
Example C24_data : truncates dyn1 dyn2 2 ex1a exa /\ same_data (sta2 2) dyn2 2 exa exa.
Proof.
  split; [|split; [exact wf_exa_s|split; [exact wf_exa|reflexivity]]].
  exists 7%Z, (fun i => match i with O => 1 | _ => 2 end)%Z,
    (fun i j => match i, j with O, O => 3 | S _, S _ => 5 | _, _ => 4 end)%Z, (fun _ _ => 0%Z). split.
  - split; [apply wf_list; [reflexivity|reflexivity|vm_compute; discriminate]|].
    split; [vm_compute; reflexivity|]. split; [|discriminate].
    intros [|[|i]] Hi; [vm_compute; reflexivity|vm_compute; reflexivity|lia].
  - split; [exact wf_exa|]. split; [vm_compute; reflexivity|]. split.
    + intros [|[|i]] Hi; [vm_compute; reflexivity|vm_compute; reflexivity|lia].
    + intros _ [|[|i]] [|[|j]] Hi Hj; try lia; vm_compute; reflexivity.
Qed.

(** C45 *)
Theorem C45_unassigned_is_unchanged : forall (S : Type) (O : Ops S) (c : cfg) (n r fuel : nat) (s : stmt S)
  (st st' : list (dd S)), no_write r s ->
  exec O c n fuel s st = Some (Ok st') -> nth_error st' r = nth_error st r.
Proof. exact @exec_frame. Qed.
Print Assumptions C45_unassigned_is_unchanged.
Theorem C45_copies_independent : forall (S : Type) (O : Ops S) (c : cfg) (n fuel : nat) (s : stmt S)
  (st st' : list (dd S)) (r a : nat) (x : dd S),
  nth_error st a = Some x -> r <> a -> exec O c n fuel (PSeq (PMov r a) s) st = Some (Ok st') ->
  (no_write r s -> nth_error st' r = Some x) /\ (no_write a s -> nth_error st' a = Some x).
Proof. exact @copies_independent. Qed.
Print Assumptions C45_copies_independent.
Example C45_case : no_write 2 loopy /\
  exec Zops dyn2 2 9 (PSeq (PMov 1 0) (PAsg Aadd 1 2)) [exa; exa; exb] =
    Some (Ok [exa; mk 2 (full [10; 7; 7; 4; 4; 3]%Z); exb]).
Proof. split; [cbn; repeat split; lia|]. run_case. Qed.

(** C43.  [computes fuel s n ks r q]: the value left in register [r] when the program runs on reals from
    the inputs [q 0 .. q (n-1)].  [safe]: the run at [p] stays in the open domains, compares no equal
    values, and does not execute [r *= r]. *)
Open Scope R_scope.
Theorem C43_program_derivatives : forall (c : cfg) (n : nat) (s : stmt R) (fuel : nat) (ks : list R)
  (p : nat -> R) (v : list R),
  cfg_ok c -> size_ok c n -> regs_below (n + length ks) s ->
  rexec fuel s (coords n p ++ ks) = Some v -> safe fuel s (coords n p ++ ks) ->
  exists xs cs st,
    variables Rops c (coords n p) = Ok xs /\
    Forall2 (fun k x => constant_n Rops c k (Z.of_nat n) = Ok x) ks cs /\
    exec Rops c n fuel s (xs ++ cs) = Some (Ok st) /\ length st = (n + length ks)%nat /\
    near n p (fun q => exists w, rexec fuel s (coords n q ++ ks) = Some w) /\
    forall r x, nth_error st r = Some x ->
      let F := computes fuel s n ks r in
      exists g h, shows c n x (F p) g h /\
        (forall i, (i < n)%nat -> partial F i p (g i)) /\
        (forall i j, (i < n)%nat -> (j < n)%nat -> partial2 F i j p (h i j)).
Proof. exact program_derivatives. Qed.
Print Assumptions C43_program_derivatives.
(** r1 = exp(x0); while (x0 > 2) { x0 /= 2; r1 *= x0 }, at x0 = 5: two iterations. *)
Definition halving : stmt R :=
  PSeq (PU 1 Uexp 0) (PWhile (CRS Cgt 0 2) (PSeq (PAsgS Adiv 0 2) (PAsg Amul 1 0))).
Ltac decide_real := cbn; repeat (match goal with |- context [Rgt_dec ?a ?b] => destruct (Rgt_dec a b); try lra end; cbn).
Example C43_case : regs_below (1 + 1) halving /\
  rexec 6 halving (coords 1 (fun _ => 5) ++ [0]) = Some [5 / 2 / 2; exp 5 * (5 / 2) * (5 / 2 / 2)] /\
  safe 6 halving (coords 1 (fun _ => 5) ++ [0]).
Proof.
  split; [cbn; repeat split; lia|]. split.
  - decide_real. reflexivity.
  - decide_real. repeat split; try lra; try lia.
Qed.
