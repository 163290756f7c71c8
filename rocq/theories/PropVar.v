(** C81, C82: variables a computation does not use; which variables a number carries along. *)
From Coq Require Import ZArith List Bool Reals Lra Lia.
From Flocq Require Import BinarySingleNaN.
From Verif Require Import Outcome Scalar Float64 Ops64 Model Spec RealOps ExprSpec ProgSpec RangeSpec VarSpec Samples FactsVar.
Import ListNotations.

(** C81.  Full statement: every derivative with respect to a variable that does not occur in the computation is zero.
    True in exact arithmetic, without any condition on the domain. *)
Theorem C81_reals : forall (c : cfg) (i : nat) (e : expr R) (vs : list R),
  cfg_ok c -> size_ok c (length vs) -> vars_below (length vs) e -> (i < length vs)%nat -> ~ occurs i e ->
  exists xs r, variables Rops c vs = Ok xs /\ run Rops c (length vs) xs e = Ok r /\
    free_of (fun v => v = 0%R) c (length vs) i r.
Proof. exact free_of_reals. Qed.
Print Assumptions C81_reals.
(** In doubles such a derivative is a zero or NaN, never another number, whatever the C library computes.
    Missing: that it is not NaN. *)
Theorem C81_doubles_partial : forall (M : libm) (c : cfg) (i : nat) (e : expr b64) (vs : list b64),
  cfg_ok c -> size_ok c (length vs) -> vars_below (length vs) e -> (i < length vs)%nat -> ~ occurs i e ->
  exists xs r, variables (b64ops M) c vs = Ok xs /\ run (b64ops M) c (length vs) xs e = Ok r /\
    free_of zero_or_nan c (length vs) i r.
Proof. exact free_of_doubles. Qed.
Print Assumptions C81_doubles_partial.
(** It can be NaN: infinite coefficients times zero, as in [sqrt] at 0. *)
Theorem C81_refuted : forall M : libm, ~ (forall (c : cfg) (i : nat) (e : expr b64) (vs : list b64) (xs : list (dd b64)) (r : dd b64),
  cfg_ok c -> size_ok c (length vs) -> vars_below (length vs) e -> (i < length vs)%nat -> ~ occurs i e ->
  variables (b64ops M) c vs = Ok xs -> run (b64ops M) c (length vs) xs e = Ok r ->
  free_of zero64 c (length vs) i r).
Proof. exact not_zero_doubles. Qed.
Print Assumptions C81_refuted.
(** Programs with in-place operators (also aliased), branches and loops, on any operands, for any scalar type and any
    set [P] that absorbs products: if what goes into the registers [A] is computed from [A] only, and no register of
    [A] depends on variable [i] at the start, none does afterwards. *)
Theorem C81_programs : forall (S : Type) (O : Ops S) (P : S -> Prop), absorbing O P ->
  forall (c : cfg) (n i : nat), cfg_ok c -> size_ok c n -> (i < n)%nat ->
  forall (A : nat -> Prop) (fuel : nat) (s : stmt S) (xs : list (dd S)) (m : res (list (dd S))),
  regs_below (length xs) s -> kept A s -> Forall (wf c n) xs ->
  (forall r x, A r -> nth_error xs r = Some x -> free_of P c n i x) ->
  exec O c n fuel s xs = Some m ->
  exists st, m = Ok st /\ forall r x, A r -> nth_error st r = Some x -> free_of P c n i x.
Proof. exact @free_program. Qed.
Print Assumptions C81_programs.
Theorem C81_scalars : absorbing Rops (fun v => v = 0%R) /\ forall M, absorbing (b64ops M) zero_or_nan.
Proof. exact (conj absorbing_R absorbing_b64). Qed.
Print Assumptions C81_scalars.

(** [x0 * x2 + x0], three variables: no derivative with respect to [x1]; and derivatives that are multiples of 3 stay so. *)
Example C81_case : vars_below 3 (EB Badd (EB Bmul (EVar 0) (EVar 2)) (EVar 0) : expr Z) /\
  ~ occurs 1 (EB Badd (EB Bmul (EVar 0) (EVar 2)) (EVar 0) : expr Z) /\
  (xs <- variables Zops dyn2 [7; 8; 9]%Z ;; run Zops dyn2 3 xs (EB Badd (EB Bmul (EVar 0) (EVar 2)) (EVar 0))) =
    Ok (mk 3 (full [70; 10; 0; 7; 0; 0; 1; 0; 0; 0]%Z)).
Proof. split; [cbn; lia|]. split; [cbn; lia|]. vm_compute. reflexivity. Qed.
Example C81_ideal : absorbing Zops (fun v => (3 | v)%Z).
Proof.
  split; cbn [o_Z o_add o_sub o_neg o_mul Zops]; intros.
  - apply Z.divide_0_r.
  - apply Z.divide_add_r; assumption.
  - apply Z.divide_sub_r; assumption.
  - apply Z.divide_opp_r; assumption.
  - apply Z.divide_mul_l; assumption.
  - apply Z.divide_mul_r; assumption.
Qed.
(** [r2 = r0 * r0; if (r1 > 0) r2 += r0 else r2 = 5; r1 = r1 * r2]: register 1 may depend on the variable, 0 and 2 do not. *)
Example C81_program_case : kept (fun r => r <> 1%nat)
  (PSeq (PB 2 Bmul 0 0) (PSeq (PIf (CRS Cgt 1 0%Z) (PAsg Aadd 2 0) (PConst 2 5%Z)) (PB 1 Bmul 1 2))).
Proof. cbn. repeat split; lia. Qed.

(** C82.  Full statement: the derivatives with respect to some of the variables do not depend, bit for bit, on which other
    variables are carried along, nor on how the variables are numbered.
    True for any scalar type and any program if the order of the variables is kept ([sigma] may also repeat variables). *)
Theorem C82_selection : forall (S : Type) (O : Ops S) (c c' : cfg) (n m : nat) (sigma : nat -> nat) (fuel : nat)
  (s : stmt S) (xs ys : list (dd S)),
  cfg_ok c -> cfg_ok c' -> c_ord c = c_ord c' -> size_ok c n -> size_ok c' m ->
  picks n m sigma -> ordered n sigma -> regs_below (length xs) s -> Forall2 (selects c c' n m sigma) xs ys ->
  both (selects c c' n m sigma) (exec O c n fuel s xs) (exec O c' m fuel s ys).
Proof. exact @selection. Qed.
Print Assumptions C82_selection.
(** Value and gradient: for every numbering.  Missing: the Hessian when the order changes. *)
Theorem C82_renumbering_partial : forall (S : Type) (O : Ops S) (c c' : cfg) (n m : nat) (sigma : nat -> nat) (fuel : nat)
  (s : stmt S) (xs ys : list (dd S)),
  cfg_ok c -> cfg_ok c' -> size_ok c n -> size_ok c' m ->
  picks n m sigma -> regs_below (length xs) s -> Forall2 (selects1 c c' n m sigma) xs ys ->
  both (selects1 c c' n m sigma) (exec O c n fuel s xs) (exec O c' m fuel s ys).
Proof. exact @selection1. Qed.
Print Assumptions C82_renumbering_partial.
(** Off-diagonal second derivatives of doubles depend on the numbering: [(daa * g_i) * g_j] is rounded differently from
    [(daa * g_j) * g_i]. *)
Theorem C82_refuted : forall M : libm, ~ (forall (c c' : cfg) (n m : nat) (sigma : nat -> nat) (e : expr b64)
    (xs ys : list (dd b64)) (r r' : dd b64), cfg_ok c -> cfg_ok c' -> c_ord c = c_ord c' ->
  size_ok c n -> size_ok c' m -> picks n m sigma ->
  (forall i j, (i < n)%nat -> (j < n)%nat -> sigma i = sigma j -> i = j) ->
  Forall2 (selects c c' n m sigma) xs ys ->
  run (b64ops M) c n xs e = Ok r -> run (b64ops M) c' m ys e = Ok r' -> selects c c' n m sigma r r').
Proof. exact renumbering_rounds. Qed.
Print Assumptions C82_refuted.

(** The second of the two variables of [exa] alone; and a number with its two variables exchanged. *)
Example C82_case : picks 1 2 (fun _ => 1%nat) /\ ordered 1 (fun _ => 1%nat) /\
  selects dyn2 dyn2 1 2 (fun _ => 1%nat) (mk 1 (full [7; 2; 5]%Z)) exa /\ picks 2 2 swap2.
Proof.
  split; [intros i Hi; lia|]. split; [intros i j; lia|]. split; [|intros [|[|i]] Hi; cbn; lia].
  exists 7%Z, (fun i => match i with O => 1 | _ => 2 end)%Z,
    (fun i j => match i, j with O, O => 3 | S _, S _ => 5 | _, _ => 4 end)%Z. split.
  - split; [exact wf_exa|]. split; [vm_compute; reflexivity|]. split.
    + intros [|[|i]] Hi; [vm_compute; reflexivity|vm_compute; reflexivity|lia].
    + intros _ [|[|i]] [|[|j]] Hi Hj; try lia; vm_compute; reflexivity.
  - split; [apply wf_list; [reflexivity|reflexivity|vm_compute; discriminate]|]. split; [vm_compute; reflexivity|]. split.
    + intros [|i] Hi; [vm_compute; reflexivity|lia].
    + intros _ [|i] [|j] Hi Hj; try lia; vm_compute; reflexivity.
Qed.
(** [x *= x; x += x] on both: the entries of the small result are those of the large one. *)
Example C82_run :
  exec Zops dyn2 1 3 (PSeq (PAsg Amul 0 0) (PAsg Aadd 0 0)) [mk 1 (full [7; 2; 5]%Z)] =
    Some (Ok [mk 1 (full [98; 56; 364]%Z)]) /\
  exec Zops dyn2 2 3 (PSeq (PAsg Amul 0 0) (PAsg Aadd 0 0)) [exa] =
    Some (Ok [mk 2 (full [98; 28; 56; 140; 224; 364]%Z)]).
Proof. split; vm_compute; reflexivity. Qed.
