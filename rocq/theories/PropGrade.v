(** C98: variables seeded with other derivatives. *)
From Coq Require Import ZArith List Bool Lia Reals Lra.
From Flocq Require Import Core BinarySingleNaN.
From Verif Require Import Outcome Scalar Float64 Model Spec RealOps ExprSpec ProgSpec ParamSpec Samples Ops64 Facts64 GradeSpec FactsGrade FactsGrade64.
Import ListNotations.
Open Scope R_scope.

(** C98.  Any two scalar types with relations between values, between first and between second derivatives for which sums of
    like quantities and products of matching ones are related: related inputs give related results. *)
Theorem C98_graded : forall (S T : Type) (P0 : S -> T -> Prop) (P1 : nat -> S -> T -> Prop) (P2 : nat -> nat -> S -> T -> Prop) (O : Ops S) (O' : Ops T),
  graded P0 P1 P2 O O' -> forall (c : cfg) (n : nat), cfg_ok c -> size_ok c n -> forall (e : expr S) (e' : expr T) (xs : list (dd S)) (ys : list (dd T)),
  vars_below (length xs) e -> expr_rel P0 e e' -> Forall2 (num_graded P0 P1 P2 c n) xs ys ->
  exists r r', run O c n xs e = Ok r /\ run O' c n ys e' = Ok r' /\ num_graded P0 P1 P2 c n r r'.
Proof. exact @graded_run. Qed.
Print Assumptions C98_graded.
Theorem C98_graded_programs : forall (S T : Type) (P0 : S -> T -> Prop) (P1 : nat -> S -> T -> Prop) (P2 : nat -> nat -> S -> T -> Prop) (O : Ops S) (O' : Ops T),
  graded P0 P1 P2 O O' -> forall (c : cfg) (n : nat), cfg_ok c -> size_ok c n -> forall (fuel : nat) (s : stmt S) (s' : stmt T) (xs : list (dd S)) (ys : list (dd T)),
  regs_below (length xs) s -> stmt_rel P0 s s' -> Forall2 (num_graded P0 P1 P2 c n) xs ys ->
  match exec O c n fuel s xs, exec O' c n fuel s' ys with
  | Some m, Some m' => exists st st', m = Ok st /\ m' = Ok st' /\ Forall2 (num_graded P0 P1 P2 c n) st st'
  | None, None => True
  | _, _ => False
  end.
Proof. exact @graded_exec. Qed.
Print Assumptions C98_graded_programs.

(** Exact arithmetic: seeds multiplied by [s i] multiply the derivatives of every result by [s i] and [s i * s j]. *)
Theorem C98_real_seeds : forall (c : cfg) (n : nat) (s : nat -> R), cfg_ok c -> size_ok c n ->
  let scaled := num_graded eq (fun i a b => b = s i * a) (fun i j a b => b = s i * s j * a) c n in
  (forall e xs ys, vars_below (length xs) e -> Forall2 scaled xs ys ->
     exists r r', run Rops c n xs e = Ok r /\ run Rops c n ys e = Ok r' /\ scaled r r') /\
  (forall fuel p xs ys, regs_below (length xs) p -> Forall2 scaled xs ys ->
     match exec Rops c n fuel p xs, exec Rops c n fuel p ys with
     | Some m, Some m' => exists st st', m = Ok st /\ m' = Ok st' /\ Forall2 scaled st st'
     | None, None => True
     | _, _ => False
     end).
Proof. exact real_seeds. Qed.
Print Assumptions C98_real_seeds.

(** Doubles: a seed of -1 instead of 1 changes nothing but signs, whatever the mathematical library does. *)
Theorem C98_signs : forall (M : libm) (c : cfg) (n : nat) (s : nat -> bool), cfg_ok c -> size_ok c n ->
  let flips := num_graded eq (fun i => flipped (s i)) (fun i j => flipped (xorb (s i) (s j))) c n in
  (forall e xs ys, vars_below (length xs) e -> Forall2 flips xs ys ->
     exists r r', run (b64ops M) c n xs e = Ok r /\ run (b64ops M) c n ys e = Ok r' /\ flips r r') /\
  (forall fuel p xs ys, regs_below (length xs) p -> Forall2 flips xs ys ->
     match exec (b64ops M) c n fuel p xs, exec (b64ops M) c n fuel p ys with
     | Some m, Some m' => exists st st', m = Ok st /\ m' = Ok st' /\ Forall2 flips st st'
     | None, None => True
     | _, _ => False
     end).
Proof. exact sign_seeds. Qed.
Print Assumptions C98_signs.

(** Doubles: seeds multiplied by powers of two multiply the derivatives exactly, without any further rounding, wherever no
    intermediate result comes within [K] binary orders of magnitude of the limits of the format. *)
Theorem C98_powers_of_two : forall (K : Z) (M : libm) (c : cfg) (n : nat) (k : nat -> Z), (0 <= K)%Z -> (forall i, (2 * Z.abs (k i) <= K)%Z) ->
  cfg_ok c -> size_ok c n -> forall (em : expr marked) (e : expr b64) (xm : list (dd marked)) (xs ys : list (dd b64)),
  expr_rel (fun a b => fst a = b) em e -> vars_below (length xm) em -> Forall3 (seeded c n k) xm xs ys ->
  exists rm r r', run (marked_ops K M) c n xm em = Ok rm /\ run (b64ops M) c n xs e = Ok r /\ run (b64ops M) c n ys e = Ok r' /\
    certified c n k rm r r'.
Proof. exact power_run. Qed.
Print Assumptions C98_powers_of_two.
Theorem C98_powers_of_two_programs : forall (K : Z) (M : libm) (c : cfg) (n : nat) (k : nat -> Z), (0 <= K)%Z -> (forall i, (2 * Z.abs (k i) <= K)%Z) ->
  cfg_ok c -> size_ok c n -> forall (fuel : nat) (pm : stmt marked) (p : stmt b64) (xm : list (dd marked)) (xs ys : list (dd b64)),
  stmt_rel (fun a b => fst a = b) pm p -> regs_below (length xm) pm -> Forall3 (seeded c n k) xm xs ys ->
  match exec (marked_ops K M) c n fuel pm xm, exec (b64ops M) c n fuel p xs, exec (b64ops M) c n fuel p ys with
  | Some mm, Some m, Some m' => exists sm st st', mm = Ok sm /\ m = Ok st /\ m' = Ok st' /\ Forall3 (certified c n k) sm st st'
  | None, None, None => True
  | _, _, _ => False
  end.
Proof. exact power_exec. Qed.
Print Assumptions C98_powers_of_two_programs.
(** Without room the exact factor is lost: x * x at 1 with the seed 2^-600 has a second derivative of 2 * 2^-1200, which is
    smaller than every positive double. *)
Theorem C98_powers_of_two_refuted : ~ (forall (M : libm) (c : cfg) (n : nat) (k : nat -> Z) (e : expr b64) (xs ys : list (dd b64)) (r r' : dd b64),
  let all := fun x y => shifted_num c n k x y (fun _ => true) (fun _ _ => true) in
  cfg_ok c -> size_ok c n -> vars_below (length xs) e -> Forall2 all xs ys ->
  run (b64ops M) c n xs e = Ok r -> run (b64ops M) c n ys e = Ok r' -> all r r').
Proof. exact range_needed. Qed.
Print Assumptions C98_powers_of_two_refuted.

(** Integers, seeds 1 and 3: the product of x = 2 and itself, minus x. *)
Example C98_case_graded :
  let P1 := fun (_ : nat) a b => b = (3 * a)%Z in let P2 := fun (_ _ : nat) a b => b = (9 * a)%Z in
  let e := EB Bsub (EB Bmul (EVar 0) (EVar 0)) (EVar 0) in
  graded eq P1 P2 Zops Zops /\ num_graded eq P1 P2 dyn2 1 (one_var 2 1 0)%Z (one_var 2 3 0)%Z /\
  run Zops dyn2 1 [one_var 2 1 0]%Z e = Ok (one_var 2 3 2)%Z /\ run Zops dyn2 1 [one_var 2 3 0]%Z e = Ok (one_var 2 9 18)%Z.
Proof.
  cbv zeta. split; [|split; [|split; reflexivity]].
  - constructor; [apply arith_eq|apply order_eq|..]; intros; subst; cbn [Zops o_Z o_add o_sub o_neg o_mul]; try ring. split; ring.
  - do 6 eexists. split; [apply one_var_shows|]. split; [apply one_var_shows|]. split; [reflexivity|]. split; intros; reflexivity.
Qed.
(** Doubles, the same with the seeds 1 and -1: the first derivative changes its sign, the second one does not. *)
Example C98_case_signs :
  let O := b64ops no_libm in let e := EB Bsub (EB Bmul (EVar 0) (EVar 0)) (EVar 0) in let z := b64_of_Z in
  num_graded eq (fun _ => flipped true) (fun _ _ => flipped (xorb true true)) dyn2 1 (one_var (z 3%Z) (z 1%Z) (z 0%Z)) (one_var (z 3%Z) (z (-1)%Z) (z 0%Z)) /\
  bits (run O dyn2 1 [one_var (z 3%Z) (z 1%Z) (z 0%Z)] e) = bits (Ok (one_var (z 6%Z) (z 5%Z) (z 2%Z))) /\
  bits (run O dyn2 1 [one_var (z 3%Z) (z (-1)%Z) (z 0%Z)] e) = bits (Ok (one_var (z 6%Z) (z (-5)%Z) (z 2%Z))).
Proof.
  cbv zeta. split.
  - do 6 eexists. split; [apply one_var_shows|]. split; [apply one_var_shows|]. split; [reflexivity|]. split; intros.
    + right. apply B2SF_inj. vm_compute. reflexivity.
    + right. reflexivity.
  - split; vm_compute; reflexivity.
Qed.
(** Doubles, the square of 1 with the seeds 1 and 8: every mark remains with room for 6 orders of magnitude. *)
Example C98_case_powers :
  let z := b64_of_Z in
  Forall3 (seeded dyn2 1 (fun _ => 3%Z)) [one_var (one64, true) (one64, true) (z 0%Z, true)] [one_var one64 one64 (z 0%Z)] [one_var one64 (two_to 3) (z 0%Z)] /\
  expr_rel (fun a b => fst a = b) (square : expr marked) (square : expr b64) /\
  marked_bits (run (marked_ops 6 no_libm) dyn2 1 [one_var (one64, true) (one64, true) (z 0%Z, true)] square) =
    marked_bits (Ok (one_var (z 1%Z, true) (z 2%Z, true) (z 2%Z, true))) /\
  bits (run (b64ops no_libm) dyn2 1 [one_var one64 (two_to 3) (z 0%Z)] square) = bits (Ok (one_var (z 1%Z) (z 16%Z) (z 128%Z))).
Proof.
  cbv zeta. split; [|split; [cbn; auto|split; vm_compute; reflexivity]].
  apply Forall3_cons; [|apply Forall3_nil]. apply seeded_ok, shift_two. vm_compute. reflexivity.
Qed.
(** No double other than zero has room for the 1200 orders of magnitude that the seed 2^-600 would need. *)
Example C98_case_lost :
  let z := b64_of_Z in
  marked_bits (run (marked_ops 1200 no_libm) dyn2 1 [one_var (one64, true) (one64, true) (z 0%Z, true)] square) =
    marked_bits (Ok (one_var (z 1%Z, false) (z 2%Z, false) (z 2%Z, false))).
Proof. vm_compute. reflexivity. Qed.
