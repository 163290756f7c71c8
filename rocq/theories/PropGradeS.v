(** C103: sparse numbers whose variables are seeded with other derivatives. *)
From Coq Require Import ZArith List Bool String Reals Lra Lia.
From Flocq Require Import Core BinarySingleNaN.
From Verif Require Import Outcome Scalar Float64 Ops64 Model ModelObj Spec RealOps ExprSpec ProgSpec ParamSpec Samples GradeSpec ModelS ModelObjS SpecS GradeSSpec Facts64 FactsGrade64 FactsGradeS.
Import ListNotations.
Open Scope list_scope.

(** C103.  Any two scalar types with a relation between values and one between derivatives for each name: related inputs give
    results with the same names in the same order and related values and derivatives. *)
Theorem C103_expressions : forall (S T : Type) (P0 : S -> T -> Prop) (P1 : string -> S -> T -> Prop) (O : Ops S) (O' : Ops T), seeding P0 P1 O O' ->
  forall (env : nat -> ss S) (env' : nat -> ss T), (forall i, sparse_seeds P0 P1 (env i) (env' i)) ->
  forall (e : expr S) (e' : expr T), expr_rel P0 e e' -> sparse_seeds P0 P1 (s_run O env e) (s_run O' env' e').
Proof. exact @run_gr. Qed.
Print Assumptions C103_expressions.
(** Whatever orders the tables of one side are iterated in, the other side can be run alike. *)
Theorem C103_any_order : forall (S T : Type) (P0 : S -> T -> Prop) (P1 : string -> S -> T -> Prop) (O : Ops S) (O' : Ops T), seeding P0 P1 O O' ->
  forall (env : nat -> ss S) (env' : nat -> ss T), (forall i, sparse_seeds P0 P1 (env i) (env' i)) ->
  forall (e : expr S) (x : ss S), s_runs O env e x -> forall e' : expr T, expr_rel P0 e e' -> exists x', s_runs O' env' e' x' /\ sparse_seeds P0 P1 x x'.
Proof. exact @runs_gr. Qed.
Print Assumptions C103_any_order.
Theorem C103_programs : forall (S T : Type) (P0 : S -> T -> Prop) (P1 : string -> S -> T -> Prop) (O : Ops S) (O' : Ops T), seeding P0 P1 O O' ->
  forall (fuel : nat) (s : stmt S) (s' : stmt T) (st : list (ss S)) (st' : list (ss T)), stmt_rel P0 s s' -> Forall2 (sparse_seeds P0 P1) st st' ->
  run_rel (Forall2 (sparse_seeds P0 P1)) (s_exec O fuel s st) (s_exec O' fuel s' st').
Proof. exact @exec_gr. Qed.
Print Assumptions C103_programs.
Theorem C103_programs_any_order : forall (S T : Type) (P0 : S -> T -> Prop) (P1 : string -> S -> T -> Prop) (O : Ops S) (O' : Ops T), seeding P0 P1 O O' ->
  forall (s : stmt S) (st st1 : list (ss S)), s_execs O s st st1 ->
  forall (s' : stmt T) (st' : list (ss T)), stmt_rel P0 s s' -> Forall2 (sparse_seeds P0 P1) st st' ->
  exists st1', s_execs O' s' st' st1' /\ Forall2 (sparse_seeds P0 P1) st1 st1'.
Proof. exact @execs_gr. Qed.
Print Assumptions C103_programs_any_order.
(** Python sessions in which [SScalar.variable(k, v)] is replaced by [SScalar(v, {k: seed})]. *)
Theorem C103_sessions : forall (S T : Type) (P0 : S -> T -> Prop) (P1 : string -> S -> T -> Prop) (O : Ops S) (O' : Ops T), seeding P0 P1 O O' ->
  forall (w : list (zstmt S)) (w' : list (zstmt T)), Forall2 (zseeds P0 P1 O) w w' ->
  forall (st : zheap S) (st' : zheap T), zheap_seeds P0 P1 st st' -> zheap_seeds P0 P1 (zsession O w st) (zsession O' w' st').
Proof. exact @zsession_gr. Qed.
Print Assumptions C103_sessions.
(** [eval] with increments that compensate the seeds. *)
Theorem C103_eval : forall (S T : Type) (P0 : S -> T -> Prop) (P1 : string -> S -> T -> Prop) (O : Ops S) (O' : Ops T), seeding P0 P1 O O' ->
  forall (Pd : string -> S -> T -> Prop) (shared : bool) (x : ss S) (x' : ss T) (d : table S) (d' : table T),
  (forall k a a' b b', P1 k a a' -> Pd k b b' -> P0 (o_mul O a b) (o_mul O' a' b')) ->
  sparse_seeds P0 P1 x x' -> table_seeds Pd d d' -> res_rel P0 (s_eval O shared x d) (s_eval O' shared x' d').
Proof. exact @eval_gr. Qed.
Print Assumptions C103_eval.

(** Exact arithmetic: a seed multiplied by [s k] multiplies the derivatives of every result by the name [k] by [s k]; [eval] with the
    increments divided by it gives the same. *)
Theorem C103_real_seeds : forall s : string -> R, let scaled := sparse_seeds eq (fun k a b => b = (s k * a)%R) in
  (forall env env', (forall i, scaled (env i) (env' i)) -> forall e, scaled (s_run Rops env e) (s_run Rops env' e)) /\
  (forall fuel p st st', Forall2 scaled st st' -> run_rel (Forall2 scaled) (s_exec Rops fuel p st) (s_exec Rops fuel p st')) /\
  (forall x y, scaled x y -> forall k, s_get_d Rops y k = (s k * s_get_d Rops x k)%R) /\
  (forall x y d d', scaled x y -> table_seeds (fun k a b => a = (s k * b)%R) d d' -> forall b, s_eval Rops b x d = s_eval Rops b y d').
Proof. exact real_seeds_s. Qed.
Print Assumptions C103_real_seeds.
(** Doubles: a seed of -1 instead of 1 changes nothing but the signs of the derivatives by that name, whatever the mathematical library does. *)
Theorem C103_signs : forall (M : libm) (s : string -> bool), let flips := sparse_seeds eq (fun k => flipped (s k)) in
  (forall env env', (forall i, flips (env i) (env' i)) -> forall e, flips (s_run (b64ops M) env e) (s_run (b64ops M) env' e)) /\
  (forall fuel p st st', Forall2 flips st st' -> run_rel (Forall2 flips) (s_exec (b64ops M) fuel p st) (s_exec (b64ops M) fuel p st')).
Proof. exact sign_seeds_s. Qed.
Print Assumptions C103_signs.
(** Doubles: seeds multiplied by powers of two multiply the derivatives exactly wherever the mark remains, i.e. wherever no
    intermediate result comes within [K] binary orders of magnitude of the limits of the format. *)
Theorem C103_powers_of_two : forall (K : Z) (M : libm) (k : string -> Z), (0 <= K)%Z -> (forall n, (Z.abs (k n) <= K)%Z) ->
  forall (envm : nat -> ss marked) (env env' : nat -> ss b64), (forall i, sparse_shifted k (envm i) (env i) (env' i)) ->
  forall (em : expr marked) (e : expr b64), expr_rel (fun a b => fst a = b) em e ->
  sparse_shifted k (s_run (marked_ops K M) envm em) (s_run (b64ops M) env e) (s_run (b64ops M) env' e).
Proof. exact power_run_s. Qed.
Print Assumptions C103_powers_of_two.
Theorem C103_powers_of_two_programs : forall (K : Z) (M : libm) (k : string -> Z), (0 <= K)%Z -> (forall n, (Z.abs (k n) <= K)%Z) ->
  forall (fuel : nat) (pm : stmt marked) (p : stmt b64) (sm : list (ss marked)) (st st' : list (ss b64)),
  stmt_rel (fun a b => fst a = b) pm p -> Forall3 (sparse_shifted k) sm st st' ->
  match s_exec (marked_ops K M) fuel pm sm, s_exec (b64ops M) fuel p st, s_exec (b64ops M) fuel p st' with
  | Some (Ok rm), Some (Ok r), Some (Ok r') => Forall3 (sparse_shifted k) rm r r'
  | Some (Throw _), Some (Throw _), Some (Throw _) | Some Abort, Some Abort, Some Abort | Some UB, Some UB, Some UB | None, None, None => True
  | _, _, _ => False
  end.
Proof. exact power_exec_s. Qed.
Print Assumptions C103_powers_of_two_programs.

(** Integers: [x y - x] at (2, 5) with the seeds 1, 1 and 3, -1. *)
Example C103_case : let P1 := fun k a b => b = ((if String.eqb k "x" then 3 else -1) * a)%Z in
  let e := EB Bsub (EB Bmul (EVar 0) (EVar 1)) (EVar 0) in
  let pair (x y : ss Z) := fun i : nat => match i with O => x | _ => y end in
  seeding eq P1 Zops Zops /\
  sparse_seeds eq P1 (mks 2 [("x", 1)])%Z%string (mks 2 [("x", 3)])%Z%string /\ sparse_seeds eq P1 (mks 5 [("y", 1)])%Z%string (mks 5 [("y", -1)])%Z%string /\
  s_run Zops (pair (mks 2 [("x", 1)]) (mks 5 [("y", 1)]))%Z%string e = mks 8%Z [("x", 4%Z); ("y", 2%Z)]%string /\
  s_run Zops (pair (mks 2 [("x", 3)]) (mks 5 [("y", -1)]))%Z%string e = mks 8%Z [("x", 12%Z); ("y", (-2)%Z)]%string.
Proof.
  cbv zeta. split; [|split; [|split; [|split; reflexivity]]].
  - constructor; [apply arith_eq|apply order_eq|..]; intros; subst; cbn [Zops o_Z o_add o_sub o_neg o_mul]; ring.
  - split; [reflexivity|]. repeat constructor.
  - split; [reflexivity|]. repeat constructor.
Qed.
(** Doubles: the square of 1 with the seeds 1 and 8; the mark remains with room for 3 orders of magnitude, and is lost with room for 1100. *)
Example C103_case_powers : let m := mks (one64, true) [("x"%string, (one64, true))] in let x := mks one64 [("x"%string, one64)] in
  let y := mks one64 [("x"%string, two_to 3)] in
  sparse_shifted (fun _ => 3%Z) m x y /\
  map (fun e => snd (snd e)) (s_d (s_run (marked_ops 3 no_libm) (fun _ => m) square)) = [true] /\
  map (fun e => snd (snd e)) (s_d (s_run (marked_ops 1100 no_libm) (fun _ => m) square)) = [false] /\
  sbits (s_run (b64ops no_libm) (fun _ => y) square) = sbits (mks one64 [("x"%string, b64_of_Z 16)]).
Proof.
  cbv zeta. split; [|split; [|split]; vm_compute; reflexivity].
  split; [reflexivity|]. split; [reflexivity|]. apply Forall3_cons; [|apply Forall3_nil].
  split; [reflexivity|]. split; [reflexivity|]. split; [reflexivity|]. intros _. apply shift_two. vm_compute. reflexivity.
Qed.
(** Sessions: [x = variable("x", 2); y = x * x] against [x = SScalar(2, {"x": 3}); y = x * x]. *)
Example C103_case_session : let P1 := fun (_ : string) a b => b = (3 * a)%Z in
  Forall2 (zseeds eq P1 Zops) [ZVar 0 "x" 2%Z; ZBin 1 Bmul 0 0] [ZNew 0 2%Z [("x"%string, 3%Z)]; ZBin 1 Bmul 0 0] /\
  zobjs (zsession Zops [ZNew 0 2%Z [("x"%string, 3%Z)]; ZBin 1 Bmul 0 0] (mkz [] (fun _ => None))) =
    [mks 2%Z [("x"%string, 3%Z)]; mks 4%Z [("x"%string, 12%Z)]].
Proof. cbv zeta. split; [|reflexivity]. repeat constructor. Qed.
