(** C65, C66: results depend on the scalar type only through its operations; enclosures. *)
From Coq Require Import ZArith List Bool Reals Lra Lia.
From Verif Require Import Outcome Scalar Model ModelBuf ModelObj Spec RealOps ExprSpec ProgSpec NumSpec ParamSpec FactsParam FactsEncl Samples.
Import ListNotations.

(** C65.  Whatever relation between two scalar types is respected by the scalar operations is respected by
    every expression, program, session and method, with the same exceptions, failed assertions and undefined
    behaviour, from every state (malformed ones included). *)
Theorem C65_expressions : forall (S T : Type) (P : S -> T -> Prop) (O : Ops S) (O' : Ops T) (c : cfg), arith_rel P O O' ->
  forall (n : nat) (e : expr S) (e' : expr T) (env : list (dd S)) (env' : list (dd T)),
  order_rel P O O' \/ no_abs e -> expr_rel P e e' -> Forall2 (num_rel P) env env' ->
  res_rel (num_rel P) (run O c n env e) (run O' c n env' e').
Proof. exact @expr_par. Qed.
Print Assumptions C65_expressions.
Theorem C65_programs : forall (S T : Type) (P : S -> T -> Prop) (O : Ops S) (O' : Ops T) (c : cfg), arith_rel P O O' -> order_rel P O O' ->
  forall (n fuel : nat) (s : stmt S) (s' : stmt T) (st : list (dd S)) (st' : list (dd T)),
  stmt_rel P s s' -> Forall2 (num_rel P) st st' ->
  run_rel (Forall2 (num_rel P)) (exec O c n fuel s st) (exec O' c n fuel s' st').
Proof. exact @exec_par. Qed.
Print Assumptions C65_programs.
Theorem C65_sessions : forall (S T : Type) (P : S -> T -> Prop) (O : Ops S) (O' : Ops T) (c : cfg), arith_rel P O O' -> order_rel P O O' ->
  forall (slack : nat -> nat) (p : list (pstmt S)) (p' : list (pstmt T)), Forall2 (pstmt_rel P) p p' ->
  forall (st : heap S) (st' : heap T), heap_rel P st st' ->
  res_rel (heap_rel P) (session O c slack p st) (session O' c slack p' st').
Proof. exact @session_par. Qed.
Print Assumptions C65_sessions.
Theorem C65_methods : forall (S T : Type) (P : S -> T -> Prop) (O : Ops S) (O' : Ops T) (c : cfg), arith_rel P O O' ->
  (forall vs vs', Forall2 P vs vs' -> res_rel (Forall2 (num_rel P)) (variables O c vs) (variables O' c vs')) /\
  (forall i v v' n, P v v' -> res_rel (num_rel P) (variable_n O c i v n) (variable_n O' c i v' n)) /\
  (forall v v' n, P v v' -> res_rel (num_rel P) (constant_n O c v n) (constant_n O' c v' n)) /\
  (forall d d', data_rel P d d' -> res_rel (num_rel P) (create c d) (create c d')) /\
  (forall v v' g g', P v v' -> data_rel P g g' -> res_rel (num_rel P) (from_gradient O c v g) (from_gradient O' c v' g')) /\
  (forall v v' g g' h h', P v v' -> data_rel P g g' -> mat_rel P h h' ->
     res_rel (num_rel P) (from_arrays O c v g h) (from_arrays O' c v' g' h')) /\
  forall x x', num_rel P x x' ->
    res_rel P (get_f x) (get_f x') /\
    (forall i, res_rel P (get_g c x i) (get_g c x' i)) /\ (forall i j, res_rel P (get_h c x i j) (get_h c x' i j)) /\
    (forall v v', P v v' -> res_rel (num_rel P) (set_f x v) (set_f x' v')) /\
    (forall i v v', P v v' -> res_rel (num_rel P) (set_g c x i v) (set_g c x' i v')) /\
    (forall i j v v', P v v' -> res_rel (num_rel P) (set_h c x i j v) (set_h c x' i j v')) /\
    res_rel (Forall2 P) (get_ag c x) (get_ag c x') /\ res_rel (Forall2 P) (adata x) (adata x') /\
    (forall g g', data_rel P g g' -> res_rel (num_rel P) (set_ag c x g) (set_ag c x' g')) /\
    (forall mode, res_rel (mat_rel P) (hm O c x mode) (hm O' c x' mode)) /\
    (forall m m', mat_rel P m m' -> res_rel (num_rel P) (set_hm c x m) (set_hm c x' m')) /\
    (forall n, res_rel (num_rel P) (resize O c x n) (resize O' c x' n)) /\
    (forall n, res_rel (num_rel P) (pad_left O c x n) (pad_left O' c x' n)) /\
    (forall n, res_rel (num_rel P) (pad_right O c x n) (pad_right O' c x' n)) /\
    res_rel (num_rel P) (set_zero O x) (set_zero O' x') /\
    (forall d d', Forall2 P d d' -> res_rel P (eval O c x d) (eval O' c x' d')).
Proof. exact @methods_par. Qed.
Print Assumptions C65_methods.
(** Reals in intervals are respected by the arithmetic but not by comparisons, and [abs] of an interval does not
    contain [abs] of its elements: -3 is in [-4, 2], whose [abs] (comparing [false]) is itself. *)
Example C65_case : arith_rel inside Rops Iops /\
  num_rel inside (mk 1 (full [-3; 1]%R)) (mk 1 (full [Some (-4, 2); Some (1, 1)]%Z)) /\
  run Iops dyn1 1 [mk 1 (full [Some (-4, 2); Some (1, 1)]%Z)] (EU Uabs (EVar 0)) = Ok (mk 1 (full [Some (-4, 2); Some (1, 1)]%Z)) /\
  run Rops dyn1 1 [mk 1 (full [-3; 1]%R)] (EU Uabs (EVar 0)) = Ok (mk 1 (full [- -3; - (1)]%R)) /\
  ~ inside (- (1)) (Some (1, 1)%Z).
Proof.
  split; [exact intervals_enclose|]. split.
  { split; [reflexivity|]. repeat constructor; cbn; lra. }
  split; [vm_compute; reflexivity|]. split; [|cbn; lra].
  cbn -[neg]. unfold get_f. cbn -[neg]. replace (Rltb (-3) 0) with true; [reflexivity|]. unfold Rltb. destruct (Rlt_dec (-3) 0); [reflexivity|lra].
Qed.

(** C66.  With an interval-like scalar type, the result computed from a box contains the value and all partial
    derivatives at every point of the box. *)
Theorem C66_enclosure : forall (T : Type) (O' : Ops T) (mem : R -> T -> Prop) (c : cfg) (n : nat) (e : expr R) (e' : expr T) (box : list T),
  cfg_ok c -> size_ok c n -> length box = n -> vars_below n e -> no_abs e -> arith_rel mem Rops O' -> expr_rel mem e e' ->
  exists r, evaluate O' c box e' = Ok r /\ wf c n r /\
    forall p, Forall2 mem (coords n p) box -> dom e p -> encloses mem c n e p r.
Proof. exact @enclosure. Qed.
Print Assumptions C66_enclosure.
(** (x + 2 y) x y + sin x on [1, 2] x [3, 4]: value in [20, 81], d/dx in [23, 49], d2/dxdy in [14, 20]. *)
Example C66_case :
  let e := ((X + EU (Usmul 2%R) Y) * X * Y + EU Usin X)%E in
  let e' := EB Badd (EB Bmul (EB Bmul (EB Badd (EVar 0) (EU (Usmul (Some (2, 2)%Z)) (EVar 1))) (EVar 0)) (EVar 1)) (EU Usin (EVar 0)) in
  arith_rel inside Rops Iops /\ expr_rel inside e e' /\ no_abs e /\ vars_below 2 e /\ (forall p, dom e p) /\
  evaluate Iops dyn2 [Some (1, 2); Some (3, 4)]%Z e' =
    Ok (mk 2 (full [Some (20, 81); Some (23, 49); Some (13, 36); Some (5, 9); Some (14, 20); Some (4, 8)]%Z)).
Proof.
  split; [exact intervals_enclose|]. split; [cbn; repeat split; lra|]. split; [cbn; tauto|]. split; [cbn; repeat split; lia|].
  split; [cbn; tauto|]. vm_compute. reflexivity.
Qed.
