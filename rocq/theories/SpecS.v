(** Specification vocabulary for [SScalar]: expressions and programs over sparse numbers,
    independence of the iteration order of the tables. *)
From Coq Require Import ZArith List Bool String Permutation Reals.
From Verif Require Import Outcome Scalar Model Spec RealOps ExprSpec ProgSpec ModelS.
Import ListNotations.

(** The names stored in a sparse number; an [unordered_map] has pairwise distinct keys. *)
Definition names {S} (x : ss S) : list string := map fst (s_d x).
Definition keys_ok {S} (x : ss S) : Prop := NoDup (names x).

(** The same value and the same table, iterated in another order. *)
Definition reorders {S} (x y : ss S) : Prop := s_f x = s_f y /\ Permutation (s_d x) (s_d y).
(** Nothing a user can read off through [f()], [size()] and [d(name)] differs. *)
Definition same_reads {S} (O : Ops S) (x y : ss S) : Prop :=
  s_get_f x = s_get_f y /\ s_size x = s_size y /\ forall k, s_get_d O x k = s_get_d O y k.

(** Expressions on sparse numbers; literals become [constant(s)]. *)
Fixpoint s_run {S} (O : Ops S) (env : nat -> ss S) (e : expr S) : ss S :=
  match e with
  | EVar i => env i
  | EConst s => s_constant s
  | EU u e => s_apply_u O u (s_run O env e)
  | EB b e1 e2 => s_apply_b O b (s_run O env e1) (s_run O env e2)
  | EH e1 e2 e3 => s_hypot3 O (s_run O env e1) (s_run O env e2) (s_run O env e3)
  end.
(** The same, where the library may rearrange the table of every intermediate result and of every
    copy of an operand. *)
Inductive s_runs {S} (O : Ops S) (env : nat -> ss S) : expr S -> ss S -> Prop :=
| RVar i x : reorders (env i) x -> s_runs O env (EVar i) x
| RConst s x : reorders (s_constant s) x -> s_runs O env (EConst s) x
| RU u e x y : s_runs O env e x -> reorders (s_apply_u O u x) y -> s_runs O env (EU u e) y
| RB b e1 e2 x1 x2 y : s_runs O env e1 x1 -> s_runs O env e2 x2 ->
    reorders (s_apply_b O b x1 x2) y -> s_runs O env (EB b e1 e2) y
| RH e1 e2 e3 x1 x2 x3 y : s_runs O env e1 x1 -> s_runs O env e2 x2 -> s_runs O env e3 x3 ->
    reorders (s_hypot3 O x1 x2 x3) y -> s_runs O env (EH e1 e2 e3) y.

(** Variable [i] occurs in the expression. *)
Fixpoint occurs {S} (i : nat) (e : expr S) : Prop :=
  match e with
  | EVar k => k = i
  | EConst _ => False
  | EU _ e => occurs i e
  | EB _ e1 e2 => occurs i e1 \/ occurs i e2
  | EH e1 e2 e3 => occurs i e1 \/ occurs i e2 \/ occurs i e3
  end.

(** [nm 0 .. nm (n-1)] are different names. *)
Definition distinct (n : nat) (nm : nat -> string) : Prop :=
  forall i j, (i < n)%nat -> (j < n)%nat -> nm i = nm j -> i = j.

(** [v 0 + v 1 + ...] over a list of reals. *)
Definition lsum (l : list R) : R := fold_right Rplus 0%R l.
(** The increment of a name; 0 if it is not given. *)
Definition incr (d : table R) (k : string) : R :=
  match find (fun e => String.eqb (fst e) k) d with Some (_, v) => v | None => 0%R end.

(** ** Programs over registers holding sparse numbers *)
Section SExec.
  Context {S : Type} (O : Ops S).
  Definition s_assign (o : aop) (x : ss S) (b : option (ss S)) : ss S :=
    match o with
    | Aadd => s_add_assign O x b | Asub => s_sub_assign O x b
    | Amul => s_mul_assign O x b | Adiv => s_div_assign O x b
    end.
  Definition s_assign_s (o : aop) (x : ss S) (s : S) : ss S :=
    match o with
    | Aadd => s_adds_assign O x s | Asub => s_subs_assign O x s
    | Amul => s_muls_assign O x s | Adiv => s_divs_assign O x s
    end.
  Definition s_test (k : cond S) (st : list (ss S)) : res bool :=
    match k with
    | CRR o a b => x <- get st a ;; y <- get st b ;; Ok (ss_compare O o x y)
    | CRS o a s => x <- get st a ;; Ok (ss_compare_s O o x s)
    | CSR o s a => x <- get st a ;; Ok (s_compare_ss O o s x)
    end.
  Definition s_write (st : list (ss S)) (r : nat) (m : res (ss S)) : res (list (ss S)) :=
    get st r ;;; x <- m ;; Ok (put st r x).
  Definition s_step (s : stmt S) (st : list (ss S)) : res (list (ss S)) :=
    match s with
    | PConst r v => s_write st r (Ok (s_constant v))
    | PMov r a => s_write st r (get st a)
    | PU r u a => s_write st r (x <- get st a ;; Ok (s_apply_u O u x))
    | PB r b a1 a2 => s_write st r (x <- get st a1 ;; y <- get st a2 ;; Ok (s_apply_b O b x y))
    | PH r a1 a2 a3 => s_write st r (x <- get st a1 ;; y <- get st a2 ;; z <- get st a3 ;;
                                     Ok (s_hypot3 O x y z))
    | PAsg o r a => s_write st r (x <- get st r ;; y <- get st a ;;
                                  Ok (s_assign o x (if Nat.eqb a r then None else Some y)))
    | PAsgS o r v => s_write st r (x <- get st r ;; Ok (s_assign_s o x v))
    | _ => Ok st
    end.
  (** As [exec] of [ProgSpec.v]. *)
  Fixpoint s_exec (fuel : nat) (s : stmt S) (st : list (ss S)) : option (res (list (ss S))) :=
    match fuel with
    | Datatypes.O => None
    | Datatypes.S k =>
      match s with
      | PSeq s1 s2 =>
        match s_exec k s1 st with
        | Some (Ok st) => s_exec k s2 st
        | other => other
        end
      | PIf b s1 s2 =>
        match s_test b st with
        | Ok true => s_exec k s1 st
        | Ok false => s_exec k s2 st
        | Throw e => Some (Throw e) | Abort => Some Abort | UB => Some UB
        end
      | PWhile b s1 =>
        match s_test b st with
        | Ok true =>
          match s_exec k s1 st with
          | Some (Ok st) => s_exec k s st
          | other => other
          end
        | Ok false => Some (Ok st)
        | Throw e => Some (Throw e) | Abort => Some Abort | UB => Some UB
        end
      | _ => Some (s_step s st)
      end
    end.

  (** A basic statement: neither a sequence nor a branch nor a loop. *)
  Definition basic (s : stmt S) : Prop :=
    match s with PSeq _ _ | PIf _ _ _ | PWhile _ _ => False | _ => True end.
  (** Terminating executions in which every table may be rearranged after every statement. *)
  Inductive s_execs : stmt S -> list (ss S) -> list (ss S) -> Prop :=
  | XStep s st st1 st2 : basic s -> s_step s st = Ok st1 -> Forall2 reorders st1 st2 ->
      s_execs s st st2
  | XSeq s1 s2 st st1 st2 : s_execs s1 st st1 -> s_execs s2 st1 st2 -> s_execs (PSeq s1 s2) st st2
  | XThen b s1 s2 st st1 : s_test b st = Ok true -> s_execs s1 st st1 -> s_execs (PIf b s1 s2) st st1
  | XElse b s1 s2 st st1 : s_test b st = Ok false -> s_execs s2 st st1 -> s_execs (PIf b s1 s2) st st1
  | XDone b s1 st : s_test b st = Ok false -> s_execs (PWhile b s1) st st
  | XLoop b s1 st st1 st2 : s_test b st = Ok true -> s_execs s1 st st1 ->
      s_execs (PWhile b s1) st1 st2 -> s_execs (PWhile b s1) st st2.
End SExec.

(** The program contains neither [r *= r] nor [r /= r]. *)
Fixpoint no_self_muldiv {S} (s : stmt S) : Prop :=
  match s with
  | PSeq s1 s2 => no_self_muldiv s1 /\ no_self_muldiv s2
  | PIf _ s1 s2 => no_self_muldiv s1 /\ no_self_muldiv s2
  | PWhile _ s1 => no_self_muldiv s1
  | PAsg Amul r a | PAsg Adiv r a => r <> a
  | _ => True
  end.

(** The sparse number [y] has the value of [x] and its derivatives by the names [nm 0 .. nm (n-1)]
    are [x]'s gradient. *)
Definition mirrors {S} (O : Ops S) (c : cfg) (n : nat) (nm : nat -> string) (x : dd S) (y : ss S) : Prop :=
  keys_ok y /\ exists h, shows c n x (s_get_f y) (fun i => s_get_d O y (nm i)) h.
