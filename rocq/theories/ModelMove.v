(** C++ programs over number variables: copies, moves, swaps and library calls (hyperjet.h:57-58, 313-366,
    1990-1999, 2044-2062).

    [DDScalar] and [SScalar] declare no copy or move constructor, no assignment operator and no destructor, so that
    all of them are the compiler's: member by member.  A moved-from [std::vector] is empty after move construction
    and has unspecified contents after move assignment; a moved-from [std::unordered_map] has unspecified contents;
    [std::array] and scalar members are copied, in particular [m_size] and [m_f] stay as they were.
    [std::swap(a, b)] is [T t = std::move(a); a = std::move(b); b = std::move(t);].

    Simplified: variables are numbered; assignments to undeclared variables, which do not compile, are not singled
    out; an exception ends the program. *)
From Coq Require Import ZArith String List Bool.
From Verif Require Import Outcome Scalar Model ProgSpec ModelS SpecS.
Import ListNotations.
Open Scope nat_scope.

Section Move.
  (** [X]: numbers; [J]: contents a moved-from container may have; [husk None x]: what is left of [x] after
      [T y = std::move(x)]; [husk (Some j) x]: after [y = std::move(x)]. *)
  Context {X Op Iop J : Type} (exec : Op -> list X -> res X) (iexec : Iop -> X -> option X -> res X)
          (husk : option J -> X -> X) (less : X -> X -> res bool).

  Inductive mstmt :=
  | MLet (r : nat) (o : Op) (args : list nat)      (* T r = o(args);  r = o(args); *)
  | MCopy (r a : nat)                              (* T r = a;  r = a; *)
  | MMove (r a : nat)                              (* T r = std::move(a); *)
  | MMoveTo (r a : nat)                            (* r = std::move(a); *)
  | MSwap (r a : nat)                              (* std::swap(r, a); *)
  | MUpd (o : Iop) (r : nat) (a : option nat).     (* r += a;  r *= 2.0; *)

  Definition vars := nat -> option X.
  Definition setv (st : vars) (r : nat) (x : X) : vars := fun q => if Nat.eqb q r then Some x else st q.
  (** A variable that was never initialised must not be used. *)
  Definition getv (st : vars) (r : nat) : res X := match st r with Some x => Ok x | None => UB end.
  Fixpoint getvs (st : vars) (rs : list nat) : res (list X) :=
    match rs with [] => Ok [] | r :: rs => x <- getv st r ;; xs <- getvs st rs ;; Ok (x :: xs) end.

  Definition move_new (st : vars) (r a : nat) : res vars :=
    if Nat.eqb r a then UB   (* [T r = std::move(r);] *)
    else x <- getv st a ;; Ok (setv (setv st r x) a (husk None x)).
  Definition move_to (j : J) (st : vars) (r a : nat) : res vars :=
    x <- getv st a ;; Ok (setv (setv st r x) a (husk (Some j) x)).

  (** [j]: the contents the moved-from containers of this statement are left with. *)
  Definition mstep (j : J) (s : mstmt) (st : vars) : res vars :=
    match s with
    | MLet r o args => xs <- getvs st args ;; x <- exec o xs ;; Ok (setv st r x)
    | MCopy r a => x <- getv st a ;; Ok (setv st r x)
    | MMove r a => move_new st r a
    | MMoveTo r a => move_to j st r a
    | MSwap r a =>
        t <- getv st r ;;
        st <- Ok (setv st r (husk None t)) ;;
        st <- move_to j st r a ;;
        Ok (setv st a t)
    | MUpd o r a =>
        x <- getv st r ;;
        y <- match a with
             | None => Ok None
             | Some a => y <- getv st a ;; Ok (if Nat.eqb a r then None else Some y)
             end ;;
        x <- iexec o x y ;; Ok (setv st r x)
    end.
  Fixpoint mrun (js : nat -> J) (k : nat) (w : list mstmt) (st : vars) : res vars :=
    match w with
    | [] => Ok st
    | s :: w => st <- mstep (js k) s st ;; mrun js (S k) w st
    end.

  (** Algorithms of the standard library that only move, swap and compare. *)
  Inductive alg :=
  | AEnd
  | AMove (r a : nat) (rest : alg)                 (* T r = std::move(a); *)
  | AMoveTo (r a : nat) (rest : alg)               (* r = std::move(a); *)
  | ASwap (r a : nat) (rest : alg)
  | ALess (a b : nat) (rest : bool -> alg).        (* a < b *)
  Fixpoint arun (js : nat -> J) (k : nat) (p : alg) (st : vars) : res vars :=
    match p with
    | AEnd => Ok st
    | AMove r a p => st <- mstep (js k) (MMove r a) st ;; arun js (S k) p st
    | AMoveTo r a p => st <- mstep (js k) (MMoveTo r a) st ;; arun js (S k) p st
    | ASwap r a p => st <- mstep (js k) (MSwap r a) st ;; arun js (S k) p st
    | ALess a b p => x <- getv st a ;; y <- getv st b ;; l <- less x y ;; arun js (S k) (p l) st
    end.
End Move.
Arguments mstmt : clear implicits.

(** Insertion sort of the variables [0 .. n-1], as in [std::sort] for short ranges; variable [n] is the temporary.
    [shift_down t k]: the value taken out of place [k] is in [t]. *)
Fixpoint shift_down (t k : nat) (rest : alg) : alg :=
  match k with
  | 0 => AMoveTo 0 t rest
  | S k' => ALess t k' (fun l => if l then AMoveTo k k' (shift_down t k' rest) else AMoveTo k t rest)
  end.
Fixpoint isort_from (t k m : nat) : alg :=
  match m with
  | 0 => AEnd
  | S m => AMove t k (shift_down t k (isort_from t (S k) m))
  end.
Definition isort (n : nat) : alg := isort_from n 1 (n - 1).

(** What a call may be: the library functions that return a number. *)
Inductive call (S : Type) :=
| KConst (v : S) (sz : Z) | KVar (i : Z) (v : S) (sz : Z) | KUn (u : ufun S) | KBin (b : bfun) | KHyp.
Arguments KConst {S}. Arguments KVar {S}. Arguments KUn {S}. Arguments KBin {S}. Arguments KHyp {S}.
Inductive icall (S : Type) := KAsg (o : aop) | KAsgS (o : aop) (v : S).
Arguments KAsg {S}. Arguments KAsgS {S}.
Inductive scall (S : Type) := LConst (v : S) | LVar (k : string) (v : S) | LUn (u : ufun S) | LBin (b : bfun) | LHyp.
Arguments LConst {S}. Arguments LVar {S}. Arguments LUn {S}. Arguments LBin {S}. Arguments LHyp {S}.

Section Lib.
  Context {S : Type} (O : Ops S) (c : cfg).
  (** A wrong number of operands does not compile; it is given the meaning [UB]. *)
  Definition dd_call (o : call S) (xs : list (dd S)) : res (dd S) :=
    match o, xs with
    | KConst v sz, [] => constant_n O c v sz
    | KVar i v sz, [] => variable_n O c i v sz
    | KUn u, [x] => apply_u O c u x
    | KBin b, [x; y] => apply_b O c b x y
    | KHyp, [x; y; z] => hypot3 O c x y z
    | _, _ => UB
    end.
  Definition dd_icall (o : icall S) (x : dd S) (y : option (dd S)) : res (dd S) :=
    match o with KAsg o => assign O c o x y | KAsgS o v => assign_s O o x v end.
  (** 57-58: [m_size] and [m_data]. *)
  Definition dd_husk (j : option (data S)) (x : dd S) : dd S :=
    if is_dynamic c then mk (m_size x) (match j with None => [] | Some d => d end) else x.
  Definition dd_less : dd S -> dd S -> res bool := compare O Clt.

  Definition ss_call (o : scall S) (xs : list (ss S)) : res (ss S) :=
    match o, xs with
    | LConst v, [] => Ok (s_constant v)
    | LVar k v, [] => Ok (s_variable O k v)
    | LUn u, [x] => Ok (s_apply_u O u x)
    | LBin b, [x; y] => Ok (s_apply_b O b x y)
    | LHyp, [x; y; z] => Ok (s_hypot3 O x y z)
    | _, _ => UB
    end.
  Definition ss_icall (o : icall S) (x : ss S) (y : option (ss S)) : res (ss S) :=
    match o with KAsg o => Ok (s_assign O o x y) | KAsgS o v => Ok (s_assign_s O o x v) end.
  (** 1998-1999: [m_f] and [m_d]; the contents are unspecified after both kinds of move. *)
  Definition ss_husk (d : table S) (j : option (table S)) (x : ss S) : ss S :=
    mks (s_f x) (match j with None => d | Some d => d end).
  Definition ss_less (x y : ss S) : res bool := Ok (ss_compare O Clt x y).
End Lib.
