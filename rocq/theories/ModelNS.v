(** Model of [SScalar<DDScalar<order, double, size>>] (include/hyperjet/hyperjet.h 1989-2894): a sparse
    number whose scalars are dense ones.  The scalar operations may throw or be undefined here, and
    [operator[]] of the table inserts what [DDScalar()] (315-328) makes.  Line numbers refer to that file. *)
From Coq Require Import ZArith List Bool String.
From Verif Require Import Outcome Scalar Model ModelS.
Import ListNotations.

Section NS.
  Context {S : Type} (O : Ops S) (c : cfg).

  (** [t[k] = f(t[k])]: an absent key is inserted with a value-initialised scalar, which is what the
      user-provided constructor [DDScalar()] leaves behind. *)
  Fixpoint ns_update (t : table (dd S)) (k : string) (f : dd S -> res (dd S)) : res (table (dd S)) :=
    match t with
    | [] => v <- f (ctor_default O c) ;; Ok [(k, v)]
    | (k', v) :: t => if String.eqb k' k then w <- f v ;; Ok ((k', w) :: t)
                      else t' <- ns_update t k f ;; Ok ((k', v) :: t')
    end.
  (** [for (auto &d : t) d.second = f(d.second);] *)
  Fixpoint ns_map (f : dd S -> res (dd S)) (t : table (dd S)) : res (table (dd S)) :=
    match t with
    | [] => Ok []
    | (k, v) :: t => w <- f v ;; t' <- ns_map f t ;; Ok ((k, w) :: t')
    end.
  (** [for (auto &d : b) t[d.first] = g(t[d.first], d.second);] for [b] another table than [t]. *)
  Fixpoint ns_merge (g : dd S -> dd S -> res (dd S)) (t b : table (dd S)) : res (table (dd S)) :=
    match b with
    | [] => Ok t
    | (k, v) :: b => t' <- ns_update t k (fun o => g o v) ;; ns_merge g t' b
    end.

  (** The factors [da] and [db] of 2013-2025: [int] literals or numbers. *)
  Inductive fac := FInt (z : Z) | FNum (x : dd S).
  (** 2019: [d.second *= da], by the operators at 1170-1178 and 1138-1168 *)
  Definition times_assign (v : dd S) (a : fac) : res (dd S) :=
    match a with FInt z => muls_assign O v (SVal (o_Z O z)) | FNum x => mul_assign O c v (Some x) end.
  (** 2022: [db * d.second], by the operators at 1133-1136 and 1101-1119 *)
  Definition times (a : fac) (v : dd S) : res (dd S) :=
    match a with FInt z => smul O c (o_Z O z) v | FNum x => mul O c x v end.
  (** 2002-2011 *)
  Definition ns_unary (a : table (dd S)) (da : dd S) : res (table (dd S)) :=
    ns_map (fun v => times_assign v (FNum da)) a.
  (** 2013-2025 *)
  Definition ns_binary (a b : table (dd S)) (da db : fac) : res (table (dd S)) :=
    r <- ns_map (fun v => times_assign v da) a ;;
    ns_merge (fun o v => w <- times db v ;; add_assign O c o (Some w)) r b.

  (** 2060-2063: [{{name, Scalar(1)}}] converts 1 by the constructor at 330-345 *)
  Definition ns_variable (name : string) (value : dd S) : res (ss (dd S)) :=
    one <- ctor_scalar O c (o_Z O 1) ;; Ok (mks value [(name, one)]).
  (** 2143-2150 *)
  Definition ns_add (a b : ss (dd S)) : res (ss (dd S)) :=
    f <- add O c (s_f a) (s_f b) ;;
    d <- ns_binary (s_d a) (s_d b) (FInt 1) (FInt 1) ;; Ok (mks f d).
  (** 2185-2192 *)
  Definition ns_sub (a b : ss (dd S)) : res (ss (dd S)) :=
    f <- sub O c (s_f a) (s_f b) ;;
    d <- ns_binary (s_d a) (s_d b) (FInt 1) (FInt (-1)) ;; Ok (mks f d).
  (** 2227-2234 *)
  Definition ns_mul (a b : ss (dd S)) : res (ss (dd S)) :=
    f <- mul O c (s_f a) (s_f b) ;;
    d <- ns_binary (s_d a) (s_d b) (FNum (s_f b)) (FNum (s_f a)) ;; Ok (mks f d).
  (** 2166-2174, 2208-2216, 2253-2267, for [b] another object than [*this] *)
  Definition ns_add_assign (x b : ss (dd S)) : res (ss (dd S)) :=
    f <- add_assign O c (s_f x) (Some (s_f b)) ;;
    d <- ns_merge (fun o v => add_assign O c o (Some v)) (s_d x) (s_d b) ;; Ok (mks f d).
  Definition ns_sub_assign (x b : ss (dd S)) : res (ss (dd S)) :=
    f <- sub_assign O c (s_f x) (Some (s_f b)) ;;
    d <- ns_merge (fun o v => sub_assign O c o (Some v)) (s_d x) (s_d b) ;; Ok (mks f d).
  Definition ns_mul_assign (x b : ss (dd S)) : res (ss (dd S)) :=
    f <- mul_assign O c (s_f x) (Some (s_f b)) ;;
    d <- ns_binary (s_d x) (s_d b) (FNum (s_f b)) (FNum (s_f x)) ;; Ok (mks f d).
  (** 2376-2385, 2387-2396, 2556-2564 *)
  Definition ns_cos (x : ss (dd S)) : res (ss (dd S)) :=
    f <- apply_u O c Ucos (s_f x) ;; s <- apply_u O c Usin (s_f x) ;; da <- neg O c s ;;
    d <- ns_unary (s_d x) da ;; Ok (mks f d).
  Definition ns_sin (x : ss (dd S)) : res (ss (dd S)) :=
    f <- apply_u O c Usin (s_f x) ;; da <- apply_u O c Ucos (s_f x) ;;
    d <- ns_unary (s_d x) da ;; Ok (mks f d).
  Definition ns_exp (x : ss (dd S)) : res (ss (dd S)) :=
    f <- apply_u O c Uexp (s_f x) ;; d <- ns_unary (s_d x) f ;; Ok (mks f d).
End NS.
