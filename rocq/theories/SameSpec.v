(** Sparse and dense numbers in double arithmetic (C89). *)
From Coq Require Import ZArith List Bool String.
From Flocq Require Import BinarySingleNaN.
From Verif Require Import Outcome Scalar Model Spec ExprSpec ProgSpec Float64 Ops64 RangeSpec ModelS SpecS.

(** [w] is NaN, or [v] is the same double, the sign of a zero not counted. *)
Definition alike (v w : b64) : Prop := nan64 w \/ v = w \/ (zero64 v /\ zero64 w).
(** [y] has the value of [x] bit for bit; its derivatives by [nm 0 .. nm (n-1)] are [x]'s gradient, except where that is NaN. *)
Definition mirrors64 (M : libm) (c : cfg) (n : nat) (nm : nat -> string) (x : dd b64) (y : ss b64) : Prop :=
  keys_ok y /\ exists g h, shows c n x (s_get_f y) g h /\
    forall i, (i < n)%nat -> alike (s_get_d (b64ops M) y (nm i)) (g i).
(** All the names are stored. *)
Definition covers {S} (n : nat) (nm : nat -> string) (y : ss S) : Prop := forall i, (i < n)%nat -> In (nm i) (names y).
(** No constants converted to numbers; plain scalars as operands are allowed. *)
Fixpoint const_free {S} (e : expr S) : Prop :=
  match e with
  | EVar _ => True
  | EConst _ => False
  | EU _ e => const_free e
  | EB _ e1 e2 => const_free e1 /\ const_free e2
  | EH e1 e2 e3 => const_free e1 /\ const_free e2 /\ const_free e3
  end.
Fixpoint sconst_free {S} (s : stmt S) : Prop :=
  match s with
  | PConst _ _ => False
  | PSeq s1 s2 | PIf _ s1 s2 => sconst_free s1 /\ sconst_free s2
  | PWhile _ s => sconst_free s
  | _ => True
  end.
