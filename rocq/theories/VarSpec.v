(** Which variables a number carries, and which of them a computation uses. *)
From Coq Require Import ZArith List Bool.
From Flocq Require Import BinarySingleNaN.
From Verif Require Import Outcome Scalar Model Spec ExprSpec ProgSpec Float64 Ops64.

(** [x] carries, of the [m] variables of [y], the variables [sigma 0 .. sigma (n-1)]: same value, the derivatives of
    [y] with respect to these variables. *)
Definition selects {S} (c c' : cfg) (n m : nat) (sigma : nat -> nat) (x y : dd S) : Prop :=
  exists f g h, shows c' m y f g h /\ shows c n x f (fun i => g (sigma i)) (fun i j => h (sigma i) (sigma j)).
(** The same without the second derivatives. *)
Definition selects1 {S} (c c' : cfg) (n m : nat) (sigma : nat -> nat) (x y : dd S) : Prop :=
  exists f g h h', shows c' m y f g h /\ shows c n x f (fun i => g (sigma i)) h'.
(** [sigma] picks variables of a number with [m] variables; their order is kept. *)
Definition picks (n m : nat) (sigma : nat -> nat) : Prop := forall i, (i < n)%nat -> (sigma i < m)%nat.
Definition ordered (n : nat) (sigma : nat -> nat) : Prop :=
  forall i j, (i <= j)%nat -> (j < n)%nat -> (sigma i <= sigma j)%nat.

(** A set of scalars that absorbs products: it contains zero and is closed under sums, differences and negation. *)
Record absorbing {S} (O : Ops S) (Z : S -> Prop) : Prop := {
  ab_zero : Z (o_Z O 0);
  ab_add : forall a b, Z a -> Z b -> Z (o_add O a b);
  ab_sub : forall a b, Z a -> Z b -> Z (o_sub O a b);
  ab_neg : forall a, Z a -> Z (o_neg O a);
  ab_mul_l : forall a b, Z a -> Z (o_mul O a b);
  ab_mul_r : forall a b, Z b -> Z (o_mul O a b)
}.
(** All derivatives of [x] involving variable [i] are in [Z]. *)
Definition free_of {S} (Z : S -> Prop) (c : cfg) (n i : nat) (x : dd S) : Prop :=
  exists f g h, shows c n x f g h /\ Z (g i) /\
    (c_ord c = 2%Z -> forall j, (j < n)%nat -> Z (h i j) /\ Z (h j i)).

(** Variable [k] occurs in the expression. *)
Fixpoint occurs {S} (k : nat) (e : expr S) : Prop :=
  match e with
  | EVar i => i = k
  | EConst _ => False
  | EU _ e => occurs k e
  | EB _ e1 e2 => occurs k e1 \/ occurs k e2
  | EH e1 e2 e3 => occurs k e1 \/ occurs k e2 \/ occurs k e3
  end.
(** What the program stores into a register of the set [A] is computed from registers of [A]. *)
Fixpoint kept {S} (A : nat -> Prop) (s : stmt S) : Prop :=
  match s with
  | PSkip | PConst _ _ | PAsgS _ _ _ => True
  | PSeq s1 s2 | PIf _ s1 s2 => kept A s1 /\ kept A s2
  | PMov r a | PU r _ a | PAsg _ r a => A r -> A a
  | PB r _ a b => A r -> A a /\ A b
  | PH r a b d => A r -> A a /\ A b /\ A d
  | PWhile _ s1 => kept A s1
  end.

(** Doubles: a zero of either sign, or NaN. *)
Definition zero_or_nan (v : b64) : Prop := (exists s, v = B754_zero s) \/ nan64 v.
