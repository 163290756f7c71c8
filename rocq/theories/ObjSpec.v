(** Sessions that respect the preconditions of every call. *)
From Coq Require Import ZArith List Bool.
From Verif Require Import Outcome Scalar Model Spec ArrSpec ProgSpec ModelObj.
Import ListNotations.
Open Scope Z_scope.

Section Legal.
  Context {S : Type} (O : Ops S) (c : cfg) (slack : nat -> nat).

  (** [r] is bound to an object of size [n]. *)
  Definition has_size (st : heap S) (r : nat) (n : Z) : Prop :=
    exists o x, names st r = Some o /\ load st o = Ok x /\ size c x = n.
  (** [sz] is the size of some number of the class. *)
  Definition fits (sz : Z) : Prop := exists n, sz = Z.of_nat n /\ size_ok c n.
  (** No array is held on the storage of the object bound to [r]. *)
  Definition unviewed (st : heap S) (r : nat) : Prop := forall o sz b w v,
    names st r = Some o -> nth_error (objs st) o = Some (sz, b) -> views st w = Some v -> v_buf v <> b.

  (** Preconditions.  Everything not mentioned (unbound names, operands of different sizes, wrong
      indices into arrays, static classes called with another size) raises an exception. *)
  Definition legal (s : pstmt S) (st : heap S) : Prop :=
    match s with
    | NConst _ _ sz => is_dynamic c = true -> fits sz
    | NVar _ i _ sz => 0 <= i < sz /\ (is_dynamic c = true -> fits sz)
    | NEmpty _ sz => is_dynamic c = true /\ fits sz     (* static: indeterminate contents *)
    | NData _ vs => (1 <= length vs)%nat /\ Z.of_nat (length vs) <= max_len
    | Bin _ Batan2 a1 a2 => forall n m, has_size st a1 n -> has_size st a2 m -> n = m
    | Hyp _ a1 a2 a3 => forall n m, has_size st a1 n -> has_size st a3 m -> n = m
    | PadL _ a sz | PadR _ a sz => is_dynamic c = true -> fits sz /\ forall n, has_size st a n -> n <= sz
    | SetH r i j _ => c_ord c = 2 /\ forall n, has_size st r n -> 0 <= i < n /\ 0 <= j < n
    | SetHm r m => c_ord c = 2 /\ exists rr k, table rr k m /\
        (is_dynamic c = true -> forall n, has_size st r n -> n <= Z.of_nat rr /\ n <= Z.of_nat k)
    | Resize r sz => is_dynamic c = true -> fits sz /\ unviewed st r
    | _ => True
    end.
  Fixpoint legal_session (p : list (pstmt S)) (st : heap S) : Prop :=
    match p with
    | [] => True
    | s :: p => legal s st /\
                match pstep O c slack s st with Done st' | Raised _ st' => legal_session p st' | _ => True end
    end.
End Legal.
