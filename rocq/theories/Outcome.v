(** Outcomes, checked [ptrdiff_t] arithmetic, C++ counting loops, storage cells.
    Nothing here is specific to HyperJet; it is the fragment of C++ semantics the model uses. *)
From Coq Require Import ZArith List Bool.
Import ListNotations.
Open Scope Z_scope.

(** Exceptions thrown by the library ([std::runtime_error] with the given text, hyperjet.h:74,94,
    108,126,853; main.cpp:68; common.h:199) or by [std::vector] ([std::length_error]), or by the
    pybind11 argument conversion ([TypeError]). *)
Inductive exn :=
| InvalidLength | NegativeSize | InvalidSize | IncompatibleSize | InvalidMode
| LengthError | InvalidOrder | InvalidState | TypeError.

(** [Ok]: normal return.  [Throw]: C++ exception.  [Abort]: failed [assert].
    [UB]: undefined behaviour (out-of-bounds access, read of an indeterminate value, signed
    overflow, out-of-range float-to-integer conversion, ...). *)
Inductive res (A : Type) :=
| Ok (a : A)
| Throw (e : exn)
| Abort
| UB.
Arguments Ok {A} a.
Arguments Throw {A} e.
Arguments Abort {A}.
Arguments UB {A}.

Definition bind {A B} (m : res A) (k : A -> res B) : res B :=
  match m with Ok a => k a | Throw e => Throw e | Abort => Abort | UB => UB end.

Declare Scope res_scope.
Delimit Scope res_scope with res.
Notation "x <- m ;; k" := (bind m (fun x => k))
  (at level 61, m at next level, right associativity) : res_scope.
Notation "' p <- m ;; k" := (bind m (fun p => k))
  (at level 61, p pattern, m at next level, right associativity) : res_scope.
Notation "m ;;; k" := (bind m (fun _ => k))
  (at level 61, right associativity) : res_scope.
Open Scope res_scope.

(** [std::ptrdiff_t] (64 bit): a result outside the range is signed overflow, i.e. [UB]. *)
Definition ck (z : Z) : res Z :=
  if ((- 2 ^ 63) <=? z) && (z <? 2 ^ 63) then Ok z else UB.

(** [std::vector<double>::max_size()] on a 64-bit platform: PTRDIFF_MAX / sizeof(double). *)
Definition max_len : Z := 2 ^ 60 - 1.

(** C++ loop [for (index i = lo; i < hi; i++) body] with bounds not changed by the body. *)
Fixpoint loop {St} (n : nat) (i : Z) (body : Z -> St -> res St) (s : St) : res St :=
  match n with
  | O => Ok s
  | S n' => s' <- body i s ;; loop n' (i + 1) body s'
  end.
Definition for_ {St} (lo hi : Z) (body : Z -> St -> res St) (s : St) : res St :=
  loop (Z.to_nat (hi - lo)) lo body s.

(** Storage: [None] is a cell whose value is indeterminate. *)
Section Cells.
  Context {S : Type}.
  Definition data := list (option S).

  Definition rd (l : data) (i : Z) : res S :=
    if i <? 0 then UB
    else match nth_error l (Z.to_nat i) with
         | Some (Some v) => Ok v
         | _ => UB
         end.

  Fixpoint upd (l : data) (i : nat) (v : S) : data :=
    match l, i with
    | [], _ => []
    | _ :: l', O => Some v :: l'
    | x :: l', Datatypes.S i' => x :: upd l' i' v
    end.

  Definition wr (l : data) (i : Z) (v : S) : res data :=
    if (i <? 0) || (Z.of_nat (length l) <=? i) then UB
    else Ok (upd l (Z.to_nat i) v).

  Definition len (l : data) : Z := Z.of_nat (length l).

  (** A storage all of whose cells hold values. *)
  Definition full (vs : list S) : data := map Some vs.
End Cells.
Arguments data : clear implicits.
