(** Specification vocabulary, independent of the algorithms in [Model.v]:
    a hyper-dual number of size [n] is a value, a gradient and a symmetric Hessian; its storage
    is the list "value, gradient, rows of the upper triangle". *)
From Coq Require Import ZArith List Bool.
From Verif Require Import Outcome Scalar Model.
Import ListNotations.

(** Mathematical content of a number: only [jg i] for [i < n] and [jh i j] for
    [i <= j < n] are meaningful. *)
Record jet (S : Type) := mkjet { jf : S; jg : nat -> S; jh : nat -> nat -> S }.
Arguments mkjet {S}. Arguments jf {S}. Arguments jg {S}. Arguments jh {S}.

(** The full symmetric Hessian. *)
Definition hess {S} (J : jet S) (i j : nat) : S := jh J (Nat.min i j) (Nat.max i j).

(** The documented storage order. *)
Definition upper {S} (n : nat) (h : nat -> nat -> S) : list S :=
  flat_map (fun i => map (h i) (seq i (n - i))) (seq 0 n).
Definition enc {S} (ord : Z) (n : nat) (J : jet S) : list S :=
  jf J :: map (jg J) (seq 0 n) ++ (if Z.eqb ord 1 then [] else upper n (jh J)).

(** [x] is a well-formed object of size [n] whose content is [J]: its size is [n], its storage
    is completely initialised and is exactly [enc], and it fits into a [std::vector]. *)
Definition rep {S} (c : cfg) (n : nat) (J : jet S) (x : dd S) : Prop :=
  size c x = Z.of_nat n /\
  m_data x = full (enc (c_ord c) n J) /\
  (len (m_data x) <= max_len)%Z.

(** Number of stored scalars for size [n]. *)
Definition storage_len (ord : Z) (n : nat) : nat :=
  if Z.eqb ord 1 then 1 + n else (n + 1) * (n + 2) / 2.

(** Well-formed object of size [n], whatever its content. *)
Definition wf {S} (c : cfg) (n : nat) (x : dd S) : Prop :=
  size c x = Z.of_nat n /\
  length (m_data x) = storage_len (c_ord c) n /\
  (forall k, (k < length (m_data x))%nat -> exists v, nth_error (m_data x) k = Some (Some v)) /\
  (len (m_data x) <= max_len)%Z.

(** Size [n] is admissible for configuration [c]: it is the static size, or any size whose
    storage fits. *)
Definition size_ok (c : cfg) (n : nat) : Prop :=
  (is_dynamic c = false -> c_tsize c = Z.of_nat n) /\
  (Z.of_nat (storage_len (c_ord c) n) <= max_len)%Z.

(** What a user sees of a number through the public accessors: [x] is well formed, of size [n],
    its value is [f], its gradient is [g] and (second order) its Hessian is [h]. *)
Definition shows {S} (c : cfg) (n : nat) (x : dd S) (f : S) (g : nat -> S) (h : nat -> nat -> S)
  : Prop :=
  wf c n x /\
  get_f x = Ok f /\
  (forall i, (i < n)%nat -> get_g c x (Z.of_nat i) = Ok (g i)) /\
  (c_ord c = 2%Z -> forall i j, (i < n)%nat -> (j < n)%nat ->
     get_h c x (Z.of_nat i) (Z.of_nat j) = Ok (h i j)).

(** An [n] x [n] matrix all of whose cells hold a value. *)
Definition square {S} (n : nat) (m : mat S) : Prop :=
  rows m = Z.of_nat n /\ cols m = Z.of_nat n /\ length (cells m) = (n * n)%nat /\
  (forall k, (k < n * n)%nat -> exists v, nth_error (cells m) k = Some (Some v)).

(** Both computations succeed and give the same number: same size, identical storage. *)
Definition agree {S} (c : cfg) (m m' : res (dd S)) : Prop :=
  exists r r', m = Ok r /\ m' = Ok r' /\ size c r = size c r' /\ m_data r = m_data r'.
