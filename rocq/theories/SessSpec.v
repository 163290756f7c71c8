(** Python sessions on plain real numbers: the same statements, with a mutable cell for every object. *)
From Coq Require Import ZArith List Bool String Reals.
From Coquelicot Require Import Coquelicot.
From Verif Require Import Outcome Scalar Model Spec RealOps ExprSpec ProgSpec ModelObj ModelS SpecS ModelObjS.
Import ListNotations.

(** Contents of the cells; the cell every name is bound to. *)
Record fheap := mkf { cells : list R; fnames : nat -> option nat }.
Definition fstart : fheap := mkf [] (fun _ => None).
Definition fget (v : fheap) (r : nat) : option R :=
  match fnames v r with Some o => nth_error (cells v) o | None => None end.
Definition fnew (v : fheap) (r : nat) (x : option R) : fheap :=
  match x with Some a => mkf (cells v ++ [a]) (bind_name (fnames v) r (List.length (cells v))) | None => v end.
Definition fset (v : fheap) (r : nat) (x : option R) : fheap :=
  match fnames v r, x with Some o, Some a => mkf (put (cells v) o a) (fnames v) | _, _ => v end.
Definition lift1 (f : R -> R) (x : option R) : option R := match x with Some a => Some (f a) | None => None end.
Definition lift2 (f : R -> R -> R) (x y : option R) : option R :=
  match x, y with Some a, Some b => Some (f a b) | _, _ => None end.
Definition lift3 (f : R -> R -> R -> R) (x y z : option R) : option R :=
  match x, y, z with Some a, Some b, Some d => Some (f a b d) | _, _, _ => None end.

(** One statement, the variables having the values [q 0, q 1, ...].  [x += k] and [x -= k] with a float
    [k] bind a new object, every other assignment operator changes the object (see [ModelObj]).
    A statement that mentions an unbound name has no effect. *)
Definition fstep (q : nat -> R) (s : pstmt R) (v : fheap) : fheap :=
  match s with
  | NConst r a _ => fnew v r (Some a)
  | NVar r i _ _ => fnew v r (Some (q (Z.to_nat i)))
  | Alias r a => match fnames v a with Some o => mkf (cells v) (bind_name (fnames v) r o) | None => v end
  | Copy r a => fnew v r (fget v a)
  | Un r u a => fnew v r (lift1 (ureal u) (fget v a))
  | Bin r b a1 a2 => fnew v r (lift2 (breal b) (fget v a1) (fget v a2))
  | Hyp r a1 a2 a3 => fnew v r (lift3 hreal (fget v a1) (fget v a2) (fget v a3))
  | IAsg op r a => fset v r (lift2 (rasg op) (fget v r) (fget v a))
  | IAsgS op r k =>
      let x := lift1 (fun a => rasg op a k) (fget v r) in
      match op with Amul | Adiv => fset v r x | Aadd | Asub => fnew v r x end
  | _ => v
  end.
Fixpoint fsession (q : nat -> R) (w : list (pstmt R)) (v : fheap) : fheap :=
  match w with [] => v | s :: w => fsession q w (fstep q s v) end.

(** The function of the variables held by name [r] at the end. *)
Definition session_value (w : list (pstmt R)) (r : nat) (q : nat -> R) : R :=
  match fget (fsession q w fstart) r with Some a => a | None => 0%R end.

(** Sessions of arithmetic on numbers of size [n]: variable number [i] is created with value [p i];
    arrays may be taken and read. *)
Definition arithmetic (n : nat) (p : nat -> R) (s : pstmt R) : Prop :=
  match s with
  | NConst _ _ sz => sz = Z.of_nat n
  | NVar _ i a sz => sz = Z.of_nat n /\ (0 <= i < Z.of_nat n)%Z /\ a = p (Z.to_nat i)
  | Alias _ _ | Copy _ _ | Un _ _ _ | Bin _ _ _ _ | Hyp _ _ _ _ | IAsg _ _ _ | IAsgS _ _ _
  | ViewG _ _ | ViewData _ _ | ViewRead _ _ => True
  | _ => False
  end.

(** The operands stay in the open domains of the functions, and numbers of second order never execute
    [x *= y] with both names bound to the same object. *)
Definition fsafe (ord : Z) (s : pstmt R) (v : fheap) : Prop :=
  match s with
  | Un _ u a => forall x, fget v a = Some x -> udom u x
  | Bin _ b a1 a2 => forall x y, fget v a1 = Some x -> fget v a2 = Some y -> bdom b x y
  | Hyp _ a1 a2 a3 => forall x y z, fget v a1 = Some x -> fget v a2 = Some y -> fget v a3 = Some z -> hdom x y z
  | IAsg Adiv _ a => fget v a <> Some 0%R
  | IAsg Amul r a => ord = 1%Z \/ forall o, fnames v r = Some o -> fnames v a <> Some o
  | IAsgS Adiv _ k => k <> 0%R
  | _ => True
  end.
Fixpoint fsafe_session (ord : Z) (q : nat -> R) (w : list (pstmt R)) (v : fheap) : Prop :=
  match w with [] => True | s :: w => fsafe ord s v /\ fsafe_session ord q w (fstep q s v) end.

(** ** Sparse numbers: the variables have names *)
Definition zfstep (q : string -> R) (s : zstmt R) (v : fheap) : fheap :=
  match s with
  | ZNew r a _ | ZConst r a => fnew v r (Some a)
  | ZVar r k _ => fnew v r (Some (q k))
  | ZAlias r a => match fnames v a with Some o => mkf (cells v) (bind_name (fnames v) r o) | None => v end
  | ZUn r u a => fnew v r (lift1 (ureal u) (fget v a))
  | ZBin r b a1 a2 => fnew v r (lift2 (breal b) (fget v a1) (fget v a2))
  | ZHyp r a1 a2 a3 => fnew v r (lift3 hreal (fget v a1) (fget v a2) (fget v a3))
  | ZAsg op r a => fset v r (lift2 (rasg op) (fget v r) (fget v a))
  | ZAsgS op r k =>
      let x := lift1 (fun a => rasg op a k) (fget v r) in
      match op with Amul | Adiv => fset v r x | Aadd | Asub => fnew v r x end
  end.
Fixpoint zfsession (q : string -> R) (w : list (zstmt R)) (v : fheap) : fheap :=
  match w with [] => v | s :: w => zfsession q w (zfstep q s v) end.
Definition zsession_value (w : list (zstmt R)) (r : nat) (q : string -> R) : R :=
  match fget (zfsession q w fstart) r with Some a => a | None => 0%R end.

(** Variable [k] is created with value [p k]; no tables written by hand. *)
Definition zarithmetic (p : string -> R) (s : zstmt R) : Prop :=
  match s with ZNew _ _ _ => False | ZVar _ k v => v = p k | _ => True end.
(** Domains, and neither [x *= y] nor [x /= y] with both names bound to the same object. *)
Definition zfsafe (s : zstmt R) (v : fheap) : Prop :=
  match s with
  | ZUn _ u a => forall x, fget v a = Some x -> udom u x
  | ZBin _ b a1 a2 => forall x y, fget v a1 = Some x -> fget v a2 = Some y -> bdom b x y
  | ZHyp _ a1 a2 a3 => forall x y z, fget v a1 = Some x -> fget v a2 = Some y -> fget v a3 = Some z -> hdom x y z
  | ZAsg Adiv r a => fget v a <> Some 0%R /\ forall o, fnames v r = Some o -> fnames v a <> Some o
  | ZAsg Amul r a => forall o, fnames v r = Some o -> fnames v a <> Some o
  | ZAsgS Adiv _ k => k <> 0%R
  | _ => True
  end.
Fixpoint zfsafe_session (q : string -> R) (w : list (zstmt R)) (v : fheap) : Prop :=
  match w with [] => True | s :: w => zfsafe s v /\ zfsafe_session q w (zfstep q s v) end.

(** Derivative with respect to the variable called [k]. *)
Definition named_partial (F : (string -> R) -> R) (k : string) (p : string -> R) (l : R) : Prop :=
  is_derive (fun t => F (fun m => if String.eqb m k then t else p m)) (p k) l.
