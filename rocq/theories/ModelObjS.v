(** Python sessions with sparse numbers: objects and the names bound to them (python/src/bind_sscalar.cpp;
    hyperjet.h:1990-2330).

    As in [ModelObj], [py::self op= ...] returns the same Python object and an augmented assignment without
    an overload ([+=], [-=] with a float, bind_sscalar.cpp:103-108) falls back to the binary operator and
    rebinds the name.  The class has no [__copy__] and hands out no arrays, so that an object is its table.
    Simplified: one iteration order of the tables (see C33); objects are never deallocated. *)
From Coq Require Import ZArith List Bool String.
From Verif Require Import Outcome Scalar Model ProgSpec ModelS SpecS ModelObj.
Import ListNotations.

Section ObjS.
  Context {S : Type} (O : Ops S).
  Record zheap := mkz { zobjs : list (ss S); znames : nat -> option nat }.
  Definition zstart : zheap := mkz [] (fun _ => None).

  Inductive zstmt :=
  | ZNew (r : nat) (f : S) (d : table S)         (* r = SScalar(f, d), 13 *)
  | ZConst (r : nat) (v : S)                     (* r = SScalar.constant(v), 17 *)
  | ZVar (r : nat) (k : string) (v : S)          (* r = SScalar.variable(k, v), 18 *)
  | ZAlias (r a : nat)                           (* r = a *)
  | ZUn (r : nat) (u : ufun S) (a : nat)         (* r = u(a), r = a + 2.0, ...: 27-102, 109-112 *)
  | ZBin (r : nat) (b : bfun) (a1 a2 : nat)      (* r = a1 + a2, ...: 46-51, 95-101 *)
  | ZHyp (r a1 a2 a3 : nat)                      (* r = a1.hypot(a2, a3), 52 *)
  | ZAsg (o : aop) (r a : nat)                   (* r += a, ...: 103-107 *)
  | ZAsgS (o : aop) (r : nat) (v : S).           (* r *= v, r /= v: 106, 108; r += v, r -= v: 96, 98 *)

  Definition znew (st : zheap) (r : nat) (x : ss S) : zheap :=
    mkz (zobjs st ++ [x]) (bind_name (znames st) r (List.length (zobjs st))).
  Definition zput (st : zheap) (o : nat) (x : ss S) : zheap := mkz (put (zobjs st) o x) (znames st).
  (** The object bound to a name; [NameError] if there is none. *)
  Definition zget (st : zheap) (r : nat) : option (nat * ss S) :=
    match znames st r with
    | Some o => match nth_error (zobjs st) o with Some x => Some (o, x) | None => None end
    | None => None
    end.

  (** The exception raised, if any, and the state after the statement. *)
  Definition zstep (s : zstmt) (st : zheap) : option pyexn * zheap :=
    let missing := (Some NameError, st) in
    match s with
    | ZNew r f d => (None, znew st r (s_ctor f d))
    | ZConst r v => (None, znew st r (s_constant v))
    | ZVar r k v => (None, znew st r (s_variable O k v))
    | ZAlias r a => match zget st a with Some (o, _) => (None, mkz (zobjs st) (bind_name (znames st) r o)) | None => missing end
    | ZUn r u a => match zget st a with Some (_, x) => (None, znew st r (s_apply_u O u x)) | None => missing end
    | ZBin r b a1 a2 => match zget st a1, zget st a2 with
                        | Some (_, x), Some (_, y) => (None, znew st r (s_apply_b O b x y)) | _, _ => missing end
    | ZHyp r a1 a2 a3 => match zget st a1, zget st a2, zget st a3 with
                         | Some (_, x), Some (_, y), Some (_, z) => (None, znew st r (s_hypot3 O x y z)) | _, _, _ => missing end
    | ZAsg op r a => match zget st a, zget st r with
                     | Some (oa, y), Some (o, x) => (None, zput st o (s_assign O op x (if Nat.eqb oa o then None else Some y)))
                     | _, _ => missing end
    | ZAsgS op r v => match zget st r with
                      | Some (o, x) => (None, match op with
                                              | Amul | Adiv => zput st o (s_assign_s O op x v)
                                              | Aadd | Asub => znew st r (s_apply_u O (aop_s op v) x)
                                              end)
                      | None => missing end
    end.
  Fixpoint zsession (w : list zstmt) (st : zheap) : zheap :=
    match w with [] => st | s :: w => zsession w (snd (zstep s st)) end.
End ObjS.
Arguments zheap : clear implicits. Arguments zstmt : clear implicits. Arguments zstart {S}.
