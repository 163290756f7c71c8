(** Model of memory exhaustion in Python sessions with sparse numbers (python/src/bind_sscalar.cpp; hyperjet.h:1990-2613).

    pybind11 turns [std::bad_alloc] into [MemoryError], as the interpreter does with its own refused requests; the session goes
    on.  Every statement first makes one request that stands for everything the interpreter needs before the C++ code is
    entered (frames, argument lists, conversion of floats and of the dict of [SScalar(f, d)] to C++ objects); then the requests
    of the C++ code as in [ModelMem]; a new number is finally moved into a new Python object (one request).  [py::self op= ...]
    returns the object that it was called for, without a request.  Deallocation asks for nothing and is not modelled. *)
From Coq Require Import ZArith List Bool String.
From Verif Require Import Outcome Scalar Model ProgSpec ModelS SpecS ModelObj ModelObjS ModelMem.
Import ListNotations.

Section MemZ.
  Context {S : Type} (O : Ops S).
  (** A statement ran, with an exception or without; or it was refused memory ([MemoryError]). *)
  Inductive zend := ZRan (e : option pyexn) | ZRefused.
  (** The new object, bound to [r]. *)
  Definition znew_m (st : zheap S) (r : nat) (m : mm (ss S)) (w : mem) : zend * zheap S * mem :=
    match m w with
    | (Some x, w) => let (ok, w) := request w in if ok then (ZRan None, znew st r x, w) else (ZRefused, st, w)
    | (None, w) => (ZRefused, st, w)
    end.
  Definition zstep_m (s : zstmt S) (st : zheap S) (w : mem) : zend * zheap S * mem :=
    let (ok, w) := request w in
    let missing := (ZRan (Some NameError), st, w) in
    if negb ok then (ZRefused, st, w) else
    match s with
    | ZNew r f d => znew_m st r (s_ctor_m f d) w
    | ZConst r v => znew_m st r (s_ctor_m v []) w                                          (* hyperjet.h:2055-2058 *)
    | ZVar r k v => znew_m st r (mbind (copy_m [(k, o_Z O 1%Z)]) (s_ctor_m v)) w           (* hyperjet.h:2060-2063: list, then copy *)
    | ZAlias r a => match zget st a with Some (o, _) => (ZRan None, mkz (zobjs st) (bind_name (znames st) r o), w) | None => missing end
    | ZUn r u a => match zget st a with Some (_, x) => znew_m st r (s_apply_u_m O u x) w | None => missing end
    | ZBin r b a1 a2 => match zget st a1, zget st a2 with
                        | Some (_, x), Some (_, y) => znew_m st r (s_apply_b_m O b x y) w | _, _ => missing end
    | ZHyp r a1 a2 a3 => match zget st a1, zget st a2, zget st a3 with
                         | Some (_, x), Some (_, y), Some (_, z) => znew_m st r (s_hypot3_m O x y z) w | _, _, _ => missing end
    | ZAsg op r a => match zget st a, zget st r with
                     | Some (oa, y), Some (o, x) =>
                         if Nat.eqb oa o then (ZRan None, zput st o (s_assign O op x None), w)
                         else let '(z, ok, w) := s_assign_m O op x y w in
                              (if ok then ZRan None else ZRefused, zput st o z, w)
                     | _, _ => missing end
    | ZAsgS op r v => match zget st r with
                      | Some (o, x) => match op with
                                       | Amul | Adiv => (ZRan None, zput st o (s_assign_s O op x v), w)
                                       | Aadd | Asub => znew_m st r (s_apply_u_m O (aop_s op v) x) w
                                       end
                      | None => missing end
    end.
  Fixpoint zsession_m (p : list (zstmt S)) (st : zheap S) (w : mem) : zheap S :=
    match p with [] => st | s :: p => let '(_, st, w) := zstep_m s st w in zsession_m p st w end.
End MemZ.
