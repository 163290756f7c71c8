(** Model of memory exhaustion in Python sessions with dense numbers (python/src/common.h:48-60, 90-130, 150-181;
    hyperjet.h:57-58, 422-428, 565-660, 1138-1243).

    As in [ModelMemZ]: one request for what the interpreter needs before the C++ code is entered, then those of the C++
    code, then one for the Python object or array that is created; a statement that fails for another reason is taken to
    fail before the C++ code asks for memory.  Apart from [resize], the C++ code asks before it changes anything ([*=] and [/=] copy
    the left operand first, 1138-1171, 1224-1243; [+=], [-=], the setters and the scaling by a float ask for nothing). *)
From Coq Require Import ZArith List Bool.
From Verif Require Import Outcome Scalar Model ProgSpec ModelObj ModelMem.
Import ListNotations.

Section MemO.
  Context {S : Type} (O : Ops S) (c : cfg) (slack : nat -> nat).
  Inductive pend := PRan (o : out S) (w : mem) | PRefused (st : heap S) (w : mem).
  (** Requests of a statement that takes [st] to [st']: the vectors of [ModelMem.asks] (dynamic numbers), the result object.
      [resize] (422-428) asks if the new data do not fit, that is if it makes a new buffer. *)
  Definition vectors (k : nat) : nat := if is_dynamic c then k else 0.
  Definition p_asks (s : pstmt S) (st st' : heap S) : nat :=
    match s with
    | NConst _ _ _ | NVar _ _ _ _ | NEmpty _ _ | NData _ _ | Bin _ _ _ _ | Hyp _ _ _ _ | PadL _ _ _ | PadR _ _ _ => vectors 2 + 1
    | Copy _ _ => vectors 1 + 1
    | Un _ u a => match names st a with
                  | Some o => match load st o with Ok x => vectors (asks_u O u x) + 1 | _ => 0 end
                  | None => 0 end
    | IAsgS Aadd _ _ | IAsgS Asub _ _ => vectors 1 + 1
    | IAsg Amul _ _ | IAsg Adiv _ _ => vectors 1
    | Resize _ _ => if Nat.ltb (List.length (bufs st)) (List.length (bufs st')) then 1 else 0
    | ViewG _ _ | ViewData _ _ => 1
    | _ => 0
    end.
  (** 425: [m_size] is assigned before the data are resized. *)
  Definition sized (st : heap S) (r : nat) (sz : Z) : heap S :=
    match names st r with
    | Some o => match nth_error (objs st) o with
                | Some (_, b) => mkheap (put (objs st) o (sz, b)) (bufs st) (names st) (views st)
                | None => st
                end
    | None => st
    end.
  Definition pstep_m (s : pstmt S) (st : heap S) (w : mem) : pend :=
    let (ok, w) := request w in
    if negb ok then PRefused st w else
    match pstep O c slack s st with
    | Done st' => let (ok, w) := requests (p_asks s st st') w in
                  if ok then PRan (Done st') w
                  else PRefused (match s with Resize r sz => sized st r sz | _ => st end) w
    | bad => PRan bad w
    end.
  (** The session goes on after [MemoryError]. *)
  Fixpoint session_m (p : list (pstmt S)) (st : heap S) (w : mem) : res (heap S) :=
    match p with
    | [] => Ok st
    | s :: p => match pstep_m s st w with
                | PRan (Done st) w | PRan (Raised _ st) w | PRefused st w => session_m p st w
                | PRan Aborted _ => Abort
                | PRan Wild _ => UB
                end
    end.
End MemO.
Arguments pend : clear implicits.
