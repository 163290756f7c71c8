(** What a Python statement on dense numbers that is refused memory leaves. *)
From Coq Require Import ZArith List Bool.
From Verif Require Import Outcome Scalar Model ProgSpec ModelObj.
Import ListNotations.

Section MemOSpec.
  Context {S : Type} (O : Ops S) (c : cfg) (slack : nat -> nat).
  (** Nothing has happened; or a [resize] that would have moved the data to a new buffer has changed the size only. *)
  Definition p_left (s : pstmt S) (st st' : heap S) : Prop :=
    st' = st \/
    exists r sz o b z st1, s = Resize r sz /\ names st r = Some o /\ nth_error (objs st) o = Some (z, b) /\
      pstep O c slack s st = Done st1 /\ (List.length (bufs st) < List.length (bufs st1))%nat /\
      st' = mkheap (put (objs st) o (sz, b)) (bufs st) (names st) (views st).
  (** A session with refusals, the memory left out. *)
  Inductive p_lives : list (pstmt S) -> heap S -> res (heap S) -> Prop :=
  | LvEnd st : p_lives [] st (Ok st)
  | LvDone s p st st1 m : pstep O c slack s st = Done st1 -> p_lives p st1 m -> p_lives (s :: p) st m
  | LvRaised s p st e st1 m : pstep O c slack s st = Raised e st1 -> p_lives p st1 m -> p_lives (s :: p) st m
  | LvAbort s p st : pstep O c slack s st = Aborted -> p_lives (s :: p) st Abort
  | LvWild s p st : pstep O c slack s st = Wild -> p_lives (s :: p) st UB
  | LvRefused s p st st1 m : p_left s st st1 -> p_lives p st1 m -> p_lives (s :: p) st m.
  (** [q] is [p] with some statements left out. *)
  Inductive thinned : list (pstmt S) -> list (pstmt S) -> Prop :=
  | TEnd : thinned [] []
  | TKeep s q p : thinned q p -> thinned (s :: q) (s :: p)
  | TDrop s q p : thinned q p -> thinned q (s :: p).
  Definition no_resize (s : pstmt S) : Prop := match s with Resize _ _ => False | _ => True end.
End MemOSpec.
