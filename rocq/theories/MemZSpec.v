(** What a Python statement that is refused memory leaves. *)
From Coq Require Import ZArith List Bool String.
From Verif Require Import Outcome Scalar Model ProgSpec ModelS SpecS ModelObj ModelObjS.
Import ListNotations.

Section MemZSpec.
  Context {S : Type} (O : Ops S).
  (** Nothing has happened; or [r op= a] on two different objects has gone through the first entries of [a] only, up to a name
      that was still missing in [r]. *)
  Definition z_left (s : zstmt S) (st st' : zheap S) : Prop :=
    st' = st \/
    exists op r a oa o x y pre k v post, s = ZAsg op r a /\ zget st a = Some (oa, y) /\ zget st r = Some (o, x) /\ oa <> o /\
      s_d y = (pre ++ (k, v) :: post)%list /\
      let z := s_assign O op x (Some (mks (s_f y) pre)) in ~ In k (SpecS.names z) /\ st' = zput st o z.
  (** A session with refusals, the memory left out: every statement ran as with unlimited memory, or was refused. *)
  Inductive z_lives : list (zstmt S) -> zheap S -> zheap S -> Prop :=
  | LEnd st : z_lives [] st st
  | LRan s p st st' : z_lives p (snd (zstep O s st)) st' -> z_lives (s :: p) st st'
  | LRefused s p st st1 st' : z_left s st st1 -> z_lives p st1 st' -> z_lives (s :: p) st st'.
  (** Tables with different keys, names of existing objects. *)
  Definition z_valid (st : zheap S) : Prop :=
    List.Forall keys_ok (zobjs st) /\ forall r o, znames st r = Some o -> (o < List.length (zobjs st))%nat.
  (** [s] is not an in-place operator with a number on the right. *)
  Definition not_in_place (s : zstmt S) : Prop := match s with ZAsg _ _ _ => False | _ => True end.
  (** The dict of [SScalar(f, d)] has different keys. *)
  Definition new_ok (s : zstmt S) : Prop := match s with ZNew _ _ d => NoDup (map fst d) | _ => True end.
End MemZSpec.
