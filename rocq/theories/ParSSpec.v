(** Relations between two scalar types, lifted to sparse numbers and the sessions with them. *)
From Coq Require Import ZArith List Bool String.
From Verif Require Import Outcome Scalar Model ExprSpec ProgSpec ParamSpec ModelS ModelObj ModelObjS SpecS.
Import ListNotations.

Section Relations.
  Context {S T : Type} (P : S -> T -> Prop).
  (** The same names in the same order, with related derivatives. *)
  Definition table_rel : table S -> table T -> Prop := Forall2 (fun a b => fst a = fst b /\ P (snd a) (snd b)).
  Definition sparse_rel (x : ss S) (y : ss T) : Prop := P (s_f x) (s_f y) /\ table_rel (s_d x) (s_d y).
  Definition zstmt_rel (s : zstmt S) (s' : zstmt T) : Prop :=
    match s, s' with
    | ZNew r f d, ZNew r' f' d' => r = r' /\ P f f' /\ table_rel d d'
    | ZConst r v, ZConst r' v' => r = r' /\ P v v'
    | ZVar r k v, ZVar r' k' v' => r = r' /\ k = k' /\ P v v'
    | ZAlias r a, ZAlias r' a' => r = r' /\ a = a'
    | ZUn r u a, ZUn r' u' a' => r = r' /\ ufun_rel P u u' /\ a = a'
    | ZBin r b a1 a2, ZBin r' b' a1' a2' => r = r' /\ b = b' /\ a1 = a1' /\ a2 = a2'
    | ZHyp r a1 a2 a3, ZHyp r' a1' a2' a3' => r = r' /\ a1 = a1' /\ a2 = a2' /\ a3 = a3'
    | ZAsg o r a, ZAsg o' r' a' => o = o' /\ r = r' /\ a = a'
    | ZAsgS o r v, ZAsgS o' r' v' => o = o' /\ r = r' /\ P v v'
    | _, _ => False
    end.
  Definition zheap_rel (st : zheap S) (st' : zheap T) : Prop :=
    Forall2 sparse_rel (zobjs st) (zobjs st') /\ znames st = znames st'.
End Relations.
