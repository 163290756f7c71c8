(** Specification for C103: sparse numbers whose variables are seeded with other derivatives. *)
From Coq Require Import ZArith List Bool String.
From Verif Require Import Outcome Scalar Float64 Ops64 Model ExprSpec ProgSpec ParamSpec ModelS ModelObj ModelObjS SpecS GradeSpec.
Import ListNotations.

Section Seeds.
  (** [P0] relates values, [P1 k] derivatives by the name [k]. *)
  Context {S T : Type} (P0 : S -> T -> Prop) (P1 : string -> S -> T -> Prop).

  (** Sums of derivatives by one name, and products of a derivative and a value. *)
  Record seeding (O : Ops S) (O' : Ops T) : Prop := {
    sd_arith : arith_rel P0 O O';
    sd_order : order_rel P0 O O';
    sd_zero : forall k, P1 k (o_Z O 0) (o_Z O' 0);
    sd_add : forall k a a' b b', P1 k a a' -> P1 k b b' -> P1 k (o_add O a b) (o_add O' a' b');
    sd_sub : forall k a a' b b', P1 k a a' -> P1 k b b' -> P1 k (o_sub O a b) (o_sub O' a' b');
    sd_neg : forall k a a', P1 k a a' -> P1 k (o_neg O a) (o_neg O' a');
    sd_mul01 : forall k a a' b b', P0 a a' -> P1 k b b' -> P1 k (o_mul O a b) (o_mul O' a' b');
    sd_mul10 : forall k a a' b b', P1 k a a' -> P0 b b' -> P1 k (o_mul O a b) (o_mul O' a' b')
  }.
  (** The same names in the same order. *)
  Definition table_seeds : table S -> table T -> Prop := Forall2 (fun a b => fst a = fst b /\ P1 (fst a) (snd a) (snd b)).
  Definition sparse_seeds (x : ss S) (y : ss T) : Prop := P0 (s_f x) (s_f y) /\ table_seeds (s_d x) (s_d y).
  (** Sessions: a variable of the first one may be given to the second one as a value and its seed. *)
  Definition zseeds (O : Ops S) (s : zstmt S) (s' : zstmt T) : Prop :=
    match s, s' with
    | ZVar r k v, ZNew r' f' d' => r = r' /\ P0 v f' /\ table_seeds [(k, o_Z O 1)] d'
    | ZNew r f d, ZNew r' f' d' => r = r' /\ P0 f f' /\ table_seeds d d'
    | ZConst r v, ZConst r' v' => r = r' /\ P0 v v'
    | ZAlias r a, ZAlias r' a' => r = r' /\ a = a'
    | ZUn r u a, ZUn r' u' a' => r = r' /\ ufun_rel P0 u u' /\ a = a'
    | ZBin r b a1 a2, ZBin r' b' a1' a2' => r = r' /\ b = b' /\ a1 = a1' /\ a2 = a2'
    | ZHyp r a1 a2 a3, ZHyp r' a1' a2' a3' => r = r' /\ a1 = a1' /\ a2 = a2' /\ a3 = a3'
    | ZAsg o r a, ZAsg o' r' a' => o = o' /\ r = r' /\ a = a'
    | ZAsgS o r v, ZAsgS o' r' v' => o = o' /\ r = r' /\ P0 v v'
    | _, _ => False
    end.
  Definition zheap_seeds (st : zheap S) (st' : zheap T) : Prop :=
    Forall2 sparse_seeds (zobjs st) (zobjs st') /\ znames st = znames st'.
End Seeds.

(** [x] with a mark beside each derivative; where there is one, the derivative of [y] by the name [n] is [2^(k n)] times that of [x]. *)
Definition entry_shifted (k : string -> Z) (m : string * marked) (x y : string * b64) : Prop :=
  fst x = fst m /\ fst y = fst m /\ fst (snd m) = snd x /\ (snd (snd m) = true -> shifted (k (fst m)) (snd x) (snd y)).
Definition sparse_shifted (k : string -> Z) (m : ss marked) (x y : ss b64) : Prop :=
  fst (s_f m) = s_f x /\ s_f y = s_f x /\ Forall3 (entry_shifted k) (s_d m) (s_d x) (s_d y).
