(** Memory exhaustion: where a program was when the memory was refused, and what it left. *)
From Coq Require Import ZArith String List Bool.
From Verif Require Import Outcome Scalar Model Spec ProgSpec ModelS SpecS.
Import ListNotations.

(** [reaches s st s0 st0]: the execution of [s] from [st], with enough memory, comes to the basic statement [s0]
    in the state [st0]. *)
Inductive reaches {S St} (test : cond S -> St -> res bool) (exec : nat -> stmt S -> St -> option (res St)) :
  stmt S -> St -> stmt S -> St -> Prop :=
| RHere s st : basic s -> reaches test exec s st s st
| RFirst s1 s2 st s0 st0 : reaches test exec s1 st s0 st0 -> reaches test exec (PSeq s1 s2) st s0 st0
| RSecond fuel s1 s2 st st1 s0 st0 : exec fuel s1 st = Some (Ok st1) -> reaches test exec s2 st1 s0 st0 ->
    reaches test exec (PSeq s1 s2) st s0 st0
| RThen b s1 s2 st s0 st0 : test b st = Ok true -> reaches test exec s1 st s0 st0 ->
    reaches test exec (PIf b s1 s2) st s0 st0
| RElse b s1 s2 st s0 st0 : test b st = Ok false -> reaches test exec s2 st s0 st0 ->
    reaches test exec (PIf b s1 s2) st s0 st0
| RBody b s1 st s0 st0 : test b st = Ok true -> reaches test exec s1 st s0 st0 ->
    reaches test exec (PWhile b s1) st s0 st0
| RNext fuel b s1 st st1 s0 st0 : test b st = Ok true -> exec fuel s1 st = Some (Ok st1) ->
    reaches test exec (PWhile b s1) st1 s0 st0 -> reaches test exec (PWhile b s1) st s0 st0.

(** What the statement [s0], refused memory in the state [st0], leaves of sparse numbers: [r = a] leaves the new
    value with some table; [r op= a] leaves the result of [r op= a'], where [a'] has only the first entries of
    [a], up to a name that was still missing in [r]; any other statement leaves everything as it was. *)
Definition s_half {S} (O : Ops S) (lost : table S -> table S -> table S) (s0 : stmt S) (st0 st' : list (ss S)) : Prop :=
  match s0 with
  | PMov r a => r <> a /\ exists x y, get st0 r = Ok x /\ get st0 a = Ok y /\
      st' = put st0 r (mks (s_f y) (lost (s_d x) (s_d y)))
  | PAsg o r a => r <> a /\ exists x y pre k v post, get st0 r = Ok x /\ get st0 a = Ok y /\
      s_d y = (pre ++ ((k, v) :: post))%list /\
      let z := s_assign O o x (Some (mks (s_f y) pre)) in ~ In k (names z) /\ st' = put st0 r z
  | _ => st' = st0
  end.
(** The same for dense numbers: only [r = a] with longer data changes anything. *)
Definition d_half {S} (lost : data S -> data S -> data S) (s0 : stmt S) (st0 st' : list (dd S)) : Prop :=
  match s0 with
  | PMov r a => exists x y, get st0 r = Ok x /\ get st0 a = Ok y /\
      (List.length (m_data x) < List.length (m_data y))%nat /\
      st' = put st0 r (mk (m_size y) (lost (m_data x) (m_data y)))
  | _ => st' = st0
  end.

(** The statements on dense numbers that build a number, and how many vectors they build one after the other (two
    for [empty(size)] or [zero(size)] with the copy in the constructor, one for a plain copy). *)
Definition builds {S} (O : Ops S) (s : stmt S) (st : list (dd S)) : nat :=
  match s with
  | PConst _ _ | PB _ _ _ _ | PH _ _ _ _ => 2
  | PU _ (Uadds _) _ | PU _ (Usadd _) _ | PU _ (Usubs _) _ => 1
  | PU _ Uabs a => match get st a with
                   | Ok x => match get_f x with Ok f => if o_lt O f (o_Z O 0%Z) then 2 else 1 | _ => 0 end
                   | _ => 0
                   end
  | PU _ _ _ => 2
  | PAsg Amul _ _ | PAsg Adiv _ _ => 1
  | _ => 0
  end.
