(** Builds of the library: exceptions ([HYPERJET_NO_EXCEPTIONS], hyperjet.h:34-41) and assertions ([NDEBUG])
    on or off (C78, C79). *)
From Coq Require Import ZArith List Bool.
From Verif Require Import Outcome Scalar Model.

(** The same type in a build that checks nothing the first build does not check.  If [raise], both
    builds report errors by exceptions, or both do not. *)
Definition fewer (raise : bool) (c c' : cfg) : Prop :=
  c_ord c' = c_ord c /\ c_tsize c' = c_tsize c /\
  (c_dbg c' = true -> c_dbg c = true) /\
  (if raise then c_exc c' = c_exc c else c_exc c' = true -> c_exc c = true \/ c_dbg c = true).

(** What a build with checks returns, a build with fewer checks returns as well; if [raise], the same for
    exceptions. *)
Definition keeps {A} (raise : bool) (r r' : res A) : Prop :=
  match r with
  | Ok a => r' = Ok a
  | Throw e => raise = true -> r' = Throw e
  | Abort | UB => True
  end.
(** The same for executions bounded by fuel. *)
Definition keeps_o {A} (raise : bool) (r r' : option (res A)) : Prop :=
  match r with
  | None => r' = None
  | Some (Ok a) => r' = Some (Ok a)
  | Some (Throw e) => raise = true -> r' = Some (Throw e)
  | Some (Abort | UB) => True
  end.
(** Length validation (66-83) is reversed in builds without exceptions but with assertions (C42): the builds
    have to agree about it. *)
Definition same_validation (c c' : cfg) : Prop := c_exc c' = c_exc c \/ (c_exc c = true /\ c_dbg c' = false).
