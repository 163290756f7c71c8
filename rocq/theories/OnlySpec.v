(** Sparse numbers with only some of their names. *)
From Coq Require Import ZArith List Bool String.
From Verif Require Import Outcome Scalar Model ExprSpec ProgSpec ModelS ModelObj ModelObjS SpecS.
Import ListNotations.

(** The entries of a table whose names satisfy [p]; a sparse number with these entries only. *)
Definition keep {S} (p : string -> bool) (t : table S) : table S := filter (fun e => p (fst e)) t.
Definition only {S} (p : string -> bool) (x : ss S) : ss S := mks (s_f x) (keep p (s_d x)).
(** [y] has the value of [x], and by the names in [p] its derivatives; it has no other names. *)
Definition only_reads {S} (O : Ops S) (p : string -> bool) (x y : ss S) : Prop :=
  s_get_f y = s_get_f x /\ (forall k, p k = true -> s_get_d O y k = s_get_d O x k) /\
  (forall k, In k (names y) <-> In k (names x) /\ p k = true).

(** Outcomes of programs. *)
Definition only_result {S} (p : string -> bool) (m : option (res (list (ss S)))) : option (res (list (ss S))) :=
  match m with
  | Some (Ok st) => Some (Ok (map (only p) st))
  | other => other
  end.
(** Statements of a Python session: variables with other names are created as constants. *)
Definition zonly {S} (p : string -> bool) (s : zstmt S) : zstmt S :=
  match s with
  | ZNew r f d => ZNew r f (keep p d)
  | ZVar r k v => if p k then ZVar r k v else ZConst r v
  | other => other
  end.
Definition zonly_heap {S} (p : string -> bool) (st : zheap S) : zheap S := mkz (map (only p) (zobjs st)) (znames st).
(** Two sparse numbers with the same value and the same derivative by the name [k]. *)
Definition same_at {S} (O : Ops S) (k : string) (x y : ss S) : Prop :=
  s_get_f y = s_get_f x /\ s_get_d O y k = s_get_d O x k /\ (In k (names y) <-> In k (names x)).
