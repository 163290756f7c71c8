(** Other names for the variables of sparse numbers. *)
From Coq Require Import ZArith List Bool String Reals.
From Verif Require Import Outcome Scalar Model RealOps ExprSpec ProgSpec ModelS ModelObj ModelObjS SpecS.
Import ListNotations.

(** Every name replaced by [rho] of it, in a table and in a sparse number. *)
Definition retable {S} (rho : string -> string) (t : table S) : table S := map (fun e => (rho (fst e), snd e)) t.
Definition rename {S} (rho : string -> string) (x : ss S) : ss S := mks (s_f x) (retable rho (s_d x)).
(** Different names of the set [P] stay different. *)
Definition separates (P : string -> Prop) (rho : string -> string) : Prop :=
  forall k k', P k -> P k' -> rho k = rho k' -> k = k'.
(** All names stored are in [P]. *)
Definition within {S} (P : string -> Prop) (x : ss S) : Prop := forall k, In k (names x) -> P k.
(** What can be read off [y] by the new names is what can be read off [x] by the old ones. *)
Definition renamed_reads {S} (O : Ops S) (P : string -> Prop) (rho : string -> string) (x y : ss S) : Prop :=
  s_get_f y = s_get_f x /\ s_size y = s_size x /\ (forall k, P k -> s_get_d O y (rho k) = s_get_d O x k) /\
  (forall k, In k (names y) <-> exists k', In k' (names x) /\ k = rho k').

(** Outcomes of programs. *)
Definition rename_result {S} (rho : string -> string) (m : option (res (list (ss S)))) : option (res (list (ss S))) :=
  match m with
  | Some (Ok st) => Some (Ok (map (rename rho) st))
  | other => other
  end.
(** Statements of a Python session. *)
Definition zrename {S} (rho : string -> string) (s : zstmt S) : zstmt S :=
  match s with
  | ZNew r f d => ZNew r f (retable rho d)
  | ZVar r k v => ZVar r (rho k) v
  | other => other
  end.
Definition zwithin {S} (P : string -> Prop) (s : zstmt S) : Prop :=
  match s with
  | ZNew _ _ d => forall k, In k (map fst d) -> P k
  | ZVar _ k _ => P k
  | _ => True
  end.
Definition zrename_heap {S} (rho : string -> string) (st : zheap S) : zheap S :=
  mkz (map (rename rho) (zobjs st)) (znames st).

(** ** Several names become one *)
(** [y] has the value of [x]; its derivative by a name is the sum of [x]'s derivatives by all the names (of [L]) that
    [rho] maps to it. *)
Definition merges (rho : string -> string) (L : list string) (x y : ss R) : Prop :=
  keys_ok x /\ keys_ok y /\ incl (names x) L /\ s_get_f y = s_get_f x /\
  forall k, s_get_d Rops y k = lsum (map (s_get_d Rops x) (filter (fun k' => String.eqb (rho k') k) L)).
(** A statement that creates constants and variables with names of [L] only, not tables of derivatives. *)
Definition zplain (L : list string) (s : zstmt R) : Prop :=
  match s with ZNew _ _ d => d = [] | ZVar _ k _ => In k L | _ => True end.
