(** Threads of a Python program.  The bound functions keep the interpreter's lock (no [py::call_guard<gil_scoped_release>] in
    python/src), so that statements of different threads are executed one after the other, in any order; names are
    local to a thread or shared.  A thread changes only its own names and objects. *)
From Coq Require Import ZArith List Bool.
From Verif Require Import Outcome Scalar Model ProgSpec ModelObj ValSpec ModelS ModelObjS.
Import ListNotations.

(** The statements of one thread, and what a list with one entry per statement says about them. *)
Definition only_of {A} (t : nat) (w : list (nat * A)) : list A := map snd (filter (fun x => Nat.eqb (fst x) t) w).
Definition pick {A B} (t : nat) (w : list (nat * A)) (es : list B) : list B := only_of t (combine (map fst w) es).

Section Threads.
  (** Owner of a name, of an array; [None]: shared. *)
  Context {S : Type} (own ownw : nat -> option nat).
  Definition usable (o : option nat) (t : nat) : Prop := o = Some t \/ o = None.

  (** The statement is one of thread [t]: new names are its own, objects are changed through its own names. *)
  Definition allowed (t : nat) (s : pstmt S) : Prop :=
    match s with
    | NConst r _ _ | NVar r _ _ _ | NEmpty r _ | NData r _ => own r = Some t
    | Alias r a => own r = Some t /\ own a = Some t
    | Copy r a | Un r _ a | PadL r a _ | PadR r a _ | IAsg _ r a => own r = Some t /\ usable (own a) t
    | Bin r _ a1 a2 => own r = Some t /\ usable (own a1) t /\ usable (own a2) t
    | Hyp r a1 a2 a3 => own r = Some t /\ usable (own a1) t /\ usable (own a2) t /\ usable (own a3) t
    | IAsgS _ r _ | SetF r _ | SetH r _ _ _ | SetHm r _ | Resize r _ => own r = Some t
    | ViewG w r | ViewData w r => ownw w = Some t /\ own r = Some t
    | ViewRead w _ => usable (ownw w) t
    | ViewSet w _ _ => ownw w = Some t
    end.
  (** Every object belongs to one thread or is shared: all names of it and arrays on it have the same owner. *)
  Definition separate (v : vheap S) : Prop := exists who : nat -> option nat,
    (forall r o, vnames v r = Some o -> own r = who o /\ (o < length (vals v))%nat) /\
    (forall w o f n, wins v w = Some (o, f, n) -> ownw w = who o /\ (o < length (vals v))%nat).

  Definition named (v : vheap S) (r : nat) : option (dd S) :=
    match vnames v r with Some o => nth_error (vals v) o | None => None end.
  (** The object an array looks at, first entry, number of entries. *)
  Definition shown (v : vheap S) (w : nat) : option (option (dd S) * nat * nat) :=
    match wins v w with Some (o, f, n) => Some (nth_error (vals v) o, f, n) | None => None end.
  (** Thread [t] sees the same in both states. *)
  Definition same_for (t : nat) (v m : vheap S) : Prop :=
    (forall r, usable (own r) t -> named v r = named m r) /\
    (forall w, usable (ownw w) t -> shown v w = shown m w) /\
    (forall r r', usable (own r) t -> usable (own r') t -> (vnames v r = vnames v r' <-> vnames m r = vnames m r')).

  (** The same for sparse numbers. *)
  Definition zallowed (t : nat) (s : zstmt S) : Prop :=
    match s with
    | ZNew r _ _ | ZConst r _ | ZVar r _ _ | ZAsgS _ r _ => own r = Some t
    | ZAlias r a => own r = Some t /\ own a = Some t
    | ZUn r _ a | ZAsg _ r a => own r = Some t /\ usable (own a) t
    | ZBin r _ a1 a2 => own r = Some t /\ usable (own a1) t /\ usable (own a2) t
    | ZHyp r a1 a2 a3 => own r = Some t /\ usable (own a1) t /\ usable (own a2) t /\ usable (own a3) t
    end.
  Definition zseparate (v : zheap S) : Prop := exists who : nat -> option nat,
    forall r o, znames v r = Some o -> own r = who o /\ (o < length (zobjs v))%nat.
  Definition znamed (v : zheap S) (r : nat) : option (ss S) :=
    match znames v r with Some o => nth_error (zobjs v) o | None => None end.
  Definition zsame_for (t : nat) (v m : zheap S) : Prop :=
    (forall r, usable (own r) t -> znamed v r = znamed m r) /\
    (forall r r', usable (own r) t -> usable (own r') t -> (znames v r = znames v r' <-> znames m r = znames m r')).
  (** The exceptions raised, one entry per statement, and the final state. *)
  Fixpoint ztraced (O : Ops S) (p : list (zstmt S)) (v : zheap S) : list (option pyexn) * zheap S :=
    match p with
    | [] => ([], v)
    | s :: p => let (e, v) := zstep O s v in let (es, v) := ztraced O p v in (e :: es, v)
    end.
End Threads.
