(** C107: memory exhaustion in Python sessions with sparse numbers. *)
From Coq Require Import String ZArith List Bool.
From Verif Require Import Outcome Scalar Samples Model ProgSpec ModelS SpecS ModelObj ModelObjS ModelMem ModelMemZ MemZSpec FactsMemZ.
Import ListNotations.
Open Scope Z_scope.

(** C107.  A statement that is granted all memory it asks for does what it does with unlimited memory; a refused one leaves what
    [z_left] says: everything as it was, or [r op= a] done with the first entries of [a]. *)
Theorem C107_statement : forall (S : Type) (O : Ops S) (s : zstmt S) (st : zheap S) (w : mem),
  match zstep_m O s st w with
  | (ZRan e, st', _) => (e, st') = zstep O s st
  | (ZRefused, st', _) => z_left O s st st'
  end.
Proof. exact @step_m_left. Qed.
Print Assumptions C107_statement.
(** The states a session can be in after any pattern of refusals are exactly those of [z_lives]: each of them does occur. *)
Theorem C107_sessions : forall (S : Type) (O : Ops S) (p : list (zstmt S)) (st st' : zheap S),
  z_lives O p st st' <-> exists w, zsession_m O p st w = st'.
Proof. exact @session_lives. Qed.
Print Assumptions C107_sessions.
Theorem C107_granted : forall (S : Type) (O : Ops S) (p : list (zstmt S)) (st : zheap S) (w : mem),
  List.Forall (fun g : bool => g = true) w -> zsession_m O p st w = zsession O p st.
Proof. exact @session_granted. Qed.
Print Assumptions C107_granted.
(** A refused statement binds no name and creates no object; objects that it does not operate on in place keep their numbers. *)
Theorem C107_others : forall (S : Type) (O : Ops S) (s : zstmt S) (st st' : zheap S), z_left O s st st' ->
  znames st' = znames st /\ List.length (zobjs st') = List.length (zobjs st) /\
  forall o, (forall op r a, s = ZAsg op r a -> znames st r <> Some o) -> nth_error (zobjs st') o = nth_error (zobjs st) o.
Proof. exact @left_others. Qed.
Print Assumptions C107_others.
(** Whatever is refused in a session, names name objects and tables are tables. *)
Theorem C107_valid : forall (S : Type) (O : Ops S) (p : list (zstmt S)) (st st' : zheap S),
  List.Forall new_ok p -> z_valid st -> z_lives O p st st' -> z_valid st'.
Proof. exact @lives_valid. Qed.
Print Assumptions C107_valid.
(** Every statement but [r op= a] can be tried again. *)
Theorem C107_retry : forall (S : Type) (O : Ops S) (s : zstmt S) (st st' : zheap S),
  not_in_place s -> z_left O s st st' -> zstep O s st' = zstep O s st.
Proof. exact @left_retry. Qed.
Print Assumptions C107_retry.
(** Missing: [r op= a].  It may have changed [r], for all names of the object, and trying again counts the value twice. *)
Theorem C107_unchanged_refuted :
  ~ (forall (S : Type) (O : Ops S) (s : zstmt S) (st st' : zheap S), z_valid st -> z_left O s st st' -> st' = st).
Proof. exact z_unchanged_false. Qed.
Print Assumptions C107_unchanged_refuted.
Theorem C107_retry_refuted :
  ~ (forall (S : Type) (O : Ops S) (s : zstmt S) (st st' : zheap S), z_valid st -> z_left O s st st' -> zstep O s st' = zstep O s st).
Proof. exact z_retry_false. Qed.
Print Assumptions C107_retry_refuted.
(** x = SScalar(1, {a: 1}); y = SScalar(2, {b: 1}); t = x; x += y with the request for b refused: x and t are 3 with da = 1, db = 0;
    x += y again gives 5.  With [x = x + y] instead, the refusal leaves x as it was. *)
Example C107_case :
  let up := zsession_m Zops [ZNew 0 1%Z [("a"%string, 1%Z)]; ZNew 1 2%Z [("b"%string, 1%Z)]; ZAlias 2 0] zstart [] in
  let half := zsession_m Zops [ZAsg Aadd 0 1] up [true; false] in
  zget half 0 = Some (0%nat, mks 3 [("a"%string, 1%Z)]) /\ zget half 2 = zget half 0 /\
  zget (zsession_m Zops [ZAsg Aadd 0 1] half []) 2 = Some (0%nat, mks 5 [("a"%string, 1%Z); ("b"%string, 1%Z)]) /\
  zget (zsession_m Zops [ZBin 0 Badd 0 1] up [true; true; false]) 0 = Some (0%nat, mks 1 [("a"%string, 1%Z)]) /\
  zget (zsession_m Zops [ZBin 0 Badd 0 1; ZBin 0 Badd 0 1] up [true; true; false]) 0 = Some (2%nat, mks 3 [("a"%string, 1%Z); ("b"%string, 1%Z)]).
Proof. repeat split. Qed.
