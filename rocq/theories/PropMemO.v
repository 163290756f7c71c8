(** C108: memory exhaustion in Python sessions with dense numbers. *)
From Coq Require Import ZArith List Bool.
From Verif Require Import Outcome Scalar Samples Model Spec ProgSpec ModelObj ModelMem ModelMemO MemOSpec FactsMemO.
Import ListNotations.
Open Scope Z_scope.

(** C108.  A statement that is granted all memory it asks for does what it does with unlimited memory; a refused one leaves what
    [p_left] says: everything as it was, or, for a [resize] that needs a new buffer, the new size with the old data. *)
Theorem C108_statement : forall (S : Type) (O : Ops S) (c : cfg) (slack : nat -> nat) (s : pstmt S) (st : heap S) (w : mem),
  match pstep_m O c slack s st w with
  | PRan o _ => o = pstep O c slack s st
  | PRefused st' _ => p_left O c slack s st st'
  end.
Proof. exact @step_m_left. Qed.
Print Assumptions C108_statement.
(** The ends of sessions, undefined behaviour and aborts included, under all patterns of refusals are exactly those of [p_lives]. *)
Theorem C108_sessions : forall (S : Type) (O : Ops S) (c : cfg) (slack : nat -> nat) (p : list (pstmt S)) (st : heap S) (m : res (heap S)),
  p_lives O c slack p st m <-> exists w, session_m O c slack p st w = m.
Proof. exact @session_m_lives. Qed.
Print Assumptions C108_sessions.
Theorem C108_granted : forall (S : Type) (O : Ops S) (c : cfg) (slack : nat -> nat) (p : list (pstmt S)) (st : heap S) (w : mem),
  List.Forall (fun g : bool => g = true) w -> session_m O c slack p st w = session O c slack p st.
Proof. exact @session_m_granted. Qed.
Print Assumptions C108_granted.
(** Sessions without [resize]: refusals leave out statements, nothing else; every choice of statements left out occurs. *)
Theorem C108_left_out_partial : forall (S : Type) (O : Ops S) (c : cfg) (slack : nat -> nat) (p : list (pstmt S)) (st : heap S) (m : res (heap S)),
  List.Forall no_resize p ->
  (p_lives O c slack p st m <-> exists q, thinned q p /\ session O c slack q st = m).
Proof. exact @lives_thinned. Qed.
Print Assumptions C108_left_out_partial.
(** A refused statement binds no name, makes no view, creates and frees no buffer; only the number being resized may change. *)
Theorem C108_others : forall (S : Type) (O : Ops S) (c : cfg) (slack : nat -> nat) (s : pstmt S) (st st' : heap S),
  p_left O c slack s st st' -> names st' = names st /\ views st' = views st /\ bufs st' = bufs st /\
  forall o, (forall r sz, s = Resize r sz -> names st r <> Some o) -> load st' o = load st o.
Proof. exact @left_rest. Qed.
Print Assumptions C108_others.
(** Every refused statement can be tried again, [resize] included. *)
Theorem C108_retry : forall (S : Type) (O : Ops S) (c : cfg) (slack : nat -> nat) (s : pstmt S) (st st' : heap S),
  p_left O c slack s st st' -> pstep O c slack s st' = pstep O c slack s st.
Proof. exact @left_retry. Qed.
Print Assumptions C108_retry.
(** Until then a [resize] that has changed the number leaves one that is not a number of any size. *)
Theorem C108_resize : forall (S : Type) (O : Ops S) (c : cfg) (slack : nat -> nat) (r : nat) (sz : Z) (st st' : heap S) (o : nat) (x : dd S),
  p_left O c slack (Resize r sz) st st' -> st' <> st -> names st r = Some o -> load st o = Ok x ->
  load st' o = Ok (mk sz (m_data x)) /\ forall k n, wf c k x -> sz <> Z.of_nat k -> ~ wf c n (mk sz (m_data x)).
Proof. exact @left_load. Qed.
Print Assumptions C108_resize.
(** Missing: [resize]. *)
Theorem C108_unchanged_refuted :
  ~ (forall (S : Type) (O : Ops S) (c : cfg) (slack : nat -> nat) (p : list (pstmt S)) (s : pstmt S) (st st' : heap S),
       session O c slack p start = Ok st -> p_left O c slack s st st' -> st' = st).
Proof. exact p_unchanged_false. Qed.
Print Assumptions C108_unchanged_refuted.
(** x = variable(0, 5, 1); t = x; x.resize(2) with the new buffer refused: x and t have size 2 and the two values 5, 1.
    Trying again gives 5, 1, 0.  Instead, x = x * x with the product refused leaves x; but reading the second partial derivative of
    the half-resized number, here by adding it to one of size 2, is outside its data. *)
Example C108_case :
  let run := session_m Zops dyn1 (fun _ => 0%nat) in
  let p := [NVar 0 0 5 1; Alias 1 0] in
  let w := [true; true; true; true; true; true; false] in
  (exists st, run (p ++ [Resize 0 2]) start w = Ok st /\ names st 1%nat = Some 0%nat /\ load st 0 = Ok (mk 2 (full [5; 1]))) /\
  (exists st, run (p ++ [Resize 0 2; Resize 1 2]) start w = Ok st /\ load st 0 = Ok (mk 2 (full [5; 1; 0]))) /\
  (exists st, run (p ++ [Bin 0 Bmul 0 0; Bin 2 Badd 0 1]) start w = Ok st /\ names st 0%nat = Some 0%nat /\ load st 1 = Ok (mk 1 (full [10; 2]))) /\
  run (p ++ [Resize 0 2; NVar 2 1 3 2; Bin 3 Badd 2 1]) start w = UB.
Proof. repeat split; try (eexists; repeat split); vm_compute; reflexivity. Qed.
