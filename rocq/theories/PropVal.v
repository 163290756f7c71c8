(** C62: Python sessions behave as if objects were plain values. *)
From Coq Require Import ZArith List Bool Lia.
From Verif Require Import Outcome Scalar Model Spec ArrSpec ProgSpec ModelObj ObjSpec ValSpec Samples FactsObj FactsSess FactsVal.
Import ListNotations.
Open Scope Z_scope.

(** C62.  A session that respects the preconditions raises the same exceptions and computes the same
    numbers as on values without storage ([vsession]); the preconditions can be checked there too. *)
Theorem C62_sessions_are_values : forall (S : Type) (O : Ops S) (c : cfg) (slack : nat -> nat) (p : list (pstmt S)),
  cfg_ok c -> c_exc c = true -> (is_dynamic c = false -> exists n, size_ok c n) ->
  (legal_session O c slack p start <-> vlegal_session O c p vstart) /\
  (legal_session O c slack p start -> exists es st v,
     traced O c slack p start = Ok (es, st) /\ session O c slack p start = Ok st /\ vsession O c p vstart = Ok (es, v) /\ holds st v).
Proof. exact @sessions_are_values. Qed.
Print Assumptions C62_sessions_are_values.
(** Hence nothing observable depends on the capacities of the vectors. *)
Theorem C62_capacities_do_not_show : forall (S : Type) (O : Ops S) (c : cfg) (slack1 slack2 : nat -> nat) (p : list (pstmt S)),
  cfg_ok c -> c_exc c = true -> (is_dynamic c = false -> exists n, size_ok c n) ->
  legal_session O c slack1 p start ->
  exists es st1 st2, legal_session O c slack2 p start /\
    traced O c slack1 p start = Ok (es, st1) /\ traced O c slack2 p start = Ok (es, st2) /\
    (forall r, names st1 r = names st2 r) /\ (forall o x, load st1 o = Ok x <-> load st2 o = Ok x) /\
    (forall w i a, (exists v, views st1 w = Some v /\ view_read st1 v i = Ok a) <-> (exists v, views st2 w = Some v /\ view_read st2 v i = Ok a)).
Proof. exact @capacities_do_not_show. Qed.
Print Assumptions C62_capacities_do_not_show.
(** The first session is legal and moves object 0 to a new buffer only without slack; the second holds an
    array on the resized object, and there the capacity decides between a result and undefined behaviour. *)
Example C62_case :
  let p := [NVar 0 0 5 2; Alias 1 0; ViewG 0 1; Copy 0 1; Resize 0 3; ViewSet 0 1 7; IAsg Aadd 0 1; IAsg Amul 1 1; ViewG 2 0; ViewSet 2 9 1] in
  let q := [NVar 0 0 5 2; ViewG 0 0; Resize 0 3; ViewRead 0 0] in
  legal_session Zops dyn1 (fun _ => 0%nat) p start /\
  (exists v, vsession Zops dyn1 p vstart = Ok ([None; None; None; None; None; None; Some (Cpp IncompatibleSize); None; None; Some IndexError], v) /\
     vals v = [mk 2 (full [25; 10; 70]); mk 3 (full [5; 1; 0; 0])] /\ wins v 2%nat = Some (1, 1, 3)%nat) /\
  (exists st, session Zops dyn1 (fun _ => 0%nat) p start = Ok st /\ length (bufs st) = 3%nat) /\
  (exists st, session Zops dyn1 (fun _ => 4%nat) p start = Ok st /\ length (bufs st) = 2%nat) /\
  session Zops dyn1 (fun _ => 0%nat) q start = UB /\ (exists st, session Zops dyn1 (fun _ => 4%nat) q start = Ok st) /\
  (exists v, vsession Zops dyn1 q vstart = Ok ([None; None; None; None], v)).
Proof.
  split; [legal_case|]. repeat split; try (eexists; repeat split; vm_compute; reflexivity).
Qed.
