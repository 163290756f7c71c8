(** C95: threads of a Python program that share objects only for reading do not influence each other. *)
From Coq Require Import ZArith String List Bool Lia.
From Verif Require Import Outcome Scalar Model Spec ProgSpec ModelObj ObjSpec ValSpec ModelS ModelObjS ThrSpec Samples FactsSess FactsThr.
Import ListNotations.
Open Scope Z_scope.

(** C95.  [w] is an interleaving of the statements of all threads (thread, statement).  It is executed to the end
    iff every thread alone is, and then every thread has met the same exceptions and sees the same objects,
    arrays and identities as alone. *)
Theorem C95_values : forall (S : Type) (O : Ops S) (c : cfg) (own ownw : nat -> option nat) (w : list (nat * pstmt S)) (v0 : vheap S),
  separate own ownw v0 -> Forall (fun x => allowed own ownw (fst x) (snd x)) w ->
  ((exists es m, vsession O c (map snd w) v0 = Ok (es, m)) <-> forall t, exists es v, vsession O c (only_of t w) v0 = Ok (es, v)) /\
  (forall es m, vsession O c (map snd w) v0 = Ok (es, m) -> forall t, exists v,
     vsession O c (only_of t w) v0 = Ok (pick t w es, v) /\ same_for own ownw t v m).
Proof. exact @threads_values. Qed.
Print Assumptions C95_values.
(** Two interleavings of the same threads are indistinguishable for each of them. *)
Theorem C95_orders : forall (S : Type) (O : Ops S) (c : cfg) (own ownw : nat -> option nat) (w w' : list (nat * pstmt S)) (v0 : vheap S) es m,
  separate own ownw v0 ->
  Forall (fun x => allowed own ownw (fst x) (snd x)) w -> Forall (fun x => allowed own ownw (fst x) (snd x)) w' ->
  (forall t, only_of t w = only_of t w') ->
  vsession O c (map snd w) v0 = Ok (es, m) ->
  exists es' m', vsession O c (map snd w') v0 = Ok (es', m') /\
    forall t, pick t w es = pick t w' es' /\ same_for own ownw t m m'.
Proof. exact @threads_orders. Qed.
Print Assumptions C95_orders.
(** On the storage: [p] builds the objects the threads start with.  If every thread alone respects the preconditions
    (no array is used after its vector moved, no entry without a value is used), then so does the interleaving. *)
Theorem C95_storage : forall (S : Type) (O : Ops S) (c : cfg) (own ownw : nat -> option nat) (slack : nat -> nat)
    (p : list (pstmt S)) es0 (v0 : vheap S) (w : list (nat * pstmt S)),
  cfg_ok c -> c_exc c = true -> (is_dynamic c = false -> exists n, size_ok c n) ->
  vsession O c p vstart = Ok (es0, v0) -> separate own ownw v0 -> Forall (fun x => allowed own ownw (fst x) (snd x)) w ->
  (forall t, legal_session O c slack (p ++ only_of t w) start) ->
  legal_session O c slack (p ++ map snd w) start /\
  exists es st, traced O c slack (p ++ map snd w) start = Ok (es0 ++ es, st)%list /\
    forall t, exists st', traced O c slack (p ++ only_of t w) start = Ok (es0 ++ pick t w es, st')%list /\
      (forall r x, usable (own r) t ->
         (exists o, names st r = Some o /\ load st o = Ok x) <-> (exists o, names st' r = Some o /\ load st' o = Ok x)) /\
      (forall a i x, usable (ownw a) t ->
         (exists v, views st a = Some v /\ view_read st v i = Ok x) <-> (exists v, views st' a = Some v /\ view_read st' v i = Ok x)).
Proof. exact @threads_storage. Qed.
Print Assumptions C95_storage.
(** Name 0 is shared, 1 and 2 belong to thread 1, 3 and 4 to thread 2, array 0 to thread 1, array 1 to thread 2.
    Both threads read [x]; one changes its result through an array, the other resizes its own object and meets an
    exception. *)
Example C95_case :
  let own := fun r : nat => match r with 0 => None | 1 | 2 => Some 1 | _ => Some 2 end%nat in
  let ownw := fun r : nat => match r with 0 => Some 1 | _ => Some 2 end%nat in
  let p := [NVar 0 0 5 2] in
  let w := [(1%nat, Bin 1 Bmul 0 0); (2%nat, Copy 3 0); (1%nat, ViewG 0 1); (2%nat, Resize 3 3); (2%nat, IAsg Aadd 3 0); (1%nat, ViewSet 0 1 7);
            (2%nat, ViewG 1 3); (1%nat, Bin 2 Badd 1 0); (2%nat, ViewRead 1 2)] in
  (exists v0, vsession Zops dyn1 p vstart = Ok ([None], v0) /\ separate own ownw v0 /\ Forall (fun x => allowed own ownw (fst x) (snd x)) w /\
     exists m, vsession Zops dyn1 (map snd w) v0 = Ok ([None; None; None; None; Some (Cpp IncompatibleSize); None; None; None; None], m) /\
       named m 2%nat = Some (mk 2 (full [30; 11; 7])) /\ named m 3%nat = Some (mk 3 (full [5; 1; 0; 0]))) /\
  (forall t, legal_session Zops dyn1 (fun _ => 0%nat) (p ++ only_of t w) start) /\
  legal_session Zops dyn1 (fun _ => 0%nat) (p ++ map snd w) start.
Proof.
  cbv zeta. split; [|split].
  - eexists. split; [vm_compute; reflexivity|]. split.
    + exists (fun _ => None). split; [|intros r o f n H; discriminate H].
      intros r o H. destruct r as [|r]; vm_compute in H; [|discriminate H]. injection H as <-. split; [reflexivity|vm_compute; lia].
    + split; [repeat (apply Forall_cons; [vm_compute; intuition (auto || discriminate)|]); apply Forall_nil|]. eexists. split; [vm_compute; reflexivity|]. split; vm_compute; reflexivity.
  - intros [|[|[|t]]]; match goal with |- legal_session _ _ _ ?l _ => let l' := eval vm_compute in l in change l with l' end; legal_case.
  - match goal with |- legal_session _ _ _ ?l _ => let l' := eval vm_compute in l in change l with l' end; legal_case.
Qed.
(** Shared objects must not be changed: here the result of thread 1 depends on the order. *)
Example C95_shared_change :
  let p := [NVar 0 0 5 1] in
  (exists st, session Zops dyn1 (fun _ => 0%nat) (p ++ [Bin 1 Bmul 0 0; IAsgS Amul 0 3]) start = Ok st /\ load st 1%nat = Ok (mk 1 (full [25; 10]))) /\
  (exists st, session Zops dyn1 (fun _ => 0%nat) (p ++ [IAsgS Amul 0 3; Bin 1 Bmul 0 0]) start = Ok st /\ load st 1%nat = Ok (mk 1 (full [225; 90]))).
Proof. split; eexists; split; vm_compute; reflexivity. Qed.

(** Sparse numbers. *)
Theorem C95_sparse : forall (S : Type) (O : Ops S) (own : nat -> option nat) (w : list (nat * zstmt S)) (v0 : zheap S),
  zseparate own v0 -> Forall (fun x => zallowed own (fst x) (snd x)) w ->
  forall t, let (es, m) := ztraced O (map snd w) v0 in
    fst (ztraced O (only_of t w) v0) = pick t w es /\ zsame_for own t (snd (ztraced O (only_of t w) v0)) m.
Proof. exact @threads_sparse. Qed.
Print Assumptions C95_sparse.
Example C95_sparse_case :
  let own := fun r : nat => match r with 0 => None | 1 | 2 => Some 1 | _ => Some 2 end%nat in
  let v0 := zsession Zops [ZVar 0 "x"%string 5] zstart in
  let w := [(1%nat, ZVar 1 "y"%string 2); (2%nat, ZVar 3 "z"%string 3); (1%nat, ZAsg Amul 1 0); (2%nat, ZAsg Aadd 3 0); (1%nat, ZAlias 2 1); (2%nat, ZBin 3 Badd 3 9);
            (2%nat, ZAsgS Aadd 3 1)] in
  zseparate own v0 /\ Forall (fun x => zallowed own (fst x) (snd x)) w /\
  fst (ztraced Zops (map snd w) v0) = [None; None; None; None; None; Some NameError; None] /\
  option_map (@s_f Z) (znamed (snd (ztraced Zops (map snd w) v0)) 2%nat) = Some 10 /\
  option_map (@s_f Z) (znamed (snd (ztraced Zops (map snd w) v0)) 3%nat) = Some 9.
Proof.
  cbv zeta. split; [|split; [repeat (apply Forall_cons; [vm_compute; intuition (auto || discriminate)|]); apply Forall_nil|repeat split; vm_compute; reflexivity]].
  exists (fun _ => None). intros r o H. destruct r as [|r]; vm_compute in H; [|discriminate H]. injection H as <-. split; [reflexivity|vm_compute; lia].
Qed.
