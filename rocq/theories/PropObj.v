(** C58-C61: Python sessions with shared objects, array views and exceptions. *)
From Coq Require Import ZArith List Bool Lia.
From Verif Require Import Outcome Scalar Model Spec ArrSpec ProgSpec ModelObj ObjSpec Samples FactsObj FactsSess.
Import ListNotations.
Open Scope Z_scope.

(** C58.  [w = x.g] or [w = x.data] anywhere in a session; whatever follows, as long as [x] is not resized,
    [w] reads and writes the entries of [x]. *)
Theorem C58_views_stay_live_partial : forall (S : Type) (O : Ops S) (c : cfg) (slack : nat -> nat)
    (p p' : list (pstmt S)) (s : pstmt S) (w r o : nat) (st0 st1 st2 : heap S) (v : view),
  session O c slack p start = Ok st0 -> s = ViewG w r \/ s = ViewData w r -> names st0 r = Some o ->
  pstep O c slack s st0 = Done st1 -> views st1 w = Some v ->
  unresized O c slack o p' st1 -> session O c slack p' st1 = Ok st2 ->
  exists x1 x2, load st1 o = Ok x1 /\ load st2 o = Ok x2 /\
    m_size x2 = m_size x1 /\ length (m_data x2) = length (m_data x1) /\
    v_off v = (match s with ViewG _ _ => 1 | _ => 0 end)%nat /\
    v_len v = (match s with ViewG _ _ => Z.to_nat (size c x1) | _ => length (m_data x1) end)%nat /\
    (forall i, view_read st2 v i = rd (m_data x2) (Z.of_nat (v_off v + i))) /\
    (forall i a, (v_off v + i < length (m_data x2))%nat -> exists st3,
       view_write st2 v i a = Ok st3 /\ load st3 o = Ok (mk (m_size x2) (upd (m_data x2) (v_off v + i) a))).
Proof. exact @views_live_flat. Qed.
Print Assumptions C58_views_stay_live_partial.
(** Missing: resized objects.  The array then dangles, unless the new storage fits into the old allocation. *)
Theorem C58_views_after_resize : forall (S : Type) (O : Ops S) (c : cfg) (slack : nat -> nat)
    (st : heap S) (r o : nat) (sz0 sz : Z) (b : nat) (d : data S) (cap : nat) (n : Z) (v : view),
  is_dynamic c = true -> names st r = Some o -> nth_error (objs st) o = Some (sz0, b) ->
  nth_error (bufs st) b = Some (Some (d, cap)) -> v_buf v = b -> data_length_from_size c sz = Ok n -> 0 <= n <= max_len ->
  exists st' x, pstep O c slack (Resize r sz) st = Done st' /\ load st' o = Ok x /\ m_size x = sz /\ len (m_data x) = n /\
    (Z.of_nat cap < n -> forall i, view_read st' v i = UB) /\
    (n <= Z.of_nat cap -> forall i, view_read st' v i = rd (m_data x) (Z.of_nat (v_off v + i))).
Proof. exact @resize_views. Qed.
Print Assumptions C58_views_after_resize.
Theorem C58_views_always_live_refuted :
  ~ (forall (S : Type) (O : Ops S) (c : cfg) (slack : nat -> nat) (p : list (pstmt S)) (st : heap S) (w : nat) (v : view) (i : nat),
       cfg_ok c -> session O c slack p start = Ok st -> views st w = Some v -> (i < v_len v)%nat ->
       exists a, view_read st v i = Ok a).
Proof. exact views_always_live_false. Qed.
Print Assumptions C58_views_always_live_refuted.
Example C58_case :
  let p := [NVar 0 0 5 2; ViewG 0 0; ViewData 1 0; SetF 0 7; ViewSet 0 (-1) 9; ViewSet 1 3 4; IAsg Aadd 0 0] in
  (exists st v, session Zops dyn2 (fun _ => 0%nat) p start = Ok st /\ views st 0%nat = Some v /\
     load st 0 = Ok (mk 2 (full [14; 2; 18; 8; 0; 0])) /\ view_read st v 1 = Ok 18) /\
  session Zops dyn2 (fun _ => 0%nat) (p ++ [Resize 0 3; ViewRead 0 0]) start = UB /\
  (exists st, session Zops dyn2 (fun _ => 4%nat) (p ++ [Resize 0 3; ViewRead 0 0]) start = Ok st).
Proof. split; [|split]; [eexists _, _; repeat split; vm_compute; reflexivity|vm_compute; reflexivity|eexists; vm_compute; reflexivity]. Qed.

(** C59.  [r op= a]: every name of the object sees the new contents; no other object changes. *)
Theorem C59_number_operand_shared_partial : forall (S : Type) (O : Ops S) (c : cfg) (slack : nat -> nat)
    (p : list (pstmt S)) (st st' : heap S) (op : aop) (r a o oa : nat),
  session O c slack p start = Ok st -> names st r = Some o -> names st a = Some oa ->
  pstep O c slack (IAsg op r a) st = Done st' ->
  exists x y x', load st o = Ok x /\ load st oa = Ok y /\
    assign O c op x (if Nat.eqb oa o then None else Some y) = Ok x' /\ load st' o = Ok x' /\
    (forall q, names st' q = names st q) /\ (forall o', o' <> o -> load st' o' = load st o').
Proof. exact @assign_shared. Qed.
Print Assumptions C59_number_operand_shared_partial.
Theorem C59_float_scaling_shared_partial : forall (S : Type) (O : Ops S) (c : cfg) (slack : nat -> nat)
    (p : list (pstmt S)) (st st' : heap S) (op : aop) (r : nat) (v : S) (o : nat),
  session O c slack p start = Ok st -> names st r = Some o -> op = Amul \/ op = Adiv ->
  pstep O c slack (IAsgS op r v) st = Done st' ->
  exists x x', load st o = Ok x /\ assign_s O op x v = Ok x' /\ load st' o = Ok x' /\
    (forall q, names st' q = names st q) /\ (forall o', o' <> o -> load st' o' = load st o').
Proof. exact @assign_s_shared. Qed.
Print Assumptions C59_float_scaling_shared_partial.
(** Missing: [r += float], [r -= float].  They make a new object; other names of the old one keep the old value. *)
Theorem C59_float_shift_rebinds : forall (S : Type) (O : Ops S) (c : cfg) (slack : nat -> nat)
    (p : list (pstmt S)) (st st' : heap S) (op : aop) (r : nat) (v : S) (o : nat),
  session O c slack p start = Ok st -> names st r = Some o -> op = Aadd \/ op = Asub ->
  pstep O c slack (IAsgS op r v) st = Done st' ->
  exists x x' o', load st o = Ok x /\ apply_u O c (aop_s op v) x = Ok x' /\
    names st' r = Some o' /\ o' <> o /\ load st' o' = Ok x' /\ load st' o = Ok x /\
    (forall q, q <> r -> names st' q = names st q /\ names st' q <> Some o') /\
    (forall q o1, names st q = Some o1 -> load st' o1 = load st o1).
Proof. exact @assign_s_rebinds. Qed.
Print Assumptions C59_float_shift_rebinds.
Theorem C59_always_in_place_refuted :
  ~ (forall (S : Type) (O : Ops S) (c : cfg) (slack : nat -> nat) (p : list (pstmt S)) (st st' : heap S) (op : aop) (r q : nat) (v : S),
       cfg_ok c -> session O c slack p start = Ok st -> names st q = names st r ->
       pstep O c slack (IAsgS op r v) st = Done st' -> names st' q = names st' r).
Proof. exact always_in_place_false. Qed.
Print Assumptions C59_always_in_place_refuted.
Example C59_case :
  let p := [NVar 0 0 5 1; Alias 1 0; Copy 2 0] in
  (exists st, session Zops dyn1 (fun _ => 0%nat) (p ++ [IAsgS Amul 0 3; IAsg Aadd 0 2]) start = Ok st /\
     names st 0%nat = Some 0%nat /\ names st 1%nat = Some 0%nat /\ load st 0 = Ok (mk 1 (full [20; 4])) /\
     names st 2%nat = Some 1%nat /\ load st 1 = Ok (mk 1 (full [5; 1]))) /\
  (exists st, session Zops dyn1 (fun _ => 0%nat) (p ++ [IAsgS Aadd 0 3]) start = Ok st /\
     names st 0%nat = Some 2%nat /\ names st 1%nat = Some 0%nat /\ load st 2 = Ok (mk 1 (full [8; 1])) /\
     load st 0 = Ok (mk 1 (full [5; 1]))).
Proof. split; eexists; repeat split; vm_compute; reflexivity. Qed.

(** C60.  A statement that raises changes nothing. *)
Theorem C60_nothing_changed_partial : forall (S : Type) (O : Ops S) (c : cfg) (slack : nat -> nat)
    (s : pstmt S) (st : heap S) (e : pyexn) (st' : heap S),
  (forall r sz, s <> Resize r sz) -> pstep O c slack s st = Raised e st' -> st' = st.
Proof. exact @exceptions_change_nothing. Qed.
Print Assumptions C60_nothing_changed_partial.
(** Inside the in-place operators the size check, the only thing that can throw, precedes every write. *)
Theorem C60_operators_throw_first : forall (S : Type) (O : Ops S) (c : cfg) (x : dd S) (e : exn),
  (forall o b, assign O c o x b = Throw e -> check_equal_size c (size c x) (ref_size c x b) = Throw e) /\
  (forall v i j (m : mat S) o s,
     set_f x v <> Throw e /\ set_h c x i j v <> Throw e /\ set_hm c x m <> Throw e /\ assign_s O o x s <> Throw e).
Proof. exact @operators_throw_first. Qed.
Print Assumptions C60_operators_throw_first.
(** Missing: [resize].  If the vector rejects the length, the size is already changed and no longer matches
    the data. *)
Theorem C60_failed_resize : forall (S : Type) (O : Ops S) (c : cfg) (slack : nat -> nat)
    (p : list (pstmt S)) (st : heap S) (r o : nat) (sz : Z) (x : dd S) (n : Z),
  is_dynamic c = true -> session O c slack p start = Ok st -> names st r = Some o ->
  load st o = Ok x -> data_length_from_size c sz = Ok n -> n < 0 \/ max_len < n ->
  exists st', pstep O c slack (Resize r sz) st = Raised (Cpp LengthError) st' /\ load st' o = Ok (mk sz (m_data x)) /\
    (forall k, ~ wf c k (mk sz (m_data x))) /\ (forall o', o' <> o -> load st' o' = load st o').
Proof. exact @failed_resize. Qed.
Print Assumptions C60_failed_resize.
Theorem C60_nothing_changed_refuted :
  ~ (forall (S : Type) (O : Ops S) (c : cfg) (slack : nat -> nat) (p : list (pstmt S)) (s : pstmt S) (st : heap S) (e : pyexn) (st' : heap S) (o : nat),
       cfg_ok c -> session O c slack p start = Ok st -> pstep O c slack s st = Raised e st' -> load st' o = load st o).
Proof. exact nothing_changed_false. Qed.
Print Assumptions C60_nothing_changed_refuted.
Example C60_case :
  let p := [NVar 0 0 5 2; NConst 1 3 4; IAsg Amul 0 1; Bin 0 Badd 0 1; SetF 2 1] in
  (exists st, session Zops dyn1 (fun _ => 0%nat) p start = Ok st /\
     load st 0 = Ok (mk 2 (full [5; 1; 0])) /\ load st 1 = Ok (mk 4 (full [3; 0; 0; 0; 0])) /\ names st 0%nat = Some 0%nat) /\
  (exists st, session Zops dyn1 (fun _ => 0%nat) (p ++ [Resize 0 (-5)]) start = Ok st /\
     load st 0 = Ok (mk (-5) (full [5; 1; 0]))) /\
  session Zops dyn2 (fun _ => 0%nat) [NVar 0 0 5 2; Resize 0 (2 ^ 31); SetH 0 5 5 1] start = UB /\
  (exists st, session Zops dyn2 (fun _ => 0%nat) [NVar 0 0 5 2; Resize 0 (2 ^ 31)] start = Ok st /\
     load st 0 = Ok (mk (2 ^ 31) (full [5; 1; 0; 0; 0; 0]))).
Proof.
  split; [eexists; repeat split; vm_compute; reflexivity|]. split; [eexists; split; vm_compute; reflexivity|].
  split; [vm_compute; reflexivity|eexists; split; vm_compute; reflexivity].
Qed.

(** C61.  No session that respects the preconditions reaches undefined behaviour or a failed assertion. *)
Theorem C61_legal_sessions_are_safe : forall (S : Type) (O : Ops S) (c : cfg) (slack : nat -> nat) (p : list (pstmt S)),
  cfg_ok c -> c_exc c = true -> (is_dynamic c = false -> exists n, size_ok c n) ->
  legal_session O c slack p start ->
  exists st, session O c slack p start = Ok st /\
    (forall r o, names st r = Some o -> exists n x, load st o = Ok x /\ wf c n x) /\
    (forall w v i, views st w = Some v -> (i < v_len v)%nat -> exists a, view_read st v i = Ok a).
Proof. exact @sessions_safe. Qed.
Print Assumptions C61_legal_sessions_are_safe.
Example C61_case :
  let p := [NVar 0 0 5 2; NData 1 [3; 1; 2; 0; 4; 6]; Bin 2 Bmul 0 1; ViewG 0 2; ViewSet 0 (-1) 9; Alias 3 2; IAsg Amul 3 0;
            Resize 0 3; PadR 1 1 3; IAsg Aadd 0 1; IAsg Aadd 0 2; Bin 4 Batan2 0 1; Un 5 (Uadds 1) 6] in
  legal_session Zops dyn2 (fun _ => 0%nat) p start /\
  (exists st, session Zops dyn2 (fun _ => 0%nat) p start = Ok st /\
     load st 2 = Ok (mk 2 (full [75; 55; 45; 26; 119; 150])) /\ load st 0 = Ok (mk 3 (full [8; 2; 2; 0; 0; 4; 0; 6; 0; 0])) /\
     names st 5%nat = None) /\
  ~ legal_session Zops dyn2 (fun _ => 0%nat) (p ++ [Bin 0 Batan2 0 2]) start /\
  session Zops dyn2 (fun _ => 0%nat) (p ++ [Bin 0 Batan2 0 2]) start = UB.
Proof.
  split; [|split; [|split]].
  - legal_case.
  - eexists; repeat split; vm_compute; reflexivity.
  - intros H. apply (C61_legal_sessions_are_safe Z) in H; [|exact cfg_dyn2|reflexivity|discriminate].
    destruct H as (st & E & _). vm_compute in E. discriminate.
  - vm_compute; reflexivity.
Qed.
