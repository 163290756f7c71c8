(** C97: copies, moves and swaps of numbers in C++ programs; sorting. *)
From Coq Require Import ZArith Reals String List Bool Permutation Lia.
From Flocq Require Import Core BinarySingleNaN.
From Verif Require Import Outcome Scalar Model Spec ProgSpec ModelS SpecS RealOps Float64 Ops64 B64 Samples ModelMove MoveSpec FactsMove FactsMoveLib.
Import ListNotations.
Open Scope Z_scope.

(** C97.  [w]: a program of calls, copies, moves and swaps that never uses a moved-from variable before assigning to it
    ([tidy]); [js]: what moved-from vectors contain.  It ends like the program in which every move is a copy: with the
    same exception, or with the same numbers in all variables that hold a value. *)
Theorem C97_values : forall (S : Type) (O : Ops S) (c : cfg) (js : nat -> data S) (k : nat) (w : list (mstmt (call S) (icall S))) lv lv' st st',
  tidy lv w = Some lv' -> same_live lv st st' ->
  ends_alike (same_live lv') (mrun (dd_call O c) (dd_icall O c) (dd_husk c) js k w st) (plain (dd_call O c) (dd_icall O c) w st').
Proof. exact @dense_values. Qed.
Print Assumptions C97_values.
(** The program moves [x] away, uses the copy, revives [x] by an assignment, swaps and divides; then it meets numbers
    of different sizes. *)
Example C97_values_case :
  let w := [MLet 0 (KVar 0 5 2) []; MLet 1 (KVar 1 7 2) []; MMove 2 0; MLet 3 (KBin Bmul) [2; 1]%nat; MMoveTo 0 3; MSwap 0 1; MSwap 1 1;
            MUpd (KAsg Aadd) 1 (Some 1%nat); MUpd (KAsg Amul) 0 (Some 2%nat)] in
  let junk := fun k : nat => [Some (Z.of_nat k); None] in
  (exists lv, tidy (fun _ => false) w = Some lv /\ map lv [0; 1; 2; 3]%nat = [true; true; true; false]) /\
  (exists st, mrun (dd_call Zops dyn1) (dd_icall Zops dyn1) (dd_husk dyn1) junk 0 w (fun _ => None) = Ok st /\
     st 0%nat = Some (mk 2 (full [35; 7; 5])) /\ st 1%nat = Some (mk 2 (full [70; 14; 10])) /\ st 2%nat = Some (mk 2 (full [5; 1; 0])) /\
     st 3%nat = Some (mk 2 [Some 4; None])) /\
  mrun (dd_call Zops dyn1) (dd_icall Zops dyn1) (dd_husk dyn1) junk 0 (w ++ [MLet 4 (KConst 1 3) []; MUpd (KAsg Aadd) 0 (Some 4%nat)])%list (fun _ => None) =
    Throw IncompatibleSize.
Proof.
  cbv zeta. split; [|split].
  - eexists. split; [vm_compute; reflexivity|vm_compute; reflexivity].
  - eexists. split; [vm_compute; reflexivity|]. repeat split.
  - vm_compute. reflexivity.
Qed.
(** The same for sparse numbers, whatever is left in a moved-from table. *)
Theorem C97_sparse : forall (S : Type) (O : Ops S) (d : table S) (js : nat -> table S) (k : nat) (w : list (mstmt (scall S) (icall S))) lv lv' st st',
  tidy lv w = Some lv' -> same_live lv st st' ->
  ends_alike (same_live lv') (mrun (ss_call O) (ss_icall O) (ss_husk d) js k w st) (plain (ss_call O) (ss_icall O) w st').
Proof. exact @sparse_values. Qed.
Print Assumptions C97_sparse.
Example C97_sparse_case :
  let w := [MLet 0 (LVar "x" 5) []; MLet 1 (LVar "y" 7) []; MLet 2 (LBin Bmul) [0; 1]%nat; MMove 3 2; MSwap 3 0; MUpd (KAsg Aadd) 0 (Some 0%nat)] in
  (exists lv, tidy (fun _ => false) w = Some lv) /\
  exists st, mrun (ss_call Zops) (ss_icall Zops) (ss_husk []) (fun _ => []) 0 w (fun _ => None) = Ok st /\
    st 0%nat = Some (mks 70 [("x", 14); ("y", 10)]%string) /\ st 3%nat = Some (mks 5 [("x", 1)]%string) /\ st 2%nat = Some (mks 35 []).
Proof. cbv zeta. split; [eexists; vm_compute; reflexivity|]. eexists. split; [vm_compute; reflexivity|]. repeat split; vm_compute; reflexivity. Qed.

(** Calls and copies do what the statements of the program language do: straight-line programs of the language,
    written as C++ statements, end in the same numbers, the same exception or undefined behaviour. *)
Theorem C97_calls : forall (S : Type) (O : Ops S) (c : cfg) (n : nat) (js : nat -> data S) (fuel : nat) (s : stmt S) (k : nat) (st : list (dd S)) st' m,
  straight (List.length st) s -> (forall q, nth_error st q = st' q) -> exec O c n fuel s st = Some m ->
  ends_alike (fun a b => forall q, nth_error a q = b q) m (mrun (dd_call O c) (dd_icall O c) (dd_husk c) js k (as_calls n s) st').
Proof. exact @dense_calls. Qed.
Print Assumptions C97_calls.
Theorem C97_calls_sparse : forall (S : Type) (O : Ops S) (d : table S) (js : nat -> table S) (fuel : nat) (s : stmt S) (k : nat) (st : list (ss S)) st' m,
  straight (List.length st) s -> (forall q, nth_error st q = st' q) -> s_exec O fuel s st = Some m ->
  ends_alike (fun a b => forall q, nth_error a q = b q) m (mrun (ss_call O) (ss_icall O) (ss_husk d) js k (as_scalls s) st').
Proof. exact @sparse_calls. Qed.
Print Assumptions C97_calls_sparse.
(** x - y, then x *= the difference; reading a variable that was never initialised. *)
Example C97_calls_case :
  let st := [mk 2 (full [5; 1; 0]); mk 2 (full [7; 0; 1]); mk 2 (full [0; 0; 0])] in
  let s := PSeq (PB 2 Bsub 0 1) (PAsg Amul 0 2)%nat in
  straight 3 s /\
  exec Zops dyn1 2 2 s st = Some (Ok [mk 2 (full [-10; 3; -5]); mk 2 (full [7; 0; 1]); mk 2 (full [-2; 1; -1])]) /\
  (exists st', mrun (dd_call Zops dyn1) (dd_icall Zops dyn1) (dd_husk dyn1) (fun _ => []) 0 (as_calls 2 s) (nth_error st) = Ok st' /\
     st' 0%nat = Some (mk 2 (full [-10; 3; -5]))) /\
  mrun (dd_call Zops dyn1) (dd_icall Zops dyn1) (dd_husk dyn1) (fun _ => []) 0 (as_calls 2 (PU 0 Uneg 3)%nat) (nth_error st) = UB.
Proof.
  cbv zeta. split; [cbn; lia|]. split; [vm_compute; reflexivity|]. split; [|vm_compute; reflexivity].
  eexists. split; [vm_compute; reflexivity|]. reflexivity.
Qed.

(** Numbers of a static type are copied by a move: no discipline is needed. *)
Theorem C97_static : forall (S : Type) (O : Ops S) (c : cfg), is_dynamic c = false ->
  forall (js : nat -> data S) (k : nat) (w : list (mstmt (call S) (icall S))) st, (forall r, ~ In (MMove r r) w) ->
  ends_alike (fun a b => forall r, a r = b r) (mrun (dd_call O c) (dd_icall O c) (dd_husk c) js k w st) (plain (dd_call O c) (dd_icall O c) w st).
Proof. exact @static_moves. Qed.
Print Assumptions C97_static.
Example C97_static_case :
  exists st, mrun (dd_call Zops (sta1 2)) (dd_icall Zops (sta1 2)) (dd_husk (sta1 2)) (fun _ => []) 0
    [MLet 0 (KVar 0 5 2) []; MMove 1 0; MMoveTo 2 0; MMoveTo 0 0; MLet 3 (KBin Bmul) [0; 1]%nat ] (fun _ => None) = Ok st /\
    st 3%nat = Some (mk 2 (full [25; 10; 0])).
Proof. eexists. split; [vm_compute; reflexivity|]. reflexivity. Qed.

(** A moved-from number of a dynamic type still has its size, so that no size check stops the calls on it: reading it is
    undefined behaviour, except that [-x], [x * s], [s * x], [x / s] return zeros and [x *= s], [x /= s] do nothing. *)
Theorem C97_moved_from : forall (S : Type) (O : Ops S) (c : cfg), is_dynamic c = true -> forall n (x : dd S), wf c n x ->
  let h := dd_husk c None x in
  size c h = Z.of_nat n /\ get_f h = UB /\
  (forall u, apply_u O c u h =
     if scales u then Ok (mk (Z.of_nat n) (repeat (Some (o_Z O 0)) (storage_len (c_ord c) n))) else UB) /\
  (forall b y, wf c n y -> apply_b O c b h y = UB /\ apply_b O c b y h = UB) /\
  (forall o y, wf c n y -> assign O c o y (Some h) = UB) /\
  (forall o s, assign_s O o h s = match o with Aadd | Asub => UB | Amul | Adiv => Ok h end).
Proof. exact @moved_from. Qed.
Print Assumptions C97_moved_from.
Example C97_moved_from_case :
  mrun (dd_call Zops dyn1) (dd_icall Zops dyn1) (dd_husk dyn1) (fun _ => []) 0
    [MLet 0 (KVar 0 5 2) []; MMove 1 0; MLet 2 (KBin Bmul) [0; 1]%nat ] (fun _ => None) = UB /\
  exists st, mrun (dd_call Zops dyn1) (dd_icall Zops dyn1) (dd_husk dyn1) (fun _ => []) 0
    [MLet 0 (KVar 0 5 2) []; MMove 1 0; MLet 2 (KUn Uneg) [0]%nat; MLet 3 (KUn Uneg) [1]%nat ] (fun _ => None) = Ok st /\
    st 2%nat = Some (mk 2 (full [0; 0; 0])) /\ st 3%nat = Some (mk 2 (full [-5; -1; 0])).
Proof. split; [vm_compute; reflexivity|]. eexists. split; [vm_compute; reflexivity|]. split; reflexivity. Qed.

(** Algorithms that only compare, swap and move into moved-from variables lose and change no number. *)
Theorem C97_rearranged : forall (S : Type) (O : Ops S) (c : cfg) (js : nat -> data S) k p lv lv' (st : vars (X := dd S)),
  rearranges lv p lv' -> NoDup lv -> (forall r, In r lv -> exists x v, st r = Some x /\ get_f x = Ok v) ->
  exists st', arun (dd_call O c) (dd_icall O c) (dd_husk c) (dd_less O) js k p st = Ok st' /\ Permutation (map st' lv') (map st lv).
Proof. exact @dense_rearranged. Qed.
Print Assumptions C97_rearranged.
Theorem C97_rearranged_sparse : forall (S : Type) (O : Ops S) (d : table S) (js : nat -> table S) k p lv lv' (st : vars (X := ss S)),
  rearranges lv p lv' -> NoDup lv -> (forall r, In r lv -> exists x, st r = Some x) ->
  exists st', arun (ss_call O) (ss_icall O) (ss_husk d) (ss_less O) js k p st = Ok st' /\ Permutation (map st' lv') (map st lv).
Proof. exact @sparse_rearranged. Qed.
Print Assumptions C97_rearranged_sparse.
(** Rotating three numbers with one spare variable; a comparison decides about a swap. *)
Example C97_rearranged_case :
  let p := AMove 3 0 (AMoveTo 0 1 (AMoveTo 1 2 (AMoveTo 2 3 (ALess 0 1 (fun l => if l then AEnd else ASwap 0 1 AEnd)))))%nat in
  rearranges [0; 1; 2]%nat p [0; 1; 2]%nat.
Proof.
  cbv zeta. split; [cbn; lia|]. exists [1; 2]%nat. split; [reflexivity|]. split; [cbn; lia|]. exists [3; 2]%nat. split; [constructor|].
  split; [cbn; lia|]. exists [0; 3]%nat. split; [apply Permutation_sym; apply (Permutation_app_comm [2] [0; 3])%nat|].
  split; [cbn; lia|]. exists [1; 0]%nat. split; [apply Permutation_sym; apply (Permutation_app_comm [3] [1; 0])%nat|].
  split; [cbn; lia|]. split; [cbn; lia|]. assert (P : Permutation [2; 1; 0]%nat [0; 1; 2]%nat) by (apply (Permutation_rev [2; 1; 0]%nat)).
  intros [|]; cbn; auto 10.
Qed.

(** Sorting by [<] (insertion sort with moves): the numbers come out in the order of their values, each with its own
    derivatives, if the scalars compared by [<] are strictly weakly ordered. *)
Theorem C97_sorted : forall (S : Type) (O : Ops S) (c : cfg) (Q : S -> Prop) (js : nat -> data S) n (st : vars (X := dd S)) (xs : nat -> dd S) (v : nat -> S),
  strict_weak Q (o_lt O) ->
  (forall i, (i < n)%nat -> st i = Some (xs i) /\ get_f (xs i) = Ok (v i) /\ Q (v i)) ->
  exists st' xs' v', arun (dd_call O c) (dd_icall O c) (dd_husk c) (dd_less O) js 0 (isort n) st = Ok st' /\
    (forall i, (i < n)%nat -> st' i = Some (xs' i) /\ get_f (xs' i) = Ok (v' i)) /\
    Permutation (map xs' (seq 0 n)) (map xs (seq 0 n)) /\ in_order (o_lt O) n v'.
Proof. exact @dense_sorted. Qed.
Print Assumptions C97_sorted.
Theorem C97_sorted_sparse : forall (S : Type) (O : Ops S) (Q : S -> Prop) (d : table S) (js : nat -> table S) n (st : vars (X := ss S)) (xs : nat -> ss S),
  strict_weak Q (o_lt O) ->
  (forall i, (i < n)%nat -> st i = Some (xs i) /\ Q (s_f (xs i))) ->
  exists st' xs', arun (ss_call O) (ss_icall O) (ss_husk d) (ss_less O) js 0 (isort n) st = Ok st' /\
    (forall i, (i < n)%nat -> st' i = Some (xs' i)) /\
    Permutation (map xs' (seq 0 n)) (map xs (seq 0 n)) /\ in_order (o_lt O) n (fun i => s_f (xs' i)).
Proof. exact @sparse_sorted. Qed.
Print Assumptions C97_sorted_sparse.
(** Real numbers are so ordered, and doubles that are not NaN, infinities included. *)
Theorem C97_order_real : strict_weak (fun _ : R => True) (o_lt Rops).
Proof. exact real_order. Qed.
Print Assumptions C97_order_real.
Theorem C97_order_double : forall M : libm, strict_weak (fun a : b64 => ~ nan64 a) (o_lt (b64ops M)).
Proof. exact double_order. Qed.
Print Assumptions C97_order_double.
Example C97_sorted_case :
  exists st, arun (dd_call Zops dyn1) (dd_icall Zops dyn1) (dd_husk dyn1) (dd_less Zops) (fun _ => []) 0 (isort 4)
      (fun i => nth_error [mk 1 (full [7; 1]); mk 1 (full [3; 2]); mk 2 (full [7; 3; 3]); mk 1 (full [-1; 4])] i) = Ok st /\
    map st [0; 1; 2; 3]%nat = map Some [mk 1 (full [-1; 4]); mk 1 (full [3; 2]); mk 1 (full [7; 1]); mk 2 (full [7; 3; 3])].
Proof. eexists. split; [vm_compute; reflexivity|]. vm_compute. reflexivity. Qed.
(** With NaN among the values the result need not be in order. *)
Theorem C97_sorted_refuted : forall M : libm, ~ (forall js n (st : vars (X := dd b64)) (xs : nat -> dd b64) (v : nat -> b64),
  (forall i, (i < n)%nat -> st i = Some (xs i) /\ get_f (xs i) = Ok (v i)) ->
  exists st' xs' v', arun (dd_call (b64ops M) dyn1) (dd_icall (b64ops M) dyn1) (dd_husk dyn1) (dd_less (b64ops M)) js 0 (isort n) st = Ok st' /\
    (forall i, (i < n)%nat -> st' i = Some (xs' i) /\ get_f (xs' i) = Ok (v' i)) /\ in_order (o_lt (b64ops M)) n v').
Proof. exact sort_nan. Qed.
Print Assumptions C97_sorted_refuted.
