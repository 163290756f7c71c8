(** C99: memory exhaustion. *)
From Coq Require Import ZArith String List Bool.
From Verif Require Import Outcome Scalar Model Spec Samples ProgSpec ModelS SpecS ModelMem MemSpec FactsMem.
Import ListNotations.
Open Scope Z_scope.

(** Sparse numbers.  A run that is refused no memory it asks for is the run with unlimited memory; any other
    stops at a basic statement the unlimited run comes to, and leaves what [s_half] says. *)
Theorem C99_sparse : forall (S : Type) (O : Ops S) (lost : table S -> table S -> table S) (fuel : nat)
    (s : stmt S) (st : list (ss S)) (w : mem),
  match s_exec_m O lost fuel s st w with
  | None => s_exec O fuel s st = None
  | Some (MRan m _) => s_exec O fuel s st = Some m
  | Some (MFull st' _) => exists s0 st0, reaches (s_test O) (s_exec O) s st s0 st0 /\ s_half O lost s0 st0 st'
  end.
Proof. exact @mem_sparse. Qed.
Print Assumptions C99_sparse.
Theorem C99_sparse_granted : forall (S : Type) (O : Ops S) (lost : table S -> table S -> table S) (fuel : nat)
    (s : stmt S) (st : list (ss S)) (w : mem), List.Forall (fun b => b = true) w ->
  match s_exec_m O lost fuel s st w with
  | None => s_exec O fuel s st = None
  | Some (MRan m _) => s_exec O fuel s st = Some m
  | Some (MFull _ _) => False
  end.
Proof. exact @mem_sparse_granted. Qed.
Print Assumptions C99_sparse_granted.
(** The tables stay tables, and registers the program does not assign keep their numbers. *)
Theorem C99_sparse_valid : forall (S : Type) (O : Ops S) (lost : table S -> table S -> table S) (fuel : nat)
    (s : stmt S) (st : list (ss S)) (w : mem),
  (forall t t', NoDup (map fst t') -> NoDup (map fst (lost t t'))) -> List.Forall keys_ok st ->
  match s_exec_m O lost fuel s st w with
  | Some (MRan (Ok st') _) | Some (MFull st' _) => List.Forall keys_ok st' | _ => True
  end.
Proof. exact @mem_sparse_keys. Qed.
Print Assumptions C99_sparse_valid.
Theorem C99_sparse_others : forall (S : Type) (O : Ops S) (lost : table S -> table S -> table S) (fuel r : nat)
    (s : stmt S) (st : list (ss S)) (w : mem), no_write r s ->
  match s_exec_m O lost fuel s st w with
  | Some (MRan (Ok st') _) | Some (MFull st' _) => nth_error st' r = nth_error st r | _ => True
  end.
Proof. exact @mem_sparse_others. Qed.
Print Assumptions C99_sparse_others.
(** What can be read off a number that a refused [op=] left: the new value; every derivative is either the new
    one or the one for a constant right operand. *)
Theorem C99_half_reads : forall (S : Type) (O : Ops S) (o : aop) (x y : ss S) (pre post : table S) (k : string),
  keys_ok y -> s_d y = (pre ++ post)%list ->
  let z := s_assign O o x (Some (mks (s_f y) pre)) in
  s_get_f z = s_get_f (s_assign O o x (Some y)) /\
  (In k (map fst pre) -> s_get_d O z k = s_get_d O (s_assign O o x (Some y)) k) /\
  (~ In k (map fst pre) -> s_get_d O z k = s_get_d O (s_assign O o x (Some (s_constant (s_f y)))) k).
Proof. exact @half_reads. Qed.
Print Assumptions C99_half_reads.
(** An in-place operator whose right operand has no new names asks for no memory. *)
Theorem C99_known_names : forall (S : Type) (O : Ops S) (lost : table S -> table S -> table S) (o : aop) (r a : nat)
    (st : list (ss S)) (x y : ss S) (w : mem),
  get st r = Ok x -> get st a = Ok y -> incl (names y) (names x) ->
  s_step_m O lost (PAsg o r a) st w = MRan (s_step O (PAsg o r a) st) w.
Proof. exact @mem_sparse_known. Qed.
Print Assumptions C99_known_names.
(** Every other statement can be tried again. *)
Theorem C99_retry : forall (S : Type) (O : Ops S) (lost : table S -> table S -> table S) (s : stmt S)
    (st : list (ss S)) (w : mem) (st' : list (ss S)) (w' : mem),
  basic s -> (forall o r a, s <> PAsg o r a) ->
  s_step_m O lost s st w = MFull st' w' -> s_step O s st' = s_step O s st.
Proof. exact @retry. Qed.
Print Assumptions C99_retry.
(** Missing: in-place operators.  They do not leave the numbers as they were, and trying again counts the
    value twice. *)
Theorem C99_retry_refuted :
  ~ (forall (S : Type) (O : Ops S) (lost : table S -> table S -> table S) (s : stmt S) (st : list (ss S)) (w : mem)
       (st' : list (ss S)) (w' : mem), basic s -> List.Forall keys_ok st ->
       s_step_m O lost s st w = MFull st' w' -> s_step O s st' = s_step O s st).
Proof. exact retry_false. Qed.
Print Assumptions C99_retry_refuted.
Theorem C99_unchanged_refuted :
  ~ (forall (S : Type) (O : Ops S) (lost : table S -> table S -> table S) (fuel : nat) (s : stmt S)
       (st : list (ss S)) (w : mem) (st' : list (ss S)) (w' : mem), List.Forall keys_ok st ->
       s_exec_m O lost fuel s st w = Some (MFull st' w') -> exists s0, reaches (s_test O) (s_exec O) s st s0 st').
Proof. exact strong_false. Qed.
Print Assumptions C99_unchanged_refuted.

(** Dense numbers: as for sparse ones; among numbers of one size a refused statement changes nothing at all, and
    static numbers are never refused anything. *)
Theorem C99_dense : forall (S : Type) (O : Ops S) (c : cfg) (n : nat) (lost : data S -> data S -> data S) (fuel : nat)
    (s : stmt S) (st : list (dd S)) (w : mem),
  match exec_m O c n lost fuel s st w with
  | None => exec O c n fuel s st = None
  | Some (MRan m _) => exec O c n fuel s st = Some m
  | Some (MFull st' _) => exists s0 st0, reaches (test O) (exec O c n) s st s0 st0 /\ d_half lost s0 st0 st'
  end.
Proof. exact @mem_dense. Qed.
Print Assumptions C99_dense.
Theorem C99_dense_granted : forall (S : Type) (O : Ops S) (c : cfg) (n : nat) (lost : data S -> data S -> data S)
    (fuel : nat) (s : stmt S) (st : list (dd S)) (w : mem), List.Forall (fun b => b = true) w ->
  match exec_m O c n lost fuel s st w with
  | None => exec O c n fuel s st = None
  | Some (MRan m _) => exec O c n fuel s st = Some m
  | Some (MFull _ _) => False
  end.
Proof. exact @mem_dense_granted. Qed.
Print Assumptions C99_dense_granted.
Theorem C99_dense_unchanged : forall (S : Type) (O : Ops S) (c : cfg) (n : nat) (lost : data S -> data S -> data S)
    (fuel : nat) (s : stmt S) (st : list (dd S)) (w : mem) (st' : list (dd S)) (w' : mem),
  cfg_ok c -> size_ok c n -> List.Forall (wf c n) st -> regs_below (List.length st) s ->
  exec_m O c n lost fuel s st w = Some (MFull st' w') ->
  List.Forall (wf c n) st' /\ exists s0, reaches (test O) (exec O c n) s st s0 st'.
Proof. exact @mem_dense_strong. Qed.
Print Assumptions C99_dense_unchanged.
Theorem C99_static : forall (S : Type) (O : Ops S) (c : cfg) (n : nat) (lost : data S -> data S -> data S) (fuel : nat),
  is_dynamic c = false -> forall (s : stmt S) (st : list (dd S)) (w : mem),
  exec_m O c n lost fuel s st w = match exec O c n fuel s st with Some m => Some (MRan m w) | None => None end.
Proof. exact @mem_static. Qed.
Print Assumptions C99_static.
(** How often a statement on dynamic numbers (other than [r = a]) asks for memory: as often as it builds a vector; it
    stops, with everything as it was, as soon as one of these requests is refused, and asks for nothing more. *)
Theorem C99_dense_requests : forall (S : Type) (O : Ops S) (c : cfg) (n : nat) (lost : data S -> data S -> data S)
    (s : stmt S) (st st' : list (dd S)) (w : mem), is_dynamic c = true -> (forall r a, s <> PMov r a) ->
  step O c n s st = Ok st' ->
  step_m O c n lost s st (repeat true (builds O s st) ++ w)%list = MRan (Ok st') w /\
  forall j, (j < builds O s st)%nat -> step_m O c n lost s st (repeat true j ++ false :: w)%list = MFull st w.
Proof. exact @dense_requests. Qed.
Print Assumptions C99_dense_requests.
(** [resize]: a refused one has changed the size already, and the number is unusable. *)
Theorem C99_resize : forall (S : Type) (O : Ops S) (c : cfg) (slack : nat) (x : dd S) (sz : Z) (w : mem) (m : res (dd S)) (w' : mem),
  resize_m O c slack x sz w = MRan m w' -> m = resize O c x sz.
Proof. exact @resize_ran. Qed.
Print Assumptions C99_resize.
Theorem C99_resize_refused : forall (S : Type) (O : Ops S) (c : cfg) (slack : nat) (x : dd S) (sz : Z) (w : mem) (y : dd S) (w' : mem),
  is_dynamic c = true -> resize_m O c slack x sz w = MFull y w' -> y = mk sz (m_data x) /\ forall k, ~ wf c k y.
Proof. exact @resize_full. Qed.
Print Assumptions C99_resize_refused.
Theorem C99_resize_unchanged_refuted :
  ~ (forall (S : Type) (O : Ops S) (c : cfg) (slack : nat) (x : dd S) (sz : Z) (w : mem) (y : dd S) (w' : mem) (k : nat),
       cfg_ok c -> wf c k x -> resize_m O c slack x sz w = MFull y w' -> y = x).
Proof. exact resize_strong_false. Qed.
Print Assumptions C99_resize_unchanged_refuted.

(** [x += y] with a new name granted and the next one refused; trying again; [x = x * y], refused at its last
    copy; [x *= y] of dynamic numbers, refused its copy; a refused resize. *)
Example C99_case :
  let a := "a"%string in let b := "b"%string in let d := "d"%string in
  let x := mks 1 [(a, 10)] in let y := mks 2 [(b, 20); (a, 30); (d, 40)] in
  let add := PAsg Aadd 0%nat 1%nat in
  s_exec_m Zops keep_new 1 add [x; y] [true; false] = Some (MFull [mks 3 [(a, 40); (b, 20)]; y] []) /\
  s_exec Zops 1 add [mks 3 [(a, 40); (b, 20)]; y] = Some (Ok [mks 5 [(a, 70); (b, 40); (d, 40)]; y]) /\
  s_exec Zops 1 add [x; y] = Some (Ok [mks 3 [(a, 40); (b, 20); (d, 40)]; y]) /\
  s_exec_m Zops keep_new 2 (PSeq add (PB 0%nat Bmul 0%nat 1%nat)) [x; y] [true; true; true; false; true] =
    Some (MFull [mks 3 [(a, 40); (b, 20); (d, 40)]; y] [true]) /\
  s_exec_m Zops keep_new 1 (PMov 0%nat 1%nat) [x; y] [false] = Some (MFull [y; y] []) /\
  (let p := mk 1 (full [3; 1]) in let q := mk 1 (full [5; 2]) in
   exec_m Zops dyn1 1 keep_new 2 (PSeq (PAsg Aadd 0%nat 1%nat) (PAsg Amul 0%nat 1%nat)) [p; q] [false] =
     Some (MFull [mk 1 (full [8; 3]); q] []) /\
   exec_m Zops dyn1 1 keep_new 2 (PSeq (PAsg Aadd 0%nat 1%nat) (PAsg Amul 0%nat 1%nat)) [p; q] [] =
     Some (MRan (Ok [mk 1 (full [40; 31]); q]) []) /\
   resize_m Zops dyn1 0 p 2 [false] = MFull (mk 2 (full [3; 1])) [] /\
   resize_m Zops dyn1 1 p 2 [false] = MRan (Ok (mk 2 (full [3; 1; 0]))) [false]).
Proof. repeat split. Qed.
