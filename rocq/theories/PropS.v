(** C31-C36, C49, C50: the sparse numbers [SScalar]. *)
From Coq Require Import ZArith List Bool String Permutation Reals Lra Lia.
From Verif Require Import Outcome Scalar Model Spec RealOps ExprSpec ProgSpec ModelS SpecS FactsS FactsSReal Samples.
Import ListNotations.

(** C31 *)
Theorem C31_lookup : forall (S : Type) (O : Ops S) (name other : string) (v : S),
  (s_get_f (s_variable O name v) = v /\ s_get_d O (s_variable O name v) name = o_Z O 1 /\
   s_size (s_variable O name v) = 1%Z) /\
  (other <> name -> s_get_d O (s_variable O name v) other = o_Z O 0) /\
  (s_get_f (s_constant v) = v /\ s_get_d O (s_constant v) name = o_Z O 0 /\ s_size (s_constant v) = 0%Z).
Proof. exact @lookup_spec. Qed.
Print Assumptions C31_lookup.
Theorem C31_absent_is_zero : forall (S : Type) (O : Ops S) (x : ss S) (k : string),
  ~ In k (names x) -> s_get_d O x k = o_Z O 0.
Proof. exact @absent_zero. Qed.
Print Assumptions C31_absent_is_zero.
Theorem C31_stored_is_found : forall (S : Type) (O : Ops S) (x : ss S) (k : string) (v : S),
  keys_ok x -> In (k, v) (s_d x) -> s_get_d O x k = v.
Proof. exact @stored_value. Qed.
Print Assumptions C31_stored_is_found.
Theorem C31_size_counts_names : forall (S : Type) (x : ss S), s_size x = Z.of_nat (List.length (names x)).
Proof. exact @size_counts. Qed.
Print Assumptions C31_size_counts_names.
Theorem C31_binary_names : forall (S : Type) (O : Ops S) (b : bfun) (x y : ss S) (k : string), keys_ok y ->
  (In k (names (s_apply_b O b x y)) <-> In k (names x) \/ In k (names y)).
Proof. exact @names_b. Qed.
Print Assumptions C31_binary_names.
Theorem C31_unary_names : forall (S : Type) (O : Ops S) (u : ufun S) (x : ss S), names (s_apply_u O u x) = names x.
Proof. exact @names_u. Qed.
Print Assumptions C31_unary_names.
(** An expression's result stores, once each, exactly the names stored by the variables occurring in it. *)
Theorem C31_expression_names : forall (S : Type) (O : Ops S) (env : nat -> ss S) (e : expr S) (k : string),
  (forall i, occurs i e -> keys_ok (env i)) ->
  keys_ok (s_run O env e) /\
  (In k (names (s_run O env e)) <-> exists i, occurs i e /\ In k (names (env i))).
Proof. exact @names_run. Qed.
Print Assumptions C31_expression_names.
Definition sxa : ss Z := mks 3%Z [("u", 2%Z); ("v", 5%Z)]%string.
Definition sxb : ss Z := mks 4%Z [("w", 7%Z); ("u", 1%Z)]%string.
Example C31_case : keys_ok sxa /\ keys_ok sxb /\
  s_mul Zops sxa sxb = mks 12%Z [("u", 11%Z); ("v", 20%Z); ("w", 21%Z)]%string /\
  s_get_d Zops sxa "w" = 0%Z /\ s_size sxa = 2%Z /\
  s_run Zops (fun i => match i with O => sxa | _ => sxb end) (EB Bsub (EVar 0) (EVar 1)) =
    mks (-1)%Z [("u", 1%Z); ("v", 5%Z); ("w", -7%Z)]%string.
Proof.
  split; [repeat constructor; cbn; intuition discriminate|]. split; [repeat constructor; cbn; intuition discriminate|].
  run_case.
Qed.

(** C32.  [distinct n nm]: [nm 0 .. nm (n-1)] are different names.  Value, partial derivatives, the stored
    names, zero for all other names, and directional derivatives. *)
Open Scope R_scope.
Theorem C32_sparse_exact : forall (n : nat) (nm : nat -> string) (e : expr R) (p : nat -> R),
  distinct n nm -> vars_below n e -> dom e p ->
  let r := s_run Rops (fun i => s_variable Rops (nm i) (p i)) e in
  s_get_f r = rev e p /\
  (forall i, (i < n)%nat -> partial (rev e) i p (s_get_d Rops r (nm i))) /\
  (forall k, In k (names r) <-> exists i, occurs i e /\ k = nm i) /\ NoDup (names r) /\
  (forall k, (forall i, occurs i e -> k <> nm i) -> s_get_d Rops r k = 0) /\
  forall u, dirder (rev e) u p (rsum n (fun i => s_get_d Rops r (nm i) * u i)).
Proof. exact sparse_exact. Qed.
Print Assumptions C32_sparse_exact.
(** Three names; sqrt(x * z) at x = 1, z = 4: the name of y is not stored. *)
Definition nm3 (i : nat) : string := match i with O => "x" | 1%nat => "y" | _ => "z" end.
Definition at14 (i : nat) : R := match i with O => 1 | 1%nat => 0 | _ => 4 end.
Example C32_case : distinct 3 nm3 /\ vars_below 3 (EU Usqrt (X * Z3)%E) /\ dom (EU Usqrt (X * Z3)%E) at14 /\
  names (s_run Rops (fun i => s_variable Rops (nm3 i) (at14 i)) (EU Usqrt (X * Z3)%E)) = ["x"; "z"]%string.
Proof.
  split; [intros [|[|[|i]]] [|[|[|j]]] Hi Hj E; cbn in E; try reflexivity; try discriminate; lia|].
  split; [cbn; repeat split; lia|]. split; [cbn; repeat split; lra|]. reflexivity.
Qed.

(** C33.  [reorders]: the same value and entries, iterated in another order.  [s_runs] and [s_execs]: every
    evaluation in which the tables of all intermediate results may be rearranged arbitrarily.  Any scalar type. *)
Theorem C33_expressions_order_free : forall (S : Type) (O : Ops S) (env env' : nat -> ss S) (e : expr S) (x y : ss S),
  (forall i, keys_ok (env i)) -> (forall i, reorders (env i) (env' i)) ->
  s_runs O env e x -> s_runs O env' e y -> same_reads O x y.
Proof. exact @order_free. Qed.
Print Assumptions C33_expressions_order_free.
Theorem C33_programs_order_free : forall (S : Type) (O : Ops S) (s : stmt S) (st st' st1 st1' : list (ss S)),
  List.Forall keys_ok st -> Forall2 reorders st st' ->
  s_execs O s st st1 -> s_execs O s st' st1' -> Forall2 (same_reads O) st1 st1'.
Proof. exact @order_free_programs. Qed.
Print Assumptions C33_programs_order_free.
(** The evaluations of the model are among them. *)
Theorem C33_model_included : forall (S : Type) (O : Ops S),
  (forall (env : nat -> ss S) (e : expr S), s_runs O env e (s_run O env e)) /\
  (forall fuel (s : stmt S) (st st1 : list (ss S)), s_exec O fuel s st = Some (Ok st1) -> s_execs O s st st1).
Proof. exact (fun S O => conj (run_runs O) (exec_execs O)). Qed.
Print Assumptions C33_model_included.
Theorem C33_eval_order_free : forall (x x' : ss R) (d d' : table R),
  keys_ok x -> NoDup (map fst d) -> reorders x x' -> Permutation d d' -> s_eval Rops true x d = s_eval Rops true x' d'.
Proof. exact eval_order. Qed.
Print Assumptions C33_eval_order_free.
Definition sxa' : ss Z := mks 3%Z [("v", 5%Z); ("u", 2%Z)]%string.
Example C33_case : reorders sxa sxa' /\
  s_exec Zops 5 (PSeq (PAsg Amul 0 1) (PAsg Asub 0 0)) [sxa'; sxb] =
    Some (Ok [mks 0%Z [("v", 0%Z); ("u", 0%Z); ("w", 0%Z)]%string; sxb]) /\
  s_mul Zops sxa' sxb = mks 12%Z [("v", 20%Z); ("u", 11%Z); ("w", 21%Z)]%string.
Proof. split; [split; [reflexivity|apply perm_swap]|]. run_case. Qed.

(** C34: variables; arbitrary operands; whole programs without [r *= r] and [r /= r] (see C35).
    [mirrors c n nm x y]: [y]'s value is [x]'s and [y.d(nm i)] is [x.g(i)] for all [i < n]. *)
Theorem C34_variables_agree : forall (c : cfg) (n : nat) (nm : nat -> string) (e : expr R) (p : nat -> R),
  cfg_ok c -> size_ok c n -> distinct n nm -> vars_below n e ->
  exists xs r, variables Rops c (coords n p) = Ok xs /\ run Rops c n xs e = Ok r /\
    let r' := s_run Rops (fun i => s_variable Rops (nm i) (p i)) e in
    get_f r = Ok (s_get_f r') /\ forall i, (i < n)%nat -> get_g c r (Z.of_nat i) = Ok (s_get_d Rops r' (nm i)).
Proof. exact variables_agree. Qed.
Print Assumptions C34_variables_agree.
Theorem C34_operands_agree : forall (c : cfg) (n : nat) (nm : nat -> string), cfg_ok c ->
  forall (e : expr R) (xs : list (dd R)) (ys : list (ss R)),
  size_ok c n -> vars_below (List.length xs) e -> Forall2 (mirrors Rops c n nm) xs ys ->
  exists r, run Rops c n xs e = Ok r /\ mirrors Rops c n nm r (s_run Rops (fun i => nth i ys (s_constant 0)) e).
Proof. exact (fun c n nm Hc => run_mirrors n nm c Hc). Qed.
Print Assumptions C34_operands_agree.
Theorem C34_programs_agree : forall (c : cfg) (n : nat) (nm : nat -> string), cfg_ok c ->
  forall (fuel : nat) (s : stmt R) (xs : list (dd R)) (ys : list (ss R)),
  size_ok c n -> regs_below (List.length xs) s -> no_self_muldiv s -> Forall2 (mirrors Rops c n nm) xs ys ->
  match exec Rops c n fuel s xs, s_exec Rops fuel s ys with
  | Some (Ok xs'), Some (Ok ys') => Forall2 (mirrors Rops c n nm) xs' ys'
  | None, None => True
  | _, _ => False
  end.
Proof. exact (fun c n nm Hc => exec_mirrors n nm c Hc). Qed.
Print Assumptions C34_programs_agree.
Example C34_case : forall a b d : R, let x := mk 2 (full [a; b; d]) in let y := mks a [("y", d); ("x", b); ("z", 5)]%string in
  size_ok dyn1 2 /\ mirrors Rops dyn1 2 nm3 x y /\ regs_below (S := R) 1 (PAsg Aadd 0 0) /\ no_self_muldiv (S := R) (PAsg Aadd 0 0).
Proof.
  intros. split; [split; [discriminate|vm_compute; discriminate]|]. split; [|cbn; repeat split; lia].
  split; [repeat constructor; cbn; intuition discriminate|].
  exists (fun _ _ => 0). split; [apply wf_list; [reflexivity|reflexivity|vm_compute; discriminate]|].
  split; [vm_compute; reflexivity|]. split; [|discriminate].
  intros [|[|i]] Hi; [vm_compute; reflexivity|vm_compute; reflexivity|lia].
Qed.

(** C35.  [s_assign o x (Some y)] is [x o= y] for another object [y]; [s_assign o x None] is [x o= x]. *)
Theorem C35_distinct_operands : forall (o : aop) (x y : ss R), keys_ok x -> keys_ok y ->
  let r := s_assign Rops o x (Some y) in let r' := s_apply_b Rops (aop_b o) x y in
  s_get_f r = s_get_f r' /\ (forall k, s_get_d Rops r k = s_get_d Rops r' k) /\
  (forall k, In k (names r) <-> In k (names r')).
Proof. exact inplace_distinct. Qed.
Print Assumptions C35_distinct_operands.
(** With a scalar: the same object, entries in the same order, for any scalar type ([-=]: if [a - b] is [a + -b]). *)
Theorem C35_scalar_operands : forall (S : Type) (O : Ops S) (o : aop) (x : ss S) (s : S), keys_ok x ->
  (o = Asub -> forall a b, o_sub O a b = o_add O a (o_neg O b)) ->
  s_assign_s O o x s = s_apply_u O (match o with Aadd => Uadds s | Asub => Usubs s | Amul => Umuls s | Adiv => Udivs s end) x.
Proof. exact @scalar_inplace. Qed.
Print Assumptions C35_scalar_operands.
Theorem C35_other_operands_unchanged : forall (S : Type) (O : Ops S) (r fuel : nat) (s : stmt S) (st st' : list (ss S)),
  no_write r s -> s_exec O fuel s st = Some (Ok st') -> nth_error st' r = nth_error st r.
Proof. exact @s_exec_frame. Qed.
Print Assumptions C35_other_operands_unchanged.
(** Full statement: also for [*=] and [/=], refuted below. *)
Theorem C35_self_partial : forall (x : ss R), keys_ok x -> forall o, o = Aadd \/ o = Asub ->
  let r := s_assign Rops o x None in let r' := s_apply_b Rops (aop_b o) x x in
  s_get_f r = s_get_f r' /\ forall k, s_get_d Rops r k = s_get_d Rops r' k.
Proof. exact (fun x K => proj1 (inplace_self x K)). Qed.
Print Assumptions C35_self_partial.
Theorem C35_self_mul_refuted : ~ (forall x : ss R, keys_ok x ->
  same_reads Rops (s_assign Rops Amul x None) (s_apply_b Rops Bmul x x)).
Proof. exact self_mul_witness. Qed.
Print Assumptions C35_self_mul_refuted.
Theorem C35_self_div_refuted : ~ (forall x : ss R, keys_ok x -> s_get_f x <> 0 ->
  same_reads Rops (s_assign Rops Adiv x None) (s_apply_b Rops Bdiv x x)).
Proof. exact self_div_witness. Qed.
Print Assumptions C35_self_div_refuted.
(** What they compute instead: [f*d*(1+f)] for [2*f*d], and [d/f - d/f^2] for [0]. *)
Theorem C35_self_computes : forall x : ss R, keys_ok x ->
  (let r := s_assign Rops Amul x None in
     s_get_f r = s_get_f x * s_get_f x /\
     forall k, s_get_d Rops r k = s_get_f x * s_get_d Rops x k * (1 + s_get_f x)) /\
  (s_get_f x <> 0 -> let r := s_assign Rops Adiv x None in
     s_get_f r = 1 /\
     forall k, s_get_d Rops r k = s_get_d Rops x k / s_get_f x - s_get_d Rops x k / (s_get_f x * s_get_f x)).
Proof. exact (fun x K => proj2 (inplace_self x K)). Qed.
Print Assumptions C35_self_computes.
Theorem C35_self_mul_right_iff : forall x : ss R, keys_ok x ->
  (same_reads Rops (s_assign Rops Amul x None) (s_apply_b Rops Bmul x x) <->
   s_get_f x = 0 \/ s_get_f x = 1 \/ forall k, s_get_d Rops x k = 0).
Proof. exact self_mul_right. Qed.
Print Assumptions C35_self_mul_right_iff.
Example C35_case :
  s_assign Zops Amul sxa (Some sxb) = s_mul Zops sxa sxb /\
  s_assign Zops Asub sxa (Some sxb) = s_sub Zops sxa sxb /\
  s_assign Zops Aadd sxa None = mks 6%Z [("u", 4%Z); ("v", 10%Z)]%string /\
  s_assign Zops Amul sxa None = mks 9%Z [("u", 24%Z); ("v", 60%Z)]%string /\   (* wrong *)
  s_mul Zops sxa sxa = mks 9%Z [("u", 12%Z); ("v", 30%Z)]%string.
Proof. run_case. Qed.

(** C36.  Full statement: the first-order Taylor value [f + sum], without undefined behaviour; refuted below.
    [true]: standard libraries where end iterators of different maps of one type compare equal. *)
Theorem C36_eval_linear_partial : forall (x : ss R) (d : table R), keys_ok x ->
  s_eval Rops true x d = Ok (lsum (map (fun k => s_get_d Rops x k * incr d k) (names x))).
Proof. exact eval_linear. Qed.
Print Assumptions C36_eval_linear_partial.
Theorem C36_taylor_refuted : ~ (forall (x : ss R) (d : table R), keys_ok x -> NoDup (map fst d) ->
  s_eval Rops true x d = Ok (s_get_f x + lsum (map (fun k => s_get_d Rops x k * incr d k) (names x)))).
Proof. exact eval_witness. Qed.
Print Assumptions C36_taylor_refuted.
(** [false]: the ISO standard's view of the comparison of iterators of different containers. *)
Theorem C36_defined_refuted : ~ (forall (x : ss R) (d : table R), keys_ok x -> NoDup (map fst d) ->
  s_eval Rops false x d <> UB).
Proof. exact eval_iso_witness. Qed.
Print Assumptions C36_defined_refuted.
Theorem C36_iso_eval_defined_iff_empty : forall (S : Type) (O : Ops S) (x : ss S) (d : table S),
  s_eval O false x d = match s_d x with [] => Ok (o_Z O 0) | _ => UB end.
Proof. exact @eval_strict. Qed.
Print Assumptions C36_iso_eval_defined_iff_empty.
(** The dense number's [eval] is the value plus the sparse number's. *)
Theorem C36_dense_eval_adds_value : forall (c : cfg) (n : nat) (nm : nat -> string) (x : dd R) (y : ss R)
  (d : list R) (t : table R),
  cfg_ok c -> c_ord c = 1%Z -> distinct n nm -> mirrors Rops c n nm x y -> incl (names y) (map nm (seq 0 n)) ->
  (n <= List.length d)%nat -> (forall i, (i < n)%nat -> incr t (nm i) = nth i d 0) ->
  exists v, s_eval Rops true y t = Ok v /\ eval Rops c x d = Ok (s_get_f y + v).
Proof. exact eval_vs_dense. Qed.
Print Assumptions C36_dense_eval_adds_value.
Example C36_case : s_eval Zops true sxa [("v", 10%Z); ("w", 3%Z)]%string = Ok 50%Z /\
  s_eval Zops false sxa [("v", 10%Z)]%string = UB /\
  eval Zops dyn1 (mk 2 (full [3; 2; 5]%Z)) [0; 10]%Z = Ok 53%Z.
Proof. run_case. Qed.

(** C49: programs over sparse numbers with in-place operators, branches and loops. *)
Theorem C49_sparse_program_derivatives : forall (n : nat) (nm : nat -> string) (s : stmt R) (fuel : nat)
  (ks : list R) (p : nat -> R) (v : list R),
  distinct n nm -> regs_below (n + List.length ks) s -> no_self_muldiv s ->
  rexec fuel s (coords n p ++ ks) = Some v -> safe fuel s (coords n p ++ ks) ->
  exists st,
    s_exec Rops fuel s (map (fun i => s_variable Rops (nm i) (p i)) (seq 0 n) ++ map s_constant ks) = Some (Ok st) /\
    List.length st = (n + List.length ks)%nat /\
    forall r x, nth_error st r = Some x ->
      let F := computes fuel s n ks r in
      NoDup (names x) /\ s_get_f x = F p /\ forall i, (i < n)%nat -> partial F i p (s_get_d Rops x (nm i)).
Proof. exact sparse_program. Qed.
Print Assumptions C49_sparse_program_derivatives.
(** y = 1; while (x > 2) { x -= 1; y *= x } at x = 7/2: x and y are registers 0 and 1. *)
Definition sloop : stmt R := PWhile (CRS Cgt 0 2) (PSeq (PAsgS Asub 0 1) (PAsg Amul 1 0)).
Example C49_case : regs_below 2 sloop /\ no_self_muldiv sloop /\
  (exists v, rexec 9 sloop (coords 1 (fun _ => 7/2) ++ [1]) = Some v) /\ safe 9 sloop (coords 1 (fun _ => 7/2) ++ [1]).
Proof.
  split; [cbn; repeat split; lia|]. split; [cbn; repeat split; lia|].
  unfold sloop, coords; cbn -[Rgt_dec Rplus Rminus Rdiv Rmult].
  destruct (Rgt_dec (7/2) 2) as [_|N]; [|lra]. unfold rtest, reg; cbn -[Rgt_dec Rplus Rminus Rdiv Rmult].
  repeat (match goal with |- context [Rgt_dec ?a ?b] => destruct (Rgt_dec a b); try lra end).
  split; [eexists; reflexivity|]. repeat split; try lra; lia.
Qed.

(** C50: comparisons and abs of sparse numbers. *)
Theorem C50_sparse_comparisons : forall (S : Type) (O : Ops S) (o : cmp) (x y : ss S) (s : S),
  (forall a b, o_eq O a b = o_eq O b a) ->
  ss_compare O o x y = scmp O o (s_get_f x) (s_get_f y) /\ ss_compare_s O o x s = scmp O o (s_get_f x) s /\
  s_compare_ss O o s y = scmp O o s (s_get_f y).
Proof. exact @sparse_compare. Qed.
Print Assumptions C50_sparse_comparisons.
Theorem C50_sparse_abs : forall (x : ss R) (k : string),
  (0 <= s_get_f x -> s_abs Rops x = x) /\
  (s_get_f x < 0 -> s_get_f (s_abs Rops x) = - s_get_f x /\ s_get_d Rops (s_abs Rops x) k = - s_get_d Rops x k) /\
  s_get_f (s_abs Rops x) = Rabs (s_get_f x).
Proof. exact sparse_abs. Qed.
Print Assumptions C50_sparse_abs.
Example C50_case : s_compare_ss Zops Cle 4%Z sxa = false /\ ss_compare Zops Clt sxa sxb = true /\
  s_abs Zops (mks (-3)%Z [("u", 2%Z)]%string) = mks 3%Z [("u", (-2)%Z)]%string.
Proof. run_case. Qed.
