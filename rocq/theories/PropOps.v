(** C11-C14, C20 (any scalar type), C22 (any scalar type), C40. *)
From Coq Require Import ZArith List Bool.
From Verif Require Import Outcome Scalar Model Spec FactsOps Samples.
Import ListNotations.
Open Scope Z_scope.

(** C11.  Full statement: also [atan2] and the third operand of [hypot(a,b,c)], refuted below. *)
Theorem C11_mismatch_rejected_partial : forall (S : Type) (O : Ops S) (c : cfg) (x y z : dd S),
  is_dynamic c = true -> c_exc c = true \/ c_dbg c = true -> size c x <> size c y ->
  let bad := if c_exc c then Throw IncompatibleSize else Abort in
  add O c x y = bad /\ sub O c x y = bad /\ mul O c x y = bad /\ div O c x y = bad /\
  hypot O c x y = bad /\ hypot3 O c x y z = bad /\
  add_assign O c x (Some y) = bad /\ sub_assign O c x (Some y) = bad /\
  mul_assign O c x (Some y) = bad /\ div_assign O c x (Some y) = bad.
Proof. exact @mismatch_rejected. Qed.
Print Assumptions C11_mismatch_rejected_partial.
Theorem C11_atan2_refuted : ~ (forall (S : Type) (O : Ops S) (c : cfg) (n m : nat) (x y : dd S), cfg_ok c ->
  is_dynamic c = true -> c_exc c = true -> wf c n x -> wf c m y -> n <> m ->
  atan2 O c x y = Throw IncompatibleSize).
Proof. exact atan2_witness. Qed.
Print Assumptions C11_atan2_refuted.
Theorem C11_hypot3_refuted : ~ (forall (S : Type) (O : Ops S) (c : cfg) (n m : nat) (x y z : dd S), cfg_ok c ->
  is_dynamic c = true -> c_exc c = true -> wf c n x -> wf c n y -> wf c m z -> n <> m ->
  hypot3 O c x y z = Throw IncompatibleSize).
Proof. exact hypot3_witness. Qed.
Print Assumptions C11_hypot3_refuted.
(** What happens instead: a shorter second operand is read past its end; of a longer one the first
    cells are silently used as if it had the size of the first operand. *)
Theorem C11_atan2_mismatch_behaviour : forall (S : Type) (O : Ops S) (c : cfg) (n m : nat) (x y : dd S),
  cfg_ok c -> is_dynamic c = true -> wf c n x -> wf c m y ->
  ((m < n)%nat -> atan2 O c x y = UB) /\
  ((n < m)%nat -> exists r, atan2 O c x y = Ok r /\ wf c n r /\
     atan2 O c x (mk (Z.of_nat n) (firstn (storage_len (c_ord c) n) (m_data y))) = Ok r).
Proof. exact @atan2_mismatch. Qed.
Print Assumptions C11_atan2_mismatch_behaviour.
Theorem C11_hypot3_mismatch_behaviour : forall (S : Type) (O : Ops S) (c : cfg) (n m : nat) (x y z : dd S),
  cfg_ok c -> is_dynamic c = true -> wf c n x -> wf c n y -> wf c m z ->
  ((m < n)%nat -> hypot3 O c x y z = UB) /\
  ((n < m)%nat -> exists r, hypot3 O c x y z = Ok r /\ wf c n r /\
     hypot3 O c x y (mk (Z.of_nat n) (firstn (storage_len (c_ord c) n) (m_data z))) = Ok r).
Proof. exact @hypot3_mismatch. Qed.
Print Assumptions C11_hypot3_mismatch_behaviour.
Example C11_case : wf dyn2 2 exa /\ wf dyn2 3 ex3 /\ is_dynamic dyn2 = true /\ size dyn2 exa <> size dyn2 ex3 /\
  add Zops dyn2 exa ex3 = Throw IncompatibleSize /\ mul_assign Zops dyn2 ex3 (Some exa) = Throw IncompatibleSize /\
  add Zops (noexc dyn2) exa ex3 = Abort /\ atan2 Zops dyn2 ex3 exa = UB /\
  exists r, atan2 Zops dyn2 exa ex3 = Ok r.
Proof. split; [exact wf_exa|]. split; [exact wf_ex3|]. split; [reflexivity|]. split; [discriminate|]. run_case. Qed.

(** C12 *)
Theorem C12_unary_safe : forall (S : Type) (O : Ops S) (c : cfg) (n : nat) (x : dd S) (u : ufun S),
  cfg_ok c -> wf c n x -> exists r, apply_u O c u x = Ok r /\ wf c n r.
Proof. exact @unary_safe. Qed.
Print Assumptions C12_unary_safe.
Theorem C12_binary_safe : forall (S : Type) (O : Ops S) (c : cfg) (n : nat) (x y : dd S) (b : bfun),
  cfg_ok c -> wf c n x -> wf c n y -> exists r, apply_b O c b x y = Ok r /\ wf c n r.
Proof. exact @binary_safe. Qed.
Print Assumptions C12_binary_safe.
Theorem C12_hypot3_safe : forall (S : Type) (O : Ops S) (c : cfg) (n : nat) (x y z : dd S),
  cfg_ok c -> wf c n x -> wf c n y -> wf c n z -> exists r, hypot3 O c x y z = Ok r /\ wf c n r.
Proof. exact @hypot3_safe. Qed.
Print Assumptions C12_hypot3_safe.
(** Distinct operands ([Some y]) and, more than claimed, the same object ([None]). *)
Theorem C12_assign_safe : forall (S : Type) (O : Ops S) (c : cfg) (n : nat) (x y : dd S),
  cfg_ok c -> wf c n x -> wf c n y -> forall b, b = Some y \/ b = None ->
  (exists r, add_assign O c x b = Ok r /\ wf c n r) /\ (exists r, sub_assign O c x b = Ok r /\ wf c n r) /\
  (exists r, mul_assign O c x b = Ok r /\ wf c n r) /\ (exists r, div_assign O c x b = Ok r /\ wf c n r).
Proof. exact @assign_safe. Qed.
Print Assumptions C12_assign_safe.
Theorem C12_scalar_assign_safe : forall (S : Type) (O : Ops S) (c : cfg) (n : nat) (x : dd S) (s : S), wf c n x ->
  (exists r, adds_assign O x (SVal s) = Ok r /\ wf c n r) /\ (exists r, subs_assign O x (SVal s) = Ok r /\ wf c n r) /\
  (exists r, muls_assign O x (SVal s) = Ok r /\ wf c n r) /\ (exists r, divs_assign O x (SVal s) = Ok r /\ wf c n r).
Proof. exact @scalar_assign_safe. Qed.
Print Assumptions C12_scalar_assign_safe.
Example C12_case : cfg_ok dyn2 /\ wf dyn2 2 exa /\ wf (sta2 2) 2 exb /\
  mul Zops dyn2 exa exb = Ok (mk 2 (full [21; 45; 41; 28; 29; 21])) /\
  mul Zops (sta2 2) exa exb = Ok (mk 2 (full [21; 45; 41; 28; 29; 21])).
Proof. split; [exact cfg_dyn2|]. split; [exact wf_exa|]. split; [exact wf_exb_s|]. run_case. Qed.

(** C13, C14.  Full statement: a smaller size is also rejected with an exception, refuted below. *)
Theorem C13_pad_right_partial : forall (S : Type) (O : Ops S) (c : cfg) (n m : nat) (x : dd S) f g h,
  cfg_ok c -> is_dynamic c = true -> shows c n x f g h -> (n <= m)%nat -> size_ok c m ->
  exists r, pad_right O c x (Z.of_nat m) = Ok r /\
    shows c m r f (fun i => if Nat.ltb i n then g i else o_Z O 0)
      (fun i j => if Nat.ltb i n && Nat.ltb j n then h i j else o_Z O 0).
Proof. exact @pad_right_shows. Qed.
Print Assumptions C13_pad_right_partial.
Theorem C14_pad_left_partial : forall (S : Type) (O : Ops S) (c : cfg) (n m : nat) (x : dd S) f g h,
  cfg_ok c -> is_dynamic c = true -> shows c n x f g h -> (n <= m)%nat -> size_ok c m ->
  exists r, pad_left O c x (Z.of_nat m) = Ok r /\
    shows c m r f (fun i => if Nat.leb (m - n) i then g (i - (m - n))%nat else o_Z O 0)
      (fun i j => if Nat.leb (m - n) i && Nat.leb (m - n) j then h (i - (m - n))%nat (j - (m - n))%nat
                  else o_Z O 0).
Proof. exact @pad_left_shows. Qed.
Print Assumptions C14_pad_left_partial.
Theorem C13_C14_shrinking_refuted : ~ (forall (S : Type) (O : Ops S) (c : cfg) (n m : nat) (x : dd S), cfg_ok c ->
  is_dynamic c = true -> c_exc c = true -> wf c n x -> (m < n)%nat ->
  (exists e, pad_right O c x (Z.of_nat m) = Throw e) /\ (exists e, pad_left O c x (Z.of_nat m) = Throw e)).
Proof. exact pad_witness. Qed.
Print Assumptions C13_C14_shrinking_refuted.
(** For every number and every smaller size: write past the end of the new storage. *)
Theorem C13_C14_shrinking_is_undefined : forall (S : Type) (O : Ops S) (c : cfg) (n m : nat) (x : dd S),
  is_dynamic c = true -> wf c n x -> (m < n)%nat ->
  pad_right O c x (Z.of_nat m) = UB /\ pad_left O c x (Z.of_nat m) = UB.
Proof. exact @pad_shrink. Qed.
Print Assumptions C13_C14_shrinking_is_undefined.
Example C13_C14_case : wf dyn2 2 exa /\ size_ok dyn2 3 /\
  pad_right Zops dyn2 exa 3 = Ok (mk 3 (full [7; 1; 2; 0; 3; 4; 0; 5; 0; 0])) /\
  pad_left Zops dyn2 exa 3 = Ok (mk 3 (full [7; 0; 1; 2; 0; 0; 0; 3; 4; 5])) /\
  pad_right Zops dyn2 exa 1 = UB.
Proof. split; [exact wf_exa|]. split; [split; [discriminate|vm_compute; discriminate]|]. run_case. Qed.

(** C20, bit-for-bit part.  [agree c m m'] : both succeed with the same size and identical data.
    The right operand is a separate object and is not part of the result. *)
Theorem C20_add_assign : forall (S : Type) (O : Ops S) (c : cfg) (n : nat) (x y : dd S),
  cfg_ok c -> wf c n x -> wf c n y -> agree c (add_assign O c x (Some y)) (add O c x y).
Proof. exact @add_assign_agrees. Qed.
Print Assumptions C20_add_assign.
Theorem C20_sub_assign : forall (S : Type) (O : Ops S) (c : cfg) (n : nat) (x y : dd S),
  (forall a b, o_sub O a b = o_add O a (o_neg O b)) ->
  cfg_ok c -> wf c n x -> wf c n y -> agree c (sub_assign O c x (Some y)) (sub O c x y).
Proof. exact @sub_assign_agrees. Qed.
Print Assumptions C20_sub_assign.
Theorem C20_mul_assign : forall (S : Type) (O : Ops S) (c : cfg) (n : nat) (x y : dd S),
  (forall a b, o_add O a b = o_add O b a) -> (forall a b, o_mul O a b = o_mul O b a) ->
  cfg_ok c -> wf c n x -> wf c n y -> agree c (mul_assign O c x (Some y)) (mul O c x y).
Proof. exact @mul_assign_agrees. Qed.
Print Assumptions C20_mul_assign.
Theorem C20_scalar_assign : forall (S : Type) (O : Ops S) (c : cfg) (n : nat) (x : dd S) (s : S), wf c n x ->
  agree c (adds_assign O x (SVal s)) (adds O x s) /\ agree c (muls_assign O x (SVal s)) (muls O c x s) /\
  agree c (divs_assign O x (SVal s)) (divs O c x s) /\
  ((forall a b, o_sub O a b = o_add O a (o_neg O b)) -> agree c (subs_assign O x (SVal s)) (subs O x s)).
Proof. exact @scalar_assign_agrees. Qed.
Print Assumptions C20_scalar_assign.
Example C20_case : wf dyn2 2 exa /\ wf dyn2 2 exb /\ (forall a b, o_mul Zops a b = o_mul Zops b a) /\
  mul_assign Zops dyn2 exa (Some exb) = mul Zops dyn2 exa exb /\
  mul_assign Zops dyn2 exa (Some exb) = Ok (mk 2 (full [21; 45; 41; 28; 29; 21])).
Proof. split; [exact wf_exa|]. split; [exact wf_exb|]. split; [exact Z.mul_comm|]. run_case. Qed.

(** C22, any scalar type: only the values matter. *)
Theorem C22_comparisons_are_of_values : forall (S : Type) (O : Ops S) (x y : dd S) (a b : S) (o : cmp),
  get_f x = Ok a -> get_f y = Ok b ->
  compare O o x y = Ok (scmp O o a b) /\ compare_s O o x b = Ok (scmp O o a b) /\
  ((forall u v, o_eq O u v = o_eq O v u) -> s_compare O o a y = Ok (scmp O o a b)).
Proof. exact @compare_values. Qed.
Print Assumptions C22_comparisons_are_of_values.
Example C22_case : get_f exa = Ok 7 /\ get_f exb = Ok 3 /\ compare Zops Cgt exa exb = Ok true /\
  s_compare Zops Cle 7 exb = Ok false /\ compare_s Zops Cne exa 7 = Ok false.
Proof. run_case. Qed.

(** C40.  Full statement: every accessor, every build mode.  Proved: debug builds, for all accessors
    except negative indices of the mutable gradient accessor and Hessian accessors of first-order
    numbers. *)
Theorem C40_index_asserted_partial : forall (S : Type) (c : cfg) (n : nat) (x : dd S) (i : Z),
  c_dbg c = true -> wf c n x -> ~ (0 <= i < Z.of_nat n) ->
  get_g c x i = Abort /\
  (Z.of_nat n <= i -> get_g_mut c x i = Abort /\ forall v, set_g c x i v = Abort) /\
  (forall j, get_h c x i j = Abort /\ forall v, set_h c x i j v = Abort) /\
  (forall j, 0 <= j < Z.of_nat n -> get_h c x j i = Abort /\ forall v, set_h c x j i v = Abort).
Proof. exact @index_asserted. Qed.
Print Assumptions C40_index_asserted_partial.
Theorem C40_flat_index_asserted_partial : forall (S : Type) (c : cfg) (n : nat) (x : dd S) (k : Z),
  c_dbg c = true -> c_ord c = 2 -> wf c n x -> ~ (0 <= k < Z.of_nat (n * (n + 1) / 2)) ->
  get_h1 c x k = Abort /\ forall v, set_h1 c x k v = Abort.
Proof. exact @flat_index_asserted. Qed.
Print Assumptions C40_flat_index_asserted_partial.
Theorem C40_debug_refuted : ~ (forall (S : Type) (c : cfg) (n : nat) (x : dd S) (i : Z) (v : S), cfg_ok c ->
  c_dbg c = true -> wf c n x -> ~ (0 <= i < Z.of_nat n) ->
  set_g c x i v = Abort \/ exists e, set_g c x i v = Throw e).
Proof. exact index_witness. Qed.
Print Assumptions C40_debug_refuted.
Theorem C40_release_refuted : ~ (forall (S : Type) (c : cfg) (n : nat) (x : dd S) (i : Z), cfg_ok c ->
  wf c n x -> ~ (0 <= i < Z.of_nat n) -> get_g c x i = Abort \/ exists e, get_g c x i = Throw e).
Proof. exact release_witness. Qed.
Print Assumptions C40_release_refuted.
(** The failures in general. *)
Theorem C40_mutable_gradient_minus_one_is_the_value : forall (S : Type) (c : cfg) (n : nat) (x : dd S) (v : S),
  wf c n x -> get_g_mut c x (-1) = get_f x /\ set_g c x (-1) v = set_f x v.
Proof. exact @mutable_negative. Qed.
Print Assumptions C40_mutable_gradient_minus_one_is_the_value.
Theorem C40_release_gradient_reads_hessian : forall (S : Type) (c : cfg) (n : nat) (x : dd S),
  c_dbg c = false -> c_ord c = 2 -> wf c n x -> (1 <= n)%nat ->
  get_g c x (Z.of_nat n) = get_h c x 0 0.
Proof. exact @release_reads_neighbour. Qed.
Print Assumptions C40_release_gradient_reads_hessian.
Theorem C40_first_order_hessian_out_of_bounds : forall (S : Type) (c : cfg) (n : nat) (x : dd S),
  c_ord c = 1 -> wf c n x -> (1 <= n)%nat -> get_h c x 0 0 = UB /\ forall v, set_h c x 0 0 v = UB.
Proof. exact @first_order_hessian. Qed.
Print Assumptions C40_first_order_hessian_out_of_bounds.
Theorem C40_eval_short_increment_out_of_bounds : forall (S : Type) (O : Ops S) (c : cfg) (n : nat) (x : dd S)
  (d : list S), wf c n x -> (length d < n)%nat -> eval O c x d = UB.
Proof. exact @eval_short. Qed.
Print Assumptions C40_eval_short_increment_out_of_bounds.
Example C40_case : wf dyn2 2 exa /\ c_dbg dyn2 = true /\ get_g dyn2 exa 2 = Abort /\ get_h dyn2 exa 0 (-1) = Abort /\
  get_h1 dyn2 exa 3 = Abort /\ set_g dyn2 exa (-1) 99 = Ok (mk 2 (full [99; 1; 2; 3; 4; 5])) /\
  get_g (rel dyn2) exa 2 = Ok 3 /\ get_h dyn1 ex1 0 0 = UB /\ eval Zops dyn2 exa [1] = UB.
Proof. split; [exact wf_exa|]. run_case. Qed.
