(** C05-C10, C39, C42, C44: constructors, factories, create, resize.
    For every scalar type [S] (no laws on its operations). *)
From Coq Require Import ZArith List Bool.
From Verif Require Import Outcome Scalar Model Spec FactsCtor Samples.
Import ListNotations.
Open Scope Z_scope.

(** C05 (create; the pickle half is in PropPy.v).  [wf] bounds the storage by the vector limit
    2^60-1 only. *)
Theorem C05_create_round_trip : forall (S : Type) (c : cfg) (n : nat) (x : dd S),
  cfg_ok c -> c_exc c = true \/ c_dbg c = false -> wf c n x ->
  exists r, create c (m_data x) = Ok r /\ size c r = size c x /\ m_data r = m_data x.
Proof. exact @create_round_trip. Qed.
Print Assumptions C05_create_round_trip.
Example C05_case : cfg_ok dyn2 /\ c_exc dyn2 = true /\ wf dyn2 3 ex3 /\ create dyn2 (m_data ex3) = Ok ex3 /\
  wf (sta2 3) 3 ex3 /\ create (sta2 3) (m_data ex3) = Ok ex3.
Proof. split; [exact cfg_dyn2|]. split; [reflexivity|]. split; [exact wf_ex3|]. split; [vm_compute; reflexivity|].
  split; [exact wf_ex3_s|]. run_case. Qed.

(** C06.  Full statement: for every list, empty included.  It fails for the empty list only. *)
Theorem C06_create_lengths_partial : forall (S : Type) (c : cfg) (vs : list S),
  cfg_ok c -> is_dynamic c = true -> c_exc c = true ->
  (1 <= length vs)%nat -> Z.of_nat (length vs) <= max_len ->
  (forall n, length vs = storage_len (c_ord c) n ->
     exists r, create c (full vs) = Ok r /\ size c r = Z.of_nat n /\ m_data r = full vs /\ wf c n r) /\
  ((forall n, length vs <> storage_len (c_ord c) n) -> create c (full vs) = Throw InvalidLength).
Proof. exact @create_lengths. Qed.
Print Assumptions C06_create_lengths_partial.
Example C06_case : create dyn2 (full [7; 1; 2; 3; 4; 5]) = Ok exa /\
  create dyn2 (full [7; 1; 2; 3; 4]) = Throw InvalidLength.
Proof. run_case. Qed.

Theorem C06_empty_refuted : ~ (forall (S : Type) (c : cfg) (vs : list S), cfg_ok c -> is_dynamic c = true ->
  c_exc c = true -> Z.of_nat (length vs) <= max_len ->
  (forall n, length vs <> storage_len (c_ord c) n) -> create c (full vs) = Throw InvalidLength).
Proof. exact create_empty_witness. Qed.
Print Assumptions C06_empty_refuted.

(** What the code does with empty data, both orders: a number of size -1 without storage. *)
Theorem C06_empty_data_gives_size_minus_one : forall (S : Type) (c : cfg), cfg_ok c -> is_dynamic c = true ->
  c_exc c = true -> exists r : dd S, create c [] = Ok r /\ size c r = -1 /\ m_data r = [].
Proof. exact @create_empty. Qed.
Print Assumptions C06_empty_data_gives_size_minus_one.
Example C06_empty_case : create dyn1 ([] : list (option Z)) = Ok (mk (-1) []).
Proof. run_case. Qed.

(** C07 *)
Theorem C07_zero : forall (S : Type) (O : Ops S) (c : cfg) (n : nat), size_ok c n ->
  exists r, zero_n O c (Z.of_nat n) = Ok r /\ shows c n r (o_Z O 0) (fun _ => o_Z O 0) (fun _ _ => o_Z O 0).
Proof. exact @zero_n_shows. Qed.
Print Assumptions C07_zero.
Theorem C07_constant : forall (S : Type) (O : Ops S) (c : cfg) (n : nat) (f : S), size_ok c n ->
  exists r, constant_n O c f (Z.of_nat n) = Ok r /\ shows c n r f (fun _ => o_Z O 0) (fun _ _ => o_Z O 0).
Proof. exact @constant_n_shows. Qed.
Print Assumptions C07_constant.
Theorem C07_variable : forall (S : Type) (O : Ops S) (c : cfg) (n : nat) (i : Z) (f : S), size_ok c n ->
  0 <= i < Z.of_nat n ->
  exists r, variable_n O c i f (Z.of_nat n) = Ok r /\
    shows c n r f (fun k => if Z.of_nat k =? i then o_Z O 1 else o_Z O 0) (fun _ _ => o_Z O 0).
Proof. exact @variable_n_shows. Qed.
Print Assumptions C07_variable.
Theorem C07_empty : forall (S : Type) (O : Ops S) (c : cfg) (n : nat), size_ok c n ->
  exists r, empty_n O c (Z.of_nat n) = Ok r /\ size c r = Z.of_nat n /\
    length (m_data r) = storage_len (c_ord c) n.
Proof. exact @empty_n_size. Qed.
Print Assumptions C07_empty.
(** [default_size]: 0 for dynamic types, the static size otherwise. *)
Theorem C07_sizeless : forall (S : Type) (O : Ops S) (c : cfg) (f : S),
  let n := Z.of_nat (if is_dynamic c then 0%nat else Z.to_nat (c_tsize c)) in
  size_ok c (Z.to_nat n) ->
  zero_n O c n = Ok (zero O c) /\ constant_n O c f n = constant O c f /\ empty_n O c n = Ok (empty O c) /\
  (is_dynamic c = false -> forall i, variable_n O c i f n = variable O c i f).
Proof. exact @sizeless'. Qed.
Print Assumptions C07_sizeless.
Example C07_case : size_ok dyn2 3 /\ size_ok (sta1 4) 4 /\
  variable_n Zops dyn2 1 9 3 = Ok (mk 3 (full [9; 0; 1; 0; 0; 0; 0; 0; 0; 0])) /\
  constant_n Zops (sta1 4) 9 4 = Ok (mk 4 (full [9; 0; 0; 0; 0])) /\
  zero_n Zops dyn1 2 = Ok (mk 2 (full [0; 0; 0])) /\
  empty_n Zops (sta2 1) 1 = Ok (mk 1 [None; None; None]) /\
  constant Zops dyn2 3 = Ok (mk 0 (full [3])) /\ constant Zops (sta1 2) 3 = Ok (mk 2 (full [3; 0; 0])).
Proof. split; [split; [discriminate|vm_compute; discriminate]|].
  split; [split; [reflexivity|vm_compute; discriminate]|]. run_case. Qed.

(** C08.  Full statement: [forall z < 0], both orders, every factory throws.  Proved: first order,
    z <= -2.  It fails for z = -1 (first order) and for every negative size (second order). *)
Theorem C08_negative_sizes_partial : forall (S : Type) (O : Ops S) (c : cfg) (z : Z) (f : S) (i : Z) (x : dd S),
  is_dynamic c = true -> c_ord c = 1 -> - 2 ^ 63 <= z <= -2 ->
  empty_n O c z = Throw LengthError /\ zero_n O c z = Throw LengthError /\
  constant_n O c f z = Throw LengthError /\ variable_n O c i f z = Throw LengthError /\
  resize O c x z = Throw LengthError.
Proof. exact @negative_order1_throws. Qed.
Print Assumptions C08_negative_sizes_partial.
Theorem C08_refuted : ~ (forall (S : Type) (O : Ops S) (c : cfg) (z : Z), cfg_ok c -> is_dynamic c = true ->
  c_exc c = true -> z < 0 -> exists e, zero_n O c z = Throw e).
Proof. exact negative_witness. Qed.
Print Assumptions C08_refuted.
Theorem C08_first_order_minus_one_accepted : forall (S : Type) (O : Ops S) (c : cfg),
  is_dynamic c = true -> c_ord c = 1 ->
  exists r, zero_n O c (-1) = Ok r /\ empty_n O c (-1) = Ok r /\ size c r = -1 /\ m_data r = [] /\
    forall f i, constant_n O c f (-1) = UB /\ variable_n O c i f (-1) = UB.
Proof. exact @negative_order1_accepted. Qed.
Print Assumptions C08_first_order_minus_one_accepted.
Theorem C08_second_order_negative_accepted : forall (S : Type) (O : Ops S) (c : cfg) (z : Z),
  is_dynamic c = true -> c_ord c = 2 -> - 2 ^ 29 <= z < 0 ->
  exists r, zero_n O c z = Ok r /\ empty_n O c z = Ok r /\ size c r = z /\
    len (m_data r) = Z.quot ((z + 1) * (z + 2)) 2 /\ (forall n, ~ wf c n r) /\
    (z <= -3 -> forall f, exists r', constant_n O c f z = Ok r' /\ size c r' = z) /\
    (-2 <= z -> forall f, constant_n O c f z = UB).
Proof. exact @negative_order2_accepted. Qed.
Print Assumptions C08_second_order_negative_accepted.
Example C08_case : zero_n Zops dyn1 (-2) = Throw LengthError /\ zero_n Zops dyn2 (-4) = Ok (mk (-4) (full [0; 0; 0])).
Proof. run_case. Qed.

(** C09 *)
Theorem C09_variables : forall (S : Type) (O : Ops S) (c : cfg) (vs : list S), size_ok c (length vs) ->
  exists xs, variables O c vs = Ok xs /\ length xs = length vs /\
    forall k v, nth_error vs k = Some v ->
      exists x, nth_error xs k = Some x /\
        shows c (length vs) x v (fun i => if Nat.eqb i k then o_Z O 1 else o_Z O 0) (fun _ _ => o_Z O 0).
Proof. exact @variables_show. Qed.
Print Assumptions C09_variables.
Example C09_case : size_ok dyn2 2 /\ size_ok (sta1 2) 2 /\
  variables Zops dyn2 [8; 9] = Ok [mk 2 (full [8; 1; 0; 0; 0; 0]); mk 2 (full [9; 0; 1; 0; 0; 0])] /\
  variables Zops (sta1 2) [8; 9] = Ok [mk 2 (full [8; 1; 0]); mk 2 (full [9; 0; 1])].
Proof. split; [split; [discriminate|vm_compute; discriminate]|].
  split; [split; [reflexivity|vm_compute; discriminate]|]. run_case. Qed.

(** C10 *)
Theorem C10_wrong_size_rejected : forall (S : Type) (O : Ops S) (c : cfg) (sz : Z) (f : S) (i : Z),
  is_dynamic c = false -> c_exc c = true -> sz <> c_tsize c ->
  empty_n O c sz = Throw InvalidSize /\ zero_n O c sz = Throw InvalidSize /\
  constant_n O c f sz = Throw InvalidSize /\ variable_n O c i f sz = Throw InvalidSize.
Proof. exact @static_size_checked. Qed.
Print Assumptions C10_wrong_size_rejected.
Theorem C10_right_size_accepted : forall (S : Type) (O : Ops S) (c : cfg) (f : S) (i : Z),
  is_dynamic c = false ->
  empty_n O c (c_tsize c) = Ok (empty O c) /\ zero_n O c (c_tsize c) = Ok (zero O c) /\
  constant_n O c f (c_tsize c) = constant O c f /\ variable_n O c i f (c_tsize c) = variable O c i f.
Proof. exact @static_size_ok. Qed.
Print Assumptions C10_right_size_accepted.
Example C10_case : is_dynamic (sta2 2) = false /\ c_exc (sta2 2) = true /\
  zero_n Zops (sta2 2) 3 = Throw InvalidSize /\ variable_n Zops (sta2 2) 1 4 2 = variable Zops (sta2 2) 1 4.
Proof. run_case. Qed.

(** C39.  Full statement: every constructor of every type gives a well-formed number (or throws).
    Proved for the converting constructor and the full-length list constructor of static types. *)
Theorem C39_static_converting_ctor_partial : forall (S : Type) (O : Ops S) (c : cfg) (f : S),
  cfg_ok c -> is_dynamic c = false ->
  let n := if is_dynamic c then 0%nat else Z.to_nat (c_tsize c) in size_ok c n ->
  exists r, ctor_scalar O c f = Ok r /\ shows c n r f (fun _ => o_Z O 0) (fun _ _ => o_Z O 0) /\
    (exists r', constant O c f = Ok r' /\ m_data r = m_data r').
Proof. exact @ctor_scalar_static. Qed.
Print Assumptions C39_static_converting_ctor_partial.
Theorem C39_static_list_ctor_partial : forall (S : Type) (c : cfg) (n : nat) (vs : list S),
  cfg_ok c -> is_dynamic c = false -> c_exc c = true -> size_ok c n -> length vs = storage_len (c_ord c) n ->
  exists r, ctor_list c vs = Ok r /\ wf c n r /\ m_data r = full vs.
Proof. exact @ctor_list_static. Qed.
Print Assumptions C39_static_list_ctor_partial.
Theorem C39_refuted : ~ (forall (S : Type) (O : Ops S) (c : cfg) (f : S), cfg_ok c ->
  exists n r, ctor_scalar O c f = Ok r /\ wf c n r).
Proof. exact ctor_witness. Qed.
Print Assumptions C39_refuted.
Theorem C39_list_refuted : ~ (forall (S : Type) (c : cfg) (vs : list S), cfg_ok c -> c_exc c = true ->
  (1 <= length vs)%nat -> Z.of_nat (length vs) <= max_len ->
  (exists e, ctor_list c vs = Throw e) \/ (exists r n, ctor_list c vs = Ok r /\ wf c n r)).
Proof. exact ctor_list_witness. Qed.
Print Assumptions C39_list_refuted.
(** What the code does instead, for all values. *)
Theorem C39_dynamic_converting_ctor_malformed : forall (S : Type) (O : Ops S) (c : cfg) (f : S),
  cfg_ok c -> is_dynamic c = true ->
  exists r, ctor_scalar O c f = Ok r /\ size c r = 1 /\ m_data r = [Some f] /\
    (forall n, ~ wf c n r) /\ get_g c r 0 = UB.
Proof. exact @ctor_scalar_dynamic. Qed.
Print Assumptions C39_dynamic_converting_ctor_malformed.
Theorem C39_dynamic_default_ctor_malformed : forall (S : Type) (O : Ops S) (c : cfg),
  cfg_ok c -> is_dynamic c = true ->
  size c (ctor_default O c) = 1 /\ m_data (ctor_default O c) = [Some (o_Z O 0)] /\
  (forall n, ~ wf c n (ctor_default O c)).
Proof. exact @ctor_default_dynamic. Qed.
Print Assumptions C39_dynamic_default_ctor_malformed.
Theorem C39_static_default_ctor_uninitialised : forall (S : Type) (O : Ops S) (c : cfg),
  is_dynamic c = false -> get_f (ctor_default O c) = UB.
Proof. exact @ctor_default_static. Qed.
Print Assumptions C39_static_default_ctor_uninitialised.
Theorem C39_dynamic_list_ctor : forall (S : Type) (c : cfg) (vs : list S),
  cfg_ok c -> is_dynamic c = true -> c_exc c = true ->
  (1 <= length vs)%nat -> Z.of_nat (length vs) <= max_len ->
  ((exists n, length vs = storage_len (c_ord c) n) -> ctor_list c vs = UB) /\
  ((forall n, length vs <> storage_len (c_ord c) n) -> ctor_list c vs = Throw InvalidLength).
Proof. exact @ctor_list_dynamic. Qed.
Print Assumptions C39_dynamic_list_ctor.
Theorem C39_static_list_ctor_short : forall (S : Type) (c : cfg) (n m : nat) (vs : list S),
  cfg_ok c -> c_exc c = true -> c_tsize c = Z.of_nat n -> size_ok c n ->
  length vs = storage_len (c_ord c) m -> (m < n)%nat ->
  exists r, ctor_list c vs = Ok r /\ size c r = Z.of_nat n /\ (forall k, ~ wf c k r) /\
    rd (m_data r) (Z.of_nat (length vs)) = UB.
Proof. exact @ctor_list_static_short. Qed.
Print Assumptions C39_static_list_ctor_short.
Example C39_case : ctor_scalar Zops (sta2 2) 5 = Ok (mk 2 (full [5; 0; 0; 0; 0; 0])) /\
  ctor_list (sta1 2) [5; 6; 7] = Ok (mk 2 (full [5; 6; 7])) /\ ctor_scalar Zops dyn2 5 = Ok (mk 1 (full [5])) /\
  ctor_list dyn1 [5; 6; 7] = UB /\ ctor_list (sta1 2) [5; 6] = Ok (mk 1 [Some 5; Some 6; None]) /\
  ctor_list (sta1 1) [5; 6; 7] = UB /\ ctor_list dyn2 [5; 6] = Throw InvalidLength.
Proof. run_case. Qed.

(** C42.  The assertion is inverted: valid lengths abort, invalid lengths are accepted. *)
Theorem C42_refuted : ~ (forall (S : Type) (c : cfg) (vs : list S), cfg_ok c -> is_dynamic c = true ->
  c_exc c = false -> c_dbg c = true -> Z.of_nat (length vs) <= max_len ->
  (forall n, length vs = storage_len (c_ord c) n -> exists r, create c (full vs) = Ok r) /\
  ((forall n, length vs <> storage_len (c_ord c) n) -> create c (full vs) = Abort)).
Proof. exact noexc_witness. Qed.
Print Assumptions C42_refuted.
Theorem C42_check_is_inverted : forall (S : Type) (c : cfg) (vs : list S), cfg_ok c ->
  c_exc c = false -> c_dbg c = true -> is_dynamic c = true ->
  (1 <= length vs)%nat -> Z.of_nat (length vs) <= max_len ->
  ((exists n, length vs = storage_len (c_ord c) n) -> create c (full vs) = Abort) /\
  ((forall n, length vs <> storage_len (c_ord c) n) ->
     exists r, create c (full vs) = Ok r /\ forall n, ~ wf c n r).
Proof. exact @create_noexc. Qed.
Print Assumptions C42_check_is_inverted.
Example C42_case : create (noexc dyn2) (full [7; 1; 2; 3; 4; 5]) = Abort /\
  create (noexc dyn2) (full [7; 1; 2; 3; 4]) = Ok (mk 1 (full [7; 1; 2; 3; 4])).
Proof. run_case. Qed.

(** C44.  Full statement: both orders.  Proved: everything for first order; size, storage, value and
    gradient prefix for both; the second-order Hessian part fails. *)
Theorem C44_resize_first_order_partial : forall (S : Type) (O : Ops S) (c : cfg) (n m : nat) (x : dd S) f g h,
  is_dynamic c = true -> c_ord c = 1 -> shows c n x f g h -> size_ok c m ->
  exists r, resize O c x (Z.of_nat m) = Ok r /\
    shows c m r f (fun i => if Nat.ltb i n then g i else o_Z O 0) h.
Proof. exact @resize_order1. Qed.
Print Assumptions C44_resize_first_order_partial.
Theorem C44_resize_any_order_partial : forall (S : Type) (O : Ops S) (c : cfg) (n m : nat) (x : dd S),
  is_dynamic c = true -> wf c n x -> size_ok c m ->
  exists r, resize O c x (Z.of_nat m) = Ok r /\ wf c m r /\ get_f r = get_f x /\
    forall i, 0 <= i < Z.of_nat n -> i < Z.of_nat m -> get_g c r i = get_g c x i.
Proof. exact @resize_wf. Qed.
Print Assumptions C44_resize_any_order_partial.
Theorem C44_refuted : ~ (forall (S : Type) (O : Ops S) (c : cfg) (n m : nat) (x : dd S) f g h, cfg_ok c ->
  is_dynamic c = true -> shows c n x f g h -> size_ok c m ->
  exists r, resize O c x (Z.of_nat m) = Ok r /\
    shows c m r f (fun i => if Nat.ltb i n then g i else o_Z O 0)
      (fun i j => if Nat.ltb i n && Nat.ltb j n then h i j else o_Z O 0)).
Proof. exact resize_witness. Qed.
Print Assumptions C44_refuted.
(** What happens instead, for all sizes and contents: derivatives move to other roles. *)
Theorem C44_second_order_growing_moves_hessian_into_gradient :
  forall (S : Type) (O : Ops S) (c : cfg) (n m : nat) (x : dd S),
  is_dynamic c = true -> c_ord c = 2 -> wf c n x -> (1 <= n < m)%nat -> size_ok c m ->
  exists r, resize O c x (Z.of_nat m) = Ok r /\ get_g c r (Z.of_nat n) = get_h c x 0 0.
Proof. exact @resize_order2_grow. Qed.
Print Assumptions C44_second_order_growing_moves_hessian_into_gradient.
Theorem C44_second_order_shrinking_moves_gradient_into_hessian :
  forall (S : Type) (O : Ops S) (c : cfg) (n m : nat) (x : dd S),
  is_dynamic c = true -> c_ord c = 2 -> wf c n x -> (1 <= m < n)%nat ->
  exists r, resize O c x (Z.of_nat m) = Ok r /\ get_h c r 0 0 = get_g c x (Z.of_nat m).
Proof. exact @resize_order2_shrink. Qed.
Print Assumptions C44_second_order_shrinking_moves_gradient_into_hessian.
Example C44_case : wf dyn1 3 ex1 /\ resize Zops dyn1 ex1 4 = Ok (mk 4 (full [7; 1; 2; 3; 0])) /\
  resize Zops dyn1 ex1 1 = Ok (mk 1 (full [7; 1])) /\ wf dyn2 2 exa /\
  resize Zops dyn2 exa 3 = Ok (mk 3 (full [7; 1; 2; 3; 4; 5; 0; 0; 0; 0])).
Proof. split; [exact wf_ex1|]. split; [vm_compute; reflexivity|]. split; [vm_compute; reflexivity|].
  split; [exact wf_exa|]. run_case. Qed.
