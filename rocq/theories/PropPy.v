(** C05 (pickle), C41, C53: the Python layer. *)
From Coq Require Import ZArith List Bool String Lia.
From Verif Require Import Outcome Scalar Model Spec Samples ModelPy FactsPy.
Import ListNotations.
Open Scope Z_scope.
Open Scope list_scope.

(** C05, pickle half. *)
Theorem C05_pickle_round_trip : forall (S : Type) (c : cfg) (n : nat) (x : dd S),
  cfg_ok c -> c_exc c = true \/ c_dbg c = false -> wf c n x ->
  exists t r, py_getstate x = Ok t /\ py_setstate c t = Ok r /\ size c r = size c x /\ m_data r = m_data x.
Proof. exact @pickle_round_trip. Qed.
Print Assumptions C05_pickle_round_trip.
Example C05_pickle_case : cfg_ok dyn2 /\ wf dyn2 3 ex3 /\
  py_getstate ex3 = Ok [PList [7; 1; 2; 3; 10; 11; 12; 13; 14; 15]] /\
  py_setstate dyn2 [PList [7; 1; 2; 3; 10; 11; 12; 13; 14; 15]] = Ok ex3 /\
  py_setstate (sta2 3) [PList [7; 1; 2; 3; 10; 11; 12; 13; 14; 15]] = Ok ex3.
Proof. split; [exact cfg_dyn2|]. split; [exact wf_ex3|]. run_case. Qed.

(** C41.  [storage_len ... <= max_len]: the numbers fit into a vector. *)
Theorem C41_variables : forall (S : Type) (O : Ops S) (dbg : bool) (vs : list S) (order : Z),
  (order = 0 -> py_variables O dbg vs order = Ok (map (@PFloat S) vs)) /\
  (order <> 0 -> order <> 1 -> order <> 2 -> py_variables O dbg vs order = Throw InvalidOrder) /\
  (order = 1 \/ order = 2 -> Z.of_nat (storage_len order (List.length vs)) <= max_len ->
     exists c rs, c_ord c = order /\ (c_tsize c = -1 <-> (15 < List.length vs)%nat) /\
       py_variables O dbg vs order = Ok rs /\ List.length rs = List.length vs /\
       forall k v, nth_error vs k = Some v -> exists x, nth_error rs k = Some (PNum c x) /\
         shows c (List.length vs) x v (fun i => if Nat.eqb i k then o_Z O 1 else o_Z O 0) (fun _ _ => o_Z O 0)).
Proof. exact @py_variables_spec. Qed.
Print Assumptions C41_variables.
Example C41_case : Z.of_nat (storage_len 2 2) <= max_len /\
  py_variables Zops true [8; 9] 2 = Ok [PNum (sta2 2) (mk 2 (full [8; 1; 0; 0; 0; 0])); PNum (sta2 2) (mk 2 (full [9; 0; 1; 0; 0; 0]))] /\
  py_variables Zops true [8; 9] 3 = Throw InvalidOrder /\ py_variables Zops true [8; 9] 0 = Ok [PFloat 8; PFloat 9] /\
  (exists l, py_variables Zops true [1; 2; 3; 4; 5; 6; 7; 8; 9; 10; 11; 12; 13; 14; 15; 16] 1 = Ok l /\
     nth_error l 1 = Some (PNum dyn1 (mk 16 (full [2; 0; 1; 0; 0; 0; 0; 0; 0; 0; 0; 0; 0; 0; 0; 0; 0])))).
Proof. split; [vm_compute; discriminate|]. run_case. Qed.

(** C53.  Full statement: unpickling any state gives a well-formed number or raises; [hj.f], [hj.d], [hj.dd]
    return value, gradient and Hessian of every well-formed number.  False for the empty list and for
    [hj.dd] of first-order numbers. *)
Theorem C53_other_states_rejected : forall (S : Type) (c : cfg) (t : list (pystate (S := S))),
  cfg_ok c -> c_exc c = true -> (forall vs, t <> [PList vs]) -> exists e, py_setstate c t = Throw e.
Proof. exact @setstate_validates. Qed.
Print Assumptions C53_other_states_rejected.
Theorem C53_state_lengths_partial : forall (S : Type) (c : cfg) (n : nat) (vs : list S),
  cfg_ok c -> c_exc c = true -> (1 <= List.length vs)%nat -> Z.of_nat (List.length vs) <= max_len ->
  (is_dynamic c = false -> c_tsize c = Z.of_nat n) ->
  (List.length vs = storage_len (c_ord c) n -> exists r, py_setstate c [PList vs] = Ok r /\ wf c n r /\ m_data r = full vs) /\
  ((forall m, is_dynamic c = false -> m = n -> List.length vs <> storage_len (c_ord c) m) ->
   (forall m, is_dynamic c = true -> List.length vs <> storage_len (c_ord c) m) -> exists e, py_setstate c [PList vs] = Throw e).
Proof. exact @setstate_lengths. Qed.
Print Assumptions C53_state_lengths_partial.
Theorem C53_empty_state_refuted : ~ (forall (S : Type) (c : cfg) (t : list (pystate (S := S))), cfg_ok c -> c_exc c = true ->
  (exists e, py_setstate c t = Throw e) \/ (exists n r, py_setstate c t = Ok r /\ wf c n r)).
Proof. exact setstate_witness. Qed.
Print Assumptions C53_empty_state_refuted.
Theorem C53_empty_state : forall (S : Type) (c : cfg), cfg_ok c -> is_dynamic c = true -> c_exc c = true ->
  exists r : dd S, py_setstate c [PList []] = Ok r /\ size c r = -1 /\ m_data r = [] /\ forall n, ~ wf c n r.
Proof. exact @setstate_empty. Qed.
Print Assumptions C53_empty_state.
Theorem C53_utilities : forall (S : Type) (O : Ops S) (c : cfg) (n : nat) (x : dd S) f g h, cfg_ok c -> shows c n x f g h ->
  util_f (PNum c x) = Ok f /\ util_d (PNum c x) = Ok (map g (seq 0 n)) /\
  (c_ord c = 2 -> exists m, util_dd O (PNum c x) = Ok m /\ rows m = Z.of_nat n /\ cols m = Z.of_nat n /\
     forall i j, (i < n)%nat -> (j < n)%nat -> mget m (Z.of_nat i) (Z.of_nat j) = Ok (h i j)).
Proof. exact @utilities. Qed.
Print Assumptions C53_utilities.
Theorem C53_first_order_hessian_refuted : ~ (forall (S : Type) (O : Ops S) (c : cfg) (n : nat) (x : dd S), cfg_ok c -> wf c n x ->
  (exists m, util_dd O (PNum c x) = Ok m) \/ (exists e, util_dd O (PNum c x) = Throw e)).
Proof. exact util_dd_witness. Qed.
Print Assumptions C53_first_order_hessian_refuted.
(** [hm()] of a first-order number reads beyond the storage, in every build. *)
Theorem C53_first_order_hessian_out_of_bounds : forall (S : Type) (O : Ops S) (c : cfg) (n : nat) (x : dd S),
  c_ord c = 1 -> wf c n x -> (1 <= n)%nat -> util_dd O (PNum c x) = UB.
Proof. exact @util_dd_first_order. Qed.
Print Assumptions C53_first_order_hessian_out_of_bounds.
Example C53_case : wf py1 2 pyx /\ c_ord py1 = 1 /\ util_dd Zops (PNum py1 pyx) = UB /\
  util_d (PNum py1 pyx) = Ok [1; 2] /\ util_f (PNum py1 pyx) = Ok 7 /\
  util_dd Zops (PNum dyn2 exa) = Ok (mkmat 2 2 (full [3; 4; 4; 5])) /\
  py_setstate dyn2 [PList [1; 2]] = Throw InvalidLength /\ py_setstate (sta2 2) [PList [1; 2]] = Throw TypeError /\
  py_setstate dyn2 [PList [1]; PList [1]] = Throw InvalidState.
Proof. split; [exact wf_pyx|]. run_case. Qed.
