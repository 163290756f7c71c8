(** C77: which members are initialised, and that the uninitialised ones never matter. *)
From Coq Require Import ZArith List Bool String.
From Verif Require Import Outcome Scalar Model ModelObj Spec ProgSpec ParamSpec Samples ModelStrict FactsStrict.
Import ListNotations.
Open Scope Z_scope.

(** C77, dynamic types: every constructor and factory function has the outcome of [Model.v], and what it returns can be copied
    without copying anything indeterminate. *)
Theorem C77_dynamic_initialised_partial : forall (S : Type) (O : Ops S) (c : cfg), is_dynamic c = true ->
  usable c (default_o O c) (ctor_default O c) /\
  (forall f, res_rel (usable c) (scalar_o O c f) (ctor_scalar O c f)) /\
  (forall (vs : list S) n, res_rel (usable c) (sized_o (full vs) n) (Ok (mk n (full vs)))) /\
  (forall vs : list S, res_rel (usable c) (create_o c (full vs)) (create c (full vs))) /\
  (forall n, res_rel (usable c) (empty_o O c n) (empty_n O c n)) /\
  (forall n, res_rel (usable c) (zero_o O c n) (zero_n O c n)) /\
  (forall f n, res_rel (usable c) (constant_o O c f n) (constant_n O c f n)) /\
  (forall i f n, res_rel (usable c) (variable_o O c i f n) (variable_n O c i f n)) /\
  (forall vs, res_rel (Forall2 (usable c)) (variables_o O c vs) (variables O c vs) /\ variables_array_o O c vs = variables_o O c vs).
Proof. exact @dynamic_initialised. Qed.
Print Assumptions C77_dynamic_initialised_partial.

(** Static types: no constructor but the one from a list sets [m_size].  The objects are as in [Model.v], but by the letter of the
    standard they cannot be copied; [empty] copies an uninitialised array and [variables] copies its numbers. *)
Theorem C77_static_copies_refuted : forall (S : Type) (O : Ops S) (c : cfg), is_dynamic c = false -> cfg_ok c ->
  stuck c (default_o O c) (ctor_default O c) /\
  (forall f, res_rel (stuck c) (scalar_o O c f) (ctor_scalar O c f)) /\
  (forall vs : list S, res_rel (stuck c) (data_o (full vs)) (Ok (mk (c_tsize c) (full vs)))) /\
  (forall vs : list S, res_rel (stuck c) (create_o c (full vs)) (create c (full vs))) /\
  (forall n, res_rel (stuck c) (zero_o O c n) (zero_n O c n)) /\
  (forall f n, res_rel (stuck c) (constant_o O c f n) (constant_n O c f n)) /\
  (forall i f n, res_rel (stuck c) (variable_o O c i f n) (variable_n O c i f n)) /\
  (forall n, size_ok c n -> empty_o O c (Z.of_nat n) = UB) /\
  (forall vs, size_ok c (List.length vs) -> vs <> [] -> variables_o O c vs = UB /\ variables_array_o O c vs = UB).
Proof. exact @static_stuck. Qed.
Print Assumptions C77_static_copies_refuted.
Theorem C77_static_list : forall (S : Type) (c : cfg) (n : nat) (vs : list S), is_dynamic c = false -> cfg_ok c -> c_exc c = true ->
  size_ok c n -> List.length vs = storage_len (c_ord c) n ->
  exists x, list_o c vs = Ok x /\ copy_obj x = Ok x /\ ob_data x = full vs.
Proof. exact @static_list. Qed.
Print Assumptions C77_static_list.

(** In practice the copies are harmless: in static types nothing depends on [m_size].  Whatever it is in the objects on the heap,
    a session has the same outcome, ... *)
Theorem C77_size_never_read : forall (S : Type) (O : Ops S) (c : cfg) (slack : nat -> nat), is_dynamic c = false ->
  forall (p : list (pstmt S)) (st st' : heap S), alike st st' ->
  res_rel alike (session O c slack p st) (session O c slack p st').
Proof. exact @session_alike. Qed.
Print Assumptions C77_size_never_read.
(** ... and what can be read off a number is the same. *)
Theorem C77_size_not_observable : forall (S : Type) (O : Ops S) (c : cfg), is_dynamic c = false ->
  forall x y : dd S, same_data x y ->
    get_f x = get_f y /\ (forall i, get_g c x i = get_g c y i /\ get_g_mut c x i = get_g_mut c y i /\ get_h1 c x i = get_h1 c y i) /\
    (forall i j, get_h c x i j = get_h c y i j) /\ (forall mode, hm O c x mode = hm O c y mode) /\ get_ag c x = get_ag c y /\
    (forall d, eval O c x d = eval O c y d) /\ size c x = size c y /\ data_length c x = data_length c y /\
    (forall o z, compare O o x z = compare O o y z /\ compare O o z x = compare O o z y).
Proof. exact @observers_sd. Qed.
Print Assumptions C77_size_not_observable.

(** [&m_data[1 + size()]] in [operator*=] names an existing element except in second-order numbers without variables. *)
Theorem C77_mul_reference : forall (S : Type) (O : Ops S) (c : cfg) (n : nat) (x : dd S) (b : option (dd S)), cfg_ok c -> wf c n x ->
  match b with Some y => wf c n y | None => True end ->
  (c_ord c = 1 \/ (0 < n)%nat -> mul_assign_ref O c x b = mul_assign O c x b) /\
  (c_ord c = 2 -> n = 0%nat -> mul_assign_ref O c x b = UB /\ exists r, mul_assign O c x b = Ok r).
Proof. exact @mul_assign_reference. Qed.
Print Assumptions C77_mul_reference.

(** A static variable and a dynamic one; a session whose numbers have garbage in [m_size]. *)
Example C77_static_variable : variable_o Zops (sta1 2) 0 5 2 = Ok (mko None [Some 5; Some 1; Some 0]) /\
  copy_obj (mko None [Some 5; Some 1; Some 0]) = UB.
Proof. split; reflexivity. Qed.
Example C77_dynamic_variable : variable_o Zops dyn1 0 5 2 = Ok (mko (Some 2) [Some 5; Some 1; Some 0]) /\
  copy_obj (mko (Some 2) [Some 5; Some 1; Some 0]) = Ok (mko (Some 2) [Some 5; Some 1; Some 0]).
Proof. split; reflexivity. Qed.
Example C77_garbage : exists z z', session Zops (sta1 1) (fun _ => 0%nat) [Bin 0 Bmul 0 0; IAsg Amul 0 0]
    (mkheap [(7, 0%nat)] [Some ([Some 3; Some 1], 2%nat)] (fun r => if Nat.eqb r 0 then Some 0%nat else None) (fun _ => None)) = Ok z /\
  objs z = [(7, 0%nat); (1, 1%nat)] /\ nth_error (bufs z) 1 = Some z' /\ z' = Some ([Some 81; Some 108], 2%nat).
Proof. eexists. eexists. split; [reflexivity|]. split; [reflexivity|]. split; reflexivity. Qed.
