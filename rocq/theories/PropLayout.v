(** C01-C04: storage layout, Hessian accessors, matrix export and import.
    For every scalar type [S], every configuration (static/dynamic, build flags). *)
From Coq Require Import ZArith List Bool String.
From Verif Require Import Outcome Scalar Model Spec FactsLayout Samples.
Import ListNotations.
Open Scope Z_scope.

(** C01 *)
Theorem C01_hessian_symmetric_framed : forall (S : Type) (c : cfg) (n : nat) (x : dd S) (i j : Z) (v : S),
  c_ord c = 2 -> wf c n x -> 0 <= i < Z.of_nat n -> 0 <= j < Z.of_nat n ->
  (exists w, get_h c x i j = Ok w /\ get_h c x j i = Ok w) /\
  exists x', set_h c x i j v = Ok x' /\ wf c n x' /\
    get_h c x' i j = Ok v /\ get_h c x' j i = Ok v /\
    get_f x' = get_f x /\
    (forall k, 0 <= k < Z.of_nat n -> get_g c x' k = get_g c x k) /\
    (forall k l, 0 <= k < Z.of_nat n -> 0 <= l < Z.of_nat n ->
       ~ (k = i /\ l = j) -> ~ (k = j /\ l = i) -> get_h c x' k l = get_h c x k l).
Proof. exact @hess_access. Qed.
Print Assumptions C01_hessian_symmetric_framed.

Example C01_case : c_ord dyn2 = 2 /\ wf dyn2 3 ex3 /\
  get_h dyn2 ex3 1 2 = Ok 14 /\ get_h dyn2 ex3 2 1 = Ok 14 /\
  exists x', set_h dyn2 ex3 2 1 99 = Ok x' /\ get_h dyn2 x' 1 2 = Ok 99 /\ get_h dyn2 x' 2 2 = Ok 15.
Proof. split; [reflexivity|]. split; [exact wf_ex3|]. run_case. Qed.

(** C02 *)
Theorem C02_storage_layout : forall (S : Type) (c : cfg) (n : nat) (x : dd S), cfg_ok c -> wf c n x ->
  exists f g h, m_data x = full (f :: map g (seq 0 n) ++
      (if c_ord c =? 1 then [] else flat_map (fun i => map (h i) (seq i (n - i))) (seq 0 n))) /\
    get_f x = Ok f /\
    (forall i, (i < n)%nat -> get_g c x (Z.of_nat i) = Ok (g i)) /\
    (c_ord c = 2 -> forall i j, (i <= j < n)%nat ->
       get_h c x (Z.of_nat i) (Z.of_nat j) = Ok (h i j) /\
       get_h c x (Z.of_nat j) (Z.of_nat i) = Ok (h i j)) /\
    (c_ord c = 2 -> forall k v,
       nth_error (flat_map (fun i => map (h i) (seq i (n - i))) (seq 0 n)) k = Some v ->
       get_h1 c x (Z.of_nat k) = Ok v).
Proof. exact @layout. Qed.
Print Assumptions C02_storage_layout.

Example C02_case : cfg_ok dyn2 /\ wf dyn2 3 ex3 /\
  get_f ex3 = Ok 7 /\ get_g dyn2 ex3 2 = Ok 3 /\ get_h dyn2 ex3 0 2 = Ok 12 /\
  get_h dyn2 ex3 1 1 = Ok 13 /\ get_h1 dyn2 ex3 4 = Ok 14.
Proof. split; [exact cfg_dyn2|]. split; [exact wf_ex3|]. run_case. Qed.

(** C03 *)
Theorem C03_hm_full : forall (S : Type) (O : Ops S) (c : cfg) (n : nat) (x : dd S),
  c_ord c = 2 -> wf c n x ->
  exists m, hm O c x "full" = Ok m /\ rows m = Z.of_nat n /\ cols m = Z.of_nat n /\
    forall i j, 0 <= i < Z.of_nat n -> 0 <= j < Z.of_nat n -> mget m i j = get_h c x i j.
Proof. exact @hm_full. Qed.
Print Assumptions C03_hm_full.

Theorem C03_hm_zeros : forall (S : Type) (O : Ops S) (c : cfg) (n : nat) (x : dd S),
  c_ord c = 2 -> wf c n x ->
  exists m, hm O c x "zeros" = Ok m /\ rows m = Z.of_nat n /\ cols m = Z.of_nat n /\
    forall i j, 0 <= i < Z.of_nat n -> 0 <= j < Z.of_nat n ->
      mget m i j = if i <=? j then get_h c x i j else Ok (o_Z O 0).
Proof. exact @hm_zeros. Qed.
Print Assumptions C03_hm_zeros.

Theorem C03_hm_other_mode : forall (S : Type) (O : Ops S) (c : cfg) (n : nat) (x : dd S) (mode : string),
  c_ord c = 2 -> wf c n x -> mode <> "full"%string -> mode <> "zeros"%string ->
  hm O c x mode = Throw InvalidMode.
Proof. exact @hm_other. Qed.
Print Assumptions C03_hm_other_mode.

Example C03_case : c_ord dyn2 = 2 /\ wf dyn2 3 ex3 /\ wf (sta2 3) 3 ex3 /\
  hm Zops dyn2 ex3 "full" = Ok (mkmat 3 3 (full [10; 11; 12; 11; 13; 14; 12; 14; 15])) /\
  hm Zops (sta2 3) ex3 "zeros" = Ok (mkmat 3 3 (full [10; 11; 12; 0; 13; 14; 0; 0; 15])) /\
  hm Zops dyn2 ex3 "Full" = Throw InvalidMode.
Proof. split; [reflexivity|]. split; [exact wf_ex3|]. split; [exact wf_ex3_s|]. run_case. Qed.

(** C04 *)
Theorem C04_set_hm : forall (S : Type) (c : cfg) (n : nat) (x : dd S) (m : mat S),
  c_ord c = 2 -> wf c n x -> square n m ->
  exists x', set_hm c x m = Ok x' /\ wf c n x' /\ get_f x' = get_f x /\
    (forall i, 0 <= i < Z.of_nat n -> get_g c x' i = get_g c x i) /\
    (forall i j, 0 <= i < Z.of_nat n -> 0 <= j < Z.of_nat n ->
       get_h c x' i j = mget m (Z.min i j) (Z.max i j)).
Proof. exact @set_hm_upper. Qed.
Print Assumptions C04_set_hm.

Theorem C04_arrays_round_trip : forall (S : Type) (O : Ops S) (c : cfg) (n : nat) (x : dd S) (mode : string),
  c_ord c = 2 -> wf c n x -> mode = "full"%string \/ mode = "zeros"%string ->
  exists f g m x', get_f x = Ok f /\ get_ag c x = Ok g /\ hm O c x mode = Ok m /\
    from_arrays O c f (full g) m = Ok x' /\
    size c x' = size c x /\ m_data x' = m_data x.
Proof. exact @arrays_round_trip. Qed.
Print Assumptions C04_arrays_round_trip.

Theorem C04_gradient_round_trip : forall (S : Type) (O : Ops S) (c : cfg) (n : nat) (x : dd S),
  c_ord c = 1 -> wf c n x ->
  exists f g x', get_f x = Ok f /\ get_ag c x = Ok g /\
    from_gradient O c f (full g) = Ok x' /\
    size c x' = size c x /\ m_data x' = m_data x.
Proof. exact @gradient_round_trip. Qed.
Print Assumptions C04_gradient_round_trip.

Example C04_case :
  (exists x', set_hm dyn2 exa (mkmat 2 2 (full [20; 21; 22; 23])) = Ok x' /\
     m_data x' = full [7; 1; 2; 20; 21; 23]) /\
  (exists x', from_arrays Zops dyn2 7 (full [1; 2]) (mkmat 2 2 (full [3; 4; 0; 5])) = Ok x' /\
     m_data x' = m_data exa) /\
  (exists x', from_gradient Zops dyn1 7 (full [1; 2; 3]) = Ok x' /\ m_data x' = m_data ex1).
Proof. run_case. Qed.
