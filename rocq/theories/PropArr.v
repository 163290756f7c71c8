(** C56, C57: shapes of array arguments, raw storage access. *)
From Coq Require Import ZArith List Bool Lia.
From Verif Require Import Outcome Scalar Model ModelBuf Spec ArrSpec Samples FactsArr.
Import ListNotations.
Open Scope Z_scope.

(** C56.  The shape is never checked: a larger matrix is cut to its leading block, a smaller one is read
    out of bounds. *)
Theorem C56_set_hm_shapes : forall (S : Type) (c : cfg) (n r k : nat) (x : dd S) (m : mat S),
  c_ord c = 2 -> wf c n x -> table r k m ->
  ((n <= r)%nat -> (n <= k)%nat -> exists x', set_hm c x m = Ok x' /\ wf c n x' /\ get_f x' = get_f x /\
     (forall i, 0 <= i < Z.of_nat n -> get_g c x' i = get_g c x i) /\
     (forall i j, 0 <= i < Z.of_nat n -> 0 <= j < Z.of_nat n -> get_h c x' i j = mget m (Z.min i j) (Z.max i j))) /\
  ((r < n \/ k < n)%nat -> set_hm c x m = UB).
Proof. exact @set_hm_shapes. Qed.
Print Assumptions C56_set_hm_shapes.
(** [from_arrays] asserts the shape, so only debug builds reject. *)
Theorem C56_from_arrays_shapes : forall (S : Type) (O : Ops S) (c : cfg) (f : S) (g : list S) (r k : nat) (m : mat S),
  c_ord c = 2 -> size_ok c (length g) -> table r k m ->
  let n := length g in
  (c_dbg c = true -> r <> n \/ k <> n -> from_arrays O c f (full g) m = Abort) /\
  (c_dbg c = false -> (n <= r)%nat -> (n <= k)%nat -> exists x, from_arrays O c f (full g) m = Ok x /\
     shows c n x f (fun i => nth i g f) (fun i j => match mget m (Z.of_nat (Nat.min i j)) (Z.of_nat (Nat.max i j)) with Ok v => v | _ => f end)) /\
  (c_dbg c = false -> (r < n \/ k < n)%nat -> from_arrays O c f (full g) m = UB).
Proof. exact @from_arrays_shapes. Qed.
Print Assumptions C56_from_arrays_shapes.
Example C56_case : wf dyn2 2 exa /\
  table 3 2 (mkmat 3 2 (full [10; 11; 12; 13; 14; 15])) /\
  set_hm dyn2 exa (mkmat 3 2 (full [10; 11; 12; 13; 14; 15])) = Ok (mk 2 (full [7; 1; 2; 10; 11; 13])) /\
  set_hm dyn2 exa (mkmat 2 1 (full [10; 11])) = UB /\
  from_arrays Zops dyn2 7 (full [1; 2]) (mkmat 3 2 (full [10; 11; 12; 13; 14; 15])) = Abort /\
  from_arrays Zops (rel dyn2) 7 (full [1; 2]) (mkmat 3 2 (full [10; 11; 12; 13; 14; 15])) = Ok (mk 2 (full [7; 1; 2; 10; 11; 13])) /\
  from_arrays Zops (rel dyn2) 7 (full [1; 2]) (mkmat 1 2 (full [10; 11])) = UB.
Proof.
  split; [exact wf_exa|]. split.
  { repeat split. intros i Hi. do 6 (destruct i as [|i]; [eexists; reflexivity|]). cbn in Hi. lia. }
  run_case.
Qed.

(** C57. *)
Theorem C57_set_zero : forall (S : Type) (O : Ops S) (c : cfg) (n : nat) (x : dd S),
  size c x = Z.of_nat n -> length (m_data x) = storage_len (c_ord c) n -> len (m_data x) <= max_len ->
  exists r, set_zero O x = Ok r /\ agree c (Ok r) (zero_n O c (Z.of_nat n)) /\
    shows c n r (o_Z O 0) (fun _ => o_Z O 0) (fun _ _ => o_Z O 0).
Proof. exact @set_zero_is_zero. Qed.
Print Assumptions C57_set_zero.
Theorem C57_adata_round_trip : forall (S : Type) (c : cfg) (n : nat) (x y : dd S), wf c n x -> wf c n y ->
  exists vs r, adata y = Ok vs /\ length vs = storage_len (c_ord c) n /\ m_data y = full vs /\
    set_adata x (full vs) = Ok r /\ size c r = size c y /\ m_data r = m_data y.
Proof. exact @adata_round_trip. Qed.
Print Assumptions C57_adata_round_trip.
Theorem C57_set_adata_wrong_length : forall (S : Type) (x : dd S) (v : data S),
  length v <> length (m_data x) -> set_adata x v = UB.
Proof. exact @set_adata_mismatch. Qed.
Print Assumptions C57_set_adata_wrong_length.
Example C57_case : wf dyn2 2 exa /\ wf dyn2 2 exb /\
  set_zero Zops exa = Ok (mk 2 (full [0; 0; 0; 0; 0; 0])) /\
  set_zero Zops (mk 2 [None; Some 1; None; None; Some 3; None]) = Ok (mk 2 (full [0; 0; 0; 0; 0; 0])) /\
  adata exb = Ok [3; 6; 5; 1; 0; -2] /\ set_adata exa (full [3; 6; 5; 1; 0; -2]) = Ok exb /\
  set_adata exa (full [1; 2; 3]) = UB.
Proof. split; [exact wf_exa|]. split; [exact wf_exb|]. run_case. Qed.
