(** Facts about the Python layer. *)
From Coq Require Import ZArith List Bool Lia String.
From Verif Require Import Outcome Scalar Model Spec Core Kernels OpsRep AccRep CreateRep FactsLayout FactsCtor FactsOps Samples ModelPy.
Import ListNotations.
Open Scope Z_scope.
Open Scope list_scope.

Section Py.
  Context {S : Type} (O : Ops S) (dbg : bool).

  Definition pychoice (ord : Z) (n : nat) : cfg :=
    pycfg dbg ord (if Nat.leb n 15 then Z.of_nat n else -1).
  Lemma py_storage_static ord n : ord = 1 \/ ord = 2 -> (n <= 15)%nat ->
    Z.of_nat (storage_len ord n) <= max_len.
  Proof.
    intros Ho Hn. destruct Ho as [-> | ->]; do 16 (destruct n as [|n]; [vm_compute; discriminate|]); lia.
  Qed.
  Lemma variables_of_order_eq ord vs : vs <> [] ->
    variables_of_order O dbg ord vs =
      (xs <- variables O (pychoice ord (List.length vs)) vs ;; Ok (map (PNum (pychoice ord (List.length vs))) xs)).
  Proof.
    intros N. unfold variables_of_order, pychoice. set (n := List.length vs).
    assert (Hn : n <> 0%nat) by (subst n; destruct vs; [congruence|discriminate]). clearbody n.
    do 16 (destruct n as [|n]; [first [congruence | reflexivity]|]).
    replace (Nat.leb _ 15) with false by (symmetry; apply Nat.leb_gt; lia).
    replace (Z.of_nat (Datatypes.S _)) with (Z.of_nat n + 16) by lia.
    assert (0 <= Z.of_nat n) by lia. generalize dependent (Z.of_nat n). intros z Hz.
    destruct z as [|p|p]; [reflexivity| |lia]. cbn [Z.add].
    destruct (p + 16)%positive as [[[[p0|p0|]|[p0|p0|]|]|[[p0|p0|]|[p0|p0|]|]|]|[[[p0|p0|]|[p0|p0|]|]|[[p0|p0|]|[p0|p0|]|]|]|] eqn:E; try reflexivity; lia.
  Qed.

  Lemma py_variables_spec (vs : list S) (order : Z) :
    (order = 0 -> py_variables O dbg vs order = Ok (map (@PFloat S) vs)) /\
    (order <> 0 -> order <> 1 -> order <> 2 -> py_variables O dbg vs order = Throw InvalidOrder) /\
    (order = 1 \/ order = 2 -> Z.of_nat (storage_len order (List.length vs)) <= max_len ->
       exists c rs, c_ord c = order /\ (c_tsize c = -1 <-> (15 < List.length vs)%nat) /\
         py_variables O dbg vs order = Ok rs /\ List.length rs = List.length vs /\
         forall k v, nth_error vs k = Some v -> exists x, nth_error rs k = Some (PNum c x) /\
           shows c (List.length vs) x v (fun i => if Nat.eqb i k then o_Z O 1 else o_Z O 0) (fun _ _ => o_Z O 0)).
  Proof.
    split; [intros ->; reflexivity|]. split.
    - intros N0 N1 N2. unfold py_variables.
      destruct ((order <? 0) || (2 <? order)) eqn:E; [reflexivity|].
      apply orb_false_iff in E. destruct E as (E1 & E2). apply Z.ltb_ge in E1, E2. lia.
    - intros Ho HL. exists (pychoice order (List.length vs)).
      assert (HP : py_variables O dbg vs order = variables_of_order O dbg order vs) by (destruct Ho as [-> | ->]; reflexivity).
      rewrite HP. clear HP.
      assert (HT : c_tsize (pychoice order (List.length vs)) = -1 <-> (15 < List.length vs)%nat).
      { cbn. destruct (Nat.leb_spec (List.length vs) 15); split; intros; lia. }
      destruct vs as [|v0 vs'].
      + exists []. split; [reflexivity|]. split; [exact HT|]. split; [reflexivity|]. split; [reflexivity|].
        intros [|k] v E; discriminate.
      + set (vs := v0 :: vs') in *. assert (SO : size_ok (pychoice order (List.length vs)) (List.length vs)).
        { split; [|exact HL]. unfold pychoice, pycfg, is_dynamic. cbn [c_tsize].
          destruct (Nat.leb (List.length vs) 15); [reflexivity|discriminate]. }
        destruct (variables_show O _ vs SO) as (xs & E & L & HX).
        exists (map (PNum (pychoice order (List.length vs))) xs). split; [reflexivity|]. split; [exact HT|].
        split; [rewrite variables_of_order_eq by discriminate; rewrite E; reflexivity|].
        split; [rewrite map_length; exact L|]. intros k v Hk. destruct (HX k v Hk) as (x & E1 & R). exists x.
        split; [rewrite nth_error_map, E1; reflexivity|exact R].
  Qed.

  Lemma py_floats_full (vs : list S) : py_floats (full vs) = Ok vs.
  Proof. unfold full. induction vs as [|v vs IH]; [reflexivity|]. cbn. cbn in IH. rewrite IH. reflexivity. Qed.

  Lemma pickle_round_trip c n (x : dd S) : cfg_ok c -> c_exc c = true \/ c_dbg c = false -> wf c n x ->
    exists t r, py_getstate x = Ok t /\ py_setstate c t = Ok r /\ size c r = size c x /\ m_data r = m_data x.
  Proof.
    intros Hc HB W. destruct (wf_rep _ _ _ W) as (J & HJ). destruct (create_round_trip c n x Hc HB W) as (r & E & Es & Ed).
    pose proof HJ as (HS & HD & HL). exists [PList (enc (c_ord c) n J)].
    unfold py_getstate. rewrite HD, py_floats_full. cbn [bind].
    unfold create in E. rewrite HD in E. unfold len in E. rewrite full_length in E. unfold py_setstate.
    destruct (is_dynamic c) eqn:D.
    - exists r. rewrite HD in Ed. auto.
    - exists (mk (c_tsize c) (full (enc (c_ord c) n J))). split; [reflexivity|].
      rewrite HD in Ed. unfold size in HS |- *. rewrite D in *.
      assert (EL : Z.of_nat (List.length (enc (c_ord c) n J)) =? StaticDataSize c = true).
      { apply Z.eqb_eq. symmetry. rewrite (StaticDataSize_ok c n HS). f_equal. symmetry. apply enc_length. }
      rewrite EL. auto.
  Qed.
  Lemma setstate_validates c (t : list (pystate (S := S))) : cfg_ok c -> c_exc c = true ->
    (forall vs, t <> [PList vs]) -> exists e, py_setstate c t = Throw e.
  Proof.
    intros Hc HE N. destruct t as [|[vs|] [|]]; cbn; eauto. destruct (N vs). reflexivity.
  Qed.
  Lemma setstate_lengths c n (vs : list S) : cfg_ok c -> c_exc c = true -> (1 <= List.length vs)%nat ->
    Z.of_nat (List.length vs) <= max_len -> (is_dynamic c = false -> c_tsize c = Z.of_nat n) ->
    (List.length vs = storage_len (c_ord c) n -> exists r, py_setstate c [PList vs] = Ok r /\ wf c n r /\ m_data r = full vs) /\
    ((forall m, is_dynamic c = false -> m = n -> List.length vs <> storage_len (c_ord c) m) ->
     (forall m, is_dynamic c = true -> List.length vs <> storage_len (c_ord c) m) -> exists e, py_setstate c [PList vs] = Throw e).
  Proof.
    intros Hc HE H1 HM HT. unfold py_setstate. destruct (is_dynamic c) eqn:D.
    - destruct (create_lengths c vs Hc D HE H1 HM) as (A & B). unfold create, len in *. rewrite D, full_length in *. split.
      + intros HL. destruct (A n HL) as (r & E & _ & E2 & W). exists r. auto.
      + intros _ N. exists InvalidLength. apply B. intros m. apply N. reflexivity.
    - specialize (HT eq_refl). rewrite (StaticDataSize_ok c n HT). split.
      + intros HL. rewrite HL, Z.eqb_refl. eexists. split; [reflexivity|]. split; [|reflexivity].
        apply wf_list; [unfold size; rewrite D; exact HT|exact HL|exact HM].
      + intros N _. replace (Z.of_nat (List.length vs) =? Z.of_nat (storage_len (c_ord c) n)) with false; [eauto|].
        symmetry. apply Z.eqb_neq. intros E. apply Nat2Z.inj in E. apply (N n eq_refl eq_refl E).
  Qed.
  Lemma setstate_empty c : cfg_ok c -> is_dynamic c = true -> c_exc c = true ->
    exists r : dd S, py_setstate c [PList []] = Ok r /\ size c r = -1 /\ m_data r = [] /\ forall n, ~ wf c n r.
  Proof.
    intros Hc D HE. destruct (@create_empty S c Hc D HE) as (r & E & Es & Ed). exists r. split.
    - unfold py_setstate. unfold create, len in E. rewrite D in E |- *. exact E.
    - split; [exact Es|]. split; [exact Ed|]. intros n (HS & _). rewrite Es in HS. lia.
  Qed.

  (** hj.f, hj.d, hj.dd *)
  Lemma utilities c n (x : dd S) f g h : cfg_ok c -> shows c n x f g h ->
    util_f (PNum c x) = Ok f /\ util_d (PNum c x) = Ok (map g (seq 0 n)) /\
    (c_ord c = 2 -> exists m, util_dd O (PNum c x) = Ok m /\ rows m = Z.of_nat n /\ cols m = Z.of_nat n /\
       forall i j, (i < n)%nat -> (j < n)%nat -> mget m (Z.of_nat i) (Z.of_nat j) = Ok (h i j)).
  Proof.
    intros Hc Hx. pose proof (shows_rep _ _ _ _ _ _ Hc Hx) as HJ. destruct Hx as (W & Hf & Hg & Hh).
    split; [exact Hf|]. split; [cbn; rewrite (get_ag_rep _ _ _ _ HJ); reflexivity|].
    intros Ho. destruct (hm_full O c n x Ho W) as (m & E & R & C & HM). exists m. split; [exact E|]. split; [exact R|].
    split; [exact C|]. intros i j Hi Hj. rewrite HM by lia. apply Hh; assumption.
  Qed.
  Lemma util_dd_first_order c n (x : dd S) : c_ord c = 1 -> wf c n x -> (1 <= n)%nat -> util_dd O (PNum c x) = UB.
  Proof.
    intros Ho (HS & WL & _ & WM) Hn. unfold storage_len in WL. rewrite Ho in WL. cbn in WL.
    unfold len, max_len in WM. rewrite WL in WM.
    assert (E : get_h1 c x 0 = UB).
    { unfold get_h1, idx_h1. rewrite HS. destruct (c_dbg c) eqn:DB.
      - rewrite ck_ok by lia. cbn [bind]. unfold ck at 1. destruct (_ && _) eqn:E1; [|reflexivity]. cbn [bind].
        unfold assert_. rewrite DB. assert (H0 : 0 <? Z.quot (Z.of_nat n * (Z.of_nat n + 1)) 2 = true).
        { apply Z.ltb_lt. rewrite Z.quot_div_nonneg by nia. apply Z.div_str_pos. nia. }
        cbn [andb Z.leb Z.compare]. rewrite H0. cbn [negb andb bind]. repeat (rewrite ck_ok by lia; cbn [bind]).
        apply rd_beyond. unfold len. lia.
      - cbn [bind]. repeat (rewrite ck_ok by lia; cbn [bind]). apply rd_beyond. unfold len. lia. }
    cbn [util_dd]. unfold hm. rewrite HS. unfold for_ at 1. replace (Z.to_nat (Z.of_nat n - 0)) with (Datatypes.S (n - 1)) by lia.
    cbn [loop]. unfold for_ at 1. replace (Z.to_nat (Z.of_nat n - 0)) with (Datatypes.S (n - 1)) by lia.
    cbn [loop]. rewrite E. reflexivity.
  Qed.
End Py.

Definition py1 : cfg := pycfg false 1 2.
Definition pyx : dd Z := mk 2 (full [7; 1; 2]).
Lemma wf_pyx : wf py1 2 pyx. Proof. apply wf_list; [reflexivity|reflexivity|vm_compute; discriminate]. Qed.
Lemma util_dd_witness : ~ (forall (S : Type) (O : Ops S) (c : cfg) (n : nat) (x : dd S), cfg_ok c -> wf c n x ->
  (exists m, util_dd O (PNum c x) = Ok m) \/ (exists e, util_dd O (PNum c x) = Throw e)).
Proof.
  intros H. destruct (H Z Zops py1 2%nat pyx) as [(m & E)|(e & E)]; try exact wf_pyx.
  - split; cbn; lia.
  - rewrite (util_dd_first_order Zops py1 2 pyx) in E; [discriminate|reflexivity|exact wf_pyx|lia].
  - rewrite (util_dd_first_order Zops py1 2 pyx) in E; [discriminate|reflexivity|exact wf_pyx|lia].
Qed.
Lemma setstate_witness : ~ (forall (S : Type) (c : cfg) (t : list (pystate (S := S))), cfg_ok c -> c_exc c = true ->
  (exists e, py_setstate c t = Throw e) \/ (exists n r, py_setstate c t = Ok r /\ wf c n r)).
Proof.
  intros H. destruct (setstate_empty (S := Z) dyn1 cfg_dyn1 eq_refl eq_refl) as (r & E & _ & _ & N).
  destruct (H Z dyn1 [PList []] cfg_dyn1 eq_refl) as [(e & E')|(n & r' & E' & W)]; [congruence|].
  assert (r' = r) by congruence. subst r'. exact (N n W).
Qed.
