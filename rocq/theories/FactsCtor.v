(** Constructors, factory functions, create and resize, in terms of the public accessors. *)
From Coq Require Import ZArith List Bool Lia String.
From Verif Require Import Outcome Scalar Float64 Model Spec Core Kernels OpsRep AccRep PadRep CreateRep FactsLayout Samples.
Import ListNotations.
Open Scope Z_scope.
Open Scope res_scope.
Ltac Zify.zify_post_hook ::= Z.div_mod_to_equations.

(** The size computed from a length, before any check. *)
Lemma raw_length c N : cfg_ok c -> 1 <= N <= max_len ->
  exists s, (if c_ord c =? 1 then ck (N - 1) else q <- sqrt_minus_3 N ;; Ok (Z.quot q 2)) = Ok s /\
    data_length_from_size c s = Ok (Z.of_nat (storage_len (c_ord c) (Z.to_nat s))) /\ 0 <= s /\
    forall n, N = Z.of_nat (storage_len (c_ord c) n) -> s = Z.of_nat n.
Proof.
  intros Hc HN.
  assert (HS : exists s, 0 <= s <= 2 ^ 60 /\ (c_ord c = 1 \/ s <= 2 ^ 31) /\
     (if c_ord c =? 1 then ck (N - 1) else q <- sqrt_minus_3 N ;; Ok (Z.quot q 2)) = Ok s).
  { unfold max_len in *. destruct (Z.eqb_spec (c_ord c) 1) as [Ho|Ho].
    - exists (N - 1). split; [lia|]. split; [left; exact Ho|]. apply ck_ok. lia.
    - destruct (sqrt_minus_3_ok N HN) as (q & E & Hq & _). rewrite E. cbn [bind].
      exists (Z.quot q 2). rewrite Z.quot_div_nonneg by lia.
      assert (0 <= q / 2 <= 2 ^ 31).
      { split; [apply Z.div_pos; lia|]. apply Z.div_le_upper_bound; lia. }
      split; [lia|]. split; [right; lia|reflexivity]. }
  destruct HS as (s & Hs & Hs2 & ES). exists s. split; [exact ES|].
  split; [|split; [lia|]].
  - unfold data_length_from_size, storage_len.
    destruct (Z.eqb_spec (c_ord c) 1) as [Ho|Ho].
    + rewrite ck_ok by lia. f_equal. lia.
    + destruct Hs2 as [|Hs2]; [contradiction|].
      rewrite !ck_ok by lia. cbn [bind]. rewrite ck_ok by nia. cbn [bind]. f_equal.
      rewrite <- quot_tri. rewrite Z2Nat.id by lia. reflexivity.
  - intros n ->. rewrite raw_size in ES by lia. congruence.
Qed.

(** C05, without exceptions and without assertions as well. *)
Lemma create_round_trip {S} c n (x : dd S) : cfg_ok c -> c_exc c = true \/ c_dbg c = false -> wf c n x ->
  exists r, create c (m_data x) = Ok r /\ size c r = size c x /\ m_data r = m_data x.
Proof.
  intros Hc HB W. destruct (wf_rep _ _ _ W) as (J & HJ).
  destruct (c_exc c) eqn:E.
  - destruct (create_rep c n J x E HJ) as (r & E1 & E2 & R). exists r. split; [exact E1|].
    split; [|exact E2]. destruct R as (-> & _). destruct HJ as (-> & _). reflexivity.
  - destruct HB as [|HB]; [discriminate|]. pose proof (rep_size_ok _ _ _ _ HJ) as SO.
    unfold create. rewrite (len_rep c _ _ _ HJ).
    assert (ES : size_from_data_length c (Z.of_nat (storage_len (c_ord c) n)) = Ok (Z.of_nat n)).
    { unfold size_from_data_length. rewrite raw_size by apply SO. cbn [bind]. rewrite E, HB. reflexivity. }
    rewrite ES. cbn [bind]. destruct (is_dynamic c) eqn:D.
    + eexists. split; [reflexivity|]. split; [|reflexivity]. destruct HJ as (-> & _).
      unfold size. rewrite D. reflexivity.
    + rewrite check_valid_size_ok by exact SO. cbn [bind]. eexists. split; [reflexivity|]. split; [|reflexivity].
      unfold size. rewrite D. reflexivity.
Qed.

(** C42 *)
Lemma create_noexc {S} c (vs : list S) : cfg_ok c -> c_exc c = false -> c_dbg c = true ->
  is_dynamic c = true -> (1 <= List.length vs)%nat -> Z.of_nat (List.length vs) <= max_len ->
  ((exists n, List.length vs = storage_len (c_ord c) n) -> create c (full vs) = Abort) /\
  ((forall n, List.length vs <> storage_len (c_ord c) n) ->
     exists r, create c (full vs) = Ok r /\ forall n, ~ wf c n r).
Proof.
  intros Hc HE HD D H1 HM.
  destruct (raw_length c (Z.of_nat (List.length vs)) Hc ltac:(lia)) as (s & ES & DL & Hs & HU).
  unfold create, len, size_from_data_length. rewrite D, full_length, ES. cbn [bind]. rewrite HE, HD, DL.
  cbn [bind]. unfold assert_. rewrite HD. split.
  - intros (n & EN). rewrite EN in *. rewrite (HU n eq_refl), Nat2Z.id, Z.eqb_refl. reflexivity.
  - intros HN. destruct (Z.eqb_spec (Z.of_nat (storage_len (c_ord c) (Z.to_nat s))) (Z.of_nat (List.length vs))) as [E|NE].
    + exfalso. apply (HN (Z.to_nat s)). lia.
    + cbn. eexists. split; [reflexivity|]. intros n (_ & WL & _). cbn [m_data] in WL.
      rewrite full_length in WL. exact (HN n WL).
Qed.

(** C06: the empty storage. *)
Lemma create_empty {S} c : cfg_ok c -> is_dynamic c = true -> c_exc c = true ->
  exists r : dd S, create c [] = Ok r /\ size c r = -1 /\ m_data r = [].
Proof.
  intros [[Ho|Ho] _] D HE; unfold create; rewrite D; eexists; (split; [|split]).
  - unfold size_from_data_length, data_length_from_size. rewrite Ho, HE. reflexivity.
  - unfold size. rewrite D. reflexivity.
  - reflexivity.
  - unfold size_from_data_length, data_length_from_size. rewrite Ho, HE.
    assert (E : sqrt_minus_3 0 = Ok (-2)) by (vm_compute; reflexivity).
    cbn [Z.eqb Pos.eqb len List.length Z.of_nat]. rewrite E. reflexivity.
  - unfold size. rewrite D. reflexivity.
  - reflexivity.
Qed.

Section Ctor.
  Context {S : Type} (O : Ops S).
  Implicit Types (x : dd S).

  Lemma shows_const c n r f : rep c n (jconst O f) r ->
    shows c n r f (fun _ => o_Z O 0) (fun _ _ => o_Z O 0).
  Proof. intros H. exact (rep_shows _ _ _ _ H). Qed.
  Lemma shows_var c n r i f : rep c n (jvar O i f) r ->
    shows c n r f (fun k => if Nat.eqb k i then o_Z O 1 else o_Z O 0) (fun _ _ => o_Z O 0).
  Proof. intros H. exact (rep_shows _ _ _ _ H). Qed.

  (** C07 *)
  Lemma zero_n_shows c n : size_ok c n ->
    exists r, zero_n O c (Z.of_nat n) = Ok r /\ shows c n r (o_Z O 0) (fun _ => o_Z O 0) (fun _ _ => o_Z O 0).
  Proof. intros H. destruct (zero_n_rep O c n H) as (r & E & R). exists r. split; [exact E|apply shows_const, R]. Qed.
  Lemma constant_n_shows c n f : size_ok c n ->
    exists r, constant_n O c f (Z.of_nat n) = Ok r /\ shows c n r f (fun _ => o_Z O 0) (fun _ _ => o_Z O 0).
  Proof. intros H. destruct (constant_n_rep O c n f H) as (r & E & R). exists r. split; [exact E|apply shows_const, R]. Qed.
  Lemma variable_n_shows c n i f : size_ok c n -> 0 <= i < Z.of_nat n ->
    exists r, variable_n O c i f (Z.of_nat n) = Ok r /\
      shows c n r f (fun k => if Z.of_nat k =? i then o_Z O 1 else o_Z O 0) (fun _ _ => o_Z O 0).
  Proof.
    intros H Hi. destruct (to_idx _ _ Hi) as (k & -> & Hk).
    destruct (variable_n_rep O c n k f H Hk) as (r & E & R). exists r. split; [exact E|].
    eapply shows_ext; [apply shows_var, R|reflexivity| |reflexivity].
    intros l _. cbn beta. destruct (Nat.eqb_spec l k); destruct (Z.eqb_spec (Z.of_nat l) (Z.of_nat k)); try lia; reflexivity.
  Qed.
  Lemma empty_n_size c n : size_ok c n ->
    exists r, empty_n O c (Z.of_nat n) = Ok r /\ size c r = Z.of_nat n /\
      List.length (m_data r) = storage_len (c_ord c) n.
  Proof. exact (empty_n_ok O c n). Qed.

  Lemma sizeless c f : size_ok c (default_size c) ->
    zero_n O c (Z.of_nat (default_size c)) = Ok (zero O c) /\
    constant_n O c f (Z.of_nat (default_size c)) = constant O c f /\
    empty_n O c (Z.of_nat (default_size c)) = Ok (empty O c) /\
    (is_dynamic c = false -> forall i, variable_n O c i f (Z.of_nat (default_size c)) = variable O c i f).
  Proof.
    intros SO. unfold zero_n, constant_n, empty_n, variable_n, constant, zero, empty.
    pose proof (check_valid_size_ok c _ SO) as CV. unfold default_size in *.
    destruct (is_dynamic c) eqn:D.
    - cbn [Z.of_nat]. unfold zero_n, data_length_from_size. rewrite D.
      destruct (c_ord c =? 1); cbn; (split; [reflexivity|]); (split; [reflexivity|]); (split; [reflexivity|]);
        discriminate.
    - rewrite CV by reflexivity. cbn [bind]. repeat split.
  Qed.

  Lemma sizeless' c f : let n := Z.of_nat (if is_dynamic c then 0%nat else Z.to_nat (c_tsize c)) in
    size_ok c (Z.to_nat n) ->
    zero_n O c n = Ok (zero O c) /\ constant_n O c f n = constant O c f /\ empty_n O c n = Ok (empty O c) /\
    (is_dynamic c = false -> forall i, variable_n O c i f n = variable O c i f).
  Proof. cbv zeta. rewrite Nat2Z.id. apply sizeless. Qed.

  (** C09 *)
  Lemma variables_show c (vs : list S) : size_ok c (List.length vs) ->
    exists xs, variables O c vs = Ok xs /\ List.length xs = List.length vs /\
      forall k v, nth_error vs k = Some v ->
        exists x, nth_error xs k = Some x /\
          shows c (List.length vs) x v (fun i => if Nat.eqb i k then o_Z O 1 else o_Z O 0) (fun _ _ => o_Z O 0).
  Proof.
    intros H. destruct (variables_rep O c vs H) as (xs & E & L & HX). exists xs. split; [exact E|].
    split; [exact L|]. intros k v Hv. destruct (HX k v Hv) as (x & E1 & R). exists x.
    split; [exact E1|apply shows_var, R].
  Qed.

  (** C10 *)
  Lemma static_size_checked c sz f i : is_dynamic c = false -> c_exc c = true -> sz <> c_tsize c ->
    empty_n O c sz = Throw InvalidSize /\ zero_n O c sz = Throw InvalidSize /\
    constant_n O c f sz = Throw InvalidSize /\ variable_n O c i f sz = Throw InvalidSize.
  Proof.
    intros D E N. unfold empty_n, zero_n, constant_n, variable_n.
    rewrite D, (static_wrong_size c sz D E N). repeat split.
  Qed.
  Lemma static_size_ok c f i : is_dynamic c = false ->
    empty_n O c (c_tsize c) = Ok (empty O c) /\ zero_n O c (c_tsize c) = Ok (zero O c) /\
    constant_n O c f (c_tsize c) = constant O c f /\ variable_n O c i f (c_tsize c) = variable O c i f.
  Proof.
    intros D. unfold empty_n, zero_n, constant_n, variable_n, check_valid_size. rewrite D, Z.eqb_refl.
    unfold assert_. destruct (c_exc c); cbn [negb andb bind]; [repeat split|].
    rewrite andb_false_r. repeat split.
  Qed.

  (** C08 *)
  Lemma negative_order1_throws c z f i x : is_dynamic c = true -> c_ord c = 1 -> - 2 ^ 63 <= z <= -2 ->
    empty_n O c z = Throw LengthError /\ zero_n O c z = Throw LengthError /\
    constant_n O c f z = Throw LengthError /\ variable_n O c i f z = Throw LengthError /\
    resize O c x z = Throw LengthError.
  Proof.
    intros D Ho Hz. unfold empty_n, constant_n, variable_n, resize, zero_n, data_length_from_size.
    rewrite D, Ho. cbn [Z.eqb Pos.eqb]. rewrite ck_ok by lia. cbn [bind].
    unfold vec_new, vec_resize. destruct (Z.ltb_spec (1 + z) 0); [|lia]. repeat split.
  Qed.
  Lemma negative_order1_accepted c : is_dynamic c = true -> c_ord c = 1 ->
    exists r, zero_n O c (-1) = Ok r /\ empty_n O c (-1) = Ok r /\ size c r = -1 /\ m_data r = [] /\
      forall f i, constant_n O c f (-1) = UB /\ variable_n O c i f (-1) = UB.
  Proof.
    intros D Ho. unfold empty_n, constant_n, variable_n, zero_n, data_length_from_size, size.
    rewrite D, Ho. eexists. repeat split.
  Qed.
  Lemma negative_order2_accepted c z : is_dynamic c = true -> c_ord c = 2 -> - 2 ^ 29 <= z < 0 ->
    exists r, zero_n O c z = Ok r /\ empty_n O c z = Ok r /\ size c r = z /\
      len (m_data r) = Z.quot ((z + 1) * (z + 2)) 2 /\ (forall n, ~ wf c n r) /\
      (z <= -3 -> forall f, exists r', constant_n O c f z = Ok r' /\ size c r' = z) /\
      (-2 <= z -> forall f, constant_n O c f z = UB).
  Proof.
    intros D Ho Hz. unfold empty_n, constant_n, zero_n, data_length_from_size.
    rewrite D, Ho. cbn [Z.eqb Pos.eqb]. rewrite !ck_ok by lia. cbn [bind].
    assert (HP : 0 <= (z + 1) * (z + 2) <= 2 ^ 58).
    { destruct (Z.eq_dec z (-1)) as [->|]; [lia|]. replace ((z + 1) * (z + 2)) with ((- z - 1) * (- z - 2)) by ring.
      split; [apply Z.mul_nonneg_nonneg; lia|].
      transitivity (2 ^ 29 * 2 ^ 29); [apply Z.mul_le_mono_nonneg; lia|lia]. }
    rewrite ck_ok by lia. cbn [bind]. rewrite Z.quot_div_nonneg by lia.
    assert (HQ : 0 <= (z + 1) * (z + 2) / 2 <= 2 ^ 57).
    { split; [apply Z.div_pos; lia|]. apply Z.div_le_upper_bound; lia. }
    unfold vec_new, max_len. set (q := (z + 1) * (z + 2) / 2) in *.
    destruct (Z.ltb_spec q 0); [lia|]. destruct (Z.ltb_spec (2 ^ 60 - 1) q); [lia|]. cbn [orb bind].
    eexists. split; [reflexivity|]. split; [reflexivity|].
    split; [unfold size; rewrite D; reflexivity|]. split.
    { unfold len. cbn [m_data]. rewrite repeat_length. lia. }
    split.
    { intros n (WS & _). unfold size in WS. rewrite D in WS. cbn in WS. lia. }
    split.
    - intros H3 f. unfold set_f. cbn [m_data].
      assert (1 <= q) by (unfold q; apply Z.div_le_lower_bound; [lia|];
        replace ((z + 1) * (z + 2)) with ((- z - 1) * (- z - 2)) by ring; nia).
      rewrite (wr_ok _ 0%nat) by (rewrite ?repeat_length; lia). cbn [bind].
      eexists. split; [reflexivity|]. unfold size. rewrite D. reflexivity.
    - intros H3 f. unfold set_f. cbn [m_data].
      assert (z = -1 \/ z = -2) as [E|E] by lia;
        (replace q with 0 by (unfold q; rewrite E; reflexivity)); reflexivity.
  Qed.

  (** C39 *)
  Lemma ctor_scalar_static c f : cfg_ok c -> is_dynamic c = false -> size_ok c (default_size c) ->
    exists r, ctor_scalar O c f = Ok r /\
      shows c (default_size c) r f (fun _ => o_Z O 0) (fun _ _ => o_Z O 0) /\
      (exists r', constant O c f = Ok r' /\ m_data r = m_data r').
  Proof.
    intros Hc D SO. unfold ctor_scalar. rewrite D. unfold default_size in *. rewrite D in *.
    set (n := Z.to_nat (c_tsize c)) in *.
    assert (Hn : c_tsize c = Z.of_nat n).
    { destruct Hc as [_ Hc]. unfold is_dynamic in D. apply Z.eqb_neq in D. unfold n. lia. }
    assert (HL : List.length (array_uninit (S:=S) c) = storage_len (c_ord c) n).
    { unfold array_uninit. rewrite repeat_length. rewrite (StaticDataSize_ok c n Hn). lia. }
    pose proof (storage_len_ge (c_ord c) n) as GE.
    rewrite (wr_ok _ 0%nat) by lia. cbn [bind].
    set (d0 := upd (array_uninit c) 0 f).
    assert (HL0 : List.length d0 = storage_len (c_ord c) n) by (unfold d0; rewrite upd_length; exact HL).
    edestruct (fun body => for_inv body (fun k (d : data S) => List.length d = List.length d0 /\
        nth_error d 0 = Some (Some f) /\
        forall i, (1 <= i < k)%nat -> nth_error d i = Some (Some (o_Z O 0))) 1 (List.length d0) 1 (len d0) d0)
      as (d & E & HLd & H0 & HI); [reflexivity|unfold len; lia|lia| | |rewrite E; cbn [bind]].
    - split; [reflexivity|]. split; [apply nth_error_upd_eq; lia|]. intros; lia.
    - intros k d Hk (HLd & H0 & HI). cbn beta. rewrite (wr_ok _ k) by lia. eexists. split; [reflexivity|].
      split; [rewrite upd_length; exact HLd|]. split; [rewrite nth_error_upd_ne by lia; exact H0|].
      intros i Hi. destruct (Nat.eq_dec i k) as [->|].
      + apply nth_error_upd_eq. lia.
      + rewrite nth_error_upd_ne by lia. apply HI. lia.
    - eexists. split; [reflexivity|].
      assert (R : rep c n (jconst O f) (mk (c_tsize c) d)).
      { apply rep_intro; [exact SO|unfold size; rewrite D; exact Hn|].
        split; [cbn [m_data]; lia|]. split; [exact H0|]. cbn [m_data].
        split; [intros i Hi; apply HI; lia|]. intros Ho i j Hij. apply HI. rewrite HL0.
        rewrite storage_len_rs. destruct (Z.eqb_spec (c_ord c) 1); [contradiction|].
        pose proof (pos_bound n i j Hij). lia. }
      split; [apply shows_const, R|].
      destruct (constant_rep O c f) as (r' & E' & R').
      { unfold default_size. rewrite D. exact SO. }
      unfold default_size in R'. rewrite D in R'. exists r'. split; [exact E'|].
      destruct R as (_ & -> & _). destruct R' as (_ & -> & _). reflexivity.
  Qed.
  Lemma ctor_scalar_dynamic c f : cfg_ok c -> is_dynamic c = true ->
    exists r, ctor_scalar O c f = Ok r /\ size c r = 1 /\ m_data r = [Some f] /\
      (forall n, ~ wf c n r) /\ get_g c r 0 = UB.
  Proof.
    intros Hc D. unfold ctor_scalar. rewrite D. cbn. eexists. split; [reflexivity|].
    split; [unfold size; rewrite D; reflexivity|]. split; [reflexivity|]. split.
    - intros n (WS & WL & _). unfold size in WS. rewrite D in WS. cbn in WS, WL.
      pose proof (storage_len_ge (c_ord c) n). lia.
    - unfold get_g, assert_, size. rewrite D. cbn. destruct (c_dbg c); reflexivity.
  Qed.
  Lemma ctor_default_dynamic c : cfg_ok c -> is_dynamic c = true ->
    size c (ctor_default O c) = 1 /\ m_data (ctor_default O c) = [Some (o_Z O 0)] /\
    (forall n, ~ wf c n (ctor_default O c)).
  Proof.
    intros Hc D. unfold ctor_default, size. rewrite D. split; [reflexivity|]. split; [reflexivity|].
    intros n (WS & WL & _). unfold size in WS. rewrite D in WS. cbn in WS, WL.
    pose proof (storage_len_ge (c_ord c) n). lia.
  Qed.
  Lemma ctor_default_static c : is_dynamic c = false -> get_f (ctor_default O c) = UB.
  Proof.
    intros D. unfold ctor_default, get_f. rewrite D. unfold array_uninit, rd. cbn [m_data].
    destruct (Z.to_nat (StaticDataSize c)); reflexivity.
  Qed.
  Lemma ctor_list_dynamic c (vs : list S) : cfg_ok c -> is_dynamic c = true -> c_exc c = true ->
    (1 <= List.length vs)%nat -> Z.of_nat (List.length vs) <= max_len ->
    ((exists n, List.length vs = storage_len (c_ord c) n) -> ctor_list c vs = UB) /\
    ((forall n, List.length vs <> storage_len (c_ord c) n) -> ctor_list c vs = Throw InvalidLength).
  Proof.
    intros Hc D HE H1 HM. unfold ctor_list. rewrite D.
    destruct (size_from_length_iff c (Z.of_nat (List.length vs)) HE ltac:(lia)) as [(n & EN & E)|(NE & E)];
      rewrite E; cbn [bind].
    - split.
      + intros _. unfold for_. replace (Z.to_nat (Z.of_nat (List.length vs) - 0)) with (List.length vs) by lia.
        destruct vs as [|v vs]; [cbn in H1; lia|]. reflexivity.
      + intros HN. exfalso. apply (HN n). lia.
    - split; [|reflexivity]. intros (n & EN). exfalso. apply (NE n). lia.
  Qed.
  Lemma ctor_list_static c n (vs : list S) : cfg_ok c -> is_dynamic c = false -> c_exc c = true ->
    size_ok c n -> List.length vs = storage_len (c_ord c) n ->
    exists r, ctor_list c vs = Ok r /\ wf c n r /\ m_data r = full vs.
  Proof.
    intros Hc D HE SO HL. unfold ctor_list. rewrite D.
    rewrite HL, (size_from_length_ok c n HE) by (try apply SO; auto). cbn [bind].
    set (d0 := array_uninit c).
    assert (HL0 : List.length d0 = List.length vs).
    { unfold d0, array_uninit. rewrite repeat_length.
      rewrite (StaticDataSize_ok c n (proj1 SO D)). lia. }
    edestruct (fun body => for_inv body (fun k (d : data S) => List.length d = List.length vs /\
        forall i, (i < k)%nat -> nth_error d i = nth_error (full vs) i) 0 (List.length vs) 0
          (Z.of_nat (storage_len (c_ord c) n)) d0)
      as (d & E & HLd & HI); [reflexivity|lia|lia| | |rewrite E; cbn [bind]].
    - split; [exact HL0|intros; lia].
    - intros k d Hk (HLd & HI). cbn beta.
      destruct (nth_error vs k) as [v|] eqn:EV; [|apply nth_error_None in EV; lia].
      rewrite (rd_Some _ k _ v) by (try lia; apply nth_error_full, EV). cbn [bind].
      rewrite (wr_ok _ k) by lia. eexists. split; [reflexivity|].
      split; [rewrite upd_length; exact HLd|]. intros i Hi. destruct (Nat.eq_dec i k) as [->|].
      + rewrite nth_error_upd_eq by lia. symmetry. apply nth_error_full, EV.
      + rewrite nth_error_upd_ne by lia. apply HI. lia.
    - assert (ED : d = full vs).
      { apply nth_error_ext; [rewrite full_length; lia|]. intros i Hi. apply HI. lia. }
      subst d. eexists. split; [reflexivity|]. split; [|reflexivity].
      split; [unfold size; rewrite D; apply SO, D|]. cbn [m_data]. rewrite full_length.
      split; [exact HL|]. split; [|unfold len; rewrite full_length, HL; apply SO].
      intros k Hk. destruct (nth_error vs k) as [v|] eqn:EV; [|apply nth_error_None in EV; lia].
      exists v. apply nth_error_full, EV.
  Qed.

  (** C44 *)
  Lemma wf_get c n x k z : wf c n x -> (k < storage_len (c_ord c) n)%nat -> z = Z.of_nat k ->
    exists v, rd (m_data x) z = Ok v /\ nth_error (m_data x) k = Some (Some v).
  Proof.
    intros (_ & WL & WF & _) Hk ->. destruct (WF k ltac:(lia)) as (v & E). exists v.
    split; [apply (rd_Some _ k); [reflexivity|exact E]|exact E].
  Qed.

  Lemma resize_order1 c n m x f g h : is_dynamic c = true -> c_ord c = 1 -> shows c n x f g h -> size_ok c m ->
    exists r, resize O c x (Z.of_nat m) = Ok r /\
      shows c m r f (fun i => if Nat.ltb i n then g i else o_Z O 0) h.
  Proof.
    intros D Ho HS SO. assert (Hc : cfg_ok c).
    { split; [left; exact Ho|]. unfold is_dynamic in D. apply Z.eqb_eq in D. lia. }
    pose proof (shows_rep _ _ _ _ _ _ Hc HS) as HJ.
    destruct (resize_data O c n m _ x D HJ SO) as (r & E & W & HK). exists r. split; [exact E|].
    assert (R : rep c m (mkjet f (fun i => if Nat.ltb i n then g i else o_Z O 0) h) r).
    { apply rep_intro; [exact SO|apply W|]. destruct (isenc_rep _ _ _ _ HJ) as (L & Hf & Hg & _).
      assert (SL : forall k, storage_len (c_ord c) k = (1 + k)%nat) by (intros k; unfold storage_len; rewrite Ho; reflexivity).
      split; [apply W|]. split; [|split].
      - rewrite HK by (rewrite SL; lia). rewrite SL. exact Hf.
      - intros i Hi. rewrite HK by (rewrite SL; lia). rewrite SL. cbn [jg].
        destruct (Nat.ltb_spec (1 + i) (1 + n)); destruct (Nat.ltb_spec i n); try lia; [|reflexivity].
        rewrite Hg by lia. reflexivity.
      - intros No. contradiction. }
    destruct (rep_shows _ _ _ _ R) as (W1 & Sf & Sg & _). split; [exact W1|]. split; [exact Sf|].
    split; [exact Sg|]. intros. lia.
  Qed.
  Lemma resize_wf c n m x : is_dynamic c = true -> wf c n x -> size_ok c m ->
    exists r, resize O c x (Z.of_nat m) = Ok r /\ wf c m r /\ get_f r = get_f x /\
      forall i, 0 <= i < Z.of_nat n -> i < Z.of_nat m -> get_g c r i = get_g c x i.
  Proof.
    intros D W SO. destruct (wf_rep _ _ _ W) as (J & HJ).
    destruct (resize_data O c n m J x D HJ SO) as (r & E & W' & HK). exists r. split; [exact E|]. split; [exact W'|].
    destruct (wf_rep _ _ _ W') as (K & HJ'). destruct (isenc_rep _ _ _ _ HJ) as (L & Hf & Hg & _).
    destruct (isenc_rep _ _ _ _ HJ') as (L' & Hf' & Hg' & _).
    pose proof (storage_len_ge (c_ord c) n). pose proof (storage_len_ge (c_ord c) m). split.
    - rewrite (get_f_rep _ _ _ _ HJ), (get_f_rep _ _ _ _ HJ'). rewrite HK in Hf' by lia.
      destruct (Nat.ltb_spec 0 (storage_len (c_ord c) n)); [|lia]. congruence.
    - intros i Hi Hm. destruct (to_idx _ _ Hi) as (k & -> & Hk).
      rewrite (get_g_rep _ _ _ _ k HJ), (get_g_rep _ _ _ _ k HJ') by lia.
      specialize (Hg' k ltac:(lia)). specialize (Hg k ltac:(lia)). rewrite HK in Hg' by lia.
      destruct (Nat.ltb_spec (1 + k) (storage_len (c_ord c) n)); [|lia]. congruence.
  Qed.
  (** Second order: growing puts the old h(0,0) into the new gradient; shrinking puts a dropped
      gradient entry into h(0,0). *)
  Lemma resize_order2_grow c n m x : is_dynamic c = true -> c_ord c = 2 -> wf c n x -> (1 <= n < m)%nat ->
    size_ok c m ->
    exists r, resize O c x (Z.of_nat m) = Ok r /\ get_g c r (Z.of_nat n) = get_h c x 0 0.
  Proof.
    intros D Ho W Hnm SO. destruct (wf_rep _ _ _ W) as (J & HJ). assert (No : c_ord c <> 1) by lia.
    destruct (resize_data O c n m J x D HJ SO) as (r & E & W' & HK). exists r. split; [exact E|].
    destruct (wf_rep _ _ _ W') as (K & HJ'). destruct (isenc_rep _ _ _ _ HJ) as (L & Hf & Hg & Hh).
    destruct (isenc_rep _ _ _ _ HJ') as (L' & Hf' & Hg' & _).
    pose proof (storage_len_ge (c_ord c) m).
    assert (SL : (1 + n < storage_len (c_ord c) n)%nat).
    { rewrite storage_len_rs. destruct (Z.eqb_spec (c_ord c) 1); [contradiction|].
      pose proof (pos_bound n 0 0 ltac:(lia)). unfold pos in *. lia. }
    change 0 with (Z.of_nat 0). rewrite (get_h_rep _ _ _ _ 0%nat 0%nat HJ No) by lia.
    rewrite (get_g_rep _ _ _ _ n HJ') by lia. rewrite hess_upper by lia.
    specialize (Hg' n ltac:(lia)). rewrite HK in Hg' by lia.
    destruct (Nat.ltb_spec (1 + n) (storage_len (c_ord c) n)); [|lia].
    specialize (Hh No 0%nat 0%nat ltac:(lia)). unfold pos in Hh.
    replace (1 + n + rs n 0 + (0 - 0))%nat with (1 + n)%nat in Hh by (cbn; lia). congruence.
  Qed.
  Lemma resize_order2_shrink c n m x : is_dynamic c = true -> c_ord c = 2 -> wf c n x -> (1 <= m < n)%nat ->
    exists r, resize O c x (Z.of_nat m) = Ok r /\ get_h c r 0 0 = get_g c x (Z.of_nat m).
  Proof.
    intros D Ho W Hnm. destruct (wf_rep _ _ _ W) as (J & HJ). assert (No : c_ord c <> 1) by lia.
    assert (SO : size_ok c m).
    { destruct (rep_size_ok _ _ _ _ HJ) as (_ & SB). split; [rewrite D; discriminate|].
      assert ((storage_len (c_ord c) m <= storage_len (c_ord c) n)%nat); [|lia].
      unfold storage_len. destruct (c_ord c =? 1); [lia|]. apply Nat.div_le_mono; [lia|]. nia. }
    destruct (resize_data O c n m J x D HJ SO) as (r & E & W' & HK). exists r. split; [exact E|].
    destruct (wf_rep _ _ _ W') as (K & HJ'). destruct (isenc_rep _ _ _ _ HJ) as (L & Hf & Hg & Hh).
    destruct (isenc_rep _ _ _ _ HJ') as (L' & Hf' & Hg' & Hh').
    pose proof (storage_len_ge (c_ord c) n).
    assert (SL : (1 + m < storage_len (c_ord c) m)%nat).
    { rewrite storage_len_rs. destruct (Z.eqb_spec (c_ord c) 1); [contradiction|].
      pose proof (pos_bound m 0 0 ltac:(lia)). unfold pos in *. lia. }
    change 0 with (Z.of_nat 0). rewrite (get_h_rep _ _ _ _ 0%nat 0%nat HJ' No) by lia.
    rewrite (get_g_rep _ _ _ _ m HJ) by lia. rewrite hess_upper by lia.
    specialize (Hh' No 0%nat 0%nat ltac:(lia)). unfold pos in Hh'.
    replace (1 + m + rs m 0 + (0 - 0))%nat with (1 + m)%nat in Hh' by (cbn; lia).
    rewrite HK in Hh' by lia. destruct (Nat.ltb_spec (1 + m) (storage_len (c_ord c) n)); [|lia].
    specialize (Hg m ltac:(lia)). congruence.
  Qed.
End Ctor.

(** C06, non-empty data. *)
Lemma create_lengths {S} c (vs : list S) : cfg_ok c -> is_dynamic c = true -> c_exc c = true ->
  (1 <= List.length vs)%nat -> Z.of_nat (List.length vs) <= max_len ->
  (forall n, List.length vs = storage_len (c_ord c) n ->
     exists r, create c (full vs) = Ok r /\ size c r = Z.of_nat n /\ m_data r = full vs /\ wf c n r) /\
  ((forall n, List.length vs <> storage_len (c_ord c) n) -> create c (full vs) = Throw InvalidLength).
Proof.
  intros Hc D HE H1 HM.
  assert (HL : forall n, List.length vs = storage_len (c_ord c) n ->
     size_from_data_length c (Z.of_nat (List.length vs)) = Ok (Z.of_nat n)).
  { intros n E. rewrite E in *. apply size_from_length_ok; auto. }
  split.
  - intros n E. unfold create, len. rewrite D, full_length, (HL n E). cbn [bind]. eexists.
    split; [reflexivity|]. split; [unfold size; rewrite D; reflexivity|]. split; [reflexivity|].
    split; [unfold size; rewrite D; reflexivity|]. cbn [m_data]. unfold len. rewrite full_length.
    split; [exact E|]. split; [|exact HM]. intros k Hk.
    destruct (nth_error vs k) as [v|] eqn:EV; [|apply nth_error_None in EV; lia].
    exists v. apply nth_error_full, EV.
  - intros HN. unfold create, len. rewrite D, full_length.
    destruct (size_from_length_iff c (Z.of_nat (List.length vs)) HE ltac:(lia)) as [(n & EN & E)|(NE & E)].
    + exfalso. apply (HN n). lia.
    + rewrite E. reflexivity.
Qed.

(** C39: a static list constructor with the data of a smaller size leaves the rest unset; with the
    data of a larger size it writes past the array. *)
Lemma ctor_list_static_short {S} c n m (vs : list S) : cfg_ok c -> c_exc c = true -> c_tsize c = Z.of_nat n ->
  size_ok c n -> List.length vs = storage_len (c_ord c) m -> (m < n)%nat ->
  exists r, ctor_list c vs = Ok r /\ size c r = Z.of_nat n /\ (forall k, ~ wf c k r) /\
    rd (m_data r) (Z.of_nat (List.length vs)) = UB.
Proof.
  intros Hc HE HT SO HL Hmn. assert (D : is_dynamic c = false).
  { unfold is_dynamic. apply Z.eqb_neq. lia. }
  assert (LT : (storage_len (c_ord c) m < storage_len (c_ord c) n)%nat).
  { unfold storage_len. destruct (c_ord c =? 1); [lia|].
    apply Nat.lt_le_trans with (((m + 1) * (m + 2) / 2 + 1)%nat); [lia|].
    rewrite <- Nat.div_add by lia. apply Nat.div_le_mono; [lia|]. nia. }
  unfold ctor_list. rewrite D, HL, (size_from_length_ok c m HE) by (try (destruct SO as [_ SO]; lia); auto).
  cbn [bind]. set (d0 := array_uninit c).
  assert (HL0 : List.length d0 = storage_len (c_ord c) n).
  { unfold d0, array_uninit. rewrite repeat_length, (StaticDataSize_ok c n HT). lia. }
  edestruct (fun body => for_inv body (fun k (d : data S) => List.length d = List.length d0 /\
      forall i, (k <= i)%nat -> nth_error d i = nth_error d0 i) 0 (List.length vs) 0
        (Z.of_nat (storage_len (c_ord c) m)) d0)
    as (d & E & HLd & HI); [reflexivity|lia|lia| | |rewrite E; cbn [bind]].
  - split; reflexivity.
  - intros k d Hk (HLd & HI). cbn beta.
    destruct (nth_error vs k) as [v|] eqn:EV; [|apply nth_error_None in EV; lia].
    rewrite (rd_Some _ k _ v) by (try lia; apply nth_error_full, EV). cbn [bind].
    rewrite (wr_ok _ k) by lia. eexists. split; [reflexivity|].
    split; [rewrite upd_length; exact HLd|]. intros i Hi. rewrite nth_error_upd_ne by lia. apply HI. lia.
  - assert (EN : nth_error d (List.length vs) = Some None).
    { rewrite HI by lia. unfold d0, array_uninit. apply nth_error_repeat.
      rewrite (StaticDataSize_ok c n HT). lia. }
    eexists. split; [reflexivity|]. split; [unfold size; rewrite D; exact HT|]. split.
    + intros k (WS & WL & WF & _). cbn [m_data] in *. destruct (WF (List.length vs) ltac:(lia)) as (v & Ev).
      congruence.
    + rewrite HL in EN. unfold rd. cbn [m_data].
      destruct (Z.ltb_spec (Z.of_nat (storage_len (c_ord c) m)) 0); [lia|]. rewrite Nat2Z.id, EN. reflexivity.
Qed.

(** Witnesses against the unrestricted claims. *)
Lemma create_empty_witness : ~ (forall (S : Type) (c : cfg) (vs : list S), cfg_ok c -> is_dynamic c = true ->
  c_exc c = true -> Z.of_nat (List.length vs) <= max_len ->
  (forall n, List.length vs <> storage_len (c_ord c) n) -> create c (full vs) = Throw InvalidLength).
Proof.
  intros H. specialize (H Z dyn1 [] cfg_dyn1 eq_refl eq_refl ltac:(vm_compute; discriminate)).
  assert (E : create dyn1 (full ([] : list Z)) = Throw InvalidLength).
  { apply H. intros n. pose proof (storage_len_ge (c_ord dyn1) n). cbn [List.length]. lia. }
  vm_compute in E. discriminate.
Qed.
Lemma negative_witness : ~ (forall (S : Type) (O : Ops S) (c : cfg) (z : Z), cfg_ok c -> is_dynamic c = true ->
  c_exc c = true -> z < 0 -> exists e, zero_n O c z = Throw e).
Proof.
  intros H. destruct (H Z Zops dyn2 (-3) cfg_dyn2 eq_refl eq_refl eq_refl) as (e & E).
  vm_compute in E. discriminate.
Qed.
Lemma ctor_witness : ~ (forall (S : Type) (O : Ops S) (c : cfg) (f : S), cfg_ok c ->
  exists n r, ctor_scalar O c f = Ok r /\ wf c n r).
Proof.
  intros H. destruct (H Z Zops dyn2 5 cfg_dyn2) as (n & r & E & W).
  destruct (ctor_scalar_dynamic Zops dyn2 5 cfg_dyn2 eq_refl) as (r' & E' & _ & _ & N & _).
  rewrite E in E'. injection E' as ->. exact (N n W).
Qed.
Lemma ctor_list_witness : ~ (forall (S : Type) (c : cfg) (vs : list S), cfg_ok c -> c_exc c = true ->
  (1 <= List.length vs)%nat -> Z.of_nat (List.length vs) <= max_len ->
  (exists e, ctor_list c vs = Throw e) \/ (exists r n, ctor_list c vs = Ok r /\ wf c n r)).
Proof.
  intros H. destruct (H Z dyn2 [1; 2; 3] cfg_dyn2 eq_refl ltac:(cbn; lia) ltac:(vm_compute; discriminate))
    as [(e & E)|(r & n & E & _)]; vm_compute in E; discriminate.
Qed.
Lemma noexc_witness : ~ (forall (S : Type) (c : cfg) (vs : list S), cfg_ok c -> is_dynamic c = true ->
  c_exc c = false -> c_dbg c = true -> Z.of_nat (List.length vs) <= max_len ->
  (forall n, List.length vs = storage_len (c_ord c) n -> exists r, create c (full vs) = Ok r) /\
  ((forall n, List.length vs <> storage_len (c_ord c) n) -> create c (full vs) = Abort)).
Proof.
  intros H. destruct (H Z (noexc dyn1) [1; 2] ltac:(split; cbn; lia) eq_refl eq_refl eq_refl
    ltac:(vm_compute; discriminate)) as (H1 & _).
  destruct (H1 1%nat eq_refl) as (r & E). vm_compute in E. discriminate.
Qed.
Lemma resize_witness : ~ (forall (S : Type) (O : Ops S) (c : cfg) (n m : nat) (x : dd S) f g h, cfg_ok c ->
  is_dynamic c = true -> shows c n x f g h -> size_ok c m ->
  exists r, resize O c x (Z.of_nat m) = Ok r /\
    shows c m r f (fun i => if Nat.ltb i n then g i else o_Z O 0)
      (fun i j => if Nat.ltb i n && Nat.ltb j n then h i j else o_Z O 0)).
Proof.
  intros H. destruct (wf_rep _ _ _ wf_exa) as (J & HJ).
  destruct (H Z Zops dyn2 2%nat 1%nat exa _ _ _ cfg_dyn2 eq_refl (rep_shows _ _ _ _ HJ)) as (r & E & _ & _ & _ & Hh).
  { split; [discriminate|vm_compute; discriminate]. }
  pose proof (get_h_rep _ _ _ _ 0%nat 0%nat HJ ltac:(discriminate) ltac:(lia) ltac:(lia)) as E0.
  specialize (Hh eq_refl 0%nat 0%nat ltac:(lia) ltac:(lia)). vm_compute in E. injection E as <-.
  cbn [Nat.ltb Nat.leb andb] in Hh. rewrite <- E0 in Hh. vm_compute in Hh. discriminate.
Qed.
