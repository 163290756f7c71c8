(** Operators: size checks, memory safety, padding, in-place operators, comparisons, index checks. *)
From Coq Require Import ZArith List Bool Lia String.
From Verif Require Import Outcome Scalar Float64 Model Spec Core Kernels OpsRep AccRep PadRep FactsLayout Samples.
Import ListNotations.
Open Scope Z_scope.
Open Scope res_scope.

(** Loops with equal bodies on their range. *)
Lemma loop_ext {St} (b b' : Z -> St -> res St) : forall n lo s,
  (forall i s, lo <= i < lo + Z.of_nat n -> b i s = b' i s) -> loop n lo b s = loop n lo b' s.
Proof.
  induction n as [|n IH]; intros lo s H; cbn [loop]; [reflexivity|].
  rewrite H by lia. destruct (b' lo s); cbn [bind]; try reflexivity. apply IH. intros i t Hi. apply H. lia.
Qed.
Lemma for_ext {St} (b b' : Z -> St -> res St) lo hi s :
  (forall i s, lo <= i < hi -> b i s = b' i s) -> for_ lo hi b s = for_ lo hi b' s.
Proof. intros H. apply loop_ext. intros i t Hi. apply H. lia. Qed.

(** A loop whose body only ever succeeds or is undefined, and is undefined at index [k]. *)
Definition ok_ub {A} (m : res A) : Prop := (exists a, m = Ok a) \/ m = UB.
Lemma loop_ub {St} (b : Z -> St -> res St) k : forall n lo s, lo <= k < lo + Z.of_nat n ->
  (forall i s, ok_ub (b i s)) -> (forall s, b k s = UB) -> loop n lo b s = UB.
Proof.
  induction n as [|n IH]; intros lo s Hk Hb Hu; [lia|]. cbn [loop].
  destruct (Z.eq_dec lo k) as [->|Hn]; [rewrite Hu; reflexivity|].
  destruct (Hb lo s) as [(s1 & ->)| ->]; cbn [bind]; [|reflexivity]. apply IH; [lia|assumption|assumption].
Qed.
Lemma for_ub {St} (b : Z -> St -> res St) k lo hi s : lo <= k < hi ->
  (forall i s, ok_ub (b i s)) -> (forall s, b k s = UB) -> for_ lo hi b s = UB.
Proof. intros Hk. apply loop_ub. lia. Qed.
Lemma rd_ok_ub {S} (l : data S) i : ok_ub (rd l i).
Proof. unfold rd. destruct (i <? 0); [right; reflexivity|]. destruct (nth_error l _) as [[v|]|]; [left; eauto|right|right]; reflexivity. Qed.
Lemma wr_ok_ub {S} (l : data S) i v : ok_ub (wr l i v).
Proof. unfold wr. destruct (_ || _); [right; reflexivity|left; eauto]. Qed.
Lemma bind_ok_ub {A B} (m : res A) (k : A -> res B) : ok_ub m -> (forall a, ok_ub (k a)) -> ok_ub (bind m k).
Proof. intros [(a & ->)| ->] H; cbn [bind]; [apply H|right; reflexivity]. Qed.
Lemma bind_ub {A B} (m : res A) (k : A -> res B) : ok_ub m -> (forall a, k a = UB) -> bind m k = UB.
Proof. intros [(a & ->)| ->] H; cbn [bind]; [apply H|reflexivity]. Qed.
Lemma rd_beyond {S} (l : data S) i : len l <= i -> rd l i = UB.
Proof.
  intros H. unfold rd, len in *. destruct (i <? 0); [reflexivity|].
  rewrite (proj2 (nth_error_None l (Z.to_nat i))) by lia. reflexivity.
Qed.
Lemma rd_firstn {S} (l : data S) k i : i < Z.of_nat k -> rd (firstn k l) i = rd l i.
Proof.
  intros H. unfold rd. destruct (Z.ltb_spec i 0) as [|Hi]; [reflexivity|].
  assert (E : nth_error (firstn k l) (Z.to_nat i) = nth_error l (Z.to_nat i)); [|rewrite E; reflexivity].
  assert (Hk : (Z.to_nat i < k)%nat) by lia. clear H. revert Hk. generalize (Z.to_nat i). revert l.
  induction k as [|k IH]; intros l m Hm; [lia|]. destruct l as [|a l]; [destruct m; reflexivity|].
  destruct m as [|m]; [reflexivity|]. cbn. apply IH. lia.
Qed.

Section Facts.
  Context {S : Type} (O : Ops S) (c : cfg).
  Implicit Types (x y z : dd S).

  (** C11 *)
  Definition reject : res (dd S) := if c_exc c then Throw IncompatibleSize else Abort.
  Lemma check_rejects a b : is_dynamic c = true -> c_exc c = true \/ c_dbg c = true -> a <> b ->
    check_equal_size c a b = if c_exc c then Throw IncompatibleSize else Abort.
  Proof.
    intros D HB N. unfold check_equal_size, assert_. rewrite D.
    destruct (Z.eqb_spec a b); [contradiction|]. destruct (c_exc c); [reflexivity|].
    destruct HB as [|HB]; [discriminate|]. rewrite HB. reflexivity.
  Qed.
  Lemma mismatch_rejected x y z : is_dynamic c = true -> c_exc c = true \/ c_dbg c = true ->
    size c x <> size c y ->
    let bad := if c_exc c then Throw IncompatibleSize else Abort in
    add O c x y = bad /\ sub O c x y = bad /\ mul O c x y = bad /\ div O c x y = bad /\
    hypot O c x y = bad /\ hypot3 O c x y z = bad /\
    add_assign O c x (Some y) = bad /\ sub_assign O c x (Some y) = bad /\
    mul_assign O c x (Some y) = bad /\ div_assign O c x (Some y) = bad.
  Proof.
    intros D HB N bad. pose proof (check_rejects _ _ D HB N) as E.
    unfold add, sub, mul, div, hypot, hypot3, binary_op, add_assign, sub_assign, mul_assign, div_assign.
    cbn [ref_size]. rewrite E. unfold bad. destruct (c_exc c); cbn [bind]; repeat split.
  Qed.

  (** The gradient pass of [binary] and [ternary] reads past the end of a shorter operand. *)
  Lemma binary_short x (y : data S) f da db daa dab dbb r : cfg_ok c ->
    1 <= len y < data_length c x -> is_zero da && is_zero db = false ->
    binary O c false x (Some (m_data x)) (Some y) f da db daa dab dbb r = UB.
  Proof.
    intros Hc Hy Hz. unfold binary. apply bind_ub; [apply wr_ok_ub|]. intros r0. rewrite Hz.
    destruct (Z.ltb_spec (c_ord c) 1); [destruct Hc; lia|]. cbn [orb].
    rewrite (for_ub _ (len y)); [reflexivity|lia| |].
    - intros i s. apply bind_ok_ub; [apply rd_ok_ub|]. intros a. apply bind_ok_ub; [apply rd_ok_ub|].
      intros b. apply wr_ok_ub.
    - intros s. apply bind_ub; [apply rd_ok_ub|]. intros a. cbn [deref]. rewrite rd_beyond by lia. reflexivity.
  Qed.
  Lemma ternary_short x (y z : data S) f da db dc daa dab dac dbb dbc dcc r : cfg_ok c ->
    1 <= len z < data_length c x -> is_zero da && is_zero db && is_zero dc = false ->
    ternary O c false x (Some (m_data x)) (Some y) (Some z) f da db dc daa dab dac dbb dbc dcc r = UB.
  Proof.
    intros Hc Hy Hz. unfold ternary. apply bind_ub; [apply wr_ok_ub|]. intros r0. rewrite Hz.
    destruct (Z.ltb_spec (c_ord c) 1); [destruct Hc; lia|]. cbn [orb].
    rewrite (for_ub _ (len z)); [reflexivity|lia| |].
    - intros i s. apply bind_ok_ub; [apply rd_ok_ub|]. intros a. apply bind_ok_ub; [apply rd_ok_ub|].
      intros b. apply bind_ok_ub; [apply rd_ok_ub|]. intros d. apply wr_ok_ub.
    - intros s. apply bind_ub; [apply rd_ok_ub|]. intros a. apply bind_ub; [apply rd_ok_ub|]. intros b.
      cbn [deref]. rewrite rd_beyond by lia. reflexivity.
  Qed.

  Lemma storage_len_mono n m : (n < m)%nat -> (storage_len (c_ord c) n < storage_len (c_ord c) m)%nat.
  Proof.
    intros H. unfold storage_len. destruct (c_ord c =? 1); [lia|].
    apply Nat.lt_le_trans with (((n + 1) * (n + 2) / 2 + 1)%nat); [lia|].
    rewrite <- Nat.div_add by lia. apply Nat.div_le_mono; [lia|]. nia.
  Qed.

  Lemma wf_cut n m y : is_dynamic c = true -> wf c m y -> (n <= m)%nat ->
    wf c n (mk (Z.of_nat n) (firstn (storage_len (c_ord c) n) (m_data y))).
  Proof.
    intros D (_ & WL & WF & WM) H.
    assert (LE : (storage_len (c_ord c) n <= storage_len (c_ord c) m)%nat).
    { destruct (Nat.eq_dec n m) as [->|]; [lia|]. pose proof (storage_len_mono n m). lia. }
    split; [unfold size; rewrite D; reflexivity|]. cbn [m_data]. unfold len in *. rewrite firstn_length, Nat.min_l by lia.
    split; [reflexivity|]. split; [|lia]. intros k Hk.
    destruct (WF k ltac:(lia)) as (v & E). exists v. rewrite <- E.
    clear - Hk. revert k Hk. generalize (m_data y), (storage_len (c_ord c) n). clear.
    intros l a. revert l. induction a as [|a IH]; intros l k Hk; [lia|].
    destruct l as [|d l]; [destruct k; reflexivity|]. destruct k as [|k]; [reflexivity|]. cbn. apply IH. lia.
  Qed.

  Lemma binary_cut n x (y : data S) f da db daa dab dbb r :
    size c x = Z.of_nat n -> data_length c x = Z.of_nat (storage_len (c_ord c) n) ->
    binary O c false x (Some (m_data x)) (Some y) f da db daa dab dbb r =
    binary O c false x (Some (m_data x)) (Some (firstn (storage_len (c_ord c) n) y)) f da db daa dab dbb r.
  Proof.
    intros HS HL. pose proof (storage_len_ge (c_ord c) n) as GE.
    unfold binary. rewrite HS, HL. cbn [deref].
    destruct (wr r 0 f) as [r0| | |]; cbn [bind]; try reflexivity.
    destruct ((c_ord c <? 1) || (is_zero da && is_zero db)); [reflexivity|].
    match goal with |- bind (for_ ?l ?h ?b ?s) _ = bind (for_ _ _ ?b' _) _ => rewrite (for_ext b b' l h s) end.
    2: { intros i s Hi. rewrite rd_firstn by lia. reflexivity. }
    match goal with |- bind ?m _ = bind ?m _ => destruct m as [r1| | |]; cbn [bind]; try reflexivity end.
    match goal with |- (if ?b then _ else _) = _ => destruct b; [reflexivity|] end.
    match goal with |- bind (for_ ?l ?h ?b ?s) _ = bind (for_ _ _ ?b' _) _ => rewrite (for_ext b b' l h s); [reflexivity|] end.
    intros i (k, s) Hi. destruct (rd (m_data x) (1 + i)); cbn [bind]; try reflexivity.
    rewrite rd_firstn by lia. destruct (rd y (1 + i)); cbn [bind]; try reflexivity.
    apply for_ext. intros j (k', s') Hj. rewrite rd_firstn by lia. reflexivity.
  Qed.
  Lemma ternary_cut n x (y z : data S) f da db dc daa dab dac dbb dbc dcc r :
    size c x = Z.of_nat n -> data_length c x = Z.of_nat (storage_len (c_ord c) n) ->
    ternary O c false x (Some (m_data x)) (Some y) (Some z) f da db dc daa dab dac dbb dbc dcc r =
    ternary O c false x (Some (m_data x)) (Some y) (Some (firstn (storage_len (c_ord c) n) z)) f da db dc daa dab dac dbb dbc dcc r.
  Proof.
    intros HS HL. pose proof (storage_len_ge (c_ord c) n) as GE.
    unfold ternary. rewrite HS, HL. cbn [deref].
    destruct (wr r 0 f) as [r0| | |]; cbn [bind]; try reflexivity.
    match goal with |- (if ?b then _ else _) = _ => destruct b; [reflexivity|] end.
    match goal with |- bind (for_ ?l ?h ?b ?s) _ = bind (for_ _ _ ?b' _) _ => rewrite (for_ext b b' l h s) end.
    2: { intros i s Hi. rewrite rd_firstn by lia. reflexivity. }
    match goal with |- bind ?m _ = bind ?m _ => destruct m as [r1| | |]; cbn [bind]; try reflexivity end.
    match goal with |- (if ?b then _ else _) = _ => destruct b; [reflexivity|] end.
    match goal with |- bind (for_ ?l ?h ?b ?s) _ = bind (for_ _ _ ?b' _) _ => rewrite (for_ext b b' l h s); [reflexivity|] end.
    intros i (k, s) Hi. destruct (rd (m_data x) (1 + i)); cbn [bind]; try reflexivity.
    destruct (rd y (1 + i)); cbn [bind]; try reflexivity.
    rewrite rd_firstn by lia. destruct (rd z (1 + i)); cbn [bind]; try reflexivity.
    apply for_ext. intros j (k', s') Hj. rewrite rd_firstn by lia. reflexivity.
  Qed.

  Lemma atan2_mismatch n m x y : cfg_ok c -> is_dynamic c = true -> wf c n x -> wf c m y ->
    ((m < n)%nat -> atan2 O c x y = UB) /\
    ((n < m)%nat -> exists r, atan2 O c x y = Ok r /\ wf c n r /\
       atan2 O c x (mk (Z.of_nat n) (firstn (storage_len (c_ord c) n) (m_data y))) = Ok r).
  Proof.
    intros Hc D Wx Wy. destruct (wf_rep _ _ _ Wx) as (J & HJ). destruct (wf_rep _ _ _ Wy) as (K & HK).
    pose proof (data_length_rep _ _ _ _ HJ) as DL. split; intros Hnm.
    - unfold atan2, binary_op. rewrite (size_rep _ _ _ _ HJ).
      destruct (empty_n_ok O c n (rep_size_ok _ _ _ _ HJ)) as (r & E & _). rewrite E. cbn [bind].
      rewrite (get_f_rep _ _ _ _ HJ), (get_f_rep _ _ _ _ HK). cbn [bind k_atan2].
      rewrite binary_short; [reflexivity|exact Hc| |reflexivity].
      rewrite DL, (len_rep _ _ _ _ HK). pose proof (storage_len_mono m n Hnm).
      pose proof (storage_len_ge (c_ord c) m). lia.
    - pose proof (wf_cut n m y D Wy ltac:(lia)) as Wc. destruct (wf_rep _ _ _ Wc) as (K' & HK').
      destruct (apply_b_rep O c Hc n J K' _ _ Batan2 HJ HK') as (r & E & R). exists r.
      assert (EQ : atan2 O c x y = atan2 O c x (mk (Z.of_nat n) (firstn (storage_len (c_ord c) n) (m_data y)))).
      { unfold atan2, binary_op. cbn [m_data]. destruct (empty_n O c (size c x)); cbn [bind]; try reflexivity.
        destruct (get_f x); cbn [bind]; try reflexivity.
        unfold get_f. cbn [m_data]. rewrite rd_firstn by (pose proof (storage_len_ge (c_ord c) n); lia).
        destruct (rd (m_data y) 0); cbn [bind k_atan2]; try reflexivity.
        rewrite (binary_cut n) by (try exact DL; apply HJ). reflexivity. }
      cbn [apply_b] in E. rewrite EQ. split; [exact E|]. split; [eapply rep_wf, R|exact E].
  Qed.
  Lemma hypot3_mismatch n m x y z : cfg_ok c -> is_dynamic c = true -> wf c n x -> wf c n y -> wf c m z ->
    ((m < n)%nat -> hypot3 O c x y z = UB) /\
    ((n < m)%nat -> exists r, hypot3 O c x y z = Ok r /\ wf c n r /\
       hypot3 O c x y (mk (Z.of_nat n) (firstn (storage_len (c_ord c) n) (m_data z))) = Ok r).
  Proof.
    intros Hc D Wx Wy Wz. destruct (wf_rep _ _ _ Wx) as (J & HJ). destruct (wf_rep _ _ _ Wy) as (K & HK).
    destruct (wf_rep _ _ _ Wz) as (L & HL).
    pose proof (data_length_rep _ _ _ _ HJ) as DL. split; intros Hnm.
    - unfold hypot3. rewrite (size_rep _ _ _ _ HJ), (size_rep _ _ _ _ HK), check_equal_size_ok. cbn [bind].
      destruct (empty_n_ok O c n (rep_size_ok _ _ _ _ HJ)) as (r & E & _). rewrite E. cbn [bind].
      rewrite (get_f_rep _ _ _ _ HJ), (get_f_rep _ _ _ _ HK), (get_f_rep _ _ _ _ HL). cbn [bind].
      rewrite ternary_short; [reflexivity|exact Hc| |reflexivity].
      rewrite DL, (len_rep _ _ _ _ HL). pose proof (storage_len_mono m n Hnm).
      pose proof (storage_len_ge (c_ord c) m). lia.
    - pose proof (wf_cut n m z D Wz ltac:(lia)) as Wc. destruct (wf_rep _ _ _ Wc) as (L' & HL').
      destruct (hypot3_rep O c Hc n J K L' _ _ _ HJ HK HL') as (r & E & R). exists r.
      assert (EQ : hypot3 O c x y z = hypot3 O c x y (mk (Z.of_nat n) (firstn (storage_len (c_ord c) n) (m_data z)))).
      { unfold hypot3. cbn [m_data]. destruct (check_equal_size c (size c x) (size c y)); cbn [bind]; try reflexivity.
        destruct (empty_n O c (size c x)); cbn [bind]; try reflexivity.
        destruct (get_f x); cbn [bind]; try reflexivity. destruct (get_f y); cbn [bind]; try reflexivity.
        unfold get_f. cbn [m_data]. rewrite rd_firstn by (pose proof (storage_len_ge (c_ord c) n); lia).
        destruct (rd (m_data z) 0); cbn [bind]; try reflexivity.
        rewrite (ternary_cut n) by (try exact DL; apply HJ). reflexivity. }
      rewrite EQ. split; [exact E|]. split; [eapply rep_wf, R|exact E].
  Qed.

  (** C12 *)
  Lemma unary_safe n x u : cfg_ok c -> wf c n x -> exists r, apply_u O c u x = Ok r /\ wf c n r.
  Proof.
    intros Hc W. destruct (wf_rep _ _ _ W) as (J & HJ).
    destruct (apply_u_rep O c Hc n J x u HJ) as (r & E & R). exists r. split; [exact E|eapply rep_wf, R].
  Qed.
  Lemma binary_safe n x y b : cfg_ok c -> wf c n x -> wf c n y ->
    exists r, apply_b O c b x y = Ok r /\ wf c n r.
  Proof.
    intros Hc W W'. destruct (wf_rep _ _ _ W) as (J & HJ). destruct (wf_rep _ _ _ W') as (K & HK).
    destruct (apply_b_rep O c Hc n J K x y b HJ HK) as (r & E & R). exists r. split; [exact E|eapply rep_wf, R].
  Qed.
  Lemma hypot3_safe n x y z : cfg_ok c -> wf c n x -> wf c n y -> wf c n z ->
    exists r, hypot3 O c x y z = Ok r /\ wf c n r.
  Proof.
    intros Hc W W' W''. destruct (wf_rep _ _ _ W) as (J & HJ). destruct (wf_rep _ _ _ W') as (K & HK).
    destruct (wf_rep _ _ _ W'') as (L & HL).
    destruct (hypot3_rep O c Hc n J K L x y z HJ HK HL) as (r & E & R). exists r. split; [exact E|eapply rep_wf, R].
  Qed.
  Definition safe n (m : res (dd S)) : Prop := exists r, m = Ok r /\ wf c n r.
  Lemma safe_rep n (m : res (dd S)) (J : jet S) : (exists r, m = Ok r /\ rep c n J r) -> exists r, m = Ok r /\ wf c n r.
  Proof. intros (r & E & R). exists r. split; [exact E|eapply rep_wf, R]. Qed.
  Lemma assign_safe n x y : cfg_ok c -> wf c n x -> wf c n y ->
    forall b, b = Some y \/ b = None ->
    (exists r, add_assign O c x b = Ok r /\ wf c n r) /\ (exists r, sub_assign O c x b = Ok r /\ wf c n r) /\
    (exists r, mul_assign O c x b = Ok r /\ wf c n r) /\ (exists r, div_assign O c x b = Ok r /\ wf c n r).
  Proof.
    intros Hc W W' b Hb. destruct (wf_rep _ _ _ W) as (J & HJ). destruct (wf_rep _ _ _ W') as (K & HK).
    destruct Hb as [->| ->]; repeat split; eapply safe_rep.
    - apply (add_assign_rep O c n J K x y HJ HK).
    - apply (sub_assign_rep O c n J K x y HJ HK).
    - apply (mul_assign_rep O c n J K x y HJ HK).
    - apply (div_assign_rep O c Hc n J K x y HJ HK).
    - apply (add_assign_self O c n J x HJ).
    - apply (sub_assign_self O c n J x HJ).
    - apply (mul_assign_self O c n J x HJ).
    - apply (div_assign_self O c Hc n J x HJ).
  Qed.
  Lemma scalar_assign_safe n x (s : S) : wf c n x ->
    (exists r, adds_assign O x (SVal s) = Ok r /\ wf c n r) /\ (exists r, subs_assign O x (SVal s) = Ok r /\ wf c n r) /\
    (exists r, muls_assign O x (SVal s) = Ok r /\ wf c n r) /\ (exists r, divs_assign O x (SVal s) = Ok r /\ wf c n r).
  Proof.
    intros W. destruct (wf_rep _ _ _ W) as (J & HJ). repeat split; eapply safe_rep.
    - apply (adds_assign_rep O c n J x s HJ).
    - apply (subs_assign_rep O c n J x s HJ).
    - apply (muls_assign_rep O c n J x s HJ).
    - apply (divs_assign_rep O c n J x s HJ).
  Qed.

  (** C13, C14 *)
  Lemma pad_right_shows n m x f g h : cfg_ok c -> is_dynamic c = true -> shows c n x f g h -> (n <= m)%nat ->
    size_ok c m ->
    exists r, pad_right O c x (Z.of_nat m) = Ok r /\
      shows c m r f (fun i => if Nat.ltb i n then g i else o_Z O 0)
        (fun i j => if Nat.ltb i n && Nat.ltb j n then h i j else o_Z O 0).
  Proof.
    intros Hc D HS Hnm SO. pose proof (shows_rep _ _ _ _ _ _ Hc HS) as HJ.
    destruct (pad_right_rep O c n m _ x HJ Hnm SO) as (r & E & R). exists r. split; [exact E|].
    destruct HS as (W & _ & _ & Hh).
    eapply shows_ext; [apply rep_shows, R|reflexivity| |].
    - intros i Hi. reflexivity.
    - intros Ho i j Hi Hj. unfold hess, jpadr. cbn [jh].
      destruct (Nat.ltb_spec i n), (Nat.ltb_spec j n); cbn [andb].
      + rewrite (proj2 (Nat.ltb_lt (Nat.max i j) n)) by lia.
        rewrite ?(proj2 (Nat.ltb_lt (Nat.min i j) n)) by lia. cbn [andb].
        destruct (Nat.le_ge_cases i j).
        * rewrite Nat.min_l, Nat.max_r by lia. reflexivity.
        * rewrite Nat.min_r, Nat.max_l by lia.
          pose proof (get_h_rep _ _ _ _ i j HJ ltac:(lia) ltac:(lia) ltac:(lia)) as E1.
          rewrite Hh in E1 by (try exact Ho; lia). injection E1 as E1. rewrite E1. unfold hess. cbn [jh].
          rewrite Nat.min_r, Nat.max_l by lia. reflexivity.
      + destruct (Nat.ltb_spec (Nat.max i j) n); [lia|]. rewrite ?andb_false_r. reflexivity.
      + destruct (Nat.ltb_spec (Nat.max i j) n); [lia|]. rewrite ?andb_false_r. reflexivity.
      + destruct (Nat.ltb_spec (Nat.max i j) n); [lia|]. rewrite ?andb_false_r. reflexivity.
  Qed.
  Lemma pad_left_shows n m x f g h : cfg_ok c -> is_dynamic c = true -> shows c n x f g h -> (n <= m)%nat ->
    size_ok c m ->
    exists r, pad_left O c x (Z.of_nat m) = Ok r /\
      shows c m r f (fun i => if Nat.leb (m - n) i then g (i - (m - n))%nat else o_Z O 0)
        (fun i j => if Nat.leb (m - n) i && Nat.leb (m - n) j then h (i - (m - n))%nat (j - (m - n))%nat
                    else o_Z O 0).
  Proof.
    intros Hc D HS Hnm SO. pose proof (shows_rep _ _ _ _ _ _ Hc HS) as HJ.
    destruct (pad_left_rep O c n m _ x HJ Hnm SO) as (r & E & R). exists r. split; [exact E|].
    destruct HS as (W & _ & _ & Hh).
    eapply shows_ext; [apply rep_shows, R|reflexivity| |].
    - intros i Hi. unfold jpadl. cbn [jg].
      destruct (Nat.ltb_spec i (m - n)), (Nat.leb_spec (m - n) i); try lia; reflexivity.
    - intros Ho i j Hi Hj. unfold hess, jpadl. cbn [jh].
      destruct (Nat.leb_spec (m - n) i), (Nat.leb_spec (m - n) j); cbn [andb].
      + destruct (Nat.ltb_spec (Nat.min i j) (m - n)); [lia|].
        destruct (Nat.le_ge_cases i j).
        * rewrite Nat.min_l, Nat.max_r by lia. reflexivity.
        * rewrite Nat.min_r, Nat.max_l by lia.
          pose proof (get_h_rep _ _ _ _ (i - (m - n))%nat (j - (m - n))%nat HJ ltac:(lia) ltac:(lia) ltac:(lia)) as E1.
          rewrite Hh in E1 by (try exact Ho; lia). injection E1 as E1. rewrite E1. unfold hess. cbn [jh].
          rewrite Nat.min_r, Nat.max_l by lia. reflexivity.
      + destruct (Nat.ltb_spec (Nat.min i j) (m - n)); [reflexivity|lia].
      + destruct (Nat.ltb_spec (Nat.min i j) (m - n)); [reflexivity|lia].
      + destruct (Nat.ltb_spec (Nat.min i j) (m - n)); [reflexivity|lia].
  Qed.
  Lemma pad_shrink n m x : is_dynamic c = true -> wf c n x -> (m < n)%nat ->
    pad_right O c x (Z.of_nat m) = UB /\ pad_left O c x (Z.of_nat m) = UB.
  Proof.
    intros D W H. destruct (wf_rep _ _ _ W) as (J & HJ). split.
    - eapply pad_right_shrink; eassumption.
    - eapply pad_left_shrink; eassumption.
  Qed.

  (** C20 *)
  Lemma rep_same n (J K : jet S) x y : rep c n J x -> rep c n K y -> jeq (c_ord c) n J K ->
    size c x = size c y /\ m_data x = m_data y.
  Proof.
    intros HJ HK E. pose proof (rep_jeq _ _ _ _ _ E HJ) as HJ'. destruct HJ' as (-> & -> & _).
    destruct HK as (-> & -> & _). split; reflexivity.
  Qed.
  Lemma agree_rep n (J K : jet S) m m' : (exists r, m = Ok r /\ rep c n J r) -> (exists r, m' = Ok r /\ rep c n K r) ->
    jeq (c_ord c) n J K -> agree c m m'.
  Proof.
    intros (r & E & R) (r' & E' & R') H. exists r, r'. split; [exact E|]. split; [exact E'|].
    eapply rep_same; eassumption.
  Qed.
  Lemma add_assign_agrees n x y : cfg_ok c -> wf c n x -> wf c n y ->
    agree c (add_assign O c x (Some y)) (add O c x y).
  Proof.
    intros Hc W W'. destruct (wf_rep _ _ _ W) as (J & HJ). destruct (wf_rep _ _ _ W') as (K & HK).
    eapply agree_rep; [apply (add_assign_rep O c n J K x y HJ HK)|apply (apply_b_rep O c Hc n J K x y Badd HJ HK)|].
    split; [reflexivity|]. split; reflexivity.
  Qed.
  Lemma sub_assign_agrees n x y : (forall a b, o_sub O a b = o_add O a (o_neg O b)) -> cfg_ok c -> wf c n x -> wf c n y ->
    agree c (sub_assign O c x (Some y)) (sub O c x y).
  Proof.
    intros L Hc W W'. destruct (wf_rep _ _ _ W) as (J & HJ). destruct (wf_rep _ _ _ W') as (K & HK).
    eapply agree_rep; [apply (sub_assign_rep O c n J K x y HJ HK)|apply (apply_b_rep O c Hc n J K x y Bsub HJ HK)|].
    split; [reflexivity|]. split.
    - intros i Hi. cbn. apply L.
    - intros Ho i j Hi. cbn. apply L.
  Qed.
  Lemma mul_assign_agrees n x y : (forall a b, o_add O a b = o_add O b a) -> (forall a b, o_mul O a b = o_mul O b a) ->
    cfg_ok c -> wf c n x -> wf c n y ->
    agree c (mul_assign O c x (Some y)) (mul O c x y).
  Proof.
    intros LA LM Hc W W'. destruct (wf_rep _ _ _ W) as (J & HJ). destruct (wf_rep _ _ _ W') as (K & HK).
    eapply agree_rep; [apply (mul_assign_rep O c n J K x y HJ HK)|apply (apply_b_rep O c Hc n J K x y Bmul HJ HK)|].
    split; [reflexivity|]. split.
    - intros i Hi. reflexivity.
    - intros Ho i j Hi. cbn. f_equal. rewrite LA. f_equal. apply LM.
  Qed.
  Lemma scalar_assign_agrees n x (s : S) : wf c n x ->
    agree c (adds_assign O x (SVal s)) (adds O x s) /\ agree c (muls_assign O x (SVal s)) (muls O c x s) /\
    agree c (divs_assign O x (SVal s)) (divs O c x s) /\
    ((forall a b, o_sub O a b = o_add O a (o_neg O b)) -> agree c (subs_assign O x (SVal s)) (subs O x s)).
  Proof.
    intros W. destruct (wf_rep _ _ _ W) as (J & HJ). repeat split.
    - eapply agree_rep; [apply (adds_assign_rep O c n J x s HJ)|apply (adds_rep O c n J x s HJ)|apply jeq_refl].
    - eapply agree_rep; [apply (muls_assign_rep O c n J x s HJ)|apply (muls_rep O c n J x s HJ)|apply jeq_refl].
    - eapply agree_rep; [apply (divs_assign_rep O c n J x s HJ)|apply (muls_rep O c n J x _ HJ)|apply jeq_refl].
    - intros L. eapply agree_rep; [apply (subs_assign_rep O c n J x s HJ)|apply (adds_rep O c n J x (o_neg O s) HJ)|].
      split; [cbn; apply L|]. split; reflexivity.
  Qed.

  (** C22 *)
  Lemma compare_values x y a b o : get_f x = Ok a -> get_f y = Ok b ->
    compare O o x y = Ok (scmp O o a b) /\ compare_s O o x b = Ok (scmp O o a b) /\
    ((forall u v, o_eq O u v = o_eq O v u) -> s_compare O o a y = Ok (scmp O o a b)).
  Proof.
    intros Hx Hy. unfold compare, s_compare, compare_s. rewrite Hx, Hy. cbn [bind].
    split; [reflexivity|]. split; [reflexivity|]. intros L. destruct o; cbn [scmp]; try reflexivity.
    - f_equal. apply L.
    - f_equal. f_equal. apply L.
  Qed.

  (** C40 *)
  Lemma index_asserted n x i : c_dbg c = true -> wf c n x -> ~ (0 <= i < Z.of_nat n) ->
    get_g c x i = Abort /\
    (Z.of_nat n <= i -> get_g_mut c x i = Abort /\ forall v, set_g c x i v = Abort) /\
    (forall j, get_h c x i j = Abort /\ forall v, set_h c x i j v = Abort) /\
    (forall j, 0 <= j < Z.of_nat n -> get_h c x j i = Abort /\ forall v, set_h c x j i v = Abort).
  Proof.
    intros D W Hi. destruct W as (HS & _).
    assert (B : (0 <=? i) && (i <? Z.of_nat n) = false).
    { destruct (Z.leb_spec 0 i), (Z.ltb_spec i (Z.of_nat n)); try reflexivity. lia. }
    assert (AF : assert_ c ((0 <=? i) && (i <? Z.of_nat n)) = Abort) by (unfold assert_; rewrite D, B; reflexivity).
    split; [unfold get_g; rewrite HS, AF; reflexivity|]. split; [|split].
    - intros Hn. unfold get_g_mut, set_g. rewrite HS. unfold assert_. rewrite D.
      destruct (Z.ltb_spec i (Z.of_nat n)); [lia|]. split; reflexivity.
    - intros j. unfold get_h, set_h, idx_h. rewrite HS, AF. split; reflexivity.
    - intros j Hj. unfold get_h, set_h, idx_h. rewrite HS, AF.
      assert (BT : assert_ c ((0 <=? j) && (j <? Z.of_nat n)) = Ok tt).
      { unfold assert_. rewrite D. destruct (Z.leb_spec 0 j), (Z.ltb_spec j (Z.of_nat n)); try lia. reflexivity. }
      rewrite BT. split; reflexivity.
  Qed.
  Lemma flat_index_asserted n x k : c_dbg c = true -> c_ord c = 2 -> wf c n x ->
    ~ (0 <= k < Z.of_nat (n * (n + 1) / 2)) ->
    get_h1 c x k = Abort /\ forall v, set_h1 c x k v = Abort.
  Proof.
    intros D Ho W Hk. destruct W as (HS & WL & _ & WM).
    assert (HB : (Z.of_nat n + 1) * (Z.of_nat n + 2) < 2 ^ 63).
    { unfold len, max_len, storage_len in *. rewrite Ho in WL. cbn [Z.eqb Pos.eqb] in WL. rewrite WL in WM.
      rewrite <- quot_tri in WM. rewrite Z.quot_div_nonneg in WM by nia.
      assert ((Z.of_nat n + 1) * (Z.of_nat n + 2) < 2 * (2 ^ 60 - 1) + 2); [|lia].
      apply Z.nle_gt. intros HN. apply Z.div_le_mono with (c := 2) in HN; [|lia].
      replace ((2 * (2 ^ 60 - 1) + 2) / 2) with (2 ^ 60) in HN by reflexivity. lia. }
    assert (E : idx_h1 c x k = Abort); [|unfold get_h1, set_h1; rewrite E; split; reflexivity].
    unfold idx_h1. rewrite D, HS. rewrite ck_ok by nia. cbn [bind]. rewrite ck_ok by nia. cbn [bind].
    unfold assert_. rewrite D.
    assert (Q : Z.quot (Z.of_nat n * (Z.of_nat n + 1)) 2 = Z.of_nat (n * (n + 1) / 2)).
    { rewrite Z.quot_div_nonneg by nia. rewrite Nat2Z.inj_div, Nat2Z.inj_mul, Nat2Z.inj_add. reflexivity. }
    rewrite Q. destruct (Z.leb_spec 0 k), (Z.ltb_spec k (Z.of_nat (n * (n + 1) / 2))); try reflexivity. lia.
  Qed.
  (** Negative index through the mutable overload: [-1] is the value cell. *)
  Lemma mutable_negative n x v : wf c n x ->
    get_g_mut c x (-1) = get_f x /\ set_g c x (-1) v = set_f x v.
  Proof.
    intros (HS & _). unfold get_g_mut, set_g, get_f, set_f, assert_. rewrite HS.
    destruct (Z.ltb_spec (-1) (Z.of_nat n)); [|lia]. cbn [negb]. rewrite andb_false_r. split; reflexivity.
  Qed.
  (** Release builds: a gradient index equal to the size reads the first Hessian entry. *)
  Lemma release_reads_neighbour n x : c_dbg c = false -> c_ord c = 2 -> wf c n x -> (1 <= n)%nat ->
    get_g c x (Z.of_nat n) = get_h c x 0 0.
  Proof.
    intros D Ho W Hn. destruct (wf_rep _ _ _ W) as (J & HJ).
    change 0 with (Z.of_nat 0). rewrite (get_h_rep _ _ _ _ 0%nat 0%nat HJ) by lia.
    unfold get_g, assert_. rewrite D. cbn [andb bind].
    pose proof (size_bound _ _ (rep_size_ok _ _ _ _ HJ)). unfold max_len in *. rewrite ck_ok by lia. cbn [bind].
    destruct (isenc_rep _ _ _ _ HJ) as (_ & _ & _ & Hh).
    apply (rd_Some _ (pos n 0 0)); [rewrite pos_start; lia|]. apply Hh; lia.
  Qed.
  (** A first-order number has no Hessian cells: the accessor reads past the storage, in debug
      builds too. *)
  Lemma first_order_hessian n x : c_ord c = 1 -> wf c n x -> (1 <= n)%nat ->
    get_h c x 0 0 = UB /\ forall v, set_h c x 0 0 v = UB.
  Proof.
    intros Ho W Hn. destruct W as (HS & WL & _ & WM). unfold storage_len in WL. rewrite Ho in WL. cbn in WL.
    unfold len, max_len in WM. rewrite WL in WM.
    assert (E : idx_h c x 0 0 = Ok (1 + Z.of_nat n)).
    { unfold idx_h, assert_. rewrite HS. destruct (Z.ltb_spec 0 (Z.of_nat n)); [|lia].
      cbn [Z.leb Z.compare andb negb]. rewrite andb_false_r. cbn [bind].
      destruct (Z.ltb_spec 0 0); [lia|]. unfold idx_tri. repeat (rewrite ck_ok by lia; cbn [bind]).
      replace ((2 * Z.of_nat n - 1 - 0) * 0) with 0 by ring. change (Z.quot 0 2) with 0.
      repeat (rewrite ck_ok by lia; cbn [bind]). f_equal. lia. }
    unfold get_h, set_h. rewrite E. cbn [bind]. split.
    - apply rd_beyond. unfold len. lia.
    - intros v. unfold wr. destruct (Z.leb_spec (Z.of_nat (List.length (m_data x))) (1 + Z.of_nat n)); [|lia].
      rewrite orb_true_r. reflexivity.
  Qed.
  Lemma eval_short n x (d : list S) : wf c n x -> (List.length d < n)%nat -> eval O c x d = UB.
  Proof.
    intros W Hd. destruct (wf_rep _ _ _ W) as (J & HJ). unfold eval.
    rewrite (get_f_rep _ _ _ _ HJ), (size_rep _ _ _ _ HJ). cbn [bind].
    unfold for_. replace (Z.to_nat (Z.of_nat n - 0)) with n by lia.
    assert (G : forall k r, (k <= n)%nat -> (List.length d < n)%nat -> (n - k <= List.length d)%nat ->
      loop k (Z.of_nat (n - k)) (fun i r => v <- rd (full d) i ;; g <- get_g c x i ;; Ok (o_add O r (o_mul O v g))) r = UB).
    { induction k as [|k IH]; intros r Hk Hl Hk2; [lia|]. cbn [loop].
      destruct (Nat.eq_dec (n - Datatypes.S k) (List.length d)) as [E|E].
      - rewrite rd_beyond; [reflexivity|]. unfold len. rewrite full_length. lia.
      - rewrite (rd_full _ _ (o_Z O 0)) by lia. cbn [bind]. rewrite (get_g_rep _ _ _ _ _ HJ) by lia. cbn [bind].
        replace (Z.of_nat (n - Datatypes.S k) + 1) with (Z.of_nat (n - k)) by lia. apply IH; lia. }
    specialize (G n (jf J) ltac:(lia) Hd ltac:(lia)). replace (n - n)%nat with 0%nat in G by lia.
    change (Z.of_nat 0) with 0 in G. rewrite G. reflexivity.
  Qed.
End Facts.


(** Witnesses. *)
Lemma atan2_witness : ~ (forall (S : Type) (O : Ops S) (c : cfg) (n m : nat) (x y : dd S), cfg_ok c ->
  is_dynamic c = true -> c_exc c = true -> wf c n x -> wf c m y -> n <> m ->
  atan2 O c x y = Throw IncompatibleSize).
Proof.
  intros H. specialize (H Z Zops dyn2 2%nat 3%nat exa ex3 cfg_dyn2 eq_refl eq_refl wf_exa wf_ex3 ltac:(lia)).
  vm_compute in H. discriminate.
Qed.
Lemma hypot3_witness : ~ (forall (S : Type) (O : Ops S) (c : cfg) (n m : nat) (x y z : dd S), cfg_ok c ->
  is_dynamic c = true -> c_exc c = true -> wf c n x -> wf c n y -> wf c m z -> n <> m ->
  hypot3 O c x y z = Throw IncompatibleSize).
Proof.
  intros H. specialize (H Z Zops dyn2 2%nat 3%nat exa exb ex3 cfg_dyn2 eq_refl eq_refl wf_exa wf_exb wf_ex3 ltac:(lia)).
  vm_compute in H. discriminate.
Qed.
Lemma pad_witness : ~ (forall (S : Type) (O : Ops S) (c : cfg) (n m : nat) (x : dd S), cfg_ok c ->
  is_dynamic c = true -> c_exc c = true -> wf c n x -> (m < n)%nat ->
  (exists e, pad_right O c x (Z.of_nat m) = Throw e) /\ (exists e, pad_left O c x (Z.of_nat m) = Throw e)).
Proof.
  intros H. destruct (H Z Zops dyn2 3%nat 2%nat ex3 cfg_dyn2 eq_refl eq_refl wf_ex3 ltac:(lia)) as ((e & E) & _).
  vm_compute in E. discriminate.
Qed.
Lemma index_witness : ~ (forall (S : Type) (c : cfg) (n : nat) (x : dd S) (i : Z) (v : S), cfg_ok c ->
  c_dbg c = true -> wf c n x -> ~ (0 <= i < Z.of_nat n) ->
  set_g c x i v = Abort \/ exists e, set_g c x i v = Throw e).
Proof.
  intros H. destruct (H Z dyn2 2%nat exa (-1) 99 cfg_dyn2 eq_refl wf_exa ltac:(lia)) as [E|(e & E)];
    vm_compute in E; discriminate.
Qed.
Lemma release_witness : ~ (forall (S : Type) (c : cfg) (n : nat) (x : dd S) (i : Z), cfg_ok c ->
  wf c n x -> ~ (0 <= i < Z.of_nat n) -> get_g c x i = Abort \/ exists e, get_g c x i = Throw e).
Proof.
  intros H. destruct (H Z (rel dyn2) 2%nat exa 2 ltac:(split; cbn; lia) ltac:(apply wf_exa) ltac:(lia)) as [E|(e & E)];
    vm_compute in E; discriminate.
Qed.
