(** Padding, resize and eval on well-formed numbers; any scalar type. *)
From Coq Require Import ZArith List Bool Lia.
From Verif Require Import Outcome Scalar Model Spec Core Kernels OpsRep AccRep.
Import ListNotations.
Open Scope Z_scope.
Open Scope res_scope.
Ltac Zify.zify_post_hook ::= Z.div_mod_to_equations.

Section Pad.
  Context {S : Type} (O : Ops S) (c : cfg).
  Hypothesis Hcfg : cfg_ok c.
  Implicit Types (J K L : jet S) (x y : dd S).

  (** Target contents. *)
  Definition jpadr n J : jet S :=
    mkjet (jf J) (fun i => if Nat.ltb i n then jg J i else o_Z O 0)
      (fun i j => if Nat.ltb j n then jh J i j else o_Z O 0).
  Definition jpadl h J : jet S :=
    mkjet (jf J) (fun i => if Nat.ltb i h then o_Z O 0 else jg J (i - h))
      (fun i j => if Nat.ltb i h then o_Z O 0 else jh J (i - h) (j - h)).

  (** Sequential filling: everything before position [t] already has its target value. *)
  Definition Pfill (M : nat) (tgt : nat -> S) (s t : nat) (st : Z * Z * data S) : Prop :=
    let '(zs, zt, r) := st in
    zs = Z.of_nat s /\ zt = Z.of_nat t /\ List.length r = M /\
    forall k, (k < t)%nat -> nth_error r k = Some (Some (tgt k)).

  Lemma fill_wr M tgt t (r : data S) : (t < M)%nat -> List.length r = M ->
    (forall k, (k < t)%nat -> nth_error r k = Some (Some (tgt k))) ->
    wr r (Z.of_nat t) (tgt t) = Ok (upd r t (tgt t)) /\
    List.length (upd r t (tgt t)) = M /\
    (forall k, (k < 1 + t)%nat -> nth_error (upd r t (tgt t)) k = Some (Some (tgt k))).
  Proof.
    intros Ht HL Hr. split; [apply wr_ok; [reflexivity|lia]|].
    split; [rewrite upd_length; exact HL|]. intros k Hk.
    destruct (Nat.eq_dec k t) as [->|]; [apply nth_error_upd_eq; lia|].
    rewrite nth_error_upd_ne by lia. apply Hr; lia.
  Qed.

  Lemma copy1_ok M tgt src s t st : Pfill M tgt s t st -> (t < M)%nat ->
    nth_error src s = Some (Some (tgt t)) ->
    exists st', copy1 src st = Ok st' /\ Pfill M tgt (1 + s) (1 + t) st'.
  Proof.
    destruct st as [[zs zt] r]. intros (-> & -> & HL & Hr) Ht Hs. unfold copy1.
    rewrite (rd_Some _ _ _ _ eq_refl Hs). cbn [bind].
    destruct (fill_wr M tgt t r Ht HL Hr) as (E & HL' & Hr'). rewrite E. cbn [bind].
    eexists. split; [reflexivity|]. split; [lia|]. split; [lia|]. auto.
  Qed.

  Lemma zero1_ok M tgt s t st : Pfill M tgt s t st -> (t < M)%nat -> tgt t = o_Z O 0 ->
    exists st', zero1 O st = Ok st' /\ Pfill M tgt s (1 + t) st'.
  Proof.
    destruct st as [[zs zt] r]. intros (-> & -> & HL & Hr) Ht Hz. unfold zero1.
    destruct (fill_wr M tgt t r Ht HL Hr) as (E & HL' & Hr'). rewrite <- Hz, E. cbn [bind].
    eexists. split; [reflexivity|]. split; [lia|]. split; [lia|]. auto.
  Qed.

  (** Runs of copies and zeros. *)
  Lemma copy_run M tgt src s t st lo hi zlo zhi :
    zlo = Z.of_nat lo -> zhi = Z.of_nat hi -> (lo <= hi)%nat ->
    Pfill M tgt s t st -> (t + (hi - lo) <= M)%nat ->
    (forall k, (k < hi - lo)%nat -> nth_error src (s + k) = Some (Some (tgt (t + k)%nat))) ->
    exists st', for_ zlo zhi (fun _ => copy1 src) st = Ok st' /\
      Pfill M tgt (s + (hi - lo)) (t + (hi - lo)) st'.
  Proof.
    intros -> -> Hle HP HM Hs.
    destruct (for_inv (fun _ => copy1 src) (fun i => Pfill M tgt (s + (i - lo)) (t + (i - lo)))
                lo hi (Z.of_nat lo) (Z.of_nat hi) st eq_refl eq_refl Hle) as (st' & E & H).
    - replace (s + (lo - lo))%nat with s by lia. replace (t + (lo - lo))%nat with t by lia. exact HP.
    - intros i st' Hi HP'. destruct (copy1_ok M tgt src _ _ st' HP') as (st2 & E2 & H2).
      + lia.
      + apply Hs. lia.
      + exists st2. split; [exact E2|].
        replace (s + (1 + i - lo))%nat with (1 + (s + (i - lo)))%nat by lia.
        replace (t + (1 + i - lo))%nat with (1 + (t + (i - lo)))%nat by lia. exact H2.
    - eauto.
  Qed.

  Lemma zero_run M tgt s t st lo hi zlo zhi :
    zlo = Z.of_nat lo -> zhi = Z.of_nat hi -> (lo <= hi)%nat ->
    Pfill M tgt s t st -> (t + (hi - lo) <= M)%nat ->
    (forall k, (k < hi - lo)%nat -> tgt (t + k)%nat = o_Z O 0) ->
    exists st', for_ zlo zhi (fun _ => zero1 O) st = Ok st' /\ Pfill M tgt s (t + (hi - lo)) st'.
  Proof.
    intros -> -> Hle HP HM Hs.
    destruct (for_inv (fun _ => zero1 O) (fun i => Pfill M tgt s (t + (i - lo)))
                lo hi (Z.of_nat lo) (Z.of_nat hi) st eq_refl eq_refl Hle) as (st' & E & H).
    - replace (t + (lo - lo))%nat with t by lia. exact HP.
    - intros i st' Hi HP'. destruct (zero1_ok M tgt _ _ st' HP') as (st2 & E2 & H2).
      + lia.
      + apply Hs. lia.
      + exists st2. split; [exact E2|].
        replace (t + (1 + i - lo))%nat with (1 + (t + (i - lo)))%nat by lia. exact H2.
    - eauto.
  Qed.

  Lemma fill_done n J' s st (r : dd S) : size_ok c n -> size c r = Z.of_nat n ->
    Pfill (storage_len (c_ord c) n) (fun k => nth k (enc (c_ord c) n J') (jf J'))
      s (storage_len (c_ord c) n) st ->
    exists r', (let '(_, _, d) := st in Ok (mk (m_size r) d)) = Ok r' /\ rep c n J' r'.
  Proof.
    destruct st as [[zs zt] d]. intros SO HS (_ & _ & HL & Hd).
    eexists. split; [reflexivity|]. apply rep_intro; [exact SO|exact HS|]. cbn [m_data].
    apply isenc_iff. apply nth_error_ext; [rewrite HL, full_length, enc_length; reflexivity|].
    intros k Hk. rewrite Hd by lia. symmetry. apply enc_at. lia.
  Qed.

  Lemma pos_add n i j k : (i <= j)%nat -> pos n i (j + k) = (pos n i j + k)%nat.
  Proof. unfold pos. lia. Qed.

  Lemma order2_len n : c_ord c <> 1 -> storage_len (c_ord c) n = (1 + n + rs n n)%nat.
  Proof. intros Ho. rewrite storage_len_rs. destruct (Z.eqb_spec (c_ord c) 1); [contradiction|reflexivity]. Qed.
  Lemma order1_len n : c_ord c = 1 -> storage_len (c_ord c) n = (1 + n)%nat.
  Proof. intros Ho. rewrite storage_len_rs, Ho. reflexivity. Qed.
  Lemma pos_end n : pos n n n = (1 + n + rs n n)%nat.
  Proof. unfold pos. lia. Qed.
  Lemma pos_start n : pos n 0 0 = (1 + n)%nat.
  Proof. unfold pos. cbn [rs]. lia. Qed.

  Lemma pad_right_rep n m J x : rep c n J x -> (n <= m)%nat -> size_ok c m ->
    exists r, pad_right O c x (Z.of_nat m) = Ok r /\ rep c m (jpadr n J) r.
  Proof.
    intros H Hnm SO. destruct (empty_n_ok O c m SO) as (r & E & HS & HL).
    pose proof (size_bound c m SO) as SB. unfold max_len in SB.
    pose proof (storage_len_ge (c_ord c) m) as GE.
    unfold pad_right. rewrite E. cbn [bind]. rewrite (size_rep _ _ _ _ H).
    rewrite ck_ok by lia. cbn [bind].
    replace (Z.of_nat m - Z.of_nat n) with (Z.of_nat (m - n)) by lia.
    set (tgt := fun k => nth k (enc (c_ord c) m (jpadr n J)) (jf (jpadr n J))).
    set (M := storage_len (c_ord c) m) in *.
    destruct (isenc_rep _ _ _ _ H) as (Lx & Hf & Hg & Hh).
    assert (T0 : tgt 0%nat = jf J) by reflexivity.
    assert (Tg : forall i, (i < m)%nat -> tgt (1 + i)%nat = jg (jpadr n J) i)
      by (intros i Hi; unfold tgt; apply nth_enc_g, Hi).
    assert (Th : c_ord c <> 1 -> forall i j, (i <= j < m)%nat -> tgt (pos m i j) = jh (jpadr n J) i j)
      by (intros Ho i j Hij; unfold tgt; apply nth_enc_h; assumption).
    (* value and gradient *)
    destruct (copy_run M tgt (m_data x) 0 0 (0, 0, m_data r) 0 (n + 1) 0 (Z.of_nat n + 1))
      as (st1 & E1 & H1); [reflexivity|lia|lia| |unfold M; lia| |].
    1:{ split; [reflexivity|]. split; [reflexivity|]. split; [exact HL|]. intros k Hk; lia. }
    1:{ intros [|k] Hk; cbn [plus]; [rewrite T0; exact Hf|].
        change (Datatypes.S k) with (1 + k)%nat. rewrite Hg, Tg by lia. cbn [jpadr jg].
        destruct (Nat.ltb_spec k n); [reflexivity|lia]. }
    rewrite E1. cbn [bind].
    destruct (zero_run M tgt _ _ st1 0 (m - n) 0 (Z.of_nat (m - n)) eq_refl eq_refl ltac:(lia) H1)
      as (st2 & E2 & H2).
    { unfold M. lia. }
    { intros k Hk. replace (0 + (n + 1 - 0) + k)%nat with (1 + (n + k))%nat by lia.
      rewrite Tg by lia. cbn [jpadr jg]. destruct (Nat.ltb_spec (n + k) n); [lia|reflexivity]. }
    rewrite E2. cbn [bind].
    replace (0 + (n + 1 - 0))%nat with (1 + n)%nat in H2 by lia.
    replace (1 + n + (m - n - 0))%nat with (1 + m)%nat in H2 by lia.
    destruct (Z.eqb_spec (c_ord c) 1) as [Ho|Ho].
    { destruct st2 as [[zs zt] d].
      apply (fill_done m (jpadr n J) (1 + n) (zs, zt, d) r SO HS).
      fold M. fold tgt. replace (1 + m)%nat with M in H2 by (apply order1_len, Ho). exact H2. }
    pose proof (order2_len m Ho) as OM. fold M in OM.
    (* Hessian rows *)
    edestruct (fun body => for_inv body (fun i => Pfill M tgt (pos n i i) (pos m i i))
                 0%nat n 0 (Z.of_nat n) st2) as (st3 & E3 & H3);
      [reflexivity|reflexivity|lia| | |rewrite E3; cbn [bind]].
    { rewrite !pos_start. exact H2. }
    { intros i st Hi HP. cbn beta.
      pose proof (pos_bound m i (m - 1) ltac:(lia)) as PB.
      assert (PE : pos m i (m - 1) = (pos m i i + (m - 1 - i))%nat)
        by (rewrite <- pos_add by lia; f_equal; lia).
      destruct (copy_run M tgt (m_data x) (pos n i i) (pos m i i) st i n (Z.of_nat i) (Z.of_nat n)
                  eq_refl eq_refl ltac:(lia) HP) as (st' & E' & HP').
      { lia. }
      { intros k Hk. rewrite <- !pos_add by lia. rewrite Hh, Th by (try exact Ho; lia).
        cbn [jpadr jh]. destruct (Nat.ltb_spec (i + k) n); [reflexivity|lia]. }
      rewrite E'. cbn [bind].
      destruct (zero_run M tgt _ _ st' 0 (m - n) 0 (Z.of_nat (m - n)) eq_refl eq_refl ltac:(lia) HP')
        as (st'' & E'' & HP'').
      { lia. }
      { intros k Hk. replace (pos m i i + (n - i) + k)%nat with (pos m i (n + k))
          by (rewrite pos_add by lia; unfold pos; lia).
        rewrite Th by (try exact Ho; lia). cbn [jpadr jh].
        destruct (Nat.ltb_spec (n + k) n); [lia|reflexivity]. }
      exists st''. split; [exact E''|].
      replace (pos n (1 + i) (1 + i)) with (pos n i i + (n - i))%nat
        by (rewrite <- pos_next_row by lia; unfold pos; lia).
      replace (pos m (1 + i) (1 + i)) with (pos m i i + (n - i) + (m - n - 0))%nat
        by (rewrite <- pos_next_row by lia; unfold pos; lia).
      exact HP''. }
    edestruct (fun body => for_inv body (fun i => Pfill M tgt (pos n n n) (pos m (n + i) (n + i)))
                 0%nat (m - n)%nat 0 (Z.of_nat (m - n)) st3) as (st4 & E4 & H4);
      [reflexivity|reflexivity|lia| | |rewrite E4; cbn [bind]].
    { rewrite Nat.add_0_r. exact H3. }
    { intros i st Hi HP. cbn beta.
      pose proof (pos_bound m (n + i) (m - 1) ltac:(lia)) as PB.
      assert (PE : pos m (n + i) (m - 1) = (pos m (n + i) (n + i) + (m - 1 - (n + i)))%nat)
        by (rewrite <- pos_add by lia; f_equal; lia).
      destruct (zero_run M tgt _ _ st i (m - n) (Z.of_nat i) (Z.of_nat (m - n)) eq_refl eq_refl
                  ltac:(lia) HP) as (st'' & E'' & HP'').
      { lia. }
      { intros k Hk. rewrite <- pos_add by lia. rewrite Th by (try exact Ho; lia). cbn [jpadr jh].
        destruct (Nat.ltb_spec (n + i + k) n); [lia|reflexivity]. }
      exists st''. split; [exact E''|].
      replace (n + (1 + i))%nat with (1 + (n + i))%nat by lia.
      replace (pos m (1 + (n + i)) (1 + (n + i))) with (pos m (n + i) (n + i) + (m - n - i))%nat
        by (rewrite <- pos_next_row by lia; unfold pos; lia).
      exact HP''. }
    replace (n + (m - n))%nat with m in H4 by lia. rewrite (pos_end m), <- OM in H4.
    destruct st4 as [[zs zt] d]. apply (fill_done m (jpadr n J) _ (zs, zt, d) r SO HS H4).
  Qed.

  Lemma pad_left_rep n m J x : rep c n J x -> (n <= m)%nat -> size_ok c m ->
    exists r, pad_left O c x (Z.of_nat m) = Ok r /\ rep c m (jpadl (m - n) J) r.
  Proof.
    intros H Hnm SO. destruct (empty_n_ok O c m SO) as (r & E & HS & HL).
    pose proof (size_bound c m SO) as SB. unfold max_len in SB.
    pose proof (storage_len_ge (c_ord c) m) as GE.
    unfold pad_left. rewrite E. cbn [bind]. rewrite (size_rep _ _ _ _ H).
    rewrite ck_ok by lia. cbn [bind].
    replace (Z.of_nat m - Z.of_nat n) with (Z.of_nat (m - n)) by lia.
    set (h := (m - n)%nat) in *.
    set (tgt := fun k => nth k (enc (c_ord c) m (jpadl h J)) (jf (jpadl h J))).
    set (M := storage_len (c_ord c) m) in *.
    destruct (isenc_rep _ _ _ _ H) as (Lx & Hf & Hg & Hh).
    assert (T0 : tgt 0%nat = jf J) by reflexivity.
    assert (Tg : forall i, (i < m)%nat -> tgt (1 + i)%nat = jg (jpadl h J) i)
      by (intros i Hi; unfold tgt; apply nth_enc_g, Hi).
    assert (Th : c_ord c <> 1 -> forall i j, (i <= j < m)%nat -> tgt (pos m i j) = jh (jpadl h J) i j)
      by (intros Ho i j Hij; unfold tgt; apply nth_enc_h; assumption).
    destruct (copy1_ok M tgt (m_data x) 0 0 (0, 0, m_data r)) as (st0 & E0 & H0).
    { split; [reflexivity|]. split; [reflexivity|]. split; [exact HL|]. intros k Hk; lia. }
    { lia. }
    { rewrite T0. exact Hf. }
    rewrite E0. cbn [bind].
    destruct (zero_run M tgt _ _ st0 0 h 0 (Z.of_nat h) eq_refl eq_refl ltac:(lia) H0)
      as (st1 & E1 & H1).
    { lia. }
    { intros k Hk. replace (1 + 0 + k)%nat with (1 + k)%nat by lia. rewrite Tg by lia. cbn [jpadl jg].
      destruct (Nat.ltb_spec k h); [reflexivity|lia]. }
    rewrite E1. cbn [bind].
    destruct (copy_run M tgt (m_data x) _ _ st1 0 n 0 (Z.of_nat n) eq_refl eq_refl ltac:(lia) H1)
      as (st2 & E2 & H2).
    { lia. }
    { intros k Hk. replace (1 + 0 + k)%nat with (1 + k)%nat by lia.
      replace (1 + 0 + (h - 0) + k)%nat with (1 + (h + k))%nat by lia.
      rewrite Hg, Tg by lia. cbn [jpadl jg]. destruct (Nat.ltb_spec (h + k) h); [lia|].
      do 3 f_equal. lia. }
    rewrite E2. cbn [bind].
    replace (1 + 0 + (n - 0))%nat with (1 + n)%nat in H2 by lia.
    replace (1 + 0 + (h - 0) + (n - 0))%nat with (1 + m)%nat in H2 by lia.
    destruct (Z.eqb_spec (c_ord c) 1) as [Ho|Ho].
    { destruct st2 as [[zs zt] d].
      apply (fill_done m (jpadl h J) (1 + n) (zs, zt, d) r SO HS).
      fold M. fold tgt. replace (1 + m)%nat with M in H2 by (apply order1_len, Ho). exact H2. }
    pose proof (order2_len m Ho) as OM. fold M in OM.
    edestruct (fun body => for_inv body (fun i => Pfill M tgt (1 + n) (pos m i i))
                 0%nat h 0 (Z.of_nat h) st2) as (st3 & E3 & H3);
      [reflexivity|reflexivity|lia| | |rewrite E3; cbn [bind]].
    { rewrite pos_start. exact H2. }
    { intros i st Hi HP. cbn beta.
      pose proof (pos_bound m i (m - 1) ltac:(lia)) as PB.
      assert (PE : pos m i (m - 1) = (pos m i i + (m - 1 - i))%nat)
        by (rewrite <- pos_add by lia; f_equal; lia).
      destruct (zero_run M tgt _ _ st i m (Z.of_nat i) (Z.of_nat m) eq_refl eq_refl
                  ltac:(lia) HP) as (st'' & E'' & HP'').
      { lia. }
      { intros k Hk. rewrite <- pos_add by lia. rewrite Th by (try exact Ho; lia). cbn [jpadl jh].
        destruct (Nat.ltb_spec i h); [reflexivity|lia]. }
      exists st''. split; [exact E''|].
      replace (pos m (1 + i) (1 + i)) with (pos m i i + (m - i))%nat
        by (rewrite <- pos_next_row by lia; unfold pos; lia).
      exact HP''. }
    edestruct (fun body => for_inv body (fun i => Pfill M tgt (pos n i i) (pos m (h + i) (h + i)))
                 0%nat n 0 (Z.of_nat n) st3) as (st4 & E4 & H4);
      [reflexivity|reflexivity|lia| | |rewrite E4; cbn [bind]].
    { rewrite Nat.add_0_r, pos_start. exact H3. }
    { intros i st Hi HP. cbn beta.
      pose proof (pos_bound m (h + i) (m - 1) ltac:(lia)) as PB.
      assert (PE : pos m (h + i) (m - 1) = (pos m (h + i) (h + i) + (m - 1 - (h + i)))%nat)
        by (rewrite <- pos_add by lia; f_equal; lia).
      destruct (copy_run M tgt (m_data x) _ _ st i n (Z.of_nat i) (Z.of_nat n)
                  eq_refl eq_refl ltac:(lia) HP) as (st' & E' & HP').
      { lia. }
      { intros k Hk. rewrite <- !pos_add by lia. rewrite Hh, Th by (try exact Ho; lia).
        cbn [jpadl jh]. destruct (Nat.ltb_spec (h + i) h); [lia|]. do 2 f_equal. f_equal; lia. }
      exists st'. split; [exact E'|].
      replace (pos n (1 + i) (1 + i)) with (pos n i i + (n - i))%nat
        by (rewrite <- pos_next_row by lia; unfold pos; lia).
      replace (h + (1 + i))%nat with (1 + (h + i))%nat by lia.
      replace (pos m (1 + (h + i)) (1 + (h + i))) with (pos m (h + i) (h + i) + (n - i))%nat
        by (rewrite <- pos_next_row by lia; unfold pos; lia).
      exact HP'. }
    replace (h + n)%nat with m in H4 by lia. rewrite (pos_end m), <- OM in H4.
    destruct st4 as [[zs zt] d]. apply (fill_done m (jpadl h J) _ (zs, zt, d) r SO HS H4).
  Qed.

  (** *** Shrinking: every path ends in an out-of-bounds write. *)
  Definition okub {A} (m : res A) (P : A -> Prop) : Prop :=
    match m with Ok a => P a | UB => True | _ => False end.

  Lemma okub_bind {A B} (m : res A) (k : A -> res B) P Q :
    okub m P -> (forall a, P a -> okub (k a) Q) -> okub (bind m k) Q.
  Proof. destruct m; cbn; auto; contradiction. Qed.

  Lemma okub_loop {St} (body : Z -> St -> res St) (P : nat -> St -> Prop) : forall n lo s,
    P lo s ->
    (forall i s, (lo <= i < lo + n)%nat -> P i s -> okub (body (Z.of_nat i) s) (P (1 + i)%nat)) ->
    okub (loop n (Z.of_nat lo) body s) (P (lo + n)%nat).
  Proof.
    induction n as [|n IH]; intros lo s H0 Hs; cbn [loop].
    - cbn. rewrite Nat.add_0_r. exact H0.
    - eapply okub_bind; [apply (Hs lo s); [lia|exact H0]|].
      intros s' H'. replace (Z.of_nat lo + 1) with (Z.of_nat (1 + lo)) by lia.
      replace (lo + Datatypes.S n)%nat with (1 + lo + n)%nat by lia. apply IH; [exact H'|].
      intros i s2 Hi. apply Hs. lia.
  Qed.

  Lemma okub_for {St} (body : Z -> St -> res St) (P : nat -> St -> Prop) lo hi zlo zhi s :
    zlo = Z.of_nat lo -> zhi = Z.of_nat hi -> (lo <= hi)%nat -> P lo s ->
    (forall i s, (lo <= i < hi)%nat -> P i s -> okub (body (Z.of_nat i) s) (P (1 + i)%nat)) ->
    okub (for_ zlo zhi body s) (P hi).
  Proof.
    intros -> -> Hle H0 Hs. unfold for_.
    replace (Z.to_nat (Z.of_nat hi - Z.of_nat lo)) with (hi - lo)%nat by lia.
    replace hi with (lo + (hi - lo))%nat at 2 by lia. apply okub_loop; [exact H0|].
    intros i s' Hi. apply Hs. lia.
  Qed.

  (** Number of cells written so far. *)
  Definition Pcount (M t : nat) (st : Z * Z * data S) : Prop :=
    let '(_, zt, r) := st in zt = Z.of_nat t /\ List.length r = M /\ (t <= M)%nat.

  Lemma rd_okub (l : data S) i : okub (rd l i) (fun _ => True).
  Proof. unfold rd. destruct (i <? 0); cbn; auto. destruct (nth_error _ _) as [[|]|]; cbn; auto. Qed.
  Lemma wr_okub M t (l : data S) v : List.length l = M ->
    okub (wr l (Z.of_nat t) v) (fun l' => List.length l' = M /\ (1 + t <= M)%nat).
  Proof.
    intros HL. unfold wr. destruct (Z.ltb_spec (Z.of_nat t) 0); cbn; auto.
    destruct (Z.leb_spec (Z.of_nat (List.length l)) (Z.of_nat t)); cbn; auto.
    rewrite upd_length. lia.
  Qed.
  Lemma copy1_count M t src st : Pcount M t st -> okub (copy1 src st) (Pcount M (1 + t)).
  Proof.
    destruct st as [[s zt] r]. intros (-> & HL & Ht). unfold copy1.
    eapply okub_bind; [apply rd_okub|]. intros v _.
    eapply okub_bind; [apply (wr_okub M t r v HL)|]. intros r' (HL' & Ht'). cbn. lia.
  Qed.
  Lemma zero1_count M t st : Pcount M t st -> okub (zero1 O st) (Pcount M (1 + t)).
  Proof.
    destruct st as [[s zt] r]. intros (-> & HL & Ht). unfold zero1.
    eapply okub_bind; [apply (wr_okub M t r _ HL)|]. intros r' (HL' & Ht'). cbn. lia.
  Qed.
  Lemma copy_run_count M t src st lo hi zlo zhi : zlo = Z.of_nat lo -> zhi = Z.of_nat hi -> (lo <= hi)%nat ->
    Pcount M t st -> okub (for_ zlo zhi (fun _ => copy1 src) st) (Pcount M (t + (hi - lo))).
  Proof.
    intros Hlo Hhi Hle HP.
    apply (okub_for _ (fun i => Pcount M (t + (i - lo))) lo hi); try assumption.
    - replace (t + (lo - lo))%nat with t by lia. exact HP.
    - intros i s Hi Hs. replace (t + (1 + i - lo))%nat with (1 + (t + (i - lo)))%nat by lia.
      apply copy1_count, Hs.
  Qed.

  Lemma pad_right_shrink n m J x : is_dynamic c = true -> rep c n J x -> (m < n)%nat ->
    pad_right O c x (Z.of_nat m) = UB.
  Proof.
    intros D H Hmn. pose proof (rep_size_ok _ _ _ _ H) as SO.
    assert (HSL : (storage_len (c_ord c) m < storage_len (c_ord c) n)%nat).
    { rewrite !storage_len_rs. destruct (c_ord c =? 1); [lia|].
      pose proof (rs_closed n n ltac:(lia)). pose proof (rs_closed m m ltac:(lia)). nia. }
    assert (SOm : size_ok c m).
    { split; [congruence|]. destruct SO as [_ SO]. lia. }
    destruct (empty_n_ok O c m SOm) as (r & E & HS & HL).
    pose proof (size_bound c n SO) as SB. unfold max_len in SB.
    unfold pad_right. rewrite E. cbn [bind]. rewrite (size_rep _ _ _ _ H).
    rewrite ck_ok by lia. cbn [bind].
    set (M := storage_len (c_ord c) m) in *.
    enough (HG : okub (
      st <- for_ 0 (Z.of_nat n + 1) (fun _ => copy1 (m_data x)) (0, 0, m_data r);;
      st0 <- for_ 0 (Z.of_nat m - Z.of_nat n) (fun _ => zero1 O) st;;
      (if c_ord c =? 1 then Ok st0 else
       st1 <- for_ 0 (Z.of_nat n) (fun i st1 =>
          st2 <- for_ i (Z.of_nat n) (fun _ => copy1 (m_data x)) st1;;
          for_ 0 (Z.of_nat m - Z.of_nat n) (fun _ => zero1 O) st2) st0;;
       for_ 0 (Z.of_nat m - Z.of_nat n) (fun i => for_ i (Z.of_nat m - Z.of_nat n) (fun _ => zero1 O)) st1))
      (Pcount M (storage_len (c_ord c) n))).
    { match type of HG with okub ?b _ => destruct b as [st| | |] eqn:EB end.
      - exfalso. destruct st as [[zs zt] d]. destruct HG as (_ & _ & HG). lia.
      - destruct HG.
      - destruct HG.
      - revert EB.
        destruct (for_ 0 (Z.of_nat n + 1) (fun _ => copy1 (m_data x)) (0, 0, m_data r)) as [st| | |];
          cbn [bind]; try congruence.
        destruct (for_ 0 (Z.of_nat m - Z.of_nat n) (fun _ => zero1 O) st) as [st0| | |];
          cbn [bind]; try congruence.
        destruct (c_ord c =? 1); [discriminate|].
        match goal with |- bind ?a _ = _ -> _ => destruct a as [st1| | |] end; cbn [bind]; try congruence.
        intros ->. reflexivity. }
    eapply okub_bind.
    { apply (copy_run_count M 0 (m_data x) _ 0 (n + 1)); [reflexivity|lia|lia|].
      cbn. lia. }
    intros st1 H1. rewrite for_empty by lia. cbn [bind].
    destruct (Z.eqb_spec (c_ord c) 1) as [Ho|Ho].
    { cbn. rewrite (order1_len n Ho). replace (1 + n)%nat with (0 + (n + 1 - 0))%nat by lia. exact H1. }
    eapply okub_bind.
    { apply (okub_for _ (fun i => Pcount M (pos n i i)) 0 n); [reflexivity|reflexivity|lia| |].
      - rewrite pos_start. replace (1 + n)%nat with (0 + (n + 1 - 0))%nat by lia. exact H1.
      - intros i st Hi HP. cbn beta.
        eapply okub_bind; [apply (copy_run_count M (pos n i i) (m_data x) st i n); [reflexivity|reflexivity|lia|exact HP]|].
        intros st' HP'. rewrite for_empty by lia. cbn [okub].
        replace (pos n (1 + i) (1 + i)) with (pos n i i + (n - i))%nat
          by (rewrite <- pos_next_row by lia; unfold pos; lia). exact HP'. }
    intros st2 H2. rewrite for_empty by lia. cbn [okub]. rewrite (order2_len n Ho), <- pos_end. exact H2.
  Qed.

  Lemma pad_left_shrink n m J x : is_dynamic c = true -> rep c n J x -> (m < n)%nat ->
    pad_left O c x (Z.of_nat m) = UB.
  Proof.
    intros D H Hmn. pose proof (rep_size_ok _ _ _ _ H) as SO.
    assert (HSL : (storage_len (c_ord c) m < storage_len (c_ord c) n)%nat).
    { rewrite !storage_len_rs. destruct (c_ord c =? 1); [lia|].
      pose proof (rs_closed n n ltac:(lia)). pose proof (rs_closed m m ltac:(lia)). nia. }
    assert (SOm : size_ok c m).
    { split; [congruence|]. destruct SO as [_ SO]. lia. }
    destruct (empty_n_ok O c m SOm) as (r & E & HS & HL).
    pose proof (size_bound c n SO) as SB. unfold max_len in SB.
    unfold pad_left. rewrite E. cbn [bind]. rewrite (size_rep _ _ _ _ H).
    rewrite ck_ok by lia. cbn [bind].
    set (M := storage_len (c_ord c) m) in *.
    enough (HG : okub (
      st <- copy1 (m_data x) (0, 0, m_data r);;
      st0 <- for_ 0 (Z.of_nat m - Z.of_nat n) (fun _ => zero1 O) st;;
      st1 <- for_ 0 (Z.of_nat n) (fun _ => copy1 (m_data x)) st0;;
      (if c_ord c =? 1 then Ok st1 else
       st2 <- for_ 0 (Z.of_nat m - Z.of_nat n) (fun i => for_ i (Z.of_nat m) (fun _ => zero1 O)) st1;;
       for_ 0 (Z.of_nat n) (fun i => for_ i (Z.of_nat n) (fun _ => copy1 (m_data x))) st2))
      (Pcount M (storage_len (c_ord c) n))).
    { match type of HG with okub ?b _ => destruct b as [st| | |] eqn:EB end.
      - exfalso. destruct st as [[zs zt] d]. destruct HG as (_ & _ & HG). lia.
      - destruct HG.
      - destruct HG.
      - revert EB.
        destruct (copy1 (m_data x) (0, 0, m_data r)) as [st| | |]; cbn [bind]; try congruence.
        destruct (for_ 0 (Z.of_nat m - Z.of_nat n) (fun _ => zero1 O) st) as [st0| | |];
          cbn [bind]; try congruence.
        destruct (for_ 0 (Z.of_nat n) (fun _ => copy1 (m_data x)) st0) as [st1| | |];
          cbn [bind]; try congruence.
        destruct (c_ord c =? 1); [discriminate|].
        match goal with |- bind ?a _ = _ -> _ => destruct a as [st2| | |] end; cbn [bind]; try congruence.
        intros ->. reflexivity. }
    eapply okub_bind.
    { apply (copy1_count M 0). cbn. lia. }
    intros st1 H1. rewrite for_empty by lia. cbn [bind].
    eapply okub_bind.
    { apply (copy_run_count M (1 + 0) (m_data x) _ 0 n); [reflexivity|reflexivity|lia|exact H1]. }
    intros st2 H2. replace (1 + 0 + (n - 0))%nat with (1 + n)%nat in H2 by lia.
    destruct (Z.eqb_spec (c_ord c) 1) as [Ho|Ho].
    { cbn. rewrite (order1_len n Ho). exact H2. }
    rewrite for_empty by lia. cbn [bind].
    rewrite (order2_len n Ho), <- pos_end.
    apply (okub_for _ (fun i => Pcount M (pos n i i)) 0 n); [reflexivity|reflexivity|lia| |].
    - rewrite pos_start. exact H2.
    - intros i st Hi HP.
      replace (pos n (1 + i) (1 + i)) with (pos n i i + (n - i))%nat
          by (rewrite <- pos_next_row by lia; unfold pos; lia).
      apply (copy_run_count M (pos n i i) (m_data x) st i n); [reflexivity|reflexivity|lia|exact HP].
  Qed.

  (** *** resize *)
  Lemma resize_data n m J x : is_dynamic c = true -> rep c n J x -> size_ok c m ->
    exists r, resize O c x (Z.of_nat m) = Ok r /\ wf c m r /\
      (forall k, (k < storage_len (c_ord c) m)%nat ->
        nth_error (m_data r) k =
        if Nat.ltb k (storage_len (c_ord c) n) then nth_error (m_data x) k
        else Some (Some (o_Z O 0))).
  Proof.
    intros D H SO. pose proof (rep_length _ _ _ _ H) as L.
    unfold resize. rewrite data_length_from_size_ok by exact SO. cbn [bind].
    unfold vec_resize.
    destruct (Z.ltb_spec (Z.of_nat (storage_len (c_ord c) m)) 0); [lia|].
    destruct (Z.ltb_spec max_len (Z.of_nat (storage_len (c_ord c) m))); [destruct SO; lia|].
    cbn [orb bind]. rewrite Nat2Z.id. set (M := storage_len (c_ord c) m) in *.
    eexists. split; [reflexivity|].
    assert (HK : forall k, (k < M)%nat ->
      nth_error (firstn M (m_data x) ++ repeat (Some (o_Z O 0)) (M - List.length (m_data x))) k =
      (if Nat.ltb k (storage_len (c_ord c) n) then nth_error (m_data x) k else Some (Some (o_Z O 0)))).
    { intros k Hk. rewrite L. destruct (Nat.ltb_spec k (storage_len (c_ord c) n)) as [Hlt|Hge].
      - rewrite nth_error_app1 by (rewrite firstn_length; lia).
        clear - Hk. revert k Hk. generalize M. generalize (m_data x).
        induction d as [|a d IH]; intros [|M'] [|k] Hk; cbn; try lia; try reflexivity.
        apply IH. lia.
      - rewrite nth_error_app2 by (rewrite firstn_length; lia).
        apply nth_error_repeat. rewrite firstn_length. lia. }
    assert (HLen : List.length (firstn M (m_data x) ++ repeat (Some (o_Z O 0)) (M - List.length (m_data x))) = M)
      by (rewrite app_length, firstn_length, repeat_length; lia).
    split; [|exact HK].
    split; [unfold size; rewrite D; reflexivity|]. cbn [m_data]. split; [exact HLen|].
    split; [|unfold len; rewrite HLen; apply SO].
    intros k Hk. rewrite HLen in Hk. rewrite HK by exact Hk.
    destruct (Nat.ltb_spec k (storage_len (c_ord c) n)); [|eauto].
    destruct (rep_wf _ _ _ _ H) as (_ & _ & HF & _). apply HF. lia.
  Qed.

  (** *** eval *)
  Definition sum_g n J (d : list S) : S :=
    fold_left (fun r i => o_add O r (o_mul O (nth i d (o_Z O 0)) (jg J i))) (seq 0 n) (jf J).
  Definition row_sum n J (d : list S) (i : nat) : S :=
    fold_left (fun s j => o_add O s (o_mul O (nth j d (o_Z O 0)) (hess J i j))) (seq 0 n) (o_Z O 0).
  Definition quad n J (d : list S) : S :=
    fold_left (fun t i => o_add O t (o_mul O (nth i d (o_Z O 0)) (row_sum n J d i))) (seq 0 n) (o_Z O 0).
  Definition eval_spec n J (d : list S) : S :=
    if c_ord c =? 1 then sum_g n J d
    else o_add O (sum_g n J d) (o_mul O (o_half O) (quad n J d)).

  Lemma seq_S_last lo n : seq lo (Datatypes.S n) = seq lo n ++ [(lo + n)%nat].
  Proof. apply seq_S. Qed.

  Lemma eval_rep n J x d : rep c n J x -> (n <= List.length d)%nat ->
    eval O c x d = Ok (eval_spec n J d).
  Proof.
    intros H Hd. pose proof (isenc_rep _ _ _ _ H) as HE.
    assert (RD : forall i, (i < n)%nat -> rd (full d) (Z.of_nat i) = Ok (nth i d (o_Z O 0))).
    { intros i Hi. apply rd_full. lia. }
    unfold eval. rewrite (size_rep _ _ _ _ H), (get_f_rep c _ _ _ H). cbn [bind].
    edestruct (fun body => for_inv body (fun i r => r =
        fold_left (fun r i => o_add O r (o_mul O (nth i d (o_Z O 0)) (jg J i))) (seq 0 i) (jf J))
        0%nat n 0 (Z.of_nat n) (jf J)) as (r & E & ->);
      [reflexivity|reflexivity|lia|reflexivity| |rewrite E; cbn [bind]].
    { intros i r Hi ->. cbn beta. rewrite RD by lia. cbn [bind].
      rewrite (get_g_rep c n J) by (try assumption; lia). cbn [bind].
      eexists. split; [reflexivity|]. cbn [plus]. rewrite seq_S_last, fold_left_app. reflexivity. }
    unfold eval_spec. destruct (Z.eqb_spec (c_ord c) 1) as [Ho|Ho]; [reflexivity|].
    edestruct (fun body => for_inv body (fun i t => t =
        fold_left (fun t i => o_add O t (o_mul O (nth i d (o_Z O 0)) (row_sum n J d i))) (seq 0 i) (o_Z O 0))
        0%nat n 0 (Z.of_nat n) (o_Z O 0)) as (t & E2 & ->);
      [reflexivity|reflexivity|lia|reflexivity| |rewrite E2; reflexivity].
    intros i t Hi ->. cbn beta.
    set (F := fun s j => o_add O s (o_mul O (nth j d (o_Z O 0)) (hess J i j))).
    edestruct (fun body => for_inv body (fun j (st : Z * S) =>
        fst st = Z.of_nat (pos n j i) + Z.of_nat (i - i) /\
        snd st = fold_left F (seq 0 j) (o_Z O 0)) 0%nat i 0 (Z.of_nat i)
        (1 + Z.of_nat n + Z.of_nat i, o_Z O 0)) as ([k s] & E3 & Hk & Hs);
      [reflexivity|reflexivity|lia| | |rewrite E3; cbn [bind]].
    { cbn [fst snd]. split; [|reflexivity]. unfold pos. cbn [rs]. lia. }
    { intros j [k s] Hj (Hk & Hs). cbn [fst snd] in *. cbn beta iota.
      rewrite RD by lia. cbn [bind].
      rewrite (rd_h c n J _ j i) by (try assumption; lia). cbn [bind].
      eexists. split; [reflexivity|]. cbn [fst snd]. split.
      - unfold pos in *. cbn [rs plus]. lia.
      - cbn [plus]. rewrite seq_S_last, fold_left_app. cbn [fold_left plus]. unfold F at 1.
        rewrite <- Hs. unfold hess. rewrite Nat.min_r, Nat.max_l by lia. reflexivity. }
    cbn [fst snd] in *.
    edestruct (fun body => for_inv body (fun j (st : Z * S) =>
        fst st = Z.of_nat (pos n i j) /\
        snd st = fold_left F (seq 0 j) (o_Z O 0)) i n (Z.of_nat i) (Z.of_nat n) (k, s))
        as ([k' s'] & E4 & Hk' & Hs');
      [reflexivity|reflexivity|lia| | |rewrite E4; cbn [bind]].
    { cbn [fst snd]. split; [lia|exact Hs]. }
    { intros j [k' s'] Hj (Hk' & Hs'). cbn [fst snd] in *. cbn beta iota.
      rewrite RD by lia. cbn [bind].
      rewrite (rd_h c n J _ i j) by (try assumption; lia). cbn [bind].
      eexists. split; [reflexivity|]. cbn [fst snd]. split.
      - rewrite pos_next_col by lia. lia.
      - cbn [plus]. rewrite seq_S_last, fold_left_app. cbn [fold_left plus]. unfold F at 1.
        rewrite <- Hs'. unfold hess. rewrite Nat.min_l, Nat.max_r by lia. reflexivity. }
    cbn [fst snd] in *. rewrite RD by lia. cbn [bind].
    eexists. split; [reflexivity|]. cbn [plus]. rewrite seq_S_last, fold_left_app. cbn [fold_left plus].
    rewrite Hs'. reflexivity.
  Qed.
End Pad.
