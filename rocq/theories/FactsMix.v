(** Numbers of different sizes in builds without any checks (C79). *)
From Coq Require Import ZArith List Bool Lia.
From Verif Require Import Outcome Scalar Float64 Model Spec Core Kernels OpsRep AccRep CreateRep FactsLayout FactsOps ProgSpec Samples BuildSpec.
Import ListNotations.
Open Scope Z_scope.
Open Scope res_scope.

Section Mix.
  Context {S : Type} (O : Ops S) (c : cfg).
  Hypothesis (Hc : cfg_ok c) (D : is_dynamic c = true) (HE : c_exc c = false) (HD : c_dbg c = false).

  Lemma unchecked a b : check_equal_size c a b = Ok tt.
  Proof. unfold check_equal_size, assert_. rewrite D, HE, HD. reflexivity. Qed.
  Definition cut (n : nat) (y : dd S) : dd S := mk (Z.of_nat n) (firstn (storage_len (c_ord c) n) (m_data y)).

  Lemma binary_op_mix b F n m x y : (forall u v, let '(_, da, db, _, _, _) := F u v in is_zero da && is_zero db = false) ->
    wf c n x -> wf c m y ->
    ((m < n)%nat -> binary_op O c b F x y = UB) /\ ((n < m)%nat -> binary_op O c b F x y = binary_op O c b F x (cut n y)).
  Proof.
    intros NZ Wx Wy. destruct (wf_rep _ _ _ Wx) as (J & HJ). destruct (wf_rep _ _ _ Wy) as (K & HK).
    pose proof (data_length_rep _ _ _ _ HJ) as DL. unfold binary_op.
    replace (if b then check_equal_size c (size c x) (size c y) else Ok tt) with (@Ok unit tt) by (destruct b; [rewrite unchecked|]; reflexivity).
    replace (if b then check_equal_size c (size c x) (size c (cut n y)) else Ok tt) with (@Ok unit tt) by (destruct b; [rewrite unchecked|]; reflexivity).
    cbn [bind]. split; intros Hnm.
    - rewrite (size_rep _ _ _ _ HJ).
      destruct (empty_n_ok O c n (rep_size_ok _ _ _ _ HJ)) as (r & E & _). rewrite E. cbn [bind].
      rewrite (get_f_rep _ _ _ _ HJ), (get_f_rep _ _ _ _ HK). cbn [bind].
      specialize (NZ (jf J) (jf K)). destruct (F (jf J) (jf K)) as [[[[[f da] db] daa] dab] dbb].
      rewrite binary_short; [reflexivity|exact Hc| |exact NZ].
      rewrite DL, (len_rep _ _ _ _ HK). pose proof (storage_len_mono c m n Hnm).
      pose proof (storage_len_ge (c_ord c) m). lia.
    - destruct (empty_n O c (size c x)); cbn [bind]; try reflexivity.
      destruct (get_f x); cbn [bind]; try reflexivity.
      unfold get_f, cut. cbn [m_data]. rewrite rd_firstn by (pose proof (storage_len_ge (c_ord c) n); lia).
      destruct (rd (m_data y) 0); cbn [bind]; try reflexivity.
      destruct (F _ _) as [[[[[f da] db] daa] dab] dbb].
      rewrite (binary_cut O c n) by (try exact DL; apply HJ). reflexivity.
  Qed.
  Lemma apply_b_mix b n m x y : wf c n x -> wf c m y ->
    ((m < n)%nat -> apply_b O c b x y = UB) /\
    ((n < m)%nat -> apply_b O c b x y = apply_b O c b x (cut n y)).
  Proof.
    intros Wx Wy. destruct b; try (apply binary_op_mix; auto; intros u v; reflexivity).
    destruct (wf_rep _ _ _ Wx) as (J & HJ). destruct (wf_rep _ _ _ Wy) as (K & HK).
    pose proof (get_f_rep _ _ _ _ HJ) as EJ. pose proof (get_f_rep _ _ _ _ HK) as EK.
    assert (EC : get_f (cut n y) = Ok (jf K)).
    { unfold get_f, cut in *. cbn [m_data]. rewrite rd_firstn by (pose proof (storage_len_ge (c_ord c) n); lia). exact EK. }
    cbn [apply_b]. rewrite (div_eq O c _ _ _ _ EJ EK), (div_eq O c _ _ _ _ EJ EC).
    apply binary_op_mix; auto; intros u v; reflexivity.
  Qed.

  Lemma wr_len (l l' : data S) i v : wr l i v = Ok l' -> len l' = len l.
  Proof.
    unfold wr. destruct ((i <? 0) || (Z.of_nat (length l) <=? i)); [discriminate|]. intros E. injection E as <-. unfold len. rewrite upd_length. reflexivity.
  Qed.
  Lemma len_wf n (x : dd S) : wf c n x -> len (m_data x) = Z.of_nat (storage_len (c_ord c) n).
  Proof. intros (_ & L & _). unfold len. rewrite L. reflexivity. Qed.

  Lemma elementwise_mix (op : S -> S -> S) n m (x y : dd S) : wf c n x -> wf c m y ->
    let go (y : data S) := for_ 0 (len (m_data x)) (fun i d => u <- rd d i ;; v <- rd y i ;; wr d i (op u v)) (m_data x) in
    ((m < n)%nat -> go (m_data y) = UB) /\ ((n < m)%nat -> go (m_data y) = go (m_data (cut n y))).
  Proof.
    intros Wx Wy go. pose proof (len_wf _ _ Wx) as Lx. pose proof (len_wf _ _ Wy) as Ly.
    split; intros Hnm; subst go; cbn beta.
    - apply (for_ub _ (len (m_data y))).
      + pose proof (storage_len_mono c m n Hnm). unfold len in *. lia.
      + intros i s. apply bind_ok_ub; [apply rd_ok_ub|]. intros a. apply bind_ok_ub; [apply rd_ok_ub|]. intros b. apply wr_ok_ub.
      + intros s. apply bind_ub; [apply rd_ok_ub|]. intros a. rewrite rd_beyond by lia. reflexivity.
    - apply for_ext. intros i s Hi. unfold cut. cbn [m_data]. rewrite rd_firstn by lia. reflexivity.
  Qed.
  Lemma assign_mix o n m x y : wf c n x -> wf c m y ->
    ((m < n)%nat -> assign O c o x (Some y) = UB) /\
    ((n < m)%nat -> assign O c o x (Some y) = assign O c o x (Some (cut n y))).
  Proof.
    intros Wx Wy. destruct (wf_rep _ _ _ Wx) as (J & HJ). destruct (wf_rep _ _ _ Wy) as (K & HK).
    pose proof (data_length_rep _ _ _ _ HJ) as DL. pose proof (len_wf _ _ Wx) as Lx. pose proof (len_wf _ _ Wy) as Ly.
    pose proof (storage_len_ge (c_ord c) n) as GE. pose proof (storage_len_ge (c_ord c) m) as GE'.
    destruct o; cbn [assign].
    - unfold add_assign. cbn [ref_size ref_of deref]. rewrite !unchecked. cbn [bind].
      destruct (elementwise_mix (o_add O) n m x y Wx Wy) as (A & B). split; intros Hnm; [rewrite (A Hnm)|rewrite (B Hnm)]; reflexivity.
    - unfold sub_assign. cbn [ref_size ref_of deref]. rewrite !unchecked. cbn [bind].
      destruct (elementwise_mix (o_sub O) n m x y Wx Wy) as (A & B). split; intros Hnm; [rewrite (A Hnm)|rewrite (B Hnm)]; reflexivity.
    - unfold mul_assign. cbn [ref_size ref_of deref]. rewrite !unchecked. cbn [bind]. unfold ref_f. cbn [ref_of deref].
      assert (E0 : rd (m_data y) 0 = Ok (jf K)) by apply (get_f_rep _ _ _ _ HK).
      assert (E1 : rd (m_data x) 0 = Ok (jf J)) by apply (get_f_rep _ _ _ _ HJ).
      assert (EC : rd (m_data (cut n y)) 0 = rd (m_data y) 0) by (unfold cut; cbn [m_data]; apply rd_firstn; lia).
      rewrite EC, E0, E1. cbn [bind].
      destruct (wr (m_data x) 0 (o_mul O (jf J) (jf K))) as [d0| | |] eqn:E2; cbn [bind].
      2-4: exfalso; rewrite (wr_ok _ 0%nat) in E2 by (try reflexivity; unfold len in Lx; lia); discriminate.
      pose proof (wr_len _ _ _ _ E2) as L0.
      split; intros Hnm.
      + rewrite (for_ub _ (len (m_data y))); [reflexivity| | |].
        * pose proof (storage_len_mono c m n Hnm). lia.
        * intros i s. apply bind_ok_ub; [apply rd_ok_ub|]. intros a. apply bind_ok_ub; [apply rd_ok_ub|]. intros b. apply wr_ok_ub.
        * intros s. apply bind_ub; [apply rd_ok_ub|]. intros a. rewrite rd_beyond by lia. reflexivity.
      + match goal with |- bind (for_ ?l ?h ?b ?s) _ = bind (for_ _ _ ?b' _) _ => rewrite (for_ext b b' l h s) end.
        2: { intros i s Hi. unfold cut. cbn [m_data]. rewrite rd_firstn by lia. reflexivity. }
        match goal with |- bind ?m _ = bind ?m _ => destruct m as [r1| | |]; cbn [bind]; try reflexivity end.
        match goal with |- (if ?b then _ else _) = _ => destruct b; [reflexivity|] end.
        rewrite (size_rep _ _ _ _ HJ).
        match goal with |- bind (for_ ?l ?h ?b ?s) _ = bind (for_ _ _ ?b' _) _ => rewrite (for_ext b b' l h s); [reflexivity|] end.
        intros i s Hi. apply for_ext. intros j (it, d) Hj. unfold cut. cbn [m_data].
        rewrite !rd_firstn by lia. reflexivity.
    - unfold div_assign. cbn [ref_size ref_of deref]. rewrite !unchecked. cbn [bind]. unfold ref_f. cbn [ref_of deref].
      assert (E0 : rd (m_data y) 0 = Ok (jf K)) by apply (get_f_rep _ _ _ _ HK).
      assert (E1 : rd (m_data x) 0 = Ok (jf J)) by apply (get_f_rep _ _ _ _ HJ).
      assert (EC : rd (m_data (cut n y)) 0 = rd (m_data y) 0) by (unfold cut; cbn [m_data]; apply rd_firstn; lia).
      rewrite EC, E0, E1. cbn [bind]. unfold k_div_assign. split; intros Hnm.
      + rewrite binary_short; [reflexivity|exact Hc| |reflexivity].
        rewrite DL, Ly. pose proof (storage_len_mono c m n Hnm). lia.
      + rewrite (binary_cut O c n) by (try exact DL; apply HJ). reflexivity.
  Qed.

  (** What the part of [y] that is read shows. *)
  Lemma cut_shows n m y : wf c m y -> (n < m)%nat ->
    wf c n (cut n y) /\ get_f (cut n y) = get_f y /\
    (forall i, (i < n)%nat -> get_g c (cut n y) (Z.of_nat i) = get_g c y (Z.of_nat i)) /\
    (c_ord c = 2 -> (1 <= n)%nat -> get_h c (cut n y) 0 0 = get_g c y (Z.of_nat n)).
  Proof.
    intros Wy Hnm. pose proof (wf_cut c n m y D Wy ltac:(lia)) as Wc.
    destruct (wf_rep _ _ _ Wc) as (K & HK). pose proof (size_bound c _ (rep_size_ok _ _ _ _ HK)) as SB. unfold max_len in SB.
    fold (cut n y) in *. pose proof (storage_len_ge (c_ord c) n) as GE.
    split; [exact Wc|]. split; [|split].
    - unfold get_f, cut. cbn [m_data]. apply rd_firstn. lia.
    - intros i Hi. unfold get_g, assert_. rewrite HD. cbn [bind]. rewrite ck_ok by lia. cbn [bind].
      unfold cut. cbn [m_data]. apply rd_firstn. lia.
    - intros E2 Hn. unfold get_h, get_g, idx_h, idx_tri, assert_. rewrite HD. cbn [bind].
      rewrite (size_rep _ _ _ _ HK). change (0 <? 0) with false. cbv iota.
      rewrite !ck_ok by lia. cbn [bind]. rewrite !ck_ok by lia. cbn [bind]. rewrite !ck_ok by lia. cbn [bind].
      rewrite !Z.mul_0_r. rewrite !ck_ok by lia. cbn [bind]. change (Z.quot 0 2) with 0. rewrite !Z.add_0_r.
      rewrite !ck_ok by lia. cbn [bind]. rewrite !Z.add_0_r. rewrite !ck_ok by lia. cbn [bind].
      unfold cut. cbn [m_data]. apply rd_firstn.
      unfold storage_len. rewrite E2. change (2 =? 1) with false. cbv iota.
      assert (2 + n <= (n + 1) * (n + 2) / 2)%nat; [apply Nat.div_le_lower_bound; nia|lia].
  Qed.
  Lemma assign_ok o n x y : wf c n x -> wf c n y -> exists r, assign O c o x (Some y) = Ok r /\ wf c n r.
  Proof.
    intros Wx Wy. destruct (wf_rep _ _ _ Wx) as (J & HJ). destruct (wf_rep _ _ _ Wy) as (K & HK).
    destruct o; cbn [assign].
    - destruct (add_assign_rep O c n J K x y HJ HK) as (r & E & R). eauto using rep_wf.
    - destruct (sub_assign_rep O c n J K x y HJ HK) as (r & E & R). eauto using rep_wf.
    - destruct (mul_assign_rep O c n J K x y HJ HK) as (r & E & R). eauto using rep_wf.
    - destruct (div_assign_rep O c Hc n J K x y HJ HK) as (r & E & R). eauto using rep_wf.
  Qed.

  Lemma mix_short n m x y : wf c n x -> wf c m y -> (m < n)%nat ->
    (forall b, apply_b O c b x y = UB) /\ (forall o, assign O c o x (Some y) = UB).
  Proof. intros Wx Wy H. split; intros k; [apply (apply_b_mix k n m x y)|apply (assign_mix k n m x y)]; assumption. Qed.
  Lemma mix_long n m x y : wf c n x -> wf c m y -> (n < m)%nat ->
    exists z, wf c n z /\ get_f z = get_f y /\
      (forall i, (i < n)%nat -> get_g c z (Z.of_nat i) = get_g c y (Z.of_nat i)) /\
      (c_ord c = 2 -> (1 <= n)%nat -> get_h c z 0 0 = get_g c y (Z.of_nat n)) /\
      (forall b, exists r, apply_b O c b x y = Ok r /\ apply_b O c b x z = Ok r /\ wf c n r) /\
      (forall o, exists r, assign O c o x (Some y) = Ok r /\ assign O c o x (Some z) = Ok r /\ wf c n r).
  Proof.
    intros Wx Wy H. exists (cut n y). destruct (cut_shows n m y Wy H) as (Wc & F & G & HH).
    repeat (split; [assumption|]). split; intros k.
    - rewrite (proj2 (apply_b_mix k n m x y Wx Wy) H).
      destruct (wf_rep _ _ _ Wx) as (J & HJ). destruct (wf_rep _ _ _ Wc) as (K & HK).
      destruct (apply_b_rep O c Hc n J K x _ k HJ HK) as (r & E & R). exists r. eauto using rep_wf.
    - rewrite (proj2 (assign_mix k n m x y Wx Wy) H). destruct (assign_ok k n x _ Wx Wc) as (r & E & R). eauto.
  Qed.
  Lemma mix_leak n m x y hx gy : c_ord c = 2 -> wf c n x -> wf c m y -> (1 <= n)%nat -> (n < m)%nat ->
    get_h c x 0 0 = Ok hx -> get_g c y (Z.of_nat n) = Ok gy ->
    exists r, add_assign O c x (Some y) = Ok r /\ get_h c r 0 0 = Ok (o_add O hx gy).
  Proof.
    intros E2 Wx Wy Hn H Ex Ey. destruct (cut_shows n m y Wy H) as (Wc & F & G & HH).
    destruct (wf_rep _ _ _ Wx) as (J & HJ). destruct (wf_rep _ _ _ Wc) as (K & HK).
    destruct (add_assign_rep O c n J K x _ HJ HK) as (r & E & R).
    pose proof (assign_mix Aadd n m x y Wx Wy) as (_ & B). cbn [assign] in B.
    exists r. rewrite (B H). split; [exact E|].
    assert (N1 : c_ord c <> 1) by lia.
    pose proof (get_h_rep c n _ r 0 0 R N1 ltac:(lia) ltac:(lia)) as Er.
    pose proof (get_h_rep c n _ x 0 0 HJ N1 ltac:(lia) ltac:(lia)) as Ex'.
    pose proof (get_h_rep c n _ (cut n y) 0 0 HK N1 ltac:(lia) ltac:(lia)) as Ey'.
    change (Z.of_nat 0) with 0 in *. rewrite Ex in Ex'. rewrite (HH E2 Hn), Ey in Ey'.
    rewrite Er. injection Ex' as ->. injection Ey' as ->. reflexivity.
  Qed.
End Mix.
