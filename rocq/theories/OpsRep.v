(** What every operator and function of [DDScalar] returns on well-formed operands, as a closed
    form on jets, for any scalar type. *)
From Coq Require Import ZArith List Bool Lia.
From Verif Require Import Outcome Scalar Model Spec Core Kernels.
Import ListNotations.
Open Scope Z_scope.
Open Scope res_scope.
Ltac Zify.zify_post_hook ::= Z.div_mod_to_equations.

Section Jets.
  Context {S : Type} (O : Ops S).

  Definition jmap (op : S -> S) (J : jet S) : jet S :=
    mkjet (op (jf J)) (fun i => op (jg J i)) (fun i j => op (jh J i j)).
  Definition jmap2 (op : S -> S -> S) (J K : jet S) : jet S :=
    mkjet (op (jf J) (jf K)) (fun i => op (jg J i) (jg K i)) (fun i j => op (jh J i j) (jh K i j)).
  Definition jsetf (J : jet S) (v : S) : jet S := mkjet v (jg J) (jh J).

  Definition ju3 (t : S * coef S * coef S) (J : jet S) : jet S :=
    let '(f, da, daa) := t in ju O f da daa J.
  Definition jb6 (t : S * coef S * coef S * coef S * coef S * coef S) (J K : jet S) : jet S :=
    let '(f, da, db, daa, dab, dbb) := t in jb O f da db daa dab dbb J K.

  (** Result of a one-operand function as a jet. *)
  Definition jap_u (u : ufun S) (J : jet S) : jet S :=
    match u with
    | Uneg => jmap (o_neg O) J
    | Uabs => if o_lt O (jf J) (o_Z O 0) then jmap (o_neg O) J else J
    | Upow b => ju3 (k_pow O b (jf J)) J
    | Usqrt => ju3 (k_sqrt O (jf J)) J
    | Ucbrt => ju3 (k_cbrt O (jf J)) J
    | Ureciprocal => ju3 (k_reciprocal O (jf J)) J
    | Ucos => ju3 (k_cos O (jf J)) J
    | Usin => ju3 (k_sin O (jf J)) J
    | Utan => ju3 (k_tan O (jf J)) J
    | Uacos => ju3 (k_acos O (jf J)) J
    | Uasin => ju3 (k_asin O (jf J)) J
    | Uatan => ju3 (k_atan O (jf J)) J
    | Ucosh => ju3 (k_cosh O (jf J)) J
    | Usinh => ju3 (k_sinh O (jf J)) J
    | Utanh => ju3 (k_tanh O (jf J)) J
    | Uacosh => ju3 (k_acosh O (jf J)) J
    | Uasinh => ju3 (k_asinh O (jf J)) J
    | Uatanh => ju3 (k_atanh O (jf J)) J
    | Uexp => ju3 (k_exp O (jf J)) J
    | Ulog => ju3 (k_log O (jf J)) J
    | Ulogb b => ju3 (k_logb O b (jf J)) J
    | Ulog2 => ju3 (k_log2 O (jf J)) J
    | Ulog10 => ju3 (k_log10 O (jf J)) J
    | Uadds b => jsetf J (o_add O (jf J) b)
    | Usadd a => jsetf J (o_add O (jf J) a)
    | Usubs b => jsetf J (o_add O (jf J) (o_neg O b))
    | Ussub a => jsetf (jmap (o_neg O) J) (o_add O (o_neg O (jf J)) a)
    | Umuls b => jmap (fun v => o_mul O v b) J
    | Usmul a => jmap (fun v => o_mul O v a) J
    | Udivs b => jmap (fun v => o_mul O v (o_div O (o_Z O 1) b)) J
    | Usdiv a => ju3 (k_sdiv O a (jf J)) J
    end.

  Definition k_b (b : bfun) :=
    match b with
    | Badd => k_add O | Bsub => k_sub O | Bmul => k_mul O | Bdiv => k_div O
    | Batan2 => k_atan2 O | Bhypot => k_hypot O
    end.
  Definition jap_b (b : bfun) (J K : jet S) : jet S := jb6 (k_b b (jf J) (jf K)) J K.

  Definition jap_hypot3 (J K L : jet S) : jet S :=
    let a := jf J in let b := jf K in let e := jf L in
    let f := o_hypot3 O a b e in
    let f3 := o_mul O (o_mul O f f) f in
    let a2 := o_mul O a a in let b2 := o_mul O b b in let c2 := o_mul O e e in
    jt O f (CVal (o_div O a f)) (CVal (o_div O b f)) (CVal (o_div O e f))
      (CVal (o_div O (o_add O b2 c2) f3))
      (CVal (o_div O (o_neg O (o_mul O a b)) f3))
      (CVal (o_div O (o_neg O (o_mul O a e)) f3))
      (CVal (o_div O (o_add O a2 c2) f3))
      (CVal (o_div O (o_neg O (o_mul O b e)) f3))
      (CVal (o_div O (o_add O a2 b2) f3)) J K L.

  (** In-place multiplication by a different object (the second-order term is associated
      differently from the out-of-place operator). *)
  Definition jmul_assign (J K : jet S) : jet S :=
    let da := jf K in let db := jf J in
    mkjet (o_mul O (jf J) (jf K))
      (fun i => o_add O (o_mul O da (jg J i)) (o_mul O db (jg K i)))
      (fun i j => o_add O (o_add O (o_mul O da (jh J i j)) (o_mul O db (jh K i j)))
                    (o_add O (o_mul O (jg J i) (jg K j)) (o_mul O (jg J j) (jg K i)))).
  (** [x *= x] as it actually behaves: the second-order pass reads the already updated
      gradient. *)
  Definition jmul_self (J : jet S) : jet S :=
    let f := jf J in
    let g' i := o_add O (o_mul O f (jg J i)) (o_mul O f (jg J i)) in
    mkjet (o_mul O f f) g'
      (fun i j => o_add O (o_add O (o_mul O f (jh J i j)) (o_mul O f (jh J i j)))
                    (o_add O (o_mul O (jg J i) (g' j)) (o_mul O (jg J j) (g' i)))).
  (** [x /= x] as it actually behaves. *)
  Definition jb_self (f : S) (da db daa dab dbb : coef S) (J : jet S) : jet S :=
    let g' i := vset O (vadd O (cmul O da (jg J i)) (cmul O db (jg J i))) in
    mkjet f g'
      (fun i j =>
         let base := vset O (vadd O (cmul O da (jh J i j)) (cmul O db (jh J i j))) in
         if is_zero daa && is_zero dab && is_zero dbb then base
         else vacc O base
           (vadd O (vmul O (vadd O (cmul O daa (jg J i)) (cmul O dab (g' i))) (jg J j))
                   (vmul O (vadd O (cmul O dab (jg J i)) (cmul O dbb (g' i))) (g' j)))).
End Jets.

Section Rep.
  Context {S : Type} (O : Ops S) (c : cfg).
  Hypothesis Hcfg : cfg_ok c.
  Implicit Types (J K L : jet S) (x y z : dd S).

  Lemma rep_size_ok n (J : jet S) x : rep c n J x -> size_ok c n.
  Proof.
    intros (HS & HD & HM). split.
    - intros D. unfold size in HS. rewrite D in HS. exact HS.
    - unfold len in HM. rewrite HD, full_length, enc_length in HM. exact HM.
  Qed.

  Lemma rep_length n (J : jet S) x : rep c n J x -> length (m_data x) = storage_len (c_ord c) n.
  Proof. intros (_ & -> & _). rewrite full_length. apply enc_length. Qed.

  Lemma rep_intro n (J : jet S) x :
    size_ok c n -> size c x = Z.of_nat n -> isenc (c_ord c) n J (m_data x) -> rep c n J x.
  Proof.
    intros (_ & HM) HS HE. apply isenc_iff in HE. split; [exact HS|]. split; [exact HE|].
    unfold len. rewrite HE, full_length, enc_length. exact HM.
  Qed.

  Lemma rep_wf n (J : jet S) x : rep c n J x -> wf c n x.
  Proof.
    intros H. pose proof (rep_length _ _ _ H) as L. destruct H as (HS & HD & HM).
    split; [exact HS|]. split; [exact L|]. split; [|exact HM].
    intros k Hk. rewrite HD, full_length in *.
    exists (nth k (enc (c_ord c) n J) (jf J)). apply nth_error_full, nth_error_nth'. exact Hk.
  Qed.

  Lemma storage_bound n : size_ok c n -> (Z.of_nat n + 1) * (Z.of_nat n + 2) < 2 ^ 63 \/ c_ord c = 1.
  Proof.
    intros (_ & H). rewrite storage_len_rs in H. destruct (Z.eqb_spec (c_ord c) 1); [right; assumption|].
    left. unfold max_len in H. pose proof (rs_closed n n (le_n n)). nia.
  Qed.

  Lemma size_bound n : size_ok c n -> Z.of_nat n + 1 <= max_len.
  Proof. intros (_ & H). pose proof (storage_len_ge (c_ord c) n). lia. Qed.

  Lemma data_length_from_size_ok n : size_ok c n ->
    data_length_from_size c (Z.of_nat n) = Ok (Z.of_nat (storage_len (c_ord c) n)).
  Proof.
    intros H. pose proof (storage_bound n H) as B. pose proof (size_bound n H) as SB.
    unfold max_len in SB.
    unfold data_length_from_size, storage_len.
    destruct (Z.eqb_spec (c_ord c) 1) as [E|E].
    - rewrite ck_ok by lia. f_equal. lia.
    - destruct B as [B|B]; [|contradiction].
      rewrite !ck_ok by lia. cbn [bind].
      rewrite (ck_ok (_ * _)) by nia. cbn [bind]. f_equal. apply quot_tri.
  Qed.

  Lemma check_valid_size_ok n : size_ok c n -> check_valid_size c (Z.of_nat n) = Ok tt.
  Proof.
    intros (H & _). unfold check_valid_size, assert_. destruct (is_dynamic c) eqn:D.
    - destruct (Z.ltb_spec (Z.of_nat n) 0); [lia|].
      destruct (Z.leb_spec 0 (Z.of_nat n)); [|lia]. cbn. rewrite andb_false_r. destruct (c_exc c); reflexivity.
    - rewrite (H eq_refl), Z.eqb_refl. cbn. rewrite andb_false_r. destruct (c_exc c); reflexivity.
  Qed.

  Lemma check_equal_size_ok (z : Z) : check_equal_size c z z = Ok tt.
  Proof.
    unfold check_equal_size, assert_. rewrite Z.eqb_refl. cbn. rewrite andb_false_r.
    destruct (is_dynamic c), (c_exc c); reflexivity.
  Qed.

  Lemma vec_new_ok (n : nat) (v : S) : Z.of_nat n <= max_len ->
    vec_new (Z.of_nat n) v = Ok (repeat (Some v) n).
  Proof.
    intros H. unfold vec_new.
    destruct (Z.ltb_spec (Z.of_nat n) 0); [lia|].
    destruct (Z.ltb_spec max_len (Z.of_nat n)); [lia|]. cbn. rewrite Nat2Z.id. reflexivity.
  Qed.

  Lemma empty_n_ok n : size_ok c n ->
    exists r, empty_n O c (Z.of_nat n) = Ok r /\ size c r = Z.of_nat n /\
              length (m_data r) = storage_len (c_ord c) n.
  Proof.
    intros H. unfold empty_n, empty, size. destruct (is_dynamic c) eqn:D.
    - rewrite data_length_from_size_ok by exact H. cbn [bind].
      rewrite vec_new_ok by apply H. cbn [bind]. eexists. split; [reflexivity|].
      cbn. split; [reflexivity|]. apply repeat_length.
    - rewrite check_valid_size_ok by exact H. cbn [bind]. eexists. split; [reflexivity|].
      destruct H as [H _]. split; [exact (H D)|]. cbn. unfold array_uninit.
      rewrite repeat_length, (StaticDataSize_ok c n (H D)), Nat2Z.id. reflexivity.
  Qed.

  Lemma get_f_rep n J x : rep c n J x -> get_f x = Ok (jf J).
  Proof. intros H. unfold get_f. eapply rd_f, isenc_rep, H. Qed.

  Lemma rep_jeq n (J K : jet S) x : jeq (c_ord c) n J K -> rep c n J x -> rep c n K x.
  Proof.
    intros E (HS & HD & HM). split; [exact HS|]. split; [|exact HM].
    rewrite HD. f_equal. apply enc_ext, E.
  Qed.

  Lemma rep_fun n (J K : jet S) x : rep c n J x -> rep c n K x -> jeq (c_ord c) n J K.
  Proof.
    intros (_ & HD & _) (_ & HD' & _). apply enc_inj, full_inj. congruence.
  Qed.

  Lemma jeq_sym ord n (J K : jet S) : jeq ord n J K -> jeq ord n K J.
  Proof.
    intros (A & B & D). split; [congruence|]. split.
    - intros i Hi. symmetry. apply B, Hi.
    - intros Ho i j Hij. symmetry. apply D; assumption.
  Qed.
  Lemma jeq_refl ord n (J : jet S) : jeq ord n J J.
  Proof. repeat split. Qed.
  Lemma jeq_trans ord n (J K L : jet S) : jeq ord n J K -> jeq ord n K L -> jeq ord n J L.
  Proof.
    intros (A & B & D) (A' & B' & D'). split; [congruence|]. split.
    - intros i Hi. rewrite B, B' by exact Hi. reflexivity.
    - intros Ho i j Hij. rewrite D, D' by assumption. reflexivity.
  Qed.

  Lemma wf_rep n x : wf c n x -> exists J : jet S, rep c n J x.
  Proof.
    intros (HS & HL & HF & HM).
    pose proof (storage_len_ge (c_ord c) n) as GE.
    destruct (HF 0%nat ltac:(lia)) as (f & Hf).
    exists (dec f n (m_data x)). split; [exact HS|]. split; [|exact HM].
    apply isenc_iff. split; [exact HL|]. unfold dec; cbn [jf jg jh].
    split; [rewrite Hf; reflexivity|]. split.
    - intros i Hi. destruct (HF (1 + i)%nat ltac:(lia)) as (v & ->). reflexivity.
    - intros Ho i j Hij. pose proof (pos_bound n i j Hij).
      rewrite storage_len_rs in HL. destruct (Z.eqb_spec (c_ord c) 1); [contradiction|].
      destruct (HF (pos n i j) ltac:(lia)) as (v & ->). reflexivity.
  Qed.

  Lemma unary_op_rep n J x F :
    rep c n J x -> is_zero (snd (fst (F (jf J)))) = false ->
    exists r, unary_op O c F x = Ok r /\ rep c n (ju3 O (F (jf J)) J) r.
  Proof.
    intros H Hz. pose proof (rep_size_ok _ _ _ H) as SO.
    destruct (empty_n_ok n SO) as (r & E & HS & HL).
    unfold unary_op. rewrite (size_rep _ _ _ _ H), E. cbn [bind].
    rewrite (get_f_rep _ _ _ H). cbn [bind].
    destruct (F (jf J)) as [[f da] daa] eqn:EF. cbn in Hz.
    destruct (unary_enc O c Hcfg n J x f da daa (m_data r)) as (d & E' & HE);
      [apply (size_rep _ _ _ _ H)|apply H|exact Hz|exact HL|].
    rewrite E'. cbn [bind]. eexists. split; [reflexivity|].
    apply rep_intro; [exact SO|exact HS|exact HE].
  Qed.

  (** The order of reading the operands and creating the result matters on malformed objects only. *)
  Lemma div_eq x y u v : get_f x = Ok u -> get_f y = Ok v -> div O c x y = binary_op O c true (k_div O) x y.
  Proof.
    intros Hx Hy. unfold div, binary_op. destruct (check_equal_size c (size c x) (size c y)); cbn [bind]; try reflexivity.
    rewrite Hx, Hy. cbn [bind k_div]. destruct (empty_n O c (size c x)); reflexivity.
  Qed.
  Lemma binary_op_rep n J K x y F chk :
    rep c n J x -> rep c n K y ->
    (let '(_, da, db, _, _, _) := F (jf J) (jf K) in is_zero da && is_zero db = false) ->
    exists r, binary_op O c chk F x y = Ok r /\ rep c n (jb6 O (F (jf J) (jf K)) J K) r.
  Proof.
    intros H H' Hz. pose proof (rep_size_ok _ _ _ H) as SO.
    destruct (empty_n_ok n SO) as (r & E & HS & HL).
    unfold binary_op. rewrite (size_rep _ _ _ _ H), (size_rep _ _ _ _ H').
    rewrite check_equal_size_ok.
    replace (if chk then Ok tt else Ok tt) with (@Ok unit tt) by (destruct chk; reflexivity).
    cbn [bind]. rewrite E. cbn [bind].
    rewrite (get_f_rep _ _ _ H), (get_f_rep _ _ _ H'). cbn [bind].
    destruct (F (jf J) (jf K)) as [[[[[f da] db] daa] dab] dbb] eqn:EF.
    destruct (binary_enc O c Hcfg n J K x (m_data y) f da db daa dab dbb (m_data r)) as (d & E' & HE);
      [apply (size_rep _ _ _ _ H)|apply H|apply H'|exact Hz|exact HL|].
    rewrite E'. cbn [bind]. eexists. split; [reflexivity|].
    apply rep_intro; [exact SO|exact HS|exact HE].
  Qed.

  (** Elementwise loops over the whole storage. *)
  Lemma after_ew0 n (G : nat -> S) r0 r :
    Pew 0 (storage_len (c_ord c) n) G r0 (storage_len (c_ord c) n) r ->
    isenc (c_ord c) n (mkjet (G 0%nat) (fun i => G (1 + i)%nat) (fun i j => G (pos n i j))) r.
  Proof.
    intros (L & Hd & _). pose proof (storage_len_ge (c_ord c) n).
    split; [exact L|]. cbn [jf jg jh]. split; [apply Hd; lia|]. split.
    - intros i Hi. rewrite Hd by lia. reflexivity.
    - intros Ho i j Hij. rewrite Hd; [reflexivity|].
      pose proof (pos_bound n i j Hij). rewrite storage_len_rs in *.
      destruct (Z.eqb_spec (c_ord c) 1); [contradiction|lia].
  Qed.

  Lemma enc_at n (J : jet S) k d : (k < storage_len (c_ord c) n)%nat ->
    nth_error (full (enc (c_ord c) n J)) k = Some (Some (nth k (enc (c_ord c) n J) d)).
  Proof. intros H. apply nth_error_full, nth_error_nth'. rewrite enc_length. exact H. Qed.

  Lemma ew_map n J (op : S -> S) (body : Z -> data S -> res (data S)) r0 zN :
    zN = Z.of_nat (storage_len (c_ord c) n) ->
    length r0 = storage_len (c_ord c) n ->
    (forall i r, (i < storage_len (c_ord c) n)%nat ->
       nth_error r i = nth_error r0 i -> length r = length r0 ->
       body (Z.of_nat i) r =
       wr r (Z.of_nat i) (op (nth i (enc (c_ord c) n J) (jf J)))) ->
    exists r, for_ 0 zN body r0 = Ok r /\ isenc (c_ord c) n (jmap op J) r.
  Proof.
    intros -> HL Hb.
    edestruct (fun body => ew_loop (S:=S) 0 (storage_len (c_ord c) n) body
                 (fun k => op (nth k (enc (c_ord c) n J) (jf J))) r0) as (r & E & H);
      [reflexivity|reflexivity|exact HL|lia| |].
    - intros i r Hi (L & _ & Hu). apply Hb; [lia|apply Hu; lia|lia].
    - exists r. split; [exact E|]. apply after_ew0 in H. eapply isenc_jeq; [|exact H].
      split; [reflexivity|]. split; cbn [jg jh jmap].
      + intros i Hi. rewrite nth_enc_g by exact Hi. reflexivity.
      + intros Ho i j Hij. rewrite nth_enc_h by assumption. reflexivity.
  Qed.

  Lemma ew_map2 n J K (op : S -> S -> S) (body : Z -> data S -> res (data S)) r0 zN :
    zN = Z.of_nat (storage_len (c_ord c) n) ->
    length r0 = storage_len (c_ord c) n ->
    (forall i r, (i < storage_len (c_ord c) n)%nat ->
       nth_error r i = nth_error r0 i -> length r = length r0 ->
       body (Z.of_nat i) r =
       wr r (Z.of_nat i) (op (nth i (enc (c_ord c) n J) (jf J)) (nth i (enc (c_ord c) n K) (jf K)))) ->
    exists r, for_ 0 zN body r0 = Ok r /\ isenc (c_ord c) n (jmap2 op J K) r.
  Proof.
    intros -> HL Hb.
    edestruct (fun body => ew_loop (S:=S) 0 (storage_len (c_ord c) n) body
                 (fun k => op (nth k (enc (c_ord c) n J) (jf J)) (nth k (enc (c_ord c) n K) (jf K))) r0)
      as (r & E & H);
      [reflexivity|reflexivity|exact HL|lia| |].
    - intros i r Hi (L & _ & Hu). apply Hb; [lia|apply Hu; lia|lia].
    - exists r. split; [exact E|]. apply after_ew0 in H. eapply isenc_jeq; [|exact H].
      split; [reflexivity|]. split; cbn [jg jh jmap2].
      + intros i Hi. rewrite !nth_enc_g by exact Hi. reflexivity.
      + intros Ho i j Hij. rewrite !nth_enc_h by assumption. reflexivity.
  Qed.

  Lemma data_length_rep n J x : rep c n J x ->
    data_length c x = Z.of_nat (storage_len (c_ord c) n).
  Proof. intros H. apply data_length_ok; [apply H|]. apply (rep_length _ _ _ H). Qed.

  Lemma neg_rep n J x : rep c n J x ->
    exists r, neg O c x = Ok r /\ rep c n (jmap (o_neg O) J) r.
  Proof.
    intros H. pose proof (rep_size_ok _ _ _ H) as SO.
    destruct (empty_n_ok n SO) as (r & E & HS & HL).
    unfold neg. rewrite (size_rep _ _ _ _ H), E. cbn [bind].
    edestruct (fun body => ew_map n J (o_neg O) body (m_data r)) as (d & E' & HE);
      [reflexivity|exact HL| |rewrite (data_length_rep _ _ _ H), E'; cbn [bind]].
    - intros i r' Hi _ _.
      destruct H as (_ & -> & _). rewrite (rd_full _ _ (jf J)) by (rewrite enc_length; exact Hi).
      reflexivity.
    - eexists. split; [reflexivity|]. apply rep_intro; [exact SO|exact HS|exact HE].
  Qed.

  Lemma muls_rep n J x b : rep c n J x ->
    exists r, muls O c x b = Ok r /\ rep c n (jmap (fun v => o_mul O v b) J) r.
  Proof.
    intros H. pose proof (rep_size_ok _ _ _ H) as SO.
    destruct (empty_n_ok n SO) as (r & E & HS & HL).
    unfold muls. rewrite (size_rep _ _ _ _ H), E. cbn [bind].
    edestruct (fun body => ew_map n J (fun v => o_mul O v b) body (m_data r)) as (d & E' & HE);
      [reflexivity|exact HL| |rewrite (data_length_rep _ _ _ H), E'; cbn [bind]].
    - intros i r' Hi _ _.
      destruct H as (_ & -> & _). rewrite (rd_full _ _ (jf J)) by (rewrite enc_length; exact Hi).
      reflexivity.
    - eexists. split; [reflexivity|]. apply rep_intro; [exact SO|exact HS|exact HE].
  Qed.

  Lemma isenc_setf n (J : jet S) d v : isenc (c_ord c) n J d -> isenc (c_ord c) n (jsetf J v) (upd d 0 v).
  Proof.
    intros (L & Hf & Hg & Hh). pose proof (storage_len_ge (c_ord c) n).
    split; [rewrite upd_length; exact L|]. split; [apply nth_error_upd_eq; lia|]. split.
    - intros i Hi. rewrite nth_error_upd_ne by lia. apply Hg, Hi.
    - intros Ho i j Hij. rewrite nth_error_upd_ne by (unfold pos; lia). apply Hh; assumption.
  Qed.

  Lemma set_f_rep n J x v : rep c n J x ->
    exists r, set_f x v = Ok r /\ rep c n (jsetf J v) r.
  Proof.
    intros H. pose proof (rep_size_ok _ _ _ H) as SO. pose proof (rep_length _ _ _ H) as L.
    pose proof (storage_len_ge (c_ord c) n).
    unfold set_f. rewrite (wr_ok _ 0%nat) by (try reflexivity; lia). cbn [bind].
    eexists. split; [reflexivity|]. apply rep_intro; [exact SO|apply H|].
    apply isenc_setf. eapply isenc_rep, H.
  Qed.

  Lemma adds_rep n J x b : rep c n J x ->
    exists r, adds O x b = Ok r /\ rep c n (jsetf J (o_add O (jf J) b)) r.
  Proof.
    intros H. unfold adds. rewrite (get_f_rep _ _ _ H). cbn [bind]. apply set_f_rep, H.
  Qed.

  Lemma ssub_rep n J x a : rep c n J x ->
    exists r, ssub O c a x = Ok r /\
      rep c n (jsetf (jmap (o_neg O) J) (o_add O (o_neg O (jf J)) a)) r.
  Proof.
    intros H. pose proof (rep_size_ok _ _ _ H) as SO.
    destruct (empty_n_ok n SO) as (r & E & HS & HL).
    unfold ssub. rewrite (size_rep _ _ _ _ H), E. cbn [bind].
    edestruct (fun body => ew_map n J (o_neg O) body (m_data r)) as (d & E' & HE);
      [reflexivity|exact HL| |rewrite (data_length_ok c n _ HS HL), E'; cbn [bind]].
    - intros i r' Hi _ _.
      destruct H as (_ & -> & _). rewrite (rd_full _ _ (jf J)) by (rewrite enc_length; exact Hi).
      reflexivity.
    - rewrite (rd_f c n _ _ HE). cbn [bind jf jmap].
      pose proof (storage_len_ge (c_ord c) n). destruct (HE) as (L & _).
      rewrite (wr_ok _ 0%nat) by (try reflexivity; lia). cbn [bind].
      eexists. split; [reflexivity|]. apply rep_intro; [exact SO|exact HS|].
      apply isenc_setf, HE.
  Qed.

  Lemma apply_u_rep n J x u : rep c n J x ->
    exists r, apply_u O c u x = Ok r /\ rep c n (jap_u O u J) r.
  Proof.
    intros H. destruct u; cbn [apply_u jap_u];
      try (apply unary_op_rep; [exact H|reflexivity]).
    - apply neg_rep, H.
    - unfold abs. rewrite (get_f_rep _ _ _ H). cbn [bind].
      destruct (o_lt O (jf J) (o_Z O 0)); [apply neg_rep, H|eauto].
    - apply adds_rep, H.
    - apply adds_rep, H.
    - apply adds_rep, H.
    - apply ssub_rep, H.
    - apply muls_rep, H.
    - apply muls_rep, H.
    - apply muls_rep, H.
  Qed.

  Lemma apply_b_rep n J K x y b : rep c n J x -> rep c n K y ->
    exists r, apply_b O c b x y = Ok r /\ rep c n (jap_b O b J K) r.
  Proof.
    intros H H'. destruct b; try (apply binary_op_rep; [exact H|exact H'|reflexivity]).
    cbn [apply_b]. rewrite (div_eq x y (jf J) (jf K) (get_f_rep _ _ _ H) (get_f_rep _ _ _ H')).
    apply binary_op_rep; [exact H|exact H'|reflexivity].
  Qed.

  Lemma hypot3_rep n J K L x y z : rep c n J x -> rep c n K y -> rep c n L z ->
    exists r, hypot3 O c x y z = Ok r /\ rep c n (jap_hypot3 O J K L) r.
  Proof.
    intros H H' H''. pose proof (rep_size_ok _ _ _ H) as SO.
    destruct (empty_n_ok n SO) as (r & E & HS & HL).
    unfold hypot3. rewrite (size_rep _ _ _ _ H), (size_rep _ _ _ _ H').
    rewrite check_equal_size_ok. cbn [bind]. rewrite E. cbn [bind].
    rewrite (get_f_rep _ _ _ H), (get_f_rep _ _ _ H'), (get_f_rep _ _ _ H''). cbn [bind].
    match goal with |- context [ternary O c false x ?a ?b ?d ?f ?p1 ?p2 ?p3 ?p4 ?p5 ?p6 ?p7 ?p8 ?p9 ?r] =>
      destruct (ternary_enc O c Hcfg n J K L x (m_data y) (m_data z) f p1 p2 p3 p4 p5 p6 p7 p8 p9 r)
        as (d' & E' & HE); [apply (size_rep _ _ _ _ H)|apply H|apply H'|apply H''|reflexivity|exact HL|]
    end.
    rewrite E'. cbn [bind]. eexists. split; [reflexivity|].
    apply rep_intro; [exact SO|exact HS|exact HE].
  Qed.

  (** ** In-place operators *)
  Lemma len_rep n J x : rep c n J x -> len (m_data x) = Z.of_nat (storage_len (c_ord c) n).
  Proof. intros H. unfold len. rewrite (rep_length _ _ _ H). reflexivity. Qed.

  Lemma rd_rep n J x k d : rep c n J x -> (k < storage_len (c_ord c) n)%nat ->
    rd (m_data x) (Z.of_nat k) = Ok (nth k (enc (c_ord c) n J) d).
  Proof. intros (_ & -> & _) Hk. apply rd_full. rewrite enc_length. exact Hk. Qed.

  (** [add_assign]/[sub_assign] with a distinct object. *)
  Lemma add_assign_rep n J K x y : rep c n J x -> rep c n K y ->
    exists r, add_assign O c x (Some y) = Ok r /\ rep c n (jmap2 (o_add O) J K) r.
  Proof.
    intros H H'. pose proof (rep_size_ok _ _ _ H) as SO.
    unfold add_assign, ref_size. rewrite (size_rep _ _ _ _ H), (size_rep _ _ _ _ H').
    rewrite check_equal_size_ok. cbn [bind]. rewrite (len_rep _ _ _ H).
    edestruct (fun body => ew_map2 n J K (o_add O) body (m_data x)) as (d & E' & HE);
      [reflexivity|apply (rep_length _ _ _ H)| |rewrite E'; cbn [bind]].
    - intros i r' Hi HU _. cbn [ref_of deref].
      rewrite (rd_Some r' i _ (nth i (enc (c_ord c) n J) (jf J)) eq_refl).
      + cbn [bind]. rewrite (rd_rep n K y _ (jf K)) by assumption. reflexivity.
      + rewrite HU. destruct H as (_ & -> & _). apply enc_at, Hi.
    - eexists. split; [reflexivity|]. apply rep_intro; [exact SO|apply H|exact HE].
  Qed.
  Lemma sub_assign_rep n J K x y : rep c n J x -> rep c n K y ->
    exists r, sub_assign O c x (Some y) = Ok r /\ rep c n (jmap2 (o_sub O) J K) r.
  Proof.
    intros H H'. pose proof (rep_size_ok _ _ _ H) as SO.
    unfold sub_assign, ref_size. rewrite (size_rep _ _ _ _ H), (size_rep _ _ _ _ H').
    rewrite check_equal_size_ok. cbn [bind]. rewrite (len_rep _ _ _ H).
    edestruct (fun body => ew_map2 n J K (o_sub O) body (m_data x)) as (d & E' & HE);
      [reflexivity|apply (rep_length _ _ _ H)| |rewrite E'; cbn [bind]].
    - intros i r' Hi HU _. cbn [ref_of deref].
      rewrite (rd_Some r' i _ (nth i (enc (c_ord c) n J) (jf J)) eq_refl).
      + cbn [bind]. rewrite (rd_rep n K y _ (jf K)) by assumption. reflexivity.
      + rewrite HU. destruct H as (_ & -> & _). apply enc_at, Hi.
    - eexists. split; [reflexivity|]. apply rep_intro; [exact SO|apply H|exact HE].
  Qed.
  (** The same object on both sides. *)
  Lemma add_assign_self n J x : rep c n J x ->
    exists r, add_assign O c x None = Ok r /\ rep c n (jmap2 (o_add O) J J) r.
  Proof.
    intros H. pose proof (rep_size_ok _ _ _ H) as SO.
    unfold add_assign, ref_size. rewrite (size_rep _ _ _ _ H).
    rewrite check_equal_size_ok. cbn [bind]. rewrite (len_rep _ _ _ H).
    edestruct (fun body => ew_map2 n J J (o_add O) body (m_data x)) as (d & E' & HE);
      [reflexivity|apply (rep_length _ _ _ H)| |rewrite E'; cbn [bind]].
    - intros i r' Hi HU _. cbn [ref_of deref].
      rewrite (rd_Some r' i _ (nth i (enc (c_ord c) n J) (jf J)) eq_refl).
      + reflexivity.
      + rewrite HU. destruct H as (_ & -> & _). apply enc_at, Hi.
    - eexists. split; [reflexivity|]. apply rep_intro; [exact SO|apply H|exact HE].
  Qed.
  Lemma sub_assign_self n J x : rep c n J x ->
    exists r, sub_assign O c x None = Ok r /\ rep c n (jmap2 (o_sub O) J J) r.
  Proof.
    intros H. pose proof (rep_size_ok _ _ _ H) as SO.
    unfold sub_assign, ref_size. rewrite (size_rep _ _ _ _ H).
    rewrite check_equal_size_ok. cbn [bind]. rewrite (len_rep _ _ _ H).
    edestruct (fun body => ew_map2 n J J (o_sub O) body (m_data x)) as (d & E' & HE);
      [reflexivity|apply (rep_length _ _ _ H)| |rewrite E'; cbn [bind]].
    - intros i r' Hi HU _. cbn [ref_of deref].
      rewrite (rd_Some r' i _ (nth i (enc (c_ord c) n J) (jf J)) eq_refl).
      + reflexivity.
      + rewrite HU. destruct H as (_ & -> & _). apply enc_at, Hi.
    - eexists. split; [reflexivity|]. apply rep_intro; [exact SO|apply H|exact HE].
  Qed.

  (** [div_assign] with a distinct object is [binary] writing into its own first operand; the
      first operand is copied, so the closed form of [binary_enc] applies. *)
  Lemma div_assign_rep n J K x y : rep c n J x -> rep c n K y ->
    exists r, div_assign O c x (Some y) = Ok r /\
      rep c n (jb6 O (k_div_assign O (jf J) (jf K)) J K) r.
  Proof.
    intros H H'. pose proof (rep_size_ok _ _ _ H) as SO.
    unfold div_assign, ref_size. rewrite (size_rep _ _ _ _ H), (size_rep _ _ _ _ H').
    rewrite check_equal_size_ok. cbn [bind].
    change (rd (m_data x) 0) with (get_f x). rewrite (get_f_rep _ _ _ H). cbn [bind].
    unfold ref_f. cbn [ref_of deref]. change (rd (m_data y) 0) with (get_f y).
    rewrite (get_f_rep _ _ _ H'). cbn [bind].
    unfold k_div_assign. cbn [jb6].
    edestruct (binary_enc O c Hcfg n J K x (m_data y)) as (d & E' & HE);
      [apply (size_rep _ _ _ _ H)|apply H|apply H'| | |rewrite E'; cbn [bind]].
    - reflexivity.
    - apply (rep_length _ _ _ H).
    - eexists. split; [reflexivity|]. apply rep_intro; [exact SO|apply H|exact HE].
  Qed.

  (** [mul_assign] with a distinct object and with itself, in one proof: [gb], [fb], [hb] describe
      what [b] reads. *)
  Lemma mul_assign_gen n J x (b : obj_ref (S:=S)) (K : jet S) gb :
    rep c n J x ->
    (match b with
     | None => K = J /\
        (forall i, gb i = o_add O (o_mul O (jf K) (jg J i)) (o_mul O (jf J) (jg K i)))
     | Some y => rep c n K y /\ gb = jg K end) ->
    exists r, mul_assign O c x b = Ok r /\
      rep c n (mkjet (o_mul O (jf J) (jf K))
                (fun i => o_add O (o_mul O (jf K) (jg J i)) (o_mul O (jf J) (jg K i)))
                (fun i j => o_add O (o_add O (o_mul O (jf K) (jh J i j)) (o_mul O (jf J) (jh K i j)))
                    (o_add O (o_mul O (jg J i) (gb j)) (o_mul O (jg J j) (gb i))))) r.
  Proof.
    intros H Hb. pose proof (rep_size_ok _ _ _ H) as SO.
    pose proof (storage_len_ge (c_ord c) n) as GE.
    pose proof (rep_length _ _ _ H) as L.
    unfold mul_assign. rewrite (size_rep _ _ _ _ H).
    assert (HZ : ref_size c x b = Z.of_nat n).
    { destruct b as [y|]; cbn [ref_size]; [apply (size_rep _ _ _ _ (proj1 Hb))|apply (size_rep _ _ _ _ H)]. }
    rewrite HZ, check_equal_size_ok. cbn [bind].
    assert (HF : ref_f (m_data x) b = Ok (jf K)).
    { unfold ref_f. destruct b as [y|]; cbn [ref_of deref].
      - apply (get_f_rep _ _ _ (proj1 Hb)).
      - destruct Hb as [-> _]. apply (get_f_rep _ _ _ H). }
    rewrite HF. cbn [bind].
    change (rd (m_data x) 0) with (get_f x). rewrite (get_f_rep _ _ _ H). cbn [bind].
    rewrite (wr_ok _ 0%nat) by (try reflexivity; lia). cbn [bind].
    unfold len. rewrite upd_length, L.
    set (G := fun k => o_add O (o_mul O (jf K) (nth k (enc (c_ord c) n J) (jf J)))
                               (o_mul O (jf J) (nth k (enc (c_ord c) n K) (jf J)))).
    edestruct (fun body => ew_loop (S:=S) 1 (storage_len (c_ord c) n) body G
                 (upd (m_data x) 0 (o_mul O (jf J) (jf K))))
      as (r1 & E1 & H1); [reflexivity|reflexivity| | | |rewrite E1; cbn [bind]].
    { rewrite upd_length; exact L. }
    { lia. }
    { intros i r' Hi (_ & _ & HU).
      assert (HA : rd r' (Z.of_nat i) = Ok (nth i (enc (c_ord c) n J) (jf J))).
      { apply (rd_Some r' i); [reflexivity|]. rewrite HU by lia.
        rewrite nth_error_upd_ne by lia. destruct H as (_ & -> & _). apply enc_at. lia. }
      rewrite HA. cbn [bind].
      assert (HB : rd (deref (ref_of b) r') (Z.of_nat i) = Ok (nth i (enc (c_ord c) n K) (jf J))).
      { destruct b as [y|]; cbn [ref_of deref].
        - apply (rd_rep n K y); [apply Hb|lia].
        - destruct Hb as [-> _]. exact HA. }
      rewrite HB. reflexivity. }
    apply after_ew in H1; [|exact L].
    set (B := fun i j => o_add O (o_mul O (jf K) (jh J i j)) (o_mul O (jf J) (jh K i j))).
    assert (HB : isenc (c_ord c) n
              (mkjet (o_mul O (jf J) (jf K))
                 (fun i => o_add O (o_mul O (jf K) (jg J i)) (o_mul O (jf J) (jg K i))) B) r1).
    { eapply isenc_jeq; [|exact H1]. split; [reflexivity|]. split; cbn [jf jg jh]; unfold G, B.
      - intros i Hi. rewrite !nth_enc_g by exact Hi. reflexivity.
      - intros Ho i j Hij. rewrite !nth_enc_h by assumption. reflexivity. }
    destruct (Z.eqb_spec (c_ord c) 1) as [Ho|Ho].
    { eexists. split; [reflexivity|]. apply rep_intro; [exact SO|apply H|]. cbn [m_data].
      eapply isenc_jeq; [|exact HB]. split; [reflexivity|]. split; [reflexivity|].
      intros Ho'; contradiction. }
    assert (HN : storage_len (c_ord c) n = (1 + n + rs n n)%nat).
    { rewrite storage_len_rs. destruct (Z.eqb_spec (c_ord c) 1); [contradiction|reflexivity]. }
    set (T := fun i j => o_add O (B i j)
                    (o_add O (o_mul O (jg J i) (gb j)) (o_mul O (jg J j) (gb i)))).
    assert (HA : isenc (c_ord c) n J (m_data x)) by (eapply isenc_rep, H).
    edestruct (tri_loop n (1 + n + rs n n)%nat T r1) as (k & r2 & E2 & L2 & Hm & Ht);
      [reflexivity|reflexivity|reflexivity|destruct HB; lia| |rewrite E2; cbn [bind]].
    - intros i st Hi HP. cbn beta iota.
      eapply tri_inner with (T := T); [reflexivity|reflexivity|reflexivity|exact Hi|exact HP|].
      intros j r3 Hj HP3. cbn beta iota.
      rewrite (rd_g c n J _ i) by (try assumption; lia). cbn [bind].
      assert (HG : forall k, (k < n)%nat ->
                 rd (deref (ref_of b) r3) (1 + Z.of_nat k) = Ok (gb k)).
      { intros m Hk. destruct b as [y|]; cbn [ref_of deref].
        - destruct Hb as [Hy ->]. apply (rd_g c n K); [eapply isenc_rep, Hy|exact Hk|reflexivity].
        - destruct Hb as [-> Hg]. destruct HP3 as (_ & _ & Hm & _ & _).
          apply (rd_Some r3 (1 + m)); [lia|]. rewrite Hm by lia.
          destruct HB as (_ & _ & HBg & _). rewrite HBg by exact Hk. cbn [jg]. rewrite Hg. reflexivity. }
      rewrite !HG by lia. cbn [bind].
      rewrite (rd_g c n J _ j) by (try assumption; lia). cbn [bind].
      assert (Hcell : nth_error r3 (pos n i j) = Some (Some (B i j))).
      { destruct HP3 as (_ & _ & _ & _ & Hu). rewrite Hu by lia.
        destruct HB as (_ & _ & _ & HH). apply HH; [exact Ho|lia]. }
      rewrite (rd_Some _ (pos n i j) _ _ eq_refl Hcell). cbn [bind]. reflexivity.
    - eexists. split; [reflexivity|]. apply rep_intro; [exact SO|apply H|]. cbn [m_data].
      split; [lia|].
      destruct HB as (_ & H0 & HBg & _). split; [rewrite Hm by lia; exact H0|]. split.
      + intros i Hi. rewrite Hm by lia. apply HBg, Hi.
      + intros _ i j Hij. rewrite Ht by exact Hij. reflexivity.
  Qed.

  Lemma mul_assign_rep n J K x y : rep c n J x -> rep c n K y ->
    exists r, mul_assign O c x (Some y) = Ok r /\ rep c n (jmul_assign O J K) r.
  Proof. intros H H'. apply (mul_assign_gen n J x (Some y) K (jg K) H); auto. Qed.

  Lemma mul_assign_self n J x : rep c n J x ->
    exists r, mul_assign O c x None = Ok r /\ rep c n (jmul_self O J) r.
  Proof.
    intros H.
    apply (mul_assign_gen n J x None J
             (fun i => o_add O (o_mul O (jf J) (jg J i)) (o_mul O (jf J) (jg J i))) H); auto.
  Qed.

  (** [x /= x]. *)
  Lemma div_assign_self n J x : rep c n J x ->
    exists r, div_assign O c x None = Ok r /\
      rep c n (let '(f, da, db, daa, dab, dbb) := k_div_assign O (jf J) (jf J) in
               jb_self O f da db daa dab dbb J) r.
  Proof.
    intros H. pose proof (rep_size_ok _ _ _ H) as SO.
    pose proof (storage_len_ge (c_ord c) n) as GE.
    pose proof (rep_length _ _ _ H) as L.
    unfold div_assign. cbn [ref_size]. rewrite (size_rep _ _ _ _ H), check_equal_size_ok. cbn [bind].
    unfold ref_f. cbn [ref_of deref].
    change (rd (m_data x) 0) with (get_f x). rewrite (get_f_rep _ _ _ H). cbn [bind].
    destruct (k_div_assign O (jf J) (jf J)) as [[[[[f da] db] daa] dab] dbb] eqn:EK.
    assert (Hz : is_zero da && is_zero db = false).
    { unfold k_div_assign in EK. inversion EK. reflexivity. }
    clear EK.
    unfold binary. rewrite (data_length_rep _ _ _ H).
    rewrite (wr_ok _ 0%nat) by (try reflexivity; lia). cbn [bind].
    rewrite Hz. destruct (Z.ltb_spec (c_ord c) 1); [destruct Hcfg as [[|] _]; lia|]. cbn [orb].
    set (G := fun k => vset O (vadd O (cmul O da (nth k (enc (c_ord c) n J) f))
                                      (cmul O db (nth k (enc (c_ord c) n J) f)))).
    edestruct (fun body => ew_loop (S:=S) 1 (storage_len (c_ord c) n) body G (upd (m_data x) 0 f))
      as (r1 & E1 & H1); [reflexivity|reflexivity| | | |rewrite E1; cbn [bind]].
    { rewrite upd_length; exact L. }
    { lia. }
    { intros i r' Hi (_ & _ & HU). cbn [deref].
      rewrite (rd_rep n J x _ f) by (try assumption; lia). cbn [bind].
      assert (HA : rd r' (Z.of_nat i) = Ok (nth i (enc (c_ord c) n J) f)).
      { apply (rd_Some r' i); [reflexivity|]. rewrite HU by lia.
        rewrite nth_error_upd_ne by lia. destruct H as (_ & -> & _). apply enc_at. lia. }
      rewrite HA. reflexivity. }
    apply after_ew in H1; [|exact L].
    set (g' := fun i => vset O (vadd O (cmul O da (jg J i)) (cmul O db (jg J i)))).
    set (B := fun i j => vset O (vadd O (cmul O da (jh J i j)) (cmul O db (jh J i j)))).
    assert (HB : isenc (c_ord c) n (mkjet f g' B) r1).
    { eapply isenc_jeq; [|exact H1]. split; [reflexivity|]. split; cbn [jf jg jh]; unfold G, B, g'.
      - intros i Hi. rewrite !nth_enc_g by exact Hi. reflexivity.
      - intros Ho i j Hij. rewrite !nth_enc_h by assumption. reflexivity. }
    destruct (Z.ltb_spec (c_ord c) 2) as [Hlt|Hge]; cbn [orb].
    { eexists. split; [reflexivity|]. apply rep_intro; [exact SO|apply H|]. cbn [m_data].
      eapply isenc_jeq; [|exact HB].
      split; [reflexivity|]. split; [reflexivity|]. intros Ho. destruct Hcfg as [[|] _]; lia. }
    destruct (is_zero daa && is_zero dab && is_zero dbb) eqn:Zd; cbn [orb].
    { eexists. split; [reflexivity|]. apply rep_intro; [exact SO|apply H|]. cbn [m_data].
      eapply isenc_jeq; [|exact HB].
      split; [reflexivity|]. split; [reflexivity|].
      intros Ho i j Hij. cbn [jh jb_self]. rewrite Zd. reflexivity. }
    assert (Ho : c_ord c <> 1) by lia.
    assert (HN : storage_len (c_ord c) n = (1 + n + rs n n)%nat).
    { rewrite storage_len_rs. destruct (Z.eqb_spec (c_ord c) 1); [contradiction|reflexivity]. }
    rewrite (size_rep _ _ _ _ H).
    assert (HA : isenc (c_ord c) n J (m_data x)) by (eapply isenc_rep, H).
    set (T := fun i j => vacc O (B i j)
           (vadd O (vmul O (vadd O (cmul O daa (jg J i)) (cmul O dab (g' i))) (jg J j))
                   (vmul O (vadd O (cmul O dab (jg J i)) (cmul O dbb (g' i))) (g' j)))).
    assert (HG : forall i0 j0 k0 r k, Ptri n (1 + n + rs n n)%nat T r1 i0 j0 (k0, r) -> (k < n)%nat ->
                 rd r (1 + Z.of_nat k) = Ok (g' k)).
    { intros i0 j0 k0 r k (_ & _ & Hm & _) Hk. apply (rd_Some r (1 + k)); [lia|]. rewrite Hm by lia.
      destruct HB as (_ & _ & HBg & _). apply HBg, Hk. }
    edestruct (tri_loop n (1 + n + rs n n)%nat T r1) as (k & r2 & E2 & L2 & Hm & Ht);
      [reflexivity|reflexivity|reflexivity|destruct HB; lia| |rewrite E2; cbn [bind]].
    - intros i [k r2] Hi HP. cbn beta iota. cbn [deref].
      rewrite (rd_g c n J _ i) by (try assumption; lia).
      rewrite (HG _ _ _ _ i HP Hi). cbn [bind].
      eapply tri_inner with (T := T); [reflexivity|reflexivity|reflexivity|exact Hi|exact HP|].
      intros j r3 Hj HP3. cbn beta iota.
      rewrite (rd_g c n J _ j) by (try assumption; lia).
      rewrite (HG _ _ _ _ j HP3) by lia. cbn [bind].
      assert (Hcell : nth_error r3 (pos n i j) = Some (Some (B i j))).
      { destruct HP3 as (_ & _ & _ & _ & Hu). rewrite Hu by lia.
        destruct HB as (_ & _ & _ & HH). apply HH; [exact Ho|lia]. }
      rewrite (rd_Some _ (pos n i j) _ _ eq_refl Hcell). cbn [bind]. reflexivity.
    - eexists. split; [reflexivity|]. apply rep_intro; [exact SO|apply H|]. cbn [m_data].
      split; [lia|].
      destruct HB as (_ & Hf0 & HBg & _). split; [rewrite Hm by lia; exact Hf0|]. split.
      + intros i Hi. rewrite Hm by lia. apply HBg, Hi.
      + intros _ i j Hij. rewrite Ht by exact Hij. cbn [jh jb_self]. rewrite Zd. reflexivity.
  Qed.

  (** Scalar right-hand sides passed by value (or as a reference to another object). *)
  Lemma adds_assign_rep n J x b : rep c n J x ->
    exists r, adds_assign O x (SVal b) = Ok r /\ rep c n (jsetf J (o_add O (jf J) b)) r.
  Proof.
    intros H. unfold adds_assign. rewrite (get_f_rep _ _ _ H). cbn [bind sderef]. apply set_f_rep, H.
  Qed.
  Lemma subs_assign_rep n J x b : rep c n J x ->
    exists r, subs_assign O x (SVal b) = Ok r /\ rep c n (jsetf J (o_sub O (jf J) b)) r.
  Proof.
    intros H. unfold subs_assign. rewrite (get_f_rep _ _ _ H). cbn [bind sderef]. apply set_f_rep, H.
  Qed.
  Lemma muls_assign_rep n J x b : rep c n J x ->
    exists r, muls_assign O x (SVal b) = Ok r /\ rep c n (jmap (fun v => o_mul O v b) J) r.
  Proof.
    intros H. pose proof (rep_size_ok _ _ _ H) as SO. unfold muls_assign.
    rewrite (len_rep _ _ _ H).
    edestruct (fun body => ew_map n J (fun v => o_mul O v b) body (m_data x)) as (d & E' & HE);
      [reflexivity|apply (rep_length _ _ _ H)| |rewrite E'; cbn [bind]].
    - intros i r' Hi HU _. cbn beta iota.
      rewrite (rd_Some r' i _ (nth i (enc (c_ord c) n J) (jf J)) eq_refl); [reflexivity|].
      rewrite HU. destruct H as (_ & -> & _). apply enc_at, Hi.
    - eexists. split; [reflexivity|]. apply rep_intro; [exact SO|apply H|exact HE].
  Qed.
  Lemma divs_assign_rep n J x b : rep c n J x ->
    exists r, divs_assign O x (SVal b) = Ok r /\
      rep c n (jmap (fun v => o_mul O v (o_div O (o_Z O 1) b)) J) r.
  Proof. intros H. apply muls_assign_rep, H. Qed.

  (** [x *= x.f()]: the factor is re-read after the value has been overwritten. *)
  Lemma muls_assign_elem0 n J x : rep c n J x ->
    exists r, muls_assign O x (SElem 0) = Ok r /\
      rep c n (let f2 := o_mul O (jf J) (jf J) in
               mkjet f2 (fun i => o_mul O (jg J i) f2) (fun i j => o_mul O (jh J i j) f2)) r.
  Proof.
    intros H. pose proof (rep_size_ok _ _ _ H) as SO. unfold muls_assign.
    pose proof (storage_len_ge (c_ord c) n) as GE. pose proof (rep_length _ _ _ H) as L.
    rewrite (len_rep _ _ _ H). set (f2 := o_mul O (jf J) (jf J)).
    set (G := fun k => match k with Datatypes.O => f2
                       | _ => o_mul O (nth k (enc (c_ord c) n J) (jf J)) f2 end).
    edestruct (fun body => ew_loop (S:=S) 0 (storage_len (c_ord c) n) body G (m_data x))
      as (r & E & HE); [reflexivity|reflexivity|exact L|lia| |rewrite E; cbn [bind]].
    - intros i r' Hi (_ & Hd & HU).
      assert (HA : rd r' (Z.of_nat i) = Ok (nth i (enc (c_ord c) n J) (jf J))).
      { apply (rd_Some r' i); [reflexivity|]. rewrite HU by lia.
        destruct H as (_ & -> & _). apply enc_at. lia. }
      rewrite HA. cbn [bind sderef]. destruct i as [|i].
      + change 0 with (Z.of_nat 0). rewrite HA. reflexivity.
      + rewrite (rd_Some r' 0%nat 0 f2 eq_refl); [reflexivity|]. apply Hd; lia.
    - eexists. split; [reflexivity|]. apply rep_intro; [exact SO|apply H|]. cbn [m_data].
      apply after_ew0 in HE. eapply isenc_jeq; [|exact HE].
      split; [reflexivity|]. split; cbn [jg jh]; unfold G.
      + intros i Hi. rewrite nth_enc_g by exact Hi. reflexivity.
      + intros Ho i j Hij. unfold pos at 1. cbn [plus].
        change (Datatypes.S (n + rs n i + (j - i))) with (pos n i j).
        rewrite nth_enc_h by assumption. reflexivity.
  Qed.
End Rep.
