(** Closed forms of [unary], [binary], [ternary] on well-formed storages, for any scalar type. *)
From Coq Require Import ZArith List Bool Lia.
From Verif Require Import Outcome Scalar Model Spec Core.
Import ListNotations.
Open Scope Z_scope.
Open Scope res_scope.
Ltac Zify.zify_post_hook ::= Z.div_mod_to_equations.

Section Loops.
  Context {S : Type}.

  (** Elementwise loop: every index in [lo, N) is overwritten once. *)
  Definition Pew (lo N : nat) (G : nat -> S) (r0 : data S) (i : nat) (r : data S) : Prop :=
    length r = N /\
    (forall k, (lo <= k < i)%nat -> nth_error r k = Some (Some (G k))) /\
    (forall k, (k < lo)%nat \/ (i <= k)%nat -> nth_error r k = nth_error r0 k).

  Lemma ew_loop lo N (body : Z -> data S -> res (data S)) G r0 zlo zN :
    zlo = Z.of_nat lo -> zN = Z.of_nat N ->
    length r0 = N -> (lo <= N)%nat ->
    (forall i r, (lo <= i < N)%nat -> Pew lo N G r0 i r ->
       body (Z.of_nat i) r = wr r (Z.of_nat i) (G i)) ->
    exists r', for_ zlo zN body r0 = Ok r' /\ Pew lo N G r0 N r'.
  Proof.
    intros -> -> HL Hle Hb.
    apply (for_inv body (Pew lo N G r0) lo N); auto.
    - split; [exact HL|]. split; [intros k Hk; lia|reflexivity].
    - intros i r Hi HP. rewrite (Hb i r Hi HP).
      destruct HP as (L & Hd & Hu).
      rewrite (wr_ok r i) by (try reflexivity; lia).
      eexists. split; [reflexivity|].
      split; [rewrite upd_length; exact L|]. split.
      + intros k Hk. destruct (Nat.eq_dec k i) as [->|Hne].
        * apply nth_error_upd_eq; lia.
        * rewrite nth_error_upd_ne by lia. apply Hd; lia.
      + intros k Hk. rewrite nth_error_upd_ne by lia. apply Hu; lia.
  Qed.

  (** Triangular loop with a running position. *)
  Definition Ptri (n N : nat) (T : nat -> nat -> S) (r0 : data S) (i j : nat)
      (st : Z * data S) : Prop :=
    let '(k, r) := st in
    k = Z.of_nat (pos n i j) /\ length r = N /\
    (forall m, (m < 1 + n)%nat -> nth_error r m = nth_error r0 m) /\
    (forall i' j', (i' <= j' < n)%nat -> (i' < i \/ (i' = i /\ j' < j))%nat ->
       nth_error r (pos n i' j') = Some (Some (T i' j'))) /\
    (forall i' j', (i' <= j' < n)%nat -> (i < i' \/ (i' = i /\ j <= j'))%nat ->
       nth_error r (pos n i' j') = nth_error r0 (pos n i' j')).

  Lemma tri_start n N T r0 : length r0 = N -> Ptri n N T r0 0 0 (1 + Z.of_nat n, r0).
  Proof.
    intros H. unfold Ptri. repeat split; auto; try lia.
    - unfold pos. cbn [rs]. lia.
  Qed.

  Lemma Ptri_step n N T r0 i j k r :
    N = (1 + n + rs n n)%nat -> (i <= j < n)%nat -> Ptri n N T r0 i j (k, r) ->
    Ptri n N T r0 i (1 + j) (k + 1, upd r (pos n i j) (T i j)) /\ (pos n i j < length r)%nat.
  Proof.
    intros HN Hj (Hk & L & Hm & Hd & Hu).
    pose proof (pos_bound n i j ltac:(lia)) as PB. split; [|lia].
    split; [rewrite pos_next_col by lia; lia|].
    split; [rewrite upd_length; exact L|].
    split; [intros m Hmm; rewrite nth_error_upd_ne by lia; apply Hm; exact Hmm|].
    split.
    - intros i' j' Hij Hlex.
      destruct (Nat.eq_dec (pos n i j) (pos n i' j')) as [E|NE].
      + destruct (pos_inj n i j i' j' ltac:(lia) Hij E) as (<- & <-).
        apply nth_error_upd_eq; lia.
      + rewrite nth_error_upd_ne by exact NE. apply Hd; [exact Hij|].
        destruct Hlex as [|[-> Hlt]]; [left; assumption|right; split; [reflexivity|]].
        destruct (Nat.eq_dec j' j) as [->|]; [congruence|lia].
    - intros i' j' Hij Hlex.
      destruct (Nat.eq_dec (pos n i j) (pos n i' j')) as [E|NE].
      + destruct (pos_inj n i j i' j' ltac:(lia) Hij E) as (<- & <-). lia.
      + rewrite nth_error_upd_ne by exact NE. apply Hu; [exact Hij|]. lia.
  Qed.

  Lemma Ptri_row n N T r0 i st : (i < n)%nat ->
    Ptri n N T r0 i n st -> Ptri n N T r0 (1 + i) (1 + i) st.
  Proof.
    destruct st as [k r]. intros Hi (Hk & L & Hm & Hd & Hu).
    split; [rewrite <- pos_next_row by exact Hi; exact Hk|].
    split; [exact L|]. split; [exact Hm|]. split.
    - intros i' j' Hij Hlex. apply Hd; [exact Hij|]. lia.
    - intros i' j' Hij Hlex. apply Hu; [exact Hij|]. lia.
  Qed.

  Lemma tri_inner n N T r0 i (body : Z -> Z * data S -> res (Z * data S)) st zi zn :
    zi = Z.of_nat i -> zn = Z.of_nat n ->
    N = (1 + n + rs n n)%nat -> (i < n)%nat ->
    Ptri n N T r0 i i st ->
    (forall j r, (i <= j < n)%nat -> Ptri n N T r0 i j (Z.of_nat (pos n i j), r) ->
       body (Z.of_nat j) (Z.of_nat (pos n i j), r) =
       (r' <- wr r (Z.of_nat (pos n i j)) (T i j) ;; Ok (Z.of_nat (pos n i j) + 1, r'))) ->
    exists st', for_ zi zn body st = Ok st' /\ Ptri n N T r0 (1 + i) (1 + i) st'.
  Proof.
    intros -> -> HN Hi H0 Hb.
    destruct (for_inv body (Ptri n N T r0 i) i n (Z.of_nat i) (Z.of_nat n) st
                eq_refl eq_refl ltac:(lia) H0) as (st' & E & H).
    - intros j [k r] Hj HP.
      assert (Hk : k = Z.of_nat (pos n i j)) by (destruct HP; assumption). subst k.
      rewrite (Hb j r Hj HP).
      destruct (Ptri_step _ _ _ _ _ _ _ _ HN Hj HP) as (HP' & Hlt).
      rewrite (wr_ok r (pos n i j)) by (try reflexivity; lia). cbn [bind].
      eexists. split; [reflexivity|exact HP'].
    - exists st'. split; [exact E|]. apply Ptri_row; assumption.
  Qed.

  Lemma tri_loop n N T r0 (body : Z -> Z * data S -> res (Z * data S)) z0 zn :
    z0 = 1 + Z.of_nat n -> zn = Z.of_nat n ->
    N = (1 + n + rs n n)%nat -> length r0 = N ->
    (forall i st, (i < n)%nat -> Ptri n N T r0 i i st ->
       exists st', body (Z.of_nat i) st = Ok st' /\ Ptri n N T r0 (1 + i) (1 + i) st') ->
    exists k r, for_ 0 zn body (z0, r0) = Ok (k, r) /\ length r = N /\
      (forall m, (m < 1 + n)%nat -> nth_error r m = nth_error r0 m) /\
      (forall i j, (i <= j < n)%nat -> nth_error r (pos n i j) = Some (Some (T i j))).
  Proof.
    intros -> -> HN HL Hb.
    destruct (for_inv body (fun i => Ptri n N T r0 i i) 0%nat n 0 (Z.of_nat n)
                (1 + Z.of_nat n, r0) eq_refl eq_refl ltac:(lia)) as ([k r] & E & H).
    - apply tri_start; exact HL.
    - intros i st Hi HP. apply Hb; [lia|exact HP].
    - exists k, r. split; [exact E|]. destruct H as (Hk & L & Hm & Hd & Hu).
      split; [exact L|]. split; [exact Hm|]. intros i j Hij. apply Hd; lia.
  Qed.
End Loops.

Section Kernels.
  Context {S : Type} (O : Ops S) (c : cfg).

  Lemma size_rep n (J : jet S) x : rep c n J x -> size c x = Z.of_nat n.
  Proof. intros H. apply H. Qed.

  Lemma isenc_rep n (J : jet S) x : rep c n J x -> isenc (c_ord c) n J (m_data x).
  Proof. intros (_ & -> & _). apply enc_isenc. Qed.

  Lemma quot_tri n : Z.quot ((Z.of_nat n + 1) * (Z.of_nat n + 2)) 2 = Z.of_nat ((n + 1) * (n + 2) / 2).
  Proof.
    rewrite Z.quot_div_nonneg by nia.
    rewrite Nat2Z.inj_div by lia. rewrite Nat2Z.inj_mul, !Nat2Z.inj_add. reflexivity.
  Qed.

  Lemma StaticDataSize_ok n :
    c_tsize c = Z.of_nat n -> StaticDataSize c = Z.of_nat (storage_len (c_ord c) n).
  Proof.
    intros H. unfold StaticDataSize, storage_len. rewrite H.
    destruct (c_ord c =? 1); [lia|]. apply quot_tri.
  Qed.

  Lemma data_length_ok n (x : dd S) :
    size c x = Z.of_nat n -> length (m_data x) = storage_len (c_ord c) n ->
    data_length c x = Z.of_nat (storage_len (c_ord c) n).
  Proof.
    unfold size, data_length. destruct (is_dynamic c) eqn:D.
    - intros _ H. unfold len. rewrite H. reflexivity.
    - intros H _. apply StaticDataSize_ok, H.
  Qed.

  Lemma rd_f n (J : jet S) d : isenc (c_ord c) n J d -> rd d 0 = Ok (jf J).
  Proof. intros (_ & H & _). apply (rd_Some d 0%nat); [reflexivity|exact H]. Qed.
  Lemma rd_g n (J : jet S) d i z : isenc (c_ord c) n J d -> (i < n)%nat -> z = 1 + Z.of_nat i ->
    rd d z = Ok (jg J i).
  Proof. intros (_ & _ & H & _) Hi ->. apply (rd_Some d (1 + i)); [lia|]. apply H, Hi. Qed.
  Lemma rd_h n (J : jet S) d i j z : isenc (c_ord c) n J d -> c_ord c <> 1 -> (i <= j < n)%nat ->
    z = Z.of_nat (pos n i j) -> rd d z = Ok (jh J i j).
  Proof. intros (_ & _ & _ & H) Ho Hi ->. apply (rd_Some d (pos n i j)); [reflexivity|]. auto. Qed.

  Lemma rd_full (vs : list S) k d : (k < length vs)%nat -> rd (full vs) (Z.of_nat k) = Ok (nth k vs d).
  Proof.
    intros H. apply (rd_Some _ k); [reflexivity|].
    apply nth_error_full. apply nth_error_nth'. exact H.
  Qed.

  Lemma nth_enc_g ord n (J : jet S) i d : (i < n)%nat -> nth (1 + i) (enc ord n J) d = jg J i.
  Proof. intros H. apply nth_error_nth. apply enc_nth_g, H. Qed.
  Lemma nth_enc_h ord n (J : jet S) i j d : ord <> 1 -> (i <= j < n)%nat ->
    nth (pos n i j) (enc ord n J) d = jh J i j.
  Proof. intros Ho H. apply nth_error_nth. apply enc_nth_h; assumption. Qed.

  Lemma storage_len_ge ord n : (1 + n <= storage_len ord n)%nat.
  Proof. rewrite storage_len_rs. destruct (ord =? 1); lia. Qed.

  (** *** closed forms of the chain rule, entry by entry *)
  Definition ju (f : S) (da daa : coef S) (J : jet S) : jet S :=
    mkjet f
      (fun i => vset O (cmul O da (jg J i)))
      (fun i j =>
         let base := vset O (cmul O da (jh J i j)) in
         if is_zero daa then base
         else vacc O base (vmul O (cmul O daa (jg J i)) (jg J j))).

  Definition jb (f : S) (da db daa dab dbb : coef S) (J K : jet S) : jet S :=
    mkjet f
      (fun i => vset O (vadd O (cmul O da (jg J i)) (cmul O db (jg K i))))
      (fun i j =>
         let base := vset O (vadd O (cmul O da (jh J i j)) (cmul O db (jh K i j))) in
         if is_zero daa && is_zero dab && is_zero dbb then base
         else vacc O base
           (vadd O (vmul O (vadd O (cmul O daa (jg J i)) (cmul O dab (jg K i))) (jg J j))
                   (vmul O (vadd O (cmul O dab (jg J i)) (cmul O dbb (jg K i))) (jg K j)))).

  Definition jt (f : S) (da db dc daa dab dac dbb dbc dcc : coef S) (J K L : jet S) : jet S :=
    mkjet f
      (fun i => vset O (vadd O (vadd O (cmul O da (jg J i)) (cmul O db (jg K i)))
                               (cmul O dc (jg L i))))
      (fun i j =>
         let base := vset O (vadd O (vadd O (cmul O da (jh J i j)) (cmul O db (jh K i j)))
                                    (cmul O dc (jh L i j))) in
         if is_zero daa && is_zero dab && is_zero dac && is_zero dbb && is_zero dbc && is_zero dcc
         then base
         else vacc O base
           (vadd O (vadd O
              (vmul O (vadd O (vadd O (cmul O daa (jg J i)) (cmul O dab (jg K i)))
                              (cmul O dac (jg L i))) (jg J j))
              (vmul O (vadd O (vadd O (cmul O dab (jg J i)) (cmul O dbb (jg K i)))
                              (cmul O dbc (jg L i))) (jg K j)))
              (vmul O (vadd O (vadd O (cmul O dac (jg J i)) (cmul O dbc (jg K i)))
                              (cmul O dcc (jg L i))) (jg L j)))).

  Hypothesis Hcfg : cfg_ok c.

  Lemma ord_cases : (c_ord c = 1 \/ c_ord c = 2).
  Proof. apply Hcfg. Qed.

  (** What the elementwise phase establishes. *)
  Lemma after_ew n (G : nat -> S) (f : S) r0 r :
    length r0 = storage_len (c_ord c) n ->
    Pew 1 (storage_len (c_ord c) n) G (upd r0 0 f) (storage_len (c_ord c) n) r ->
    isenc (c_ord c) n (mkjet f (fun i => G (1 + i)%nat) (fun i j => G (pos n i j))) r.
  Proof.
    intros HL (L & Hd & Hu). pose proof (storage_len_ge (c_ord c) n) as GE.
    split; [exact L|]. cbn [jf jg jh]. split.
    - rewrite Hu by lia. apply nth_error_upd_eq. lia.
    - split.
      + intros i Hi. rewrite Hd by lia. reflexivity.
      + intros Ho i j Hij. rewrite Hd; [reflexivity|].
        pose proof (pos_bound n i j Hij). rewrite storage_len_rs in *.
        destruct (Z.eqb_spec (c_ord c) 1); [contradiction|lia].
  Qed.

  Lemma isenc_jeq n (J K : jet S) r :
    jeq (c_ord c) n J K -> isenc (c_ord c) n J r -> isenc (c_ord c) n K r.
  Proof.
    intros E H. apply isenc_iff. rewrite <- (enc_ext _ _ _ _ E). apply isenc_iff, H.
  Qed.

  Lemma unary_enc n J x f da daa r :
    size c x = Z.of_nat n -> m_data x = full (enc (c_ord c) n J) ->
    is_zero da = false ->
    length r = storage_len (c_ord c) n ->
    exists r', unary O c false x (Some (m_data x)) f da daa r = Ok r' /\
      isenc (c_ord c) n (ju f da daa J) r'.
  Proof.
    intros HS HD Hz HL.
    pose proof (storage_len_ge (c_ord c) n) as GE.
    assert (HLx : length (m_data x) = storage_len (c_ord c) n)
      by (rewrite HD, full_length; apply enc_length).
    unfold unary. rewrite (data_length_ok n) by assumption.
    rewrite (wr_ok r 0%nat) by (try reflexivity; lia). cbn [bind].
    rewrite Hz. destruct (Z.ltb_spec (c_ord c) 1); [pose proof ord_cases; lia|]. cbn [orb].
    set (G := fun k => vset O (cmul O da (nth k (enc (c_ord c) n J) f))).
    destruct (ew_loop 1 (storage_len (c_ord c) n)
      (fun i r => x0 <- rd (deref (Some (m_data x)) r) i ;; wr r i (vset O (cmul O da x0)))
      G (upd r 0 f) 1 (Z.of_nat (storage_len (c_ord c) n)) eq_refl eq_refl)
      as (r1 & E1 & H1).
    { rewrite upd_length; exact HL. }
    { lia. }
    { intros i r' Hi HP. cbn [deref]. rewrite HD, (rd_full _ _ f) by (rewrite enc_length; lia).
      reflexivity. }
    rewrite E1. cbn [bind]. apply after_ew in H1; [|exact HL].
    assert (HB : isenc (c_ord c) n
              (mkjet f (fun i => vset O (cmul O da (jg J i)))
                       (fun i j => vset O (cmul O da (jh J i j)))) r1).
    { eapply isenc_jeq; [|exact H1]. split; [reflexivity|]. split; cbn [jf jg jh]; unfold G.
      - intros i Hi. rewrite nth_enc_g by exact Hi. reflexivity.
      - intros Ho i j Hij. rewrite nth_enc_h by assumption. reflexivity. }
    destruct (Z.ltb_spec (c_ord c) 2) as [Hlt|Hge]; cbn [orb].
    { exists r1. split; [reflexivity|]. eapply isenc_jeq; [|exact HB].
      split; [reflexivity|]. split; [reflexivity|]. intros Ho. pose proof ord_cases; lia. }
    destruct (is_zero daa) eqn:Zd; cbn [orb].
    { exists r1. split; [reflexivity|]. eapply isenc_jeq; [|exact HB].
      split; [reflexivity|]. split; [reflexivity|]. intros Ho i j Hij. cbn. rewrite Zd. reflexivity. }
    assert (Ho : c_ord c <> 1) by lia.
    assert (HA : isenc (c_ord c) n J (m_data x)) by (rewrite HD; apply enc_isenc).
    set (T := fun i j => vacc O (vset O (cmul O da (jh J i j)))
                          (vmul O (cmul O daa (jg J i)) (jg J j))).
    rewrite HS.
    assert (HN : storage_len (c_ord c) n = (1 + n + rs n n)%nat).
    { rewrite storage_len_rs. destruct (Z.eqb_spec (c_ord c) 1); [contradiction|reflexivity]. }
    edestruct (tri_loop n (1 + n + rs n n)%nat T r1) as (k & r2 & E2 & L2 & Hm & Ht);
      [reflexivity|reflexivity|reflexivity|destruct HB; lia| |rewrite E2; cbn [bind]].
    - intros i [k r2] Hi HP. cbn beta iota. cbn [deref].
      rewrite (rd_g n J _ i) by (try assumption; lia). cbn [bind].
      eapply tri_inner with (T := T); [reflexivity|reflexivity|reflexivity|exact Hi|exact HP|].
      intros j r3 Hj HP3. cbn beta iota.
      rewrite (rd_g n J _ j) by (try assumption; lia). cbn [bind].
      assert (Hcell : nth_error r3 (pos n i j) = Some (Some (vset O (cmul O da (jh J i j))))).
      { destruct HP3 as (_ & _ & _ & _ & Hu). rewrite Hu by lia.
        destruct HB as (_ & _ & _ & HH). apply HH; [exact Ho|lia]. }
      rewrite (rd_Some _ (pos n i j) _ _ eq_refl Hcell). cbn [bind]. reflexivity.
    - exists r2. split; [reflexivity|]. split; [lia|].
      destruct HB as (_ & H0 & HG & _). split; [rewrite Hm by lia; exact H0|]. split.
      + intros i Hi. rewrite Hm by lia. apply HG, Hi.
      + intros _ i j Hij. rewrite Ht by exact Hij. cbn. rewrite Zd. reflexivity.
  Qed.

  Lemma binary_enc n J K x y f da db daa dab dbb r :
    size c x = Z.of_nat n -> m_data x = full (enc (c_ord c) n J) ->
    y = full (enc (c_ord c) n K) ->
    is_zero da && is_zero db = false ->
    length r = storage_len (c_ord c) n ->
    exists r', binary O c false x (Some (m_data x)) (Some y) f da db daa dab dbb r = Ok r' /\
      isenc (c_ord c) n (jb f da db daa dab dbb J K) r'.
  Proof.
    intros HS HD HY Hz HL.
    pose proof (storage_len_ge (c_ord c) n) as GE.
    assert (HLx : length (m_data x) = storage_len (c_ord c) n)
      by (rewrite HD, full_length; apply enc_length).
    unfold binary. rewrite (data_length_ok n) by assumption.
    rewrite (wr_ok r 0%nat) by (try reflexivity; lia). cbn [bind].
    rewrite Hz. destruct (Z.ltb_spec (c_ord c) 1); [pose proof ord_cases; lia|]. cbn [orb].
    set (G := fun k => vset O (vadd O (cmul O da (nth k (enc (c_ord c) n J) f))
                                      (cmul O db (nth k (enc (c_ord c) n K) f)))).
    edestruct (fun body => ew_loop (S:=S) 1 (storage_len (c_ord c) n) body G (upd r 0 f))
      as (r1 & E1 & H1); [reflexivity|reflexivity| | | |rewrite E1; cbn [bind]].
    { rewrite upd_length; exact HL. }
    { lia. }
    { intros i r' Hi HP. cbn [deref]. rewrite HD, HY.
      rewrite !(rd_full _ _ f) by (rewrite enc_length; lia). reflexivity. }
    apply after_ew in H1; [|exact HL].
    set (B := fun i j => vset O (vadd O (cmul O da (jh J i j)) (cmul O db (jh K i j)))).
    assert (HB : isenc (c_ord c) n
              (mkjet f (fun i => vset O (vadd O (cmul O da (jg J i)) (cmul O db (jg K i)))) B) r1).
    { eapply isenc_jeq; [|exact H1]. split; [reflexivity|]. split; cbn [jf jg jh]; unfold G, B.
      - intros i Hi. rewrite !nth_enc_g by exact Hi. reflexivity.
      - intros Ho i j Hij. rewrite !nth_enc_h by assumption. reflexivity. }
    destruct (Z.ltb_spec (c_ord c) 2) as [Hlt|Hge]; cbn [orb].
    { exists r1. split; [reflexivity|]. eapply isenc_jeq; [|exact HB].
      split; [reflexivity|]. split; [reflexivity|]. intros Ho. pose proof ord_cases; lia. }
    destruct (is_zero daa && is_zero dab && is_zero dbb) eqn:Zd; cbn [orb].
    { exists r1. split; [reflexivity|]. eapply isenc_jeq; [|exact HB].
      split; [reflexivity|]. split; [reflexivity|].
      intros Ho i j Hij. cbn [jh jb]. rewrite Zd. reflexivity. }
    assert (Ho : c_ord c <> 1) by lia.
    assert (HA : isenc (c_ord c) n J (m_data x)) by (rewrite HD; apply enc_isenc).
    assert (HA' : isenc (c_ord c) n K y) by (rewrite HY; apply enc_isenc).
    set (T := fun i j => vacc O (B i j)
           (vadd O (vmul O (vadd O (cmul O daa (jg J i)) (cmul O dab (jg K i))) (jg J j))
                   (vmul O (vadd O (cmul O dab (jg J i)) (cmul O dbb (jg K i))) (jg K j)))).
    rewrite HS.
    assert (HN : storage_len (c_ord c) n = (1 + n + rs n n)%nat).
    { rewrite storage_len_rs. destruct (Z.eqb_spec (c_ord c) 1); [contradiction|reflexivity]. }
    edestruct (tri_loop n (1 + n + rs n n)%nat T r1) as (k & r2 & E2 & L2 & Hm & Ht);
      [reflexivity|reflexivity|reflexivity|destruct HB; lia| |rewrite E2; cbn [bind]].
    - intros i [k r2] Hi HP. cbn beta iota. cbn [deref].
      rewrite (rd_g n J _ i) by (try assumption; lia).
      rewrite (rd_g n K _ i) by (try assumption; lia). cbn [bind].
      eapply tri_inner with (T := T); [reflexivity|reflexivity|reflexivity|exact Hi|exact HP|].
      intros j r3 Hj HP3. cbn beta iota.
      rewrite (rd_g n J _ j) by (try assumption; lia).
      rewrite (rd_g n K _ j) by (try assumption; lia). cbn [bind].
      assert (Hcell : nth_error r3 (pos n i j) = Some (Some (B i j))).
      { destruct HP3 as (_ & _ & _ & _ & Hu). rewrite Hu by lia.
        destruct HB as (_ & _ & _ & HH). apply HH; [exact Ho|lia]. }
      rewrite (rd_Some _ (pos n i j) _ _ eq_refl Hcell). cbn [bind]. reflexivity.
    - exists r2. split; [reflexivity|]. split; [lia|].
      destruct HB as (_ & H0 & HG & _). split; [rewrite Hm by lia; exact H0|]. split.
      + intros i Hi. rewrite Hm by lia. apply HG, Hi.
      + intros _ i j Hij. rewrite Ht by exact Hij. cbn [jh jb]. rewrite Zd. reflexivity.
  Qed.

  Lemma ternary_enc n J K L x y z f da db dc daa dab dac dbb dbc dcc r :
    size c x = Z.of_nat n -> m_data x = full (enc (c_ord c) n J) ->
    y = full (enc (c_ord c) n K) -> z = full (enc (c_ord c) n L) ->
    is_zero da && is_zero db && is_zero dc = false ->
    length r = storage_len (c_ord c) n ->
    exists r', ternary O c false x (Some (m_data x)) (Some y) (Some z) f
                 da db dc daa dab dac dbb dbc dcc r = Ok r' /\
      isenc (c_ord c) n (jt f da db dc daa dab dac dbb dbc dcc J K L) r'.
  Proof.
    intros HS HD HY HZ Hz HL.
    pose proof (storage_len_ge (c_ord c) n) as GE.
    assert (HLx : length (m_data x) = storage_len (c_ord c) n)
      by (rewrite HD, full_length; apply enc_length).
    unfold ternary. rewrite (data_length_ok n) by assumption.
    rewrite (wr_ok r 0%nat) by (try reflexivity; lia). cbn [bind].
    rewrite Hz. destruct (Z.ltb_spec (c_ord c) 1); [pose proof ord_cases; lia|]. cbn [orb].
    set (G := fun k => vset O (vadd O (vadd O (cmul O da (nth k (enc (c_ord c) n J) f))
                                      (cmul O db (nth k (enc (c_ord c) n K) f)))
                                      (cmul O dc (nth k (enc (c_ord c) n L) f)))).
    edestruct (fun body => ew_loop (S:=S) 1 (storage_len (c_ord c) n) body G (upd r 0 f))
      as (r1 & E1 & H1); [reflexivity|reflexivity| | | |rewrite E1; cbn [bind]].
    { rewrite upd_length; exact HL. }
    { lia. }
    { intros i r' Hi HP. cbn [deref]. rewrite HD, HY, HZ.
      rewrite !(rd_full _ _ f) by (rewrite enc_length; lia). reflexivity. }
    apply after_ew in H1; [|exact HL].
    set (B := fun i j => vset O (vadd O (vadd O (cmul O da (jh J i j)) (cmul O db (jh K i j)))
                                        (cmul O dc (jh L i j)))).
    assert (HB : isenc (c_ord c) n
              (mkjet f (fun i => vset O (vadd O (vadd O (cmul O da (jg J i)) (cmul O db (jg K i)))
                                                (cmul O dc (jg L i)))) B) r1).
    { eapply isenc_jeq; [|exact H1]. split; [reflexivity|]. split; cbn [jf jg jh]; unfold G, B.
      - intros i Hi. rewrite !nth_enc_g by exact Hi. reflexivity.
      - intros Ho i j Hij. rewrite !nth_enc_h by assumption. reflexivity. }
    destruct (Z.ltb_spec (c_ord c) 2) as [Hlt|Hge]; cbn [orb].
    { exists r1. split; [reflexivity|]. eapply isenc_jeq; [|exact HB].
      split; [reflexivity|]. split; [reflexivity|]. intros Ho. pose proof ord_cases; lia. }
    destruct (is_zero daa && is_zero dab && is_zero dac && is_zero dbb && is_zero dbc
              && is_zero dcc) eqn:Zd; cbn [orb].
    { exists r1. split; [reflexivity|]. eapply isenc_jeq; [|exact HB].
      split; [reflexivity|]. split; [reflexivity|].
      intros Ho i j Hij. cbn [jh jt]. rewrite Zd. reflexivity. }
    assert (Ho : c_ord c <> 1) by lia.
    assert (HA : isenc (c_ord c) n J (m_data x)) by (rewrite HD; apply enc_isenc).
    assert (HA' : isenc (c_ord c) n K y) by (rewrite HY; apply enc_isenc).
    assert (HA'' : isenc (c_ord c) n L z) by (rewrite HZ; apply enc_isenc).
    set (T := fun i j => vacc O (B i j)
           (vadd O (vadd O
              (vmul O (vadd O (vadd O (cmul O daa (jg J i)) (cmul O dab (jg K i)))
                              (cmul O dac (jg L i))) (jg J j))
              (vmul O (vadd O (vadd O (cmul O dab (jg J i)) (cmul O dbb (jg K i)))
                              (cmul O dbc (jg L i))) (jg K j)))
              (vmul O (vadd O (vadd O (cmul O dac (jg J i)) (cmul O dbc (jg K i)))
                              (cmul O dcc (jg L i))) (jg L j)))).
    rewrite HS.
    assert (HN : storage_len (c_ord c) n = (1 + n + rs n n)%nat).
    { rewrite storage_len_rs. destruct (Z.eqb_spec (c_ord c) 1); [contradiction|reflexivity]. }
    edestruct (tri_loop n (1 + n + rs n n)%nat T r1) as (k & r2 & E2 & L2 & Hm & Ht);
      [reflexivity|reflexivity|reflexivity|destruct HB; lia| |rewrite E2; cbn [bind]].
    - intros i [k r2] Hi HP. cbn beta iota. cbn [deref].
      rewrite (rd_g n J _ i) by (try assumption; lia).
      rewrite (rd_g n K _ i) by (try assumption; lia).
      rewrite (rd_g n L _ i) by (try assumption; lia). cbn [bind].
      eapply tri_inner with (T := T); [reflexivity|reflexivity|reflexivity|exact Hi|exact HP|].
      intros j r3 Hj HP3. cbn beta iota.
      rewrite (rd_g n J _ j) by (try assumption; lia).
      rewrite (rd_g n K _ j) by (try assumption; lia).
      rewrite (rd_g n L _ j) by (try assumption; lia). cbn [bind].
      assert (Hcell : nth_error r3 (pos n i j) = Some (Some (B i j))).
      { destruct HP3 as (_ & _ & _ & _ & Hu). rewrite Hu by lia.
        destruct HB as (_ & _ & _ & HH). apply HH; [exact Ho|lia]. }
      rewrite (rd_Some _ (pos n i j) _ _ eq_refl Hcell). cbn [bind]. reflexivity.
    - exists r2. split; [reflexivity|]. split; [lia|].
      destruct HB as (_ & H0 & HG & _). split; [rewrite Hm by lia; exact H0|]. split.
      + intros i Hi. rewrite Hm by lia. apply HG, Hi.
      + intros _ i j Hij. rewrite Ht by exact Hij. cbn [jh jt]. rewrite Zd. reflexivity.
  Qed.
End Kernels.
