(** Accessors, Hessian matrices, constructors on well-formed numbers; any scalar type. *)
From Coq Require Import ZArith List Bool Lia String.
From Verif Require Import Outcome Scalar Model Spec Core Kernels OpsRep.
Import ListNotations.
Open Scope Z_scope.
Open Scope res_scope.
Ltac Zify.zify_post_hook ::= Z.div_mod_to_equations.

Section Acc.
  Context {S : Type} (O : Ops S) (c : cfg).
  Hypothesis Hcfg : cfg_ok c.
  Implicit Types (J K L : jet S) (x y : dd S).

  (** Entry updates of jets. *)
  Definition jsetg J i v : jet S :=
    mkjet (jf J) (fun k => if Nat.eqb k i then v else jg J k) (jh J).
  Definition jseth J i j v : jet S :=
    mkjet (jf J) (jg J) (fun k l => if Nat.eqb k i && Nat.eqb l j then v else jh J k l).

  Lemma assert_true : assert_ c true = Ok tt.
  Proof. unfold assert_. cbn. rewrite andb_false_r. reflexivity. Qed.

  Lemma in_range i n : (i < n)%nat -> (0 <=? Z.of_nat i) && (Z.of_nat i <? Z.of_nat n) = true.
  Proof.
    intros H. destruct (Z.leb_spec 0 (Z.of_nat i)); [|lia].
    destruct (Z.ltb_spec (Z.of_nat i) (Z.of_nat n)); [reflexivity|lia].
  Qed.

  Lemma get_g_rep n J x i : rep c n J x -> (i < n)%nat -> get_g c x (Z.of_nat i) = Ok (jg J i).
  Proof.
    intros H Hi. pose proof (size_bound c _ (rep_size_ok _ _ _ _ H)) as SB. unfold max_len in SB.
    unfold get_g. rewrite (size_rep _ _ _ _ H), in_range, assert_true by exact Hi. cbn [bind].
    rewrite ck_ok by lia. cbn [bind]. eapply rd_g; [eapply isenc_rep, H|exact Hi|reflexivity].
  Qed.
  Lemma get_g_mut_rep n J x i : rep c n J x -> (i < n)%nat ->
    get_g_mut c x (Z.of_nat i) = Ok (jg J i).
  Proof.
    intros H Hi. pose proof (size_bound c _ (rep_size_ok _ _ _ _ H)) as SB. unfold max_len in SB.
    unfold get_g_mut. rewrite (size_rep _ _ _ _ H).
    destruct (Z.ltb_spec (Z.of_nat i) (Z.of_nat n)); [|lia]. rewrite assert_true. cbn [bind].
    rewrite ck_ok by lia. cbn [bind]. eapply rd_g; [eapply isenc_rep, H|exact Hi|reflexivity].
  Qed.

  Lemma isenc_setg n J d i v : (i < n)%nat -> isenc (c_ord c) n J d ->
    isenc (c_ord c) n (jsetg J i v) (upd d (1 + i) v).
  Proof.
    intros Hi (L & Hf & Hg & Hh). pose proof (storage_len_ge (c_ord c) n).
    split; [rewrite upd_length; exact L|]. split; [rewrite nth_error_upd_ne by lia; exact Hf|]. split.
    - intros k Hk. cbn [jsetg jg]. destruct (Nat.eqb_spec k i) as [->|].
      + apply nth_error_upd_eq. lia.
      + rewrite nth_error_upd_ne by lia. apply Hg, Hk.
    - intros Ho k l Hkl. rewrite nth_error_upd_ne by (unfold pos; lia). apply Hh; assumption.
  Qed.

  Lemma set_g_rep n J x i v : rep c n J x -> (i < n)%nat ->
    exists r, set_g c x (Z.of_nat i) v = Ok r /\ rep c n (jsetg J i v) r.
  Proof.
    intros H Hi. pose proof (rep_size_ok _ _ _ _ H) as SO.
    pose proof (size_bound c _ SO) as SB. unfold max_len in SB.
    pose proof (rep_length _ _ _ _ H) as L. pose proof (storage_len_ge (c_ord c) n).
    unfold set_g. rewrite (size_rep _ _ _ _ H).
    destruct (Z.ltb_spec (Z.of_nat i) (Z.of_nat n)); [|lia]. rewrite assert_true. cbn [bind].
    rewrite ck_ok by lia. cbn [bind]. rewrite (wr_ok _ (1 + i)%nat) by lia. cbn [bind].
    eexists. split; [reflexivity|]. apply rep_intro; [exact SO|apply H|].
    apply isenc_setg; [exact Hi|eapply isenc_rep, H].
  Qed.

  Lemma rs_bound n i : size_ok c n -> c_ord c <> 1 -> (i <= n)%nat ->
    Z.of_nat (rs n i) <= max_len - Z.of_nat n - 1.
  Proof.
    intros (_ & H) Ho Hi. rewrite storage_len_rs in H.
    destruct (Z.eqb_spec (c_ord c) 1); [contradiction|].
    pose proof (rs_mono n i n Hi). lia.
  Qed.

  Lemma idx_tri_ok n i j : size_ok c n -> c_ord c <> 1 -> (i <= j < n)%nat ->
    idx_tri (Z.of_nat n) (Z.of_nat i) (Z.of_nat j) = Ok (Z.of_nat (pos n i j)).
  Proof.
    intros SO Ho Hij. pose proof (size_bound c n SO) as SB. unfold max_len in SB.
    pose proof (rs_bound n i SO Ho ltac:(lia)) as RB. unfold max_len in RB.
    pose proof (rs_closed n i ltac:(lia)) as RC.
    pose proof (pos_formula n i j Hij) as PF.
    assert (E2 : (2 * Z.of_nat n - 1 - Z.of_nat i) * Z.of_nat i
               = (Z.of_nat (rs n i) - Z.of_nat i) * 2) by nia.
    assert (HE : Z.quot ((2 * Z.of_nat n - 1 - Z.of_nat i) * Z.of_nat i) 2
                 = Z.of_nat (rs n i) - Z.of_nat i) by (rewrite E2, Z.quot_mul by lia; reflexivity).
    unfold idx_tri. rewrite (ck_ok (1 + _)) by lia. cbn [bind].
    rewrite (ck_ok (2 * _)) by lia. cbn [bind].
    rewrite (ck_ok (2 * Z.of_nat n - 1)) by lia. cbn [bind].
    rewrite (ck_ok (2 * Z.of_nat n - 1 - _)) by lia. cbn [bind].
    rewrite (ck_ok ((2 * Z.of_nat n - 1 - _) * _)) by lia. cbn [bind].
    rewrite HE in *. rewrite (ck_ok (_ + (_ - _))) by lia. cbn [bind].
    rewrite ck_ok by lia. f_equal. lia.
  Qed.

  Lemma idx_h_ok n J x i j : rep c n J x -> c_ord c <> 1 -> (i < n)%nat -> (j < n)%nat ->
    idx_h c x (Z.of_nat i) (Z.of_nat j) = Ok (Z.of_nat (pos n (Nat.min i j) (Nat.max i j))).
  Proof.
    intros H Ho Hi Hj. pose proof (rep_size_ok _ _ _ _ H) as SO.
    unfold idx_h. rewrite (size_rep _ _ _ _ H), !in_range, assert_true by assumption. cbn [bind].
    destruct (Z.ltb_spec (Z.of_nat i) (Z.of_nat j)).
    - rewrite Nat.min_l, Nat.max_r by lia. apply idx_tri_ok; [exact SO|exact Ho|lia].
    - rewrite Nat.min_r, Nat.max_l by lia. apply idx_tri_ok; [exact SO|exact Ho|lia].
  Qed.

  Lemma get_h_rep n J x i j : rep c n J x -> c_ord c <> 1 -> (i < n)%nat -> (j < n)%nat ->
    get_h c x (Z.of_nat i) (Z.of_nat j) = Ok (hess J i j).
  Proof.
    intros H Ho Hi Hj. unfold get_h. rewrite (idx_h_ok n J) by assumption. cbn [bind].
    unfold hess. eapply rd_h; [eapply isenc_rep, H|exact Ho|lia|reflexivity].
  Qed.

  Lemma isenc_seth n J d i j v : c_ord c <> 1 -> (i <= j < n)%nat -> isenc (c_ord c) n J d ->
    isenc (c_ord c) n (jseth J i j v) (upd d (pos n i j) v).
  Proof.
    intros Ho Hi (L & Hf & Hg & Hh). pose proof (storage_len_ge (c_ord c) n) as GE.
    pose proof (pos_bound n i j Hi) as PB.
    split; [rewrite upd_length; exact L|]. split; [rewrite nth_error_upd_ne by lia; exact Hf|]. split.
    - intros k Hk. rewrite nth_error_upd_ne by lia. apply Hg, Hk.
    - intros _ k l Hkl. cbn [jseth jh].
      destruct (Nat.eq_dec (pos n i j) (pos n k l)) as [E|NE].
      + destruct (pos_inj n i j k l Hi Hkl E) as (-> & ->). rewrite !Nat.eqb_refl. cbn [andb].
        apply nth_error_upd_eq. rewrite L, storage_len_rs.
        destruct (Z.eqb_spec (c_ord c) 1); [contradiction|lia].
      + rewrite nth_error_upd_ne by exact NE.
        destruct (Nat.eqb_spec k i) as [->|]; [|cbn [andb]; apply Hh; assumption].
        destruct (Nat.eqb_spec l j) as [->|]; [congruence|cbn [andb]; apply Hh; assumption].
  Qed.

  Lemma set_h_rep n J x i j v : rep c n J x -> c_ord c <> 1 -> (i < n)%nat -> (j < n)%nat ->
    exists r, set_h c x (Z.of_nat i) (Z.of_nat j) v = Ok r /\
              rep c n (jseth J (Nat.min i j) (Nat.max i j) v) r.
  Proof.
    intros H Ho Hi Hj. pose proof (rep_size_ok _ _ _ _ H) as SO.
    pose proof (rep_length _ _ _ _ H) as L.
    pose proof (pos_bound n (Nat.min i j) (Nat.max i j) ltac:(lia)) as PB.
    assert (HN : storage_len (c_ord c) n = (1 + n + rs n n)%nat).
    { rewrite storage_len_rs. destruct (Z.eqb_spec (c_ord c) 1); [contradiction|reflexivity]. }
    unfold set_h. rewrite (idx_h_ok n J) by assumption. cbn [bind].
    rewrite (wr_ok _ (pos n (Nat.min i j) (Nat.max i j))) by lia. cbn [bind].
    eexists. split; [reflexivity|]. apply rep_intro; [exact SO|apply H|].
    apply isenc_seth; [exact Ho|lia|eapply isenc_rep, H].
  Qed.

  (** Flat index. *)
  Lemma idx_h1_ok n x i j : size c x = Z.of_nat n -> size_ok c n -> c_ord c <> 1 -> (i <= j < n)%nat ->
    idx_h1 c x (Z.of_nat (rs n i + (j - i))) = Ok (Z.of_nat (pos n i j)).
  Proof.
    intros HS SO Ho Hij. pose proof (size_bound c n SO) as SB. unfold max_len in SB.
    pose proof (rs_bound n n SO Ho ltac:(lia)) as RB. unfold max_len in RB.
    pose proof (rs_closed n n ltac:(lia)) as RC.
    pose proof (pos_bound n i j Hij) as PB. unfold pos in PB.
    unfold idx_h1. rewrite HS.
    assert (HA : (if c_dbg c
      then s1 <- ck (Z.of_nat n + 1);; p <- ck (Z.of_nat n * s1);;
           assert_ c ((0 <=? Z.of_nat (rs n i + (j - i))) && (Z.of_nat (rs n i + (j - i)) <? Z.quot p 2))
      else Ok tt) = Ok tt).
    { destruct (c_dbg c); [|reflexivity]. rewrite ck_ok by lia. cbn [bind].
      assert (E : Z.of_nat n * (Z.of_nat n + 1) = Z.of_nat (rs n n) * 2) by nia.
      rewrite E, ck_ok by lia. cbn [bind]. rewrite Z.quot_mul by lia.
      destruct (Z.leb_spec 0 (Z.of_nat (rs n i + (j - i)))); [|lia].
      destruct (Z.ltb_spec (Z.of_nat (rs n i + (j - i))) (Z.of_nat (rs n n))); [|lia].
      apply assert_true. }
    rewrite HA. cbn [bind]. rewrite ck_ok by lia. cbn [bind]. rewrite ck_ok by lia.
    f_equal. unfold pos. lia.
  Qed.

  Lemma get_h1_rep n J x i j : rep c n J x -> c_ord c <> 1 -> (i <= j < n)%nat ->
    get_h1 c x (Z.of_nat (rs n i + (j - i))) = Ok (jh J i j).
  Proof.
    intros H Ho Hij. unfold get_h1.
    rewrite (idx_h1_ok n _ i j (size_rep _ _ _ _ H) (rep_size_ok _ _ _ _ H) Ho Hij). cbn [bind].
    eapply rd_h; [eapply isenc_rep, H|exact Ho|exact Hij|reflexivity].
  Qed.

  Lemma set_h1_rep n J x i j v : rep c n J x -> c_ord c <> 1 -> (i <= j < n)%nat ->
    exists r, set_h1 c x (Z.of_nat (rs n i + (j - i))) v = Ok r /\ rep c n (jseth J i j v) r.
  Proof.
    intros H Ho Hij. pose proof (rep_size_ok _ _ _ _ H) as SO.
    pose proof (rep_length _ _ _ _ H) as L.
    pose proof (pos_bound n i j Hij) as PB.
    assert (HN : storage_len (c_ord c) n = (1 + n + rs n n)%nat).
    { rewrite storage_len_rs. destruct (Z.eqb_spec (c_ord c) 1); [contradiction|reflexivity]. }
    unfold set_h1. rewrite (idx_h1_ok n _ i j (size_rep _ _ _ _ H) SO Ho Hij). cbn [bind].
    rewrite (wr_ok _ (pos n i j)) by lia. cbn [bind].
    eexists. split; [reflexivity|]. apply rep_intro; [exact SO|apply H|].
    apply isenc_seth; [exact Ho|lia|eapply isenc_rep, H].
  Qed.

  (** ** Matrices *)
  (** [m] is an [n] x [n] matrix with cells given by [M] (None: not initialised). *)
  Definition matcells n (M : nat -> nat -> option S) (m : mat S) : Prop :=
    rows m = Z.of_nat n /\ cols m = Z.of_nat n /\ List.length (cells m) = (n * n)%nat /\
    forall i j, (i < n)%nat -> (j < n)%nat -> nth_error (cells m) (i * n + j) = Some (M i j).
  Definition ismat n (M : nat -> nat -> S) (m : mat S) : Prop :=
    matcells n (fun i j => Some (M i j)) m.

  Lemma flat_lt n i j : (i < n)%nat -> (j < n)%nat -> (i * n + j < n * n)%nat.
  Proof. nia. Qed.
  Lemma flat_inj n i j i' j' : (j < n)%nat -> (j' < n)%nat -> (i * n + j = i' * n + j')%nat ->
    i = i' /\ j = j'.
  Proof.
    intros Hj Hj' E. assert (i = i').
    { destruct (Nat.lt_trichotomy i i') as [L|[E1|L]]; [exfalso|exact E1|exfalso].
      - assert (i * n + n <= i' * n)%nat by nia. lia.
      - assert (i' * n + n <= i * n)%nat by nia. lia. }
    subst. lia.
  Qed.

  Lemma mbounds n i j (m : mat S) : rows m = Z.of_nat n -> cols m = Z.of_nat n ->
    (i < n)%nat -> (j < n)%nat ->
    (0 <=? Z.of_nat i) && (Z.of_nat i <? rows m) && (0 <=? Z.of_nat j) && (Z.of_nat j <? cols m) = true.
  Proof.
    intros -> -> Hi Hj. rewrite <- andb_assoc, !in_range by assumption. reflexivity.
  Qed.

  Lemma mget_ok n M m i j v : matcells n M m -> (i < n)%nat -> (j < n)%nat -> M i j = Some v ->
    mget m (Z.of_nat i) (Z.of_nat j) = Ok v.
  Proof.
    intros (Hr & Hc & HL & HM) Hi Hj HV. unfold mget. rewrite (mbounds n) by assumption.
    rewrite Hc. apply (rd_Some _ (i * n + j)%nat); [lia|]. rewrite HM, HV by assumption. reflexivity.
  Qed.

  Lemma mset_ok n M m i j v : matcells n M m -> (i < n)%nat -> (j < n)%nat ->
    exists m', mset m (Z.of_nat i) (Z.of_nat j) v = Ok m' /\
      matcells n (fun i' j' => if Nat.eqb i' i && Nat.eqb j' j then Some v else M i' j') m'.
  Proof.
    intros (Hr & Hc & HL & HM) Hi Hj. unfold mset. rewrite (mbounds n) by assumption.
    pose proof (flat_lt n i j Hi Hj).
    rewrite Hc, (wr_ok _ (i * n + j)%nat) by lia. cbn [bind]. eexists. split; [reflexivity|].
    split; [exact Hr|]. split; [reflexivity|]. cbn [cells]. split; [rewrite upd_length; exact HL|].
    intros i' j' Hi' Hj'.
    destruct (Nat.eq_dec (i * n + j) (i' * n + j')) as [E|NE].
    - destruct (flat_inj n i j i' j' Hj Hj' E) as (-> & ->). rewrite !Nat.eqb_refl. cbn [andb].
      apply nth_error_upd_eq. lia.
    - rewrite nth_error_upd_ne by exact NE. rewrite HM by assumption.
      destruct (Nat.eqb_spec i' i) as [->|]; [|reflexivity].
      destruct (Nat.eqb_spec j' j) as [->|]; [congruence|reflexivity].
  Qed.

  Lemma matcells_ext n M M' m : matcells n M m ->
    (forall i j, (i < n)%nat -> (j < n)%nat -> M i j = M' i j) -> matcells n M' m.
  Proof.
    intros (Hr & Hc & HL & HM) HE. split; [exact Hr|]. split; [exact Hc|]. split; [exact HL|].
    intros i j Hi Hj. rewrite <- HE by assumption. apply HM; assumption.
  Qed.

  Ltac lexcases := repeat match goal with
    | |- context [Nat.eqb ?a ?b] => destruct (Nat.eqb_spec a b); cbn [andb]
    | |- context [Nat.ltb ?a ?b] => destruct (Nat.ltb_spec a b); cbn [andb orb]
    | |- context [Nat.leb ?a ?b] => destruct (Nat.leb_spec a b); cbn [andb orb]
    end; try lia; try reflexivity; subst; try reflexivity; try lia.

  (** First phase of [hm]. *)
  Definition lexlt (a b i j : nat) : bool := Nat.ltb a i || (Nat.eqb a i && Nat.ltb b j).

  Lemma hm_rep n J x mode : rep c n J x -> c_ord c <> 1 ->
    if String.eqb mode "full" then
      exists m, hm O c x mode = Ok m /\ ismat n (hess J) m
    else if String.eqb mode "zeros" then
      exists m, hm O c x mode = Ok m /\
        ismat n (fun i j => if Nat.leb i j then jh J i j else o_Z O 0) m
    else hm O c x mode = Throw InvalidMode.
  Proof.
    intros H Ho. unfold hm. rewrite (size_rep _ _ _ _ H).
    set (P := fun i j (st : Z * mat S) => fst st = Z.of_nat (rs n i + (j - i)) /\
      matcells n (fun a b => if Nat.leb a b && lexlt a b i j then Some (jh J a b) else None) (snd st)).
    edestruct (fun body => for_inv body (fun i => P i i) 0%nat n 0 (Z.of_nat n)
      (0, mkmat (Z.of_nat n) (Z.of_nat n) (repeat None (Z.to_nat (Z.of_nat n * Z.of_nat n)))))
      as ([it out] & E & HP); [reflexivity|reflexivity|lia| | |rewrite E; cbn [bind]].
    { split; [reflexivity|]. cbn [snd]. split; [reflexivity|]. split; [reflexivity|].
      cbn [cells]. replace (Z.to_nat (Z.of_nat n * Z.of_nat n)) with (n * n)%nat by lia.
      split; [apply repeat_length|]. intros i j Hi Hj. pose proof (flat_lt n i j Hi Hj).
      rewrite (nth_error_nth' _ None) by (rewrite repeat_length; lia). rewrite nth_repeat.
      unfold lexlt. cbn. destruct (Nat.eqb i 0); cbn; rewrite andb_false_r; reflexivity. }
    { intros i st Hi HP. cbn beta iota.
      edestruct (fun body => for_inv body (P i) i n (Z.of_nat i) (Z.of_nat n) st)
        as (st' & E & HP'); [reflexivity|reflexivity|lia|exact HP| |exists st'; split; [exact E|]].
      - intros j [it out] Hj (Hit & HM). cbn [fst snd] in *. subst it. cbn beta iota.
        rewrite (get_h1_rep n J) by (try assumption; lia). cbn [bind].
        destruct (mset_ok n _ out i j (jh J i j) HM ltac:(lia) ltac:(lia)) as (m' & E' & HM').
        rewrite E'. cbn [bind]. eexists. split; [reflexivity|]. split; cbn [fst snd]; [lia|].
        eapply matcells_ext; [exact HM'|]. intros a b Ha Hb. cbn beta.
        unfold lexlt. lexcases.
      - destruct HP' as (Hit & HM). split.
        + rewrite Hit. cbn [rs plus]. lia.
        + eapply matcells_ext; [exact HM|]. intros a b Ha Hb. cbn beta. unfold lexlt. lexcases. }
    destruct HP as (_ & HM). cbn [snd] in HM.
    assert (HM0 : matcells n (fun a b => if Nat.leb a b then Some (jh J a b) else None) out).
    { eapply matcells_ext; [exact HM|]. intros a b Ha Hb. cbn beta. unfold lexlt. lexcases. }
    (* second phase *)
    assert (PH2 : forall (LO : nat -> nat -> S) (body : Z -> mat S -> res (mat S)),
      (forall i st, (i < n)%nat ->
         matcells n (fun a b => if Nat.leb a b then Some (jh J a b)
                                else if Nat.ltb a i then Some (LO a b) else None) st ->
         exists st', body (Z.of_nat i) st = Ok st' /\
         matcells n (fun a b => if Nat.leb a b then Some (jh J a b)
                                else if Nat.ltb a (1 + i) then Some (LO a b) else None) st') ->
      exists m, for_ 0 (Z.of_nat n) body out = Ok m /\
        ismat n (fun a b => if Nat.leb a b then jh J a b else LO a b) m).
    { intros LO body Hb.
      destruct (for_inv body (fun i => matcells n (fun a b => if Nat.leb a b then Some (jh J a b)
                                else if Nat.ltb a i then Some (LO a b) else None))
                  0%nat n 0 (Z.of_nat n) out eq_refl eq_refl ltac:(lia)) as (m & E2 & HM2).
      - eapply matcells_ext; [exact HM0|]. intros a b Ha Hb'. cbn beta. lexcases.
      - intros i st Hi HP. apply Hb; [lia|exact HP].
      - exists m. split; [exact E2|]. eapply matcells_ext; [exact HM2|].
        intros a b Ha Hb'. cbn beta. lexcases. }
    destruct (String.eqb_spec mode "full") as [->|Hf].
    - cbn [String.eqb Ascii.eqb Bool.eqb].
      destruct (PH2 (fun a b => jh J b a)
        (fun i out => for_ 0 i (fun j out => v <- mget out j i;; mset out i j v) out)) as (m & E2 & HM2).
      + intros i st Hi HP.
        edestruct (fun body => for_inv body (fun j => matcells n (fun a b =>
             if Nat.leb a b then Some (jh J a b)
             else if lexlt a b i j then Some (jh J b a) else None)) 0%nat i 0 (Z.of_nat i) st)
          as (st' & E2 & HP'); [reflexivity|reflexivity|lia| | |exists st'; split; [exact E2|]].
        * eapply matcells_ext; [exact HP|]. intros a b Ha Hb. cbn beta. unfold lexlt. lexcases.
        * intros j st' Hj HM2. cbn beta.
          rewrite (mget_ok n _ st' j i (jh J j i) HM2) by (try lia; cbn beta; lexcases). cbn [bind].
          destruct (mset_ok n _ st' i j (jh J j i) HM2 ltac:(lia) ltac:(lia)) as (m' & E' & HM').
          exists m'. split; [exact E'|]. eapply matcells_ext; [exact HM'|].
          intros a b Ha Hb. cbn beta. unfold lexlt. lexcases.
        * eapply matcells_ext; [exact HP'|]. intros a b Ha Hb. cbn beta. unfold lexlt. lexcases.
      + exists m. split; [exact E2|]. eapply matcells_ext; [exact HM2|].
        intros a b Ha Hb. cbn beta. unfold hess. destruct (Nat.leb_spec a b).
        * rewrite Nat.min_l, Nat.max_r by lia. reflexivity.
        * rewrite Nat.min_r, Nat.max_l by lia. reflexivity.
    - destruct (String.eqb_spec mode "zeros") as [->|Hz]; [|reflexivity].
      apply (PH2 (fun _ _ => o_Z O 0)).
      intros i st Hi HP.
      edestruct (fun body => for_inv body (fun j => matcells n (fun a b =>
             if Nat.leb a b then Some (jh J a b)
             else if lexlt a b i j then Some (o_Z O 0) else None)) 0%nat i 0 (Z.of_nat i) st)
          as (st' & E2 & HP'); [reflexivity|reflexivity|lia| | |exists st'; split; [exact E2|]].
      + eapply matcells_ext; [exact HP|]. intros a b Ha Hb. cbn beta. unfold lexlt. lexcases.
      + intros j st' Hj HM2. cbn beta.
        destruct (mset_ok n _ st' i j (o_Z O 0) HM2 ltac:(lia) ltac:(lia)) as (m' & E' & HM').
        exists m'. split; [exact E'|]. eapply matcells_ext; [exact HM'|].
        intros a b Ha Hb. cbn beta. unfold lexlt. lexcases.
      + eapply matcells_ext; [exact HP'|]. intros a b Ha Hb. cbn beta. unfold lexlt. lexcases.
  Qed.

  (** [set_hm] needs the number to have the right size and storage length only: the Hessian cells
      may be uninitialised (used by [from_arrays]). *)
  Lemma set_hm_gen n x m M f g :
    size_ok c n -> c_ord c <> 1 -> size c x = Z.of_nat n ->
    List.length (m_data x) = storage_len (c_ord c) n ->
    nth_error (m_data x) 0 = Some (Some f) ->
    (forall i, (i < n)%nat -> nth_error (m_data x) (1 + i) = Some (Some (g i))) ->
    ismat n M m ->
    exists r, set_hm c x m = Ok r /\ rep c n (mkjet f g M) r.
  Proof.
    intros SO Ho HS L Hf Hg HM.
    assert (HN : storage_len (c_ord c) n = (1 + n + rs n n)%nat).
    { rewrite storage_len_rs. destruct (Z.eqb_spec (c_ord c) 1); [contradiction|reflexivity]. }
    unfold set_hm. rewrite HS.
    set (P := fun i j (st : Z * dd S) => m_size (snd st) = m_size x /\
      Ptri n (1 + n + rs n n)%nat M (m_data x) i j (fst st + (1 + Z.of_nat n), m_data (snd st))).
    edestruct (fun body => for_inv body (fun i => P i i) 0%nat n 0 (Z.of_nat n) (0, x))
      as ([it r] & E & HP); [reflexivity|reflexivity|lia| | |rewrite E; cbn [bind]].
    - split; [reflexivity|]. cbn [fst snd]. apply tri_start. lia.
    - intros i st Hi HP. cbn beta iota.
      edestruct (fun body => for_inv body (P i) i n (Z.of_nat i) (Z.of_nat n) st)
        as (st' & E & HP'); [reflexivity|reflexivity|lia|exact HP| |exists st'; split; [exact E|]].
      + intros j [it y] Hj (Hms & HT). cbn [fst snd] in *. cbn beta iota.
        assert (Hit : it = Z.of_nat (rs n i + (j - i))).
        { destruct HT as (Hk & _). unfold pos in Hk. lia. }
        subst it. rewrite (mget_ok n _ m i j (M i j) HM) by (try lia; reflexivity). cbn [bind].
        unfold set_h1. rewrite (idx_h1_ok n y i j) by (first [assumption | lia | unfold size in *; rewrite Hms; exact HS]).
        cbn [bind]. destruct (Ptri_step _ _ _ _ _ _ _ _ eq_refl Hj HT) as (HP' & Hlt).
        rewrite (wr_ok _ (pos n i j)) by lia. cbn [bind].
        eexists. split; [reflexivity|]. split; [exact Hms|]. cbn [fst snd m_data].
        replace (Z.of_nat (rs n i + (j - i)) + 1 + (1 + Z.of_nat n))
          with (Z.of_nat (rs n i + (j - i)) + (1 + Z.of_nat n) + 1) by lia. exact HP'.
      + destruct HP' as (Hms & HT). split; [exact Hms|]. apply Ptri_row; [lia|exact HT].
    - destruct HP as (Hms & Hk & L2 & Hm & Hd & _). cbn [fst snd] in *.
      eexists. split; [reflexivity|]. apply rep_intro; [exact SO| |].
      + unfold size in *. rewrite Hms. exact HS.
      + split; [lia|]. cbn [jf jg jh]. split; [rewrite Hm by lia; exact Hf|]. split.
        * intros i Hi. rewrite Hm by lia. apply Hg, Hi.
        * intros _ i j Hij. apply Hd; lia.
  Qed.

  Lemma set_hm_rep n J x m M : rep c n J x -> c_ord c <> 1 -> ismat n M m ->
    exists r, set_hm c x m = Ok r /\ rep c n (mkjet (jf J) (jg J) M) r.
  Proof.
    intros H Ho HM. destruct (isenc_rep _ _ _ _ H) as (L & Hf & Hg & _).
    apply set_hm_gen; first [assumption | exact (rep_size_ok _ _ _ _ H) | exact (size_rep _ _ _ _ H)].
  Qed.

  (** ** Assignment of the gradient *)
  Lemma set_ag_gen n x (g : list S) :
    size c x = Z.of_nat n -> List.length (m_data x) = storage_len (c_ord c) n ->
    List.length g = n ->
    exists r, set_ag c x (full g) = Ok r /\ m_size r = m_size x /\
      List.length (m_data r) = storage_len (c_ord c) n /\
      (forall k, (k < n)%nat -> nth_error (m_data r) (1 + k) = option_map Some (nth_error g k)) /\
      (forall k, (k = 0 \/ 1 + n <= k)%nat -> nth_error (m_data r) k = nth_error (m_data x) k).
  Proof.
    intros HS L HG. pose proof (storage_len_ge (c_ord c) n) as GE.
    unfold set_ag, len. rewrite HS, full_length, HG, Z.eqb_refl. cbn [negb].
    edestruct (fun body => for_inv body (fun i d => List.length d = storage_len (c_ord c) n /\
        (forall k, (k < i)%nat -> nth_error d (1 + k) = option_map Some (nth_error g k)) /\
        (forall k, (k = 0 \/ 1 + n <= k)%nat -> nth_error d k = nth_error (m_data x) k))
        0%nat n 0 (Z.of_nat n) (m_data x)) as (d & E & (HL & Hd & Hu));
      [reflexivity|reflexivity|lia| | |rewrite E; cbn [bind]].
    - split; [exact L|]. split; [intros k Hk; lia|reflexivity].
    - intros i d Hi (HL & Hd & Hu). cbn beta.
      destruct (nth_error g i) as [v|] eqn:EV; [|apply nth_error_None in EV; lia].
      rewrite (rd_Some (full g) i _ v eq_refl) by (apply nth_error_full; exact EV). cbn [bind].
      rewrite (wr_ok _ (1 + i)%nat) by lia. eexists. split; [reflexivity|].
      split; [rewrite upd_length; exact HL|]. split.
      + intros k Hk. destruct (Nat.eq_dec k i) as [->|].
        * rewrite nth_error_upd_eq by lia. rewrite EV. reflexivity.
        * rewrite nth_error_upd_ne by lia. apply Hd. lia.
      + intros k Hk. rewrite nth_error_upd_ne by lia. apply Hu, Hk.
    - eexists. split; [reflexivity|]. cbn [m_size m_data]. auto.
  Qed.

  Lemma empty_set_f n f : size_ok c n ->
    exists r0 r, empty_n O c (Z.of_nat n) = Ok r0 /\ set_f r0 f = Ok r /\
      size c r = Z.of_nat n /\ List.length (m_data r) = storage_len (c_ord c) n /\
      nth_error (m_data r) 0 = Some (Some f).
  Proof.
    intros SO. destruct (empty_n_ok O c n SO) as (r0 & E & HS & HL).
    pose proof (storage_len_ge (c_ord c) n). exists r0. unfold set_f.
    rewrite (wr_ok _ 0%nat) by (try reflexivity; lia). cbn [bind].
    eexists. split; [exact E|]. split; [reflexivity|]. cbn [m_data m_size].
    split; [exact HS|]. split; [rewrite upd_length; exact HL|]. apply nth_error_upd_eq. lia.
  Qed.

  Lemma from_gradient_rep f (g : list S) d : c_ord c = 1 -> size_ok c (List.length g) ->
    exists r, from_gradient O c f (full g) = Ok r /\
      rep c (List.length g) (mkjet f (fun i => nth i g d) (fun _ _ => d)) r.
  Proof.
    intros Ho SO. set (n := List.length g) in *.
    destruct (empty_set_f n f SO) as (r0 & r & E0 & E & HS & HL & Hf).
    unfold from_gradient, len. rewrite full_length. fold n. rewrite E0. cbn [bind]. rewrite E. cbn [bind].
    destruct (set_ag_gen n r g HS HL eq_refl) as (r' & E' & Hms & HL' & Hg & Hu).
    exists r'. split; [exact E'|]. apply rep_intro; [exact SO| |].
    - unfold size in *. rewrite Hms. exact HS.
    - split; [exact HL'|]. cbn [jf jg jh]. split; [rewrite Hu by lia; exact Hf|]. split.
      + intros i Hi. rewrite Hg by exact Hi. rewrite (nth_error_nth' g d) by exact Hi. reflexivity.
      + intros Ho'; contradiction.
  Qed.

  Lemma from_arrays_rep f (g : list S) m M d : c_ord c <> 1 -> size_ok c (List.length g) ->
    ismat (List.length g) M m ->
    exists r, from_arrays O c f (full g) m = Ok r /\
      rep c (List.length g) (mkjet f (fun i => nth i g d) M) r.
  Proof.
    intros Ho SO HM. set (n := List.length g) in *.
    destruct (empty_set_f n f SO) as (r0 & r & E0 & E & HS & HL & Hf).
    unfold from_arrays, len. rewrite full_length. fold n.
    destruct (HM) as (Hr & Hc & _). rewrite Hr, Hc, Z.eqb_refl. cbn [andb]. rewrite assert_true.
    cbn [bind]. rewrite E0. cbn [bind]. rewrite E. cbn [bind].
    destruct (set_ag_gen n r g HS HL eq_refl) as (r' & E' & Hms & HL' & Hg & Hu).
    rewrite E'. cbn [bind]. apply set_hm_gen; try assumption.
    - unfold size in *. rewrite Hms. exact HS.
    - rewrite Hu by lia. exact Hf.
    - intros i Hi. rewrite Hg by exact Hi. rewrite (nth_error_nth' g d) by exact Hi. reflexivity.
  Qed.

  Lemma get_ag_rep n J x : rep c n J x -> get_ag c x = Ok (map (jg J) (seq 0 n)).
  Proof.
    intros H. unfold get_ag. rewrite (size_rep _ _ _ _ H), Nat2Z.id.
    assert (G : forall m k, (k + m <= n)%nat ->
      (fix go (n : nat) (i : Z) {struct n} : res (list S) :=
         match n with
         | Datatypes.O => Ok []
         | Datatypes.S n' => v <- rd (m_data x) (1 + i);; l <- go n' (i + 1);; Ok (v :: l)
         end) m (Z.of_nat k) = Ok (map (jg J) (seq k m))).
    { induction m as [|m IH]; intros k Hk; [reflexivity|].
      rewrite (rd_g c n J _ k) by (try lia; eapply isenc_rep, H). cbn [bind].
      replace (Z.of_nat k + 1) with (Z.of_nat (1 + k)) by lia. rewrite IH by lia. reflexivity. }
    apply (G n 0%nat). lia.
  Qed.

  (** ** Constructors *)
  Definition jconst (f : S) : jet S := mkjet f (fun _ => o_Z O 0) (fun _ _ => o_Z O 0).
  Definition jvar (i : nat) (f : S) : jet S :=
    mkjet f (fun k => if Nat.eqb k i then o_Z O 1 else o_Z O 0) (fun _ _ => o_Z O 0).

  Lemma repeat_isenc n : isenc (c_ord c) n (jconst (o_Z O 0))
                           (repeat (Some (o_Z O 0)) (storage_len (c_ord c) n)).
  Proof.
    pose proof (storage_len_ge (c_ord c) n) as GE.
    assert (HR : forall k, (k < storage_len (c_ord c) n)%nat ->
       nth_error (repeat (Some (o_Z O 0)) (storage_len (c_ord c) n)) k = Some (Some (o_Z O 0))).
    { intros k Hk. rewrite (nth_error_nth' _ None) by (rewrite repeat_length; exact Hk).
      rewrite (nth_error_nth (repeat (Some (o_Z O 0)) (storage_len (c_ord c) n)) k None
               (x := Some (o_Z O 0))); [reflexivity|].
      apply nth_error_repeat. exact Hk. }
    split; [apply repeat_length|]. split; [apply HR; lia|]. split.
    - intros i Hi. apply HR. lia.
    - intros Ho i j Hij. apply HR. pose proof (pos_bound n i j Hij).
      rewrite storage_len_rs. destruct (Z.eqb_spec (c_ord c) 1); [contradiction|lia].
  Qed.

  Lemma zero_n_rep n : size_ok c n ->
    exists r, zero_n O c (Z.of_nat n) = Ok r /\ rep c n (jconst (o_Z O 0)) r.
  Proof.
    intros SO. unfold zero_n, zero. destruct (is_dynamic c) eqn:D.
    - rewrite data_length_from_size_ok by exact SO. cbn [bind].
      rewrite vec_new_ok by apply SO. cbn [bind]. eexists. split; [reflexivity|].
      apply rep_intro; [exact SO|unfold size; rewrite D; reflexivity|apply repeat_isenc].
    - rewrite check_valid_size_ok by exact SO. cbn [bind]. eexists. split; [reflexivity|].
      destruct (SO) as [HT _]. specialize (HT D).
      apply rep_intro; [exact SO|unfold size; rewrite D; exact HT|]. cbn [m_data].
      rewrite (StaticDataSize_ok c n HT), Nat2Z.id. apply repeat_isenc.
  Qed.

  (** The size-less overload: size 0 for dynamic types, the static size otherwise. *)
  Definition default_size : nat := if is_dynamic c then 0%nat else Z.to_nat (c_tsize c).

  Lemma storage_len_0 ord : storage_len ord 0 = 1%nat.
  Proof. unfold storage_len. destruct (ord =? 1); reflexivity. Qed.

  Lemma default_size_ok : is_dynamic c = true -> size_ok c default_size.
  Proof.
    intros D. unfold default_size. rewrite D. split; [congruence|].
    rewrite storage_len_0. unfold max_len. lia.
  Qed.

  Lemma zero_rep : size_ok c default_size -> rep c default_size (jconst (o_Z O 0)) (zero O c).
  Proof.
    intros SO. unfold zero, default_size in *. destruct (is_dynamic c) eqn:D.
    - apply rep_intro; [exact SO|unfold size; rewrite D; reflexivity|]. cbn [m_data].
      pose proof (repeat_isenc 0) as R. rewrite storage_len_0 in R. exact R.
    - destruct (SO) as [HT _]. specialize (HT D).
      apply rep_intro; [exact SO|unfold size; rewrite D; exact HT|]. cbn [m_data].
      rewrite (StaticDataSize_ok c _ HT), Nat2Z.id. apply repeat_isenc.
  Qed.

  Lemma constant_rep f : size_ok c default_size ->
    exists r, constant O c f = Ok r /\ rep c default_size (jconst f) r.
  Proof.
    intros SO. unfold constant. destruct (set_f_rep c _ _ _ f (zero_rep SO)) as (r & E & H).
    exists r. split; [exact E|exact H].
  Qed.

  Lemma static_default n : size_ok c n -> is_dynamic c = false -> n = default_size.
  Proof. intros [H _] D. unfold default_size. rewrite D. specialize (H D). lia. Qed.

  Lemma constant_n_rep n f : size_ok c n ->
    exists r, constant_n O c f (Z.of_nat n) = Ok r /\ rep c n (jconst f) r.
  Proof.
    intros SO. unfold constant_n. destruct (is_dynamic c) eqn:D.
    - destruct (zero_n_rep n SO) as (r & E & H). rewrite E. cbn [bind].
      destruct (set_f_rep c _ _ _ f H) as (r' & E' & H'). exists r'. auto.
    - rewrite check_valid_size_ok by exact SO. cbn [bind].
      pose proof (static_default n SO D) as Hn. subst n. apply constant_rep, SO.
  Qed.

  Lemma jvar_set i f : forall x n, (i < n)%nat -> rep c n (jconst f) x ->
    exists r, set_g c x (Z.of_nat i) (o_Z O 1) = Ok r /\ rep c n (jvar i f) r.
  Proof. intros x n Hi H. apply (set_g_rep n (jconst f) x i (o_Z O 1) H Hi). Qed.

  Lemma variable_rep i f : size_ok c default_size -> (i < default_size)%nat ->
    exists r, variable O c (Z.of_nat i) f = Ok r /\ rep c default_size (jvar i f) r.
  Proof.
    intros SO Hi. unfold variable. destruct (set_f_rep c _ _ _ f (zero_rep SO)) as (r & E & H).
    rewrite E. cbn [bind]. apply jvar_set; assumption.
  Qed.

  Lemma variable_n_rep n i f : size_ok c n -> (i < n)%nat ->
    exists r, variable_n O c (Z.of_nat i) f (Z.of_nat n) = Ok r /\ rep c n (jvar i f) r.
  Proof.
    intros SO Hi. unfold variable_n. destruct (is_dynamic c) eqn:D.
    - destruct (zero_n_rep n SO) as (r & E & H). rewrite E. cbn [bind].
      destruct (set_f_rep c _ _ _ f H) as (r' & E' & H'). rewrite E'. cbn [bind].
      apply jvar_set; assumption.
    - rewrite check_valid_size_ok by exact SO. cbn [bind].
      pose proof (static_default n SO D) as Hn. subst n. apply variable_rep; assumption.
  Qed.

  Lemma variables_rep (vs : list S) : size_ok c (List.length vs) ->
    exists xs, variables O c vs = Ok xs /\ List.length xs = List.length vs /\
      forall k v, nth_error vs k = Some v ->
        exists x, nth_error xs k = Some x /\ rep c (List.length vs) (jvar k v) x.
  Proof.
    intros SO. unfold variables.
    assert (HA : (if is_dynamic c then Ok tt
                  else assert_ c (Z.of_nat (List.length vs) =? c_tsize c)) = Ok tt).
    { destruct (is_dynamic c) eqn:D; [reflexivity|]. destruct SO as [H _]. rewrite (H D), Z.eqb_refl.
      apply assert_true. }
    rewrite HA. cbn [bind]. set (n := List.length vs) in *.
    assert (G : forall l k, (k + List.length l = n)%nat ->
      exists xs, (fix go (i : Z) (l : list S) {struct l} : res (list (dd S)) :=
       match l with
       | [] => Ok []
       | v :: l' => x <- variable_n O c i v (Z.of_nat n);; xs <- go (i + 1) l';; Ok (x :: xs)
       end) (Z.of_nat k) l = Ok xs /\ List.length xs = List.length l /\
      forall m v, nth_error l m = Some v ->
        exists x, nth_error xs m = Some x /\ rep c n (jvar (k + m) v) x).
    { induction l as [|v l IH]; intros k Hk.
      - exists []. split; [reflexivity|]. split; [reflexivity|]. intros [|m] v; discriminate.
      - cbn [List.length] in Hk.
        destruct (variable_n_rep n k v SO ltac:(lia)) as (x & E & H). rewrite E. cbn [bind].
        replace (Z.of_nat k + 1) with (Z.of_nat (1 + k)) by lia.
        destruct (IH (1 + k)%nat ltac:(lia)) as (xs & E' & HL & HX). rewrite E'. cbn [bind].
        exists (x :: xs). split; [reflexivity|]. split; [cbn; lia|].
        intros [|m] w Hw; cbn [nth_error] in *.
        + inversion Hw; subst. exists x. rewrite Nat.add_0_r. auto.
        + destruct (HX m w Hw) as (y & Ey & Hy). exists y. split; [exact Ey|].
          replace (k + Datatypes.S m)%nat with (1 + k + m)%nat by lia. exact Hy. }
    destruct (G vs 0%nat ltac:(lia)) as (xs & E & HL & HX).
    exists xs. split; [exact E|]. split; [exact HL|exact HX].
  Qed.

  (** Static types reject other sizes. *)
  Lemma static_wrong_size sz : is_dynamic c = false -> c_exc c = true -> sz <> c_tsize c ->
    check_valid_size c sz = Throw InvalidSize.
  Proof.
    intros D E H. unfold check_valid_size. rewrite D, E.
    destruct (Z.eqb_spec sz (c_tsize c)); [contradiction|reflexivity].
  Qed.

  (** set_zero *)
  Lemma set_zero_rep n x : size_ok c n -> size c x = Z.of_nat n ->
    List.length (m_data x) = storage_len (c_ord c) n ->
    exists r, set_zero O x = Ok r /\ rep c n (jconst (o_Z O 0)) r.
  Proof.
    intros SO HS HL. unfold set_zero, len. rewrite HL.
    edestruct (fun body => ew_map c n (jconst (o_Z O 0)) (fun v => o_Z O 0) body (m_data x))
      as (d & E & HE); [reflexivity|exact HL| |rewrite E; cbn [bind]].
    - intros i r Hi _ _. reflexivity.
    - eexists. split; [reflexivity|]. apply rep_intro; [exact SO|exact HS|exact HE].
  Qed.
End Acc.
