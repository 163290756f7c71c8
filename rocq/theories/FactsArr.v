(** C56, C57: shapes of array arguments; set_zero, adata, set_adata. *)
From Coq Require Import ZArith List Bool Lia.
From Verif Require Import Outcome Scalar Model ModelBuf Spec ArrSpec Core Kernels OpsRep AccRep CreateRep FactsLayout FactsOps Samples.
Import ListNotations.
Open Scope Z_scope.
Open Scope res_scope.

(** ** Loops *)
Lemma loop_ext_range {St} (b1 b2 : Z -> St -> res St) : forall n i s,
  (forall k s, i <= k < i + Z.of_nat n -> b1 k s = b2 k s) -> loop n i b1 s = loop n i b2 s.
Proof.
  induction n as [|n IH]; intros i s H; cbn [loop]; [reflexivity|].
  rewrite H by lia. destruct (b2 i s); cbn [bind]; try reflexivity. apply IH. intros; apply H; lia.
Qed.
Lemma for_ext_range {St} (b1 b2 : Z -> St -> res St) lo hi s :
  (forall k s, lo <= k < hi -> b1 k s = b2 k s) -> for_ lo hi b1 s = for_ lo hi b2 s.
Proof. intros H. unfold for_. apply loop_ext_range. intros; apply H; lia. Qed.
(** Either the invariant is carried to the end, or the outcome is UB. *)
Lemma loop_or_ub {St} (body : Z -> St -> res St) (P : nat -> St -> Prop) : forall n lo s, P lo s ->
  (forall i s, (lo <= i < lo + n)%nat -> P i s ->
     body (Z.of_nat i) s = UB \/ exists s', body (Z.of_nat i) s = Ok s' /\ P (1 + i)%nat s') ->
  loop n (Z.of_nat lo) body s = UB \/ exists s', loop n (Z.of_nat lo) body s = Ok s' /\ P (lo + n)%nat s'.
Proof.
  induction n as [|n IH]; intros lo s H0 Hstep; cbn [loop].
  - right. exists s. rewrite Nat.add_0_r. auto.
  - destruct (Hstep lo s ltac:(lia) H0) as [E1|(s1 & E1 & H1)]; rewrite E1; cbn [bind]; [left; reflexivity|].
    replace (Z.of_nat lo + 1) with (Z.of_nat (1 + lo)) by lia.
    destruct (IH (1 + lo)%nat s1 H1) as [E|(s2 & E2 & H2)].
    + intros i s' Hi HP. apply Hstep; [lia|exact HP].
    + left. exact E.
    + right. exists s2. split; [exact E2|]. replace (lo + S n)%nat with (1 + lo + n)%nat by lia. exact H2.
Qed.
Lemma for_or_ub {St} (body : Z -> St -> res St) (P : nat -> St -> Prop) lo hi zlo zhi s :
  zlo = Z.of_nat lo -> zhi = Z.of_nat hi -> (lo <= hi)%nat -> P lo s ->
  (forall i s, (lo <= i < hi)%nat -> P i s ->
     body (Z.of_nat i) s = UB \/ exists s', body (Z.of_nat i) s = Ok s' /\ P (1 + i)%nat s') ->
  for_ zlo zhi body s = UB \/ exists s', for_ zlo zhi body s = Ok s' /\ P hi s'.
Proof.
  intros -> -> Hle H0 Hstep. unfold for_.
  replace (Z.to_nat (Z.of_nat hi - Z.of_nat lo)) with (hi - lo)%nat by lia.
  destruct (loop_or_ub body P (hi - lo) lo s H0) as [E|(s' & E & H)].
  - intros i s' Hi HP. apply Hstep; [lia|exact HP].
  - left. exact E.
  - right. exists s'. split; [exact E|]. replace hi with (lo + (hi - lo))%nat by lia. exact H.
Qed.

Section Arr.
  Context {S : Type}.
  Implicit Types (x : dd S) (m : mat S).

  (** ** Matrices with at least [n] rows and columns *)
  Definition crop (n : nat) (m : mat S) : mat S :=
    mkmat (Z.of_nat n) (Z.of_nat n)
      (flat_map (fun i => map (fun j => match mget m (Z.of_nat i) (Z.of_nat j) with Ok v => Some v | _ => None end) (seq 0 n)) (seq 0 n)).
  Lemma crop_length n m k : length (flat_map (fun i => map (fun j => match mget m (Z.of_nat i) (Z.of_nat j) with Ok v => Some v | _ => None end) (seq 0 n)) (seq k n))
    = (n * n)%nat.
  Proof.
    assert (G : forall l, length (flat_map (fun i => map (fun j => match mget m (Z.of_nat i) (Z.of_nat j) with Ok v => Some v | _ => None end) (seq 0 n)) l) = (length l * n)%nat).
    { induction l as [|a l IH]; cbn; [reflexivity|]. rewrite app_length, map_length, seq_length, IH. reflexivity. }
    rewrite G, seq_length. reflexivity.
  Qed.
  Lemma flat_nth {A} (f : nat -> nat -> A) n : forall r k i j, (i < r)%nat -> (j < n)%nat ->
    nth_error (flat_map (fun i => map (f i) (seq 0 n)) (seq k r)) (i * n + j) = Some (f (k + i)%nat j).
  Proof.
    induction r as [|r IH]; intros k i j Hi Hj; [lia|]. cbn [seq flat_map].
    destruct i as [|i].
    - rewrite nth_error_app1 by (rewrite map_length, seq_length; lia). rewrite Nat.add_0_r. cbn [Nat.mul Nat.add].
      rewrite nth_error_map, (nth_error_nth' _ 0%nat) by (rewrite seq_length; lia). rewrite seq_nth by lia. reflexivity.
    - rewrite nth_error_app2 by (rewrite map_length, seq_length; nia). rewrite map_length, seq_length.
      replace (Datatypes.S i * n + j - n)%nat with (i * n + j)%nat by lia. rewrite IH by lia. f_equal. f_equal. lia.
  Qed.
  Lemma table_get r k m i j : table r k m -> (i < r)%nat -> (j < k)%nat -> exists v, mget m (Z.of_nat i) (Z.of_nat j) = Ok v.
  Proof.
    intros (Hr & Hk & HL & HV) Hi Hj. unfold mget. rewrite Hr, Hk.
    replace ((0 <=? Z.of_nat i) && (Z.of_nat i <? Z.of_nat r) && (0 <=? Z.of_nat j) && (Z.of_nat j <? Z.of_nat k)) with true
      by (symmetry; rewrite !andb_true_iff; repeat split; first [apply Z.leb_le|apply Z.ltb_lt]; lia).
    destruct (HV (i * k + j)%nat ltac:(nia)) as (v & E). exists v.
    rewrite (rd_Some _ (i * k + j)%nat _ v); [reflexivity|lia|exact E].
  Qed.
  Lemma crop_get n r k m i j : table r k m -> (n <= r)%nat -> (n <= k)%nat -> (i < n)%nat -> (j < n)%nat ->
    mget (crop n m) (Z.of_nat i) (Z.of_nat j) = mget m (Z.of_nat i) (Z.of_nat j).
  Proof.
    intros T Hr Hk Hi Hj. destruct (table_get r k m i j T ltac:(lia) ltac:(lia)) as (v & E). rewrite E.
    unfold mget, crop. cbn [rows cols cells].
    replace ((0 <=? Z.of_nat i) && (Z.of_nat i <? Z.of_nat n) && (0 <=? Z.of_nat j) && (Z.of_nat j <? Z.of_nat n)) with true
      by (symmetry; rewrite !andb_true_iff; repeat split; first [apply Z.leb_le|apply Z.ltb_lt]; lia).
    apply (rd_Some _ (i * n + j)%nat); [lia|].
    rewrite (flat_nth (fun i j => match mget m (Z.of_nat i) (Z.of_nat j) with Ok v => Some v | _ => None end)) by lia.
    cbn [Nat.add]. rewrite E. reflexivity.
  Qed.
  Lemma crop_square n r k m : table r k m -> (n <= r)%nat -> (n <= k)%nat -> square n (crop n m).
  Proof.
    intros T Hr Hk. split; [reflexivity|]. split; [reflexivity|]. split; [apply crop_length|]. intros q Hq.
    destruct n as [|n']; [lia|]. set (n := Datatypes.S n') in *.
    pose proof (Nat.div_mod q n ltac:(lia)) as DM. pose proof (Nat.mod_upper_bound q n ltac:(lia)).
    assert (q / n < n)%nat by (apply Nat.div_lt_upper_bound; lia).
    destruct (table_get r k m (q / n) (q mod n) T ltac:(lia) ltac:(lia)) as (v & E). exists v.
    replace q with (q / n * n + q mod n)%nat by lia.
    cbn [crop cells]. rewrite (flat_nth (fun i j => match mget m (Z.of_nat i) (Z.of_nat j) with Ok v => Some v | _ => None end)) by lia.
    cbn [Nat.add]. rewrite E. reflexivity.
  Qed.
  Lemma set_hm_crop c n r k x m : size c x = Z.of_nat n -> table r k m -> (n <= r)%nat -> (n <= k)%nat ->
    set_hm c x m = set_hm c x (crop n m).
  Proof.
    intros HS T Hr Hk. unfold set_hm. rewrite HS.
    match goal with |- bind ?a _ = bind ?b _ => assert (E : a = b); [|rewrite E; reflexivity] end.
    apply for_ext_range. intros i st Hi. apply for_ext_range. intros j [it y] Hj.
    replace (mget (crop n m) i j) with (mget m i j); [reflexivity|].
    replace i with (Z.of_nat (Z.to_nat i)) by lia. replace j with (Z.of_nat (Z.to_nat j)) by lia.
    symmetry. eapply crop_get; [exact T|..]; lia.
  Qed.

  Lemma set_hm_large c n r k x m : c_ord c = 2 -> wf c n x -> table r k m -> (n <= r)%nat -> (n <= k)%nat ->
    exists x', set_hm c x m = Ok x' /\ wf c n x' /\ get_f x' = get_f x /\
      (forall i, 0 <= i < Z.of_nat n -> get_g c x' i = get_g c x i) /\
      (forall i j, 0 <= i < Z.of_nat n -> 0 <= j < Z.of_nat n ->
         get_h c x' i j = mget m (Z.min i j) (Z.max i j)).
  Proof.
    intros Ho W T Hr Hk. rewrite (set_hm_crop c n r k) by (first [exact (proj1 W)|assumption]).
    destruct (set_hm_upper c n x (crop n m) Ho W (crop_square n r k m T Hr Hk)) as (x' & E & W' & F & G & H).
    exists x'. repeat (split; [assumption|]). intros i j Hi Hj. rewrite H by assumption.
    replace i with (Z.of_nat (Z.to_nat i)) by lia. replace j with (Z.of_nat (Z.to_nat j)) by lia.
    rewrite <- Nat2Z.inj_min, <- Nat2Z.inj_max. eapply crop_get; [exact T|..]; lia.
  Qed.

  (** ** Too small a matrix *)
  Lemma mget_cases m i j : (exists v, mget m i j = Ok v) \/ mget m i j = UB.
  Proof.
    unfold mget. destruct (_ && _); [|auto]. unfold rd. destruct (_ <? 0); [auto|].
    destruct (nth_error _ _) as [[v|]|]; eauto.
  Qed.
  Lemma set_hm_small_gen c n r k x m : c_ord c = 2 -> size_ok c n -> size c x = Z.of_nat n ->
    length (m_data x) = storage_len (c_ord c) n -> table r k m -> (r < n \/ k < n)%nat -> set_hm c x m = UB.
  Proof.
    intros Ho SO HS HL T Hsm. assert (No : c_ord c <> 1) by lia.
    assert (HN : storage_len (c_ord c) n = (1 + n + rs n n)%nat).
    { rewrite storage_len_rs. destruct (Z.eqb_spec (c_ord c) 1); [contradiction|reflexivity]. }
    unfold set_hm. rewrite HS.
    (** the cells of row [i], columns [i..j-1], and of all rows before, have been read *)
    set (P := fun i j (st : Z * dd S) => m_size (snd st) = m_size x /\ length (m_data (snd st)) = length (m_data x) /\
      fst st = Z.of_nat (rs n i + (j - i)) /\
      (forall a b, (a < i)%nat -> (a <= b < n)%nat -> exists v, mget m (Z.of_nat a) (Z.of_nat b) = Ok v) /\
      (forall b, (i <= b < j)%nat -> exists v, mget m (Z.of_nat i) (Z.of_nat b) = Ok v)).
    edestruct (fun body => for_or_ub body (fun i => P i i) 0%nat n 0 (Z.of_nat n) (0, x))
      as [E|([it y] & E & HP)]; [reflexivity|reflexivity|lia| | |rewrite E; reflexivity|].
    - split; [reflexivity|]. split; [reflexivity|]. split; [reflexivity|]. split; intros; lia.
    - intros i st Hi HP. cbn beta iota.
      edestruct (fun body => for_or_ub body (P i) i n (Z.of_nat i) (Z.of_nat n) st)
        as [E|(st' & E & HP')]; [reflexivity|reflexivity|lia|exact HP| |left; exact E|right; exists st'; split; [exact E|]].
      + intros j [it y] Hj (Hms & Hlen & Hit & HA & HB). cbn [fst snd] in *. cbn beta iota.
        destruct (mget_cases m (Z.of_nat i) (Z.of_nat j)) as [(v & Ev)|Ev]; rewrite Ev; cbn [bind]; [|left; reflexivity].
        right. unfold set_h1. subst it.
        rewrite (idx_h1_ok c n y i j) by (first [assumption | lia | unfold size in *; rewrite Hms; exact HS]).
        cbn [bind]. pose proof (pos_bound n i j ltac:(lia)).
        rewrite (wr_ok _ (pos n i j)) by lia. cbn [bind]. eexists. split; [reflexivity|].
        split; [exact Hms|]. cbn [fst snd m_data]. split; [rewrite upd_length; exact Hlen|]. split; [lia|]. split; [exact HA|].
        intros b Hb. destruct (Nat.eq_dec b j) as [->|]; [eauto|apply HB; lia].
      + destruct HP' as (Hms & Hlen & Hit & HA & HB). destruct HP as (_ & _ & _ & HA' & _).
        split; [exact Hms|]. split; [exact Hlen|]. split.
        { rewrite Hit. cbn [rs Nat.add]. f_equal. lia. }
        split; [|intros; lia]. intros a b Ha Hb. destruct (Nat.eq_dec a i) as [->|]; [apply HB; lia|apply HA; lia].
    - exfalso. destruct HP as (_ & _ & _ & HA & _).
      assert (BAD : exists a b, (a < n)%nat /\ (a <= b < n)%nat /\ (r <= a \/ k <= b)%nat).
      { destruct Hsm as [H|H]; [exists r, (n - 1)%nat|exists 0%nat, (n - 1)%nat]; lia. }
      destruct BAD as (a & b & Ha & Hb & Hab). destruct (HA a b Ha Hb) as (v & Ev).
      destruct T as (Tr & Tk & _). unfold mget in Ev. rewrite Tr, Tk in Ev.
      destruct (Z.ltb_spec (Z.of_nat a) (Z.of_nat r)); destruct (Z.ltb_spec (Z.of_nat b) (Z.of_nat k)); try lia;
        rewrite ?andb_false_r in Ev; cbn in Ev; try discriminate Ev; rewrite ?andb_false_r in Ev; discriminate Ev.
  Qed.

  Lemma set_hm_small c n r k x m : c_ord c = 2 -> wf c n x -> table r k m -> (r < n \/ k < n)%nat -> set_hm c x m = UB.
  Proof.
    intros Ho W. destruct (wf_rep _ _ _ W) as (J & HJ). destruct W as (HS & HL & _ & _).
    apply set_hm_small_gen; try assumption. eapply rep_size_ok, HJ.
  Qed.
  Lemma set_hm_shapes c n r k x m : c_ord c = 2 -> wf c n x -> table r k m ->
    ((n <= r)%nat -> (n <= k)%nat -> exists x', set_hm c x m = Ok x' /\ wf c n x' /\ get_f x' = get_f x /\
      (forall i, 0 <= i < Z.of_nat n -> get_g c x' i = get_g c x i) /\
      (forall i j, 0 <= i < Z.of_nat n -> 0 <= j < Z.of_nat n -> get_h c x' i j = mget m (Z.min i j) (Z.max i j))) /\
    ((r < n \/ k < n)%nat -> set_hm c x m = UB).
  Proof. intros Ho W T. split; intros; [eapply set_hm_large|eapply set_hm_small]; eassumption. Qed.

  (** ** from_arrays *)
  Lemma from_arrays_shapes (O : Ops S) c f (g : list S) r k m : c_ord c = 2 -> size_ok c (length g) -> table r k m ->
    let n := length g in
    (c_dbg c = true -> (r <> n \/ k <> n) -> from_arrays O c f (full g) m = Abort) /\
    (c_dbg c = false -> (n <= r)%nat -> (n <= k)%nat -> exists x, from_arrays O c f (full g) m = Ok x /\
       shows c n x f (fun i => nth i g f) (fun i j => match mget m (Z.of_nat (Nat.min i j)) (Z.of_nat (Nat.max i j)) with Ok v => v | _ => f end)) /\
    (c_dbg c = false -> (r < n \/ k < n)%nat -> from_arrays O c f (full g) m = UB).
  Proof.
    intros Ho SO T n. destruct T as (Hr & Hk & HT). assert (T : table r k m) by (split; [exact Hr|split; [exact Hk|exact HT]]).
    assert (LG : len (full g) = Z.of_nat n) by (unfold len; rewrite full_length; reflexivity).
    assert (STEP : c_dbg c = false -> forall m', from_arrays O c f (full g) m' =
        (r <- empty_n O c (len (full g)) ;; r <- set_f r f ;; r <- set_ag c r (full g) ;; set_hm c r m')).
    { intros D m'. unfold from_arrays, assert_. rewrite D. reflexivity. }
    split; [|split].
    - intros D Hne. unfold from_arrays, assert_. rewrite LG, Hr, Hk, D.
      destruct (Z.eqb_spec (Z.of_nat n) (Z.of_nat r)); destruct (Z.eqb_spec (Z.of_nat n) (Z.of_nat k)); try reflexivity; lia.
    - intros D Hnr Hnk.
      assert (E : from_arrays O c f (full g) m = from_arrays O c f (full g) (crop n m)).
      { rewrite !STEP by exact D.
        destruct (empty_n O c (len (full g))) as [r0| | |] eqn:E0; cbn [bind]; try reflexivity.
        destruct (set_f r0 f) as [r1| | |] eqn:E1; cbn [bind]; try reflexivity.
        destruct (set_ag c r1 (full g)) as [r2| | |] eqn:E2; cbn [bind]; try reflexivity.
        apply (set_hm_crop c n r k); try assumption.
        assert (HS : size c r1 = Z.of_nat n).
        { unfold set_ag in E2. destruct (Z.eqb_spec (len (full g)) (size c r1)) as [EQ|]; [rewrite <- EQ; exact LG|discriminate]. }
        unfold set_ag in E2. rewrite LG, HS, Z.eqb_refl in E2. cbn [negb] in E2.
        destruct (for_ _ _ _ _) as [d| | |] in E2; cbn [bind] in E2; try discriminate. injection E2 as <-.
        unfold size in *. cbn [m_size]. exact HS. }
      rewrite E. destruct (square_ismat n (crop n m) f (crop_square n r k m T Hnr Hnk)) as (M & HM & EM).
      destruct (from_arrays_rep O c f g (crop n m) M f) as (x & Ex & R); try assumption; try lia.
      exists x. split; [exact Ex|]. destruct (rep_shows _ _ _ _ R) as (W & F & G & H).
      split; [exact W|]. split; [exact F|]. split; [exact G|]. intros _ i j Hi Hj. rewrite (H Ho i j Hi Hj). unfold hess. cbn [jh].
      rewrite <- (crop_get n r k m) by (first [assumption|lia]). rewrite EM by lia. reflexivity.
    - intros D Hsm. rewrite STEP by exact D. rewrite LG.
      destruct (empty_set_f O c n f SO) as (r0 & r1 & E0 & E & HS & HL & Hf). rewrite E0. cbn [bind]. rewrite E. cbn [bind].
      destruct (set_ag_gen c n r1 g HS HL eq_refl) as (r2 & E' & Hms & HL' & _). rewrite E'. cbn [bind].
      apply (set_hm_small_gen c n r k); try assumption. unfold size in *. rewrite Hms. exact HS.
  Qed.

  (** ** set_zero, adata, set_adata *)
  Lemma set_zero_ok (O : Ops S) x : set_zero O x = Ok (mk (m_size x) (repeat (Some (o_Z O 0)) (length (m_data x)))).
  Proof.
    unfold set_zero, len.
    edestruct (fun body => for_inv body (fun i d => length d = length (m_data x) /\
        forall q, (q < i)%nat -> nth_error d q = Some (Some (o_Z O 0))) 0%nat (length (m_data x)) 0 (Z.of_nat (length (m_data x))) (m_data x))
      as (d & E & HL & HP); [reflexivity|reflexivity|lia| | |rewrite E; cbn [bind]].
    - split; [reflexivity|]. intros; lia.
    - intros i d Hi (HL & HP). cbn beta. rewrite (wr_ok _ i) by lia. eexists. split; [reflexivity|].
      split; [rewrite upd_length; exact HL|]. intros q Hq. destruct (Nat.eq_dec q i) as [->|].
      + apply nth_error_upd_eq. lia.
      + rewrite nth_error_upd_ne by lia. apply HP. lia.
    - do 2 f_equal. apply nth_error_ext; [rewrite repeat_length; exact HL|]. intros q Hq. rewrite HP by lia. symmetry. apply nth_error_repeat. lia.
  Qed.
  Lemma set_zero_is_zero (O : Ops S) c n x : size c x = Z.of_nat n ->
    length (m_data x) = storage_len (c_ord c) n -> len (m_data x) <= max_len ->
    exists r, set_zero O x = Ok r /\ agree c (Ok r) (zero_n O c (Z.of_nat n)) /\
      shows c n r (o_Z O 0) (fun _ => o_Z O 0) (fun _ _ => o_Z O 0).
  Proof.
    intros HS HL HM. rewrite set_zero_ok. eexists. split; [reflexivity|].
    assert (SO : size_ok c n).
    { split; [intros D; unfold size in HS; rewrite D in HS; exact HS|]. rewrite <- HL. exact HM. }
    assert (R : rep c n (jconst O (o_Z O 0)) (mk (m_size x) (repeat (Some (o_Z O 0)) (length (m_data x))))).
    { apply rep_intro; [exact SO|exact HS|]. cbn [m_data]. rewrite HL. apply repeat_isenc. }
    split.
    - destruct (zero_n_rep O c n SO) as (z & E & RZ). rewrite E. eapply agree_rep; [eexists; split; [reflexivity|exact R]|eexists; split; [reflexivity|exact RZ]|]. repeat split.
    - apply rep_shows in R. exact R.
  Qed.

  Lemma read_all_full (vs : list S) : read_all (full vs) = Ok vs.
  Proof. induction vs as [|v vs IH]; cbn; [reflexivity|]. change (map Some vs) with (full vs). rewrite IH. reflexivity. Qed.
  Lemma set_adata_ok x (vs : list S) : length vs = length (m_data x) -> set_adata x (full vs) = Ok (mk (m_size x) (full vs)).
  Proof.
    intros HV. unfold set_adata, len. rewrite full_length, HV, Z.eqb_refl. cbn [negb].
    edestruct (fun body => for_inv body (fun i d => length d = length (m_data x) /\
        forall q, (q < i)%nat -> nth_error d q = nth_error (full vs) q) 0%nat (length (m_data x)) 0 (Z.of_nat (length (m_data x))) (m_data x))
      as (d & E & HL & HP); [reflexivity|reflexivity|lia| | |rewrite E; cbn [bind]].
    - split; [reflexivity|]. intros; lia.
    - intros i d Hi (HL & HP). cbn beta. destruct (nth_error vs i) as [v|] eqn:Ev; [|apply nth_error_None in Ev; lia].
      rewrite (rd_Some (full vs) i _ v eq_refl) by (apply nth_error_full; exact Ev). cbn [bind].
      rewrite (wr_ok _ i) by lia. eexists. split; [reflexivity|].
      split; [rewrite upd_length; exact HL|]. intros q Hq. destruct (Nat.eq_dec q i) as [->|].
      + rewrite nth_error_upd_eq by lia. symmetry. apply nth_error_full, Ev.
      + rewrite nth_error_upd_ne by lia. apply HP. lia.
    - do 2 f_equal. apply nth_error_ext; [rewrite full_length; lia|]. intros q Hq. apply HP. lia.
  Qed.
  Lemma adata_round_trip c n x y : wf c n x -> wf c n y ->
    exists vs r, adata y = Ok vs /\ length vs = storage_len (c_ord c) n /\ m_data y = full vs /\
      set_adata x (full vs) = Ok r /\ size c r = size c y /\ m_data r = m_data y.
  Proof.
    intros WX WY. destruct (wf_rep _ _ _ WY) as (K & HK). destruct HK as (_ & HD & _).
    exists (enc (c_ord c) n K). eexists. unfold adata. rewrite HD at 1. split; [apply read_all_full|].
    split; [apply enc_length|]. split; [exact HD|]. split.
    - apply set_adata_ok. rewrite enc_length. symmetry. apply WX.
    - split; [|symmetry; exact HD]. destruct WX as (SX & _). destruct WY as (SY & _). rewrite SY.
      unfold size in *. cbn [m_size]. exact SX.
  Qed.
  Lemma set_adata_mismatch x (v : data S) : length v <> length (m_data x) -> set_adata x v = UB.
  Proof. intros H. unfold set_adata, len. destruct (Z.eqb_spec (Z.of_nat (length v)) (Z.of_nat (length (m_data x)))); [lia|reflexivity]. Qed.
End Arr.
