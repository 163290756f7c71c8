(** Storage layout, accessors and matrices, in terms of the public accessors. *)
From Coq Require Import ZArith List Bool Lia String.
From Verif Require Import Outcome Scalar Model Spec Core Kernels OpsRep AccRep.
Import ListNotations.
Open Scope Z_scope.
Open Scope res_scope.

Lemma hess_sym {S} (J : jet S) i j : hess J i j = hess J j i.
Proof. unfold hess. rewrite Nat.min_comm, Nat.max_comm. reflexivity. Qed.
Lemma hess_upper {S} (J : jet S) i j : (i <= j)%nat -> hess J i j = jh J i j.
Proof. intros H. unfold hess. rewrite Nat.min_l, Nat.max_r by lia. reflexivity. Qed.
Lemma hess_lower {S} (J : jet S) i j : (j <= i)%nat -> hess J i j = jh J j i.
Proof. intros H. rewrite hess_sym. apply hess_upper, H. Qed.

Lemma rep_shows {S} c n (J : jet S) x : rep c n J x -> shows c n x (jf J) (jg J) (hess J).
Proof.
  intros H. split; [eapply rep_wf, H|]. split; [eapply get_f_rep, H|]. split.
  - intros i Hi. eapply get_g_rep; eassumption.
  - intros Ho i j Hi Hj. eapply get_h_rep; try eassumption. lia.
Qed.
Lemma shows_rep {S} c n (x : dd S) f g h : cfg_ok c -> shows c n x f g h -> rep c n (mkjet f g h) x.
Proof.
  intros [Ho _] (W & Hf & Hg & Hh). destruct (wf_rep _ _ _ W) as (J & HJ).
  eapply rep_jeq; [|exact HJ]. split; [|split].
  - pose proof (get_f_rep _ _ _ _ HJ) as E. cbn. congruence.
  - intros i Hi. pose proof (get_g_rep _ _ _ _ _ HJ Hi) as E. cbn. rewrite Hg in E by exact Hi. congruence.
  - intros No i j Hij. assert (Ho2 : c_ord c = 2) by (destruct Ho; congruence).
    pose proof (get_h_rep _ _ _ _ i j HJ No ltac:(lia) ltac:(lia)) as E.
    rewrite Hh in E by (try exact Ho2; lia). rewrite hess_upper in E by lia. cbn. congruence.
Qed.
Lemma shows_wf {S} c n (x : dd S) f g h : shows c n x f g h -> wf c n x.
Proof. intros [H _]. exact H. Qed.
Lemma shows_ext {S} c n (x : dd S) f g h f' g' h' : shows c n x f g h -> f = f' ->
  (forall i, (i < n)%nat -> g i = g' i) ->
  (c_ord c = 2 -> forall i j, (i < n)%nat -> (j < n)%nat -> h i j = h' i j) ->
  shows c n x f' g' h'.
Proof.
  intros (W & Hf & Hg & Hh) <- Eg Eh. split; [exact W|]. split; [exact Hf|]. split.
  - intros i Hi. rewrite <- Eg by exact Hi. apply Hg, Hi.
  - intros Ho i j Hi Hj. rewrite <- Eh by assumption. apply Hh; assumption.
Qed.

Ltac idx H := let n := fresh in apply Z_of_nat_complete_inf in H as [n ->].
Lemma to_idx i n : 0 <= i < Z.of_nat n -> exists k, i = Z.of_nat k /\ (k < n)%nat.
Proof. intros H. exists (Z.to_nat i). split; lia. Qed.

Section Facts.
  Context {S : Type}.
  Implicit Types (x : dd S) (m : mat S).

  (** C01 *)
  Lemma hess_access c n x i j v : c_ord c = 2 -> wf c n x ->
    0 <= i < Z.of_nat n -> 0 <= j < Z.of_nat n ->
    (exists w, get_h c x i j = Ok w /\ get_h c x j i = Ok w) /\
    exists x', set_h c x i j v = Ok x' /\ wf c n x' /\
      get_h c x' i j = Ok v /\ get_h c x' j i = Ok v /\
      get_f x' = get_f x /\
      (forall k, 0 <= k < Z.of_nat n -> get_g c x' k = get_g c x k) /\
      (forall k l, 0 <= k < Z.of_nat n -> 0 <= l < Z.of_nat n ->
         ~ (k = i /\ l = j) -> ~ (k = j /\ l = i) -> get_h c x' k l = get_h c x k l).
  Proof.
    intros Ho W Hi Hj. destruct (to_idx _ _ Hi) as (a & -> & Ha). destruct (to_idx _ _ Hj) as (b & -> & Hb).
    destruct (wf_rep _ _ _ W) as (J & HJ). assert (No : c_ord c <> 1) by lia. split.
    - exists (hess J a b). split; [eapply get_h_rep; eassumption|].
      rewrite hess_sym. eapply get_h_rep; eassumption.
    - destruct (set_h_rep c n J x a b v HJ No Ha Hb) as (x' & E & R). exists x'.
      split; [exact E|]. split; [eapply rep_wf, R|].
      assert (EV : hess (jseth J (Nat.min a b) (Nat.max a b) v) a b = v).
      { unfold hess, jseth; cbn. rewrite !Nat.eqb_refl. reflexivity. }
      split; [|split; [|split; [|split]]].
      + rewrite (get_h_rep _ _ _ _ _ _ R No Ha Hb), EV. reflexivity.
      + rewrite (get_h_rep _ _ _ _ _ _ R No Hb Ha), hess_sym, EV. reflexivity.
      + rewrite (get_f_rep _ _ _ _ R), (get_f_rep _ _ _ _ HJ). reflexivity.
      + intros k Hk. destruct (to_idx _ _ Hk) as (k' & -> & Hk').
        rewrite (get_g_rep _ _ _ _ _ R Hk'), (get_g_rep _ _ _ _ _ HJ Hk'). reflexivity.
      + intros k l Hk Hl N1 N2. destruct (to_idx _ _ Hk) as (k' & -> & Hk').
        destruct (to_idx _ _ Hl) as (l' & -> & Hl').
        rewrite (get_h_rep _ _ _ _ _ _ R No Hk' Hl'), (get_h_rep _ _ _ _ _ _ HJ No Hk' Hl').
        unfold hess, jseth; cbn [jh].
        destruct (Nat.eqb_spec (Nat.min k' l') (Nat.min a b)); [|reflexivity].
        destruct (Nat.eqb_spec (Nat.max k' l') (Nat.max a b)); [|reflexivity].
        exfalso. lia.
  Qed.

  (** C02: the storage is the documented list and the accessors read it. *)
  Lemma layout c n x : cfg_ok c -> wf c n x ->
    exists f g h, m_data x = full (f :: map g (seq 0 n) ++
        (if c_ord c =? 1 then [] else flat_map (fun i => map (h i) (seq i (n - i))) (seq 0 n))) /\
      get_f x = Ok f /\
      (forall i, (i < n)%nat -> get_g c x (Z.of_nat i) = Ok (g i)) /\
      (c_ord c = 2 -> forall i j, (i <= j < n)%nat ->
         get_h c x (Z.of_nat i) (Z.of_nat j) = Ok (h i j) /\
         get_h c x (Z.of_nat j) (Z.of_nat i) = Ok (h i j)) /\
      (c_ord c = 2 -> forall k v, nth_error (flat_map (fun i => map (h i) (seq i (n - i))) (seq 0 n)) k = Some v ->
         get_h1 c x (Z.of_nat k) = Ok v).
  Proof.
    intros Hc W. destruct (wf_rep _ _ _ W) as (J & HJ). exists (jf J), (jg J), (jh J).
    split; [destruct HJ as (_ & E & _); exact E|]. split; [eapply get_f_rep, HJ|].
    split; [intros i Hi; eapply get_g_rep; eassumption|]. split.
    - intros Ho i j Hij. split.
      + rewrite (get_h_rep _ _ _ _ i j HJ) by lia. rewrite hess_upper by lia. reflexivity.
      + rewrite (get_h_rep _ _ _ _ j i HJ) by lia. rewrite hess_lower by lia. reflexivity.
    - intros Ho k v Hk. assert (No : c_ord c <> 1) by lia.
      assert (HL : (k < rs n n)%nat).
      { change (nth_error (upper n (jh J)) k = Some v) in Hk. rewrite <- (upper_length (jh J) n).
        apply nth_error_Some. congruence. }
      destruct (pos_surj n (1 + n + k) ltac:(lia)) as (i & j & Hij & E). unfold pos in E.
      replace k with (rs n i + (j - i))%nat by lia.
      rewrite (get_h1_rep _ _ _ _ _ _ HJ No Hij). f_equal.
      pose proof (upper_nth (jh J) n i j Hij) as EN. change (upper n (jh J)) with
        (flat_map (fun i => map (jh J i) (seq i (n - i))) (seq 0 n)) in EN.
      replace (rs n i + (j - i))%nat with k in EN by lia. congruence.
  Qed.

  (** C03 *)
  Lemma hm_full (O : Ops S) c n x : c_ord c = 2 -> wf c n x ->
    exists m, hm O c x "full" = Ok m /\ rows m = Z.of_nat n /\ cols m = Z.of_nat n /\
      forall i j, 0 <= i < Z.of_nat n -> 0 <= j < Z.of_nat n -> mget m i j = get_h c x i j.
  Proof.
    intros Ho W. destruct (wf_rep _ _ _ W) as (J & HJ). assert (No : c_ord c <> 1) by lia.
    pose proof (hm_rep O c n J x "full" HJ No) as H. cbn in H. destruct H as (m & E & M).
    exists m. split; [exact E|]. split; [apply M|]. split; [apply M|].
    intros i j Hi Hj. destruct (to_idx _ _ Hi) as (a & -> & Ha). destruct (to_idx _ _ Hj) as (b & -> & Hb).
    rewrite (get_h_rep _ _ _ _ _ _ HJ No Ha Hb). eapply mget_ok; [exact M|exact Ha|exact Hb|reflexivity].
  Qed.
  Lemma hm_zeros (O : Ops S) c n x : c_ord c = 2 -> wf c n x ->
    exists m, hm O c x "zeros" = Ok m /\ rows m = Z.of_nat n /\ cols m = Z.of_nat n /\
      forall i j, 0 <= i < Z.of_nat n -> 0 <= j < Z.of_nat n ->
        mget m i j = if i <=? j then get_h c x i j else Ok (o_Z O 0).
  Proof.
    intros Ho W. destruct (wf_rep _ _ _ W) as (J & HJ). assert (No : c_ord c <> 1) by lia.
    pose proof (hm_rep O c n J x "zeros" HJ No) as H. cbn in H. destruct H as (m & E & M).
    exists m. split; [exact E|]. split; [apply M|]. split; [apply M|].
    intros i j Hi Hj. destruct (to_idx _ _ Hi) as (a & -> & Ha). destruct (to_idx _ _ Hj) as (b & -> & Hb).
    rewrite (get_h_rep _ _ _ _ _ _ HJ No Ha Hb).
    rewrite (mget_ok _ _ _ _ _ _ M Ha Hb eq_refl).
    destruct (Nat.leb_spec a b); destruct (Z.leb_spec (Z.of_nat a) (Z.of_nat b)); try lia.
    - rewrite hess_upper by lia. reflexivity.
    - reflexivity.
  Qed.
  Lemma hm_other (O : Ops S) c n x mode : c_ord c = 2 -> wf c n x ->
    mode <> "full"%string -> mode <> "zeros"%string -> hm O c x mode = Throw InvalidMode.
  Proof.
    intros Ho W N1 N2. destruct (wf_rep _ _ _ W) as (J & HJ). assert (No : c_ord c <> 1) by lia.
    pose proof (hm_rep O c n J x mode HJ No) as H.
    destruct (String.eqb_spec mode "full"); [contradiction|].
    destruct (String.eqb_spec mode "zeros"); [contradiction|]. exact H.
  Qed.

  (** C04 *)
  Lemma square_ismat n m (d : S) : square n m ->
    exists M, ismat n M m /\ forall i j, (i < n)%nat -> (j < n)%nat ->
      mget m (Z.of_nat i) (Z.of_nat j) = Ok (M i j).
  Proof.
    intros (Hr & Hc & HL & HV).
    exists (fun i j => match nth_error (cells m) (i * n + j) with Some (Some v) => v | _ => d end).
    assert (K : ismat n (fun i j => match nth_error (cells m) (i * n + j) with Some (Some v) => v | _ => d end) m).
    { split; [exact Hr|]. split; [exact Hc|]. split; [exact HL|]. intros i j Hi Hj.
      destruct (HV (i * n + j)%nat) as (v & E); [apply flat_lt; assumption|]. rewrite E. reflexivity. }
    split; [exact K|]. intros i j Hi Hj. eapply mget_ok; [exact K|exact Hi|exact Hj|reflexivity].
  Qed.

  Lemma ismat_square n M m : ismat n M m -> square n m.
  Proof.
    intros (Hr & Hc & HL & HV). split; [exact Hr|]. split; [exact Hc|]. split; [exact HL|].
    intros k Hk. destruct n as [|n]; [lia|].
    exists (M (k / Datatypes.S n)%nat (k mod Datatypes.S n)%nat).
    pose proof (Nat.div_mod k (Datatypes.S n) ltac:(lia)) as E.
    pose proof (Nat.mod_upper_bound k (Datatypes.S n) ltac:(lia)).
    rewrite <- HV; [f_equal; lia| |lia]. apply Nat.div_lt_upper_bound; lia.
  Qed.

  Lemma set_hm_upper c n x m : c_ord c = 2 -> wf c n x -> square n m ->
    exists x', set_hm c x m = Ok x' /\ wf c n x' /\ get_f x' = get_f x /\
      (forall i, 0 <= i < Z.of_nat n -> get_g c x' i = get_g c x i) /\
      (forall i j, 0 <= i < Z.of_nat n -> 0 <= j < Z.of_nat n ->
         get_h c x' i j = mget m (Z.min i j) (Z.max i j)).
  Proof.
    intros Ho W Q. destruct (wf_rep _ _ _ W) as (J & HJ). assert (No : c_ord c <> 1) by lia.
    destruct (square_ismat n m (jf J) Q) as (M & HM & EM).
    destruct (set_hm_rep c n J x m M HJ No HM) as (x' & E & R). exists x'.
    split; [exact E|]. split; [eapply rep_wf, R|].
    split; [rewrite (get_f_rep _ _ _ _ R), (get_f_rep _ _ _ _ HJ); reflexivity|]. split.
    - intros k Hk. destruct (to_idx _ _ Hk) as (k' & -> & Hk').
      rewrite (get_g_rep _ _ _ _ _ R Hk'), (get_g_rep _ _ _ _ _ HJ Hk'). reflexivity.
    - intros i j Hi Hj. destruct (to_idx _ _ Hi) as (a & -> & Ha). destruct (to_idx _ _ Hj) as (b & -> & Hb).
      rewrite (get_h_rep _ _ _ _ _ _ R No Ha Hb). rewrite <- Nat2Z.inj_min, <- Nat2Z.inj_max.
      rewrite EM by lia. reflexivity.
  Qed.

  Lemma map_nth_seq (g : nat -> S) n i d : (i < n)%nat -> nth i (map g (seq 0 n)) d = g i.
  Proof.
    intros H. rewrite (nth_indep _ d (g 0%nat)) by (rewrite map_length, seq_length; exact H).
    rewrite map_nth, seq_nth by exact H. reflexivity.
  Qed.

  Lemma arrays_round_trip (O : Ops S) c n x mode : c_ord c = 2 -> wf c n x ->
    mode = "full"%string \/ mode = "zeros"%string ->
    exists f g m x', get_f x = Ok f /\ get_ag c x = Ok g /\ hm O c x mode = Ok m /\
      from_arrays O c f (full g) m = Ok x' /\
      size c x' = size c x /\ m_data x' = m_data x.
  Proof.
    intros Ho W Hm. destruct (wf_rep _ _ _ W) as (J & HJ). assert (No : c_ord c <> 1) by lia.
    pose proof (hm_rep O c n J x mode HJ No) as H.
    assert (HH : exists m M, hm O c x mode = Ok m /\ ismat n M m /\
      forall i j, (i <= j < n)%nat -> M i j = jh J i j).
    { destruct Hm as [-> | ->]; cbn in H; destruct H as (m & E & HM).
      - exists m, (hess J). split; [exact E|]. split; [exact HM|]. intros i j Hij. apply hess_upper; lia.
      - eexists m, _. split; [exact E|]. split; [exact HM|]. intros i j Hij. cbn.
        destruct (Nat.leb_spec i j); [reflexivity|lia]. }
    destruct HH as (m & M & E & HM & EM).
    exists (jf J), (map (jg J) (seq 0 n)), m.
    assert (HL : List.length (map (jg J) (seq 0 n)) = n) by (rewrite map_length, seq_length; reflexivity).
    destruct (from_arrays_rep O c (jf J) (map (jg J) (seq 0 n)) m M (jf J) No) as (x' & E' & R).
    { rewrite HL. eapply rep_size_ok, HJ. }
    { rewrite HL. exact HM. }
    rewrite HL in R. exists x'. split; [eapply get_f_rep, HJ|]. split; [eapply get_ag_rep, HJ|].
    split; [exact E|]. split; [exact E'|].
    assert (R2 : rep c n J x').
    { eapply rep_jeq; [|exact R]. split; [reflexivity|]. split.
      - intros i Hi. cbn. apply map_nth_seq, Hi.
      - intros _ i j Hij. cbn. apply EM, Hij. }
    split; [destruct R2 as (-> & _); destruct HJ as (-> & _); reflexivity|].
    destruct R2 as (_ & -> & _). destruct HJ as (_ & -> & _). reflexivity.
  Qed.

  Lemma gradient_round_trip (O : Ops S) c n x : c_ord c = 1 -> wf c n x ->
    exists f g x', get_f x = Ok f /\ get_ag c x = Ok g /\
      from_gradient O c f (full g) = Ok x' /\
      size c x' = size c x /\ m_data x' = m_data x.
  Proof.
    intros Ho W. destruct (wf_rep _ _ _ W) as (J & HJ).
    exists (jf J), (map (jg J) (seq 0 n)).
    assert (HL : List.length (map (jg J) (seq 0 n)) = n) by (rewrite map_length, seq_length; reflexivity).
    destruct (from_gradient_rep O c (jf J) (map (jg J) (seq 0 n)) (jf J) Ho) as (x' & E' & R).
    { rewrite HL. eapply rep_size_ok, HJ. }
    rewrite HL in R. exists x'. split; [eapply get_f_rep, HJ|]. split; [eapply get_ag_rep, HJ|].
    split; [exact E'|].
    assert (R2 : rep c n J x').
    { eapply rep_jeq; [|exact R]. split; [reflexivity|]. split.
      - intros i Hi. cbn. apply map_nth_seq, Hi.
      - intros No. contradiction. }
    split; [destruct R2 as (-> & _); destruct HJ as (-> & _); reflexivity|].
    destruct R2 as (_ & -> & _). destruct HJ as (_ & -> & _). reflexivity.
  Qed.
End Facts.
