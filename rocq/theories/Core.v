(** Loop and storage lemmas; closed forms of the three chain-rule kernels. *)
From Coq Require Import ZArith List Bool Lia.
From Verif Require Import Outcome Scalar Model Spec.
Import ListNotations.
Open Scope Z_scope.
Open Scope res_scope.
Ltac Zify.zify_post_hook ::= Z.div_mod_to_equations.

(** ** Loops *)
Lemma loop_inv {St} (body : Z -> St -> res St) (P : nat -> St -> Prop) :
  forall n lo s, P lo s ->
  (forall i s, (lo <= i < lo + n)%nat -> P i s ->
     exists s', body (Z.of_nat i) s = Ok s' /\ P (1 + i)%nat s') ->
  exists s', loop n (Z.of_nat lo) body s = Ok s' /\ P (lo + n)%nat s'.
Proof.
  induction n as [|n IH]; intros lo s H0 Hstep; cbn [loop].
  - exists s. rewrite Nat.add_0_r. auto.
  - destruct (Hstep lo s ltac:(lia) H0) as (s1 & E1 & H1). rewrite E1. cbn [bind].
    replace (Z.of_nat lo + 1) with (Z.of_nat (1 + lo)) by lia.
    destruct (IH (1 + lo)%nat s1 H1) as (s2 & E2 & H2).
    + intros i s' Hi HP. apply Hstep; [lia|exact HP].
    + exists s2. rewrite E2. split; [reflexivity|].
      replace (lo + S n)%nat with (1 + lo + n)%nat by lia. exact H2.
Qed.

Lemma for_inv {St} (body : Z -> St -> res St) (P : nat -> St -> Prop) lo hi zlo zhi s :
  zlo = Z.of_nat lo -> zhi = Z.of_nat hi -> (lo <= hi)%nat ->
  P lo s ->
  (forall i s, (lo <= i < hi)%nat -> P i s ->
     exists s', body (Z.of_nat i) s = Ok s' /\ P (1 + i)%nat s') ->
  exists s', for_ zlo zhi body s = Ok s' /\ P hi s'.
Proof.
  intros -> -> Hle H0 Hstep. unfold for_.
  replace (Z.to_nat (Z.of_nat hi - Z.of_nat lo)) with (hi - lo)%nat by lia.
  destruct (loop_inv body P (hi - lo) lo s H0) as (s' & E & H).
  - intros i s' Hi HP. apply Hstep; [lia|exact HP].
  - exists s'. split; [exact E|]. replace hi with (lo + (hi - lo))%nat by lia. exact H.
Qed.

Lemma for_empty {St} (body : Z -> St -> res St) lo hi s : hi <= lo -> for_ lo hi body s = Ok s.
Proof. intros H. unfold for_. replace (Z.to_nat (hi - lo)) with 0%nat by lia. reflexivity. Qed.

Lemma loop_ext {St} (b1 b2 : Z -> St -> res St) : forall n i s,
  (forall k s, b1 k s = b2 k s) -> loop n i b1 s = loop n i b2 s.
Proof.
  induction n as [|n IH]; intros i s H; cbn [loop]; [reflexivity|].
  rewrite H. destruct (b2 i s); cbn [bind]; auto.
Qed.

Lemma ck_ok z : - 2 ^ 63 <= z < 2 ^ 63 -> ck z = Ok z.
Proof.
  intros H. unfold ck.
  destruct (Z.leb_spec (- 2 ^ 63) z); destruct (Z.ltb_spec z (2 ^ 63)); cbn; try reflexivity; lia.
Qed.

(** ** Storage *)
Section Cells.
  Context {S : Type}.
  Implicit Types (l r : data S) (v : S).

  Lemma rd_Some l k z v :
    z = Z.of_nat k -> nth_error l k = Some (Some v) -> rd l z = Ok v.
  Proof.
    intros -> H. unfold rd. destruct (Z.ltb_spec (Z.of_nat k) 0); [lia|].
    rewrite Nat2Z.id, H. reflexivity.
  Qed.

  Lemma rd_oob l z : z < 0 \/ Z.of_nat (length l) <= z -> rd l z = UB.
  Proof.
    intros H. unfold rd. destruct (Z.ltb_spec z 0); [reflexivity|].
    destruct (nth_error l (Z.to_nat z)) eqn:E; [|reflexivity].
    assert (Z.to_nat z < length l)%nat by (apply nth_error_Some; congruence). lia.
  Qed.

  Lemma rd_inv l z v : rd l z = Ok v -> 0 <= z /\ nth_error l (Z.to_nat z) = Some (Some v).
  Proof.
    unfold rd. destruct (Z.ltb_spec z 0); [discriminate|].
    destruct (nth_error l (Z.to_nat z)) as [[w|]|]; try discriminate.
    intros E. inversion E. auto.
  Qed.

  Lemma upd_length l k v : length (upd l k v) = length l.
  Proof. revert k; induction l as [|x l IH]; intros [|k]; cbn; auto. Qed.

  Lemma nth_error_upd_eq l k v : (k < length l)%nat -> nth_error (upd l k v) k = Some (Some v).
  Proof.
    revert k; induction l as [|x l IH]; intros [|k] H; cbn in *; try lia; auto.
    apply IH; lia.
  Qed.

  Lemma nth_error_upd_ne l k k' v : k <> k' -> nth_error (upd l k v) k' = nth_error l k'.
  Proof.
    revert k k'; induction l as [|x l IH]; intros [|k] [|k'] H; cbn; try reflexivity; try lia.
    apply IH; lia.
  Qed.

  Lemma wr_ok l k z v : z = Z.of_nat k -> (k < length l)%nat -> wr l z v = Ok (upd l k v).
  Proof.
    intros -> H. unfold wr.
    destruct (Z.ltb_spec (Z.of_nat k) 0); [lia|].
    destruct (Z.leb_spec (Z.of_nat (length l)) (Z.of_nat k)); [lia|].
    cbn. rewrite Nat2Z.id. reflexivity.
  Qed.

  Lemma wr_oob l z v : z < 0 \/ Z.of_nat (length l) <= z -> wr l z v = UB.
  Proof.
    intros H. unfold wr.
    destruct (Z.ltb_spec z 0); [reflexivity|].
    destruct (Z.leb_spec (Z.of_nat (length l)) z); [reflexivity|lia].
  Qed.

  Lemma full_length (vs : list S) : length (full vs) = length vs.
  Proof. apply map_length. Qed.

  Lemma nth_error_full (vs : list S) k v :
    nth_error vs k = Some v -> nth_error (full vs) k = Some (Some v).
  Proof. intros H. unfold full. rewrite nth_error_map, H. reflexivity. Qed.

  Lemma full_inj (a b : list S) : full a = full b -> a = b.
  Proof.
    unfold full. revert b; induction a as [|x a IH]; intros [|y b] H; cbn in H; try discriminate.
    - reflexivity.
    - inversion H; subst. f_equal. auto.
  Qed.

  Lemma nth_error_ext {A} (a b : list A) :
    length a = length b -> (forall k, (k < length a)%nat -> nth_error a k = nth_error b k) -> a = b.
  Proof.
    revert b; induction a as [|x a IH]; intros [|y b] HL H; cbn in HL; try lia; [reflexivity|].
    assert (H0 := H 0%nat ltac:(cbn; lia)). cbn in H0. inversion H0; subst. f_equal.
    apply IH; [lia|]. intros k Hk. apply (H (Datatypes.S k)). cbn; lia.
  Qed.
End Cells.

(** ** The triangular layout *)
(** Number of Hessian entries before row [i]. *)
Fixpoint rs (n i : nat) : nat :=
  match i with O => O | S i' => (rs n i' + (n - i'))%nat end.
(** Storage position of entry [(i,j)], [i <= j]. *)
Definition pos (n i j : nat) : nat := (1 + n + rs n i + (j - i))%nat.

Lemma rs_closed n i : (i <= n)%nat -> (2 * rs n i + i * i = i * (2 * n + 1))%nat.
Proof.
  induction i as [|i IH]; intros H; cbn [rs]; [reflexivity|].
  specialize (IH ltac:(lia)). nia.
Qed.

Lemma rs_total n : (rs n n + 1 + n = (n + 1) * (n + 2) / 2)%nat.
Proof.
  assert (H := rs_closed n n (le_n n)).
  assert (E : ((n + 1) * (n + 2) = (rs n n + 1 + n) * 2)%nat) by nia.
  rewrite E, Nat.div_mul by lia. reflexivity.
Qed.

Lemma rs_mono n i i' : (i <= i')%nat -> (rs n i <= rs n i')%nat.
Proof. induction 1 as [|m H IH]; cbn [rs]; lia. Qed.

Lemma pos_bound n i j : (i <= j < n)%nat -> (1 + n <= pos n i j < 1 + n + rs n n)%nat.
Proof.
  intros H. unfold pos.
  assert (H1 := rs_mono n (1 + i) n ltac:(lia)). cbn [rs plus] in H1. lia.
Qed.

Lemma pos_lt_row n i j i' j' :
  (i <= j < n)%nat -> (i' <= j' < n)%nat -> (i < i')%nat -> (pos n i j < pos n i' j')%nat.
Proof.
  intros H H' Hi. unfold pos.
  assert (H1 := rs_mono n (1 + i) i' ltac:(lia)). cbn [rs plus] in H1. lia.
Qed.

Lemma pos_inj n i j i' j' :
  (i <= j < n)%nat -> (i' <= j' < n)%nat -> pos n i j = pos n i' j' -> i = i' /\ j = j'.
Proof.
  intros H H' E.
  destruct (Nat.lt_trichotomy i i') as [L|[->|L]].
  - pose proof (pos_lt_row n i j i' j' H H' L). lia.
  - unfold pos in E. lia.
  - pose proof (pos_lt_row n i' j' i j H' H L). lia.
Qed.

Lemma pos_surj n k : (1 + n <= k < 1 + n + rs n n)%nat ->
  exists i j, (i <= j < n)%nat /\ k = pos n i j.
Proof.
  intros H.
  assert (G : forall m, (m <= n)%nat -> (k < 1 + n + rs n m)%nat ->
              exists i j, (i <= j < n)%nat /\ k = pos n i j).
  { induction m as [|m IH]; intros Hm Hk; cbn [rs] in Hk; [lia|].
    destruct (Nat.lt_ge_cases k (1 + n + rs n m)) as [L|L].
    - apply IH; lia.
    - exists m, (m + (k - (1 + n + rs n m)))%nat. unfold pos. lia. }
  apply (G n); lia.
Qed.

Lemma pos_next_col n i j : (i <= j)%nat -> pos n i (1 + j) = (1 + pos n i j)%nat.
Proof. unfold pos. lia. Qed.
Lemma pos_next_row n i : (i < n)%nat -> pos n i n = pos n (1 + i) (1 + i).
Proof. intros H. unfold pos. cbn [rs plus]. lia. Qed.

(** [2 * pos] in closed form: the index formula of hyperjet.h:767. *)
Lemma pos_formula n i j : (i <= j < n)%nat ->
  Z.of_nat (pos n i j) =
  1 + Z.of_nat n + Z.quot ((2 * Z.of_nat n - 1 - Z.of_nat i) * Z.of_nat i) 2 + Z.of_nat j.
Proof.
  intros H. assert (E := rs_closed n i ltac:(lia)). unfold pos.
  assert (E2 : (2 * Z.of_nat n - 1 - Z.of_nat i) * Z.of_nat i
               = (Z.of_nat (rs n i) - Z.of_nat i) * 2) by nia.
  rewrite E2, Z.quot_mul by lia. lia.
Qed.

Section Enc.
  Context {S : Type}.
  Implicit Types (J : jet S) (l r : data S).

  Lemma upper_aux_length (h : nat -> nat -> S) n m :
    (m <= n)%nat ->
    length (flat_map (fun i => map (h i) (seq i (n - i))) (seq 0 m)) = rs n m.
  Proof.
    induction m as [|m IH]; intros Hm; [reflexivity|].
    rewrite seq_S, flat_map_app, app_length, IH by lia. cbn [flat_map].
    rewrite app_nil_r, map_length, seq_length. cbn [rs plus]. lia.
  Qed.

  Lemma upper_length (h : nat -> nat -> S) n : length (upper n h) = rs n n.
  Proof. apply upper_aux_length; lia. Qed.

  Lemma upper_aux_nth (h : nat -> nat -> S) n m i j :
    (m <= n)%nat -> (i < m)%nat -> (i <= j < n)%nat ->
    nth_error (flat_map (fun i => map (h i) (seq i (n - i))) (seq 0 m)) (rs n i + (j - i))
    = Some (h i j).
  Proof.
    induction m as [|m IH]; intros Hm Hi Hj; [lia|].
    rewrite seq_S, flat_map_app. cbn [flat_map plus].
    rewrite app_nil_r.
    destruct (Nat.eq_dec i m) as [->|Hne].
    - rewrite nth_error_app2; rewrite upper_aux_length by lia; [|lia].
      replace (rs n m + (j - m) - rs n m)%nat with (j - m)%nat by lia.
      rewrite nth_error_map.
      rewrite (nth_error_nth' _ 0%nat) by (rewrite seq_length; lia).
      rewrite seq_nth by lia. cbn. f_equal. f_equal. lia.
    - rewrite nth_error_app1.
      + apply IH; lia.
      + rewrite upper_aux_length by lia.
        assert (H1 := rs_mono n (1 + i) m ltac:(lia)). cbn [rs plus] in H1. lia.
  Qed.

  Lemma upper_nth (h : nat -> nat -> S) n i j : (i <= j < n)%nat ->
    nth_error (upper n h) (rs n i + (j - i)) = Some (h i j).
  Proof. intros H. apply upper_aux_nth; lia. Qed.

  Lemma storage_len_rs ord n :
    storage_len ord n = if ord =? 1 then (1 + n)%nat else (1 + n + rs n n)%nat.
  Proof.
    unfold storage_len. destruct (ord =? 1); [reflexivity|].
    rewrite <- (rs_total n). lia.
  Qed.

  Lemma enc_length ord n J : length (enc ord n J) = storage_len ord n.
  Proof.
    rewrite storage_len_rs. unfold enc. cbn [length]. rewrite app_length, map_length, seq_length.
    destruct (ord =? 1); cbn [length]; [lia|]. rewrite upper_length. lia.
  Qed.

  Lemma enc_nth_f ord n J : nth_error (enc ord n J) 0 = Some (jf J).
  Proof. reflexivity. Qed.

  Lemma enc_nth_g ord n J i : (i < n)%nat -> nth_error (enc ord n J) (1 + i) = Some (jg J i).
  Proof.
    intros H. unfold enc. cbn [nth_error plus].
    rewrite nth_error_app1 by (rewrite map_length, seq_length; lia).
    rewrite nth_error_map, (nth_error_nth' _ 0%nat) by (rewrite seq_length; lia).
    rewrite seq_nth by lia. reflexivity.
  Qed.

  Lemma enc_nth_h ord n J i j : ord <> 1 -> (i <= j < n)%nat ->
    nth_error (enc ord n J) (pos n i j) = Some (jh J i j).
  Proof.
    intros Ho H. unfold enc, pos. destruct (Z.eqb_spec ord 1); [contradiction|].
    replace (1 + n + rs n i + (j - i))%nat with (Datatypes.S (n + (rs n i + (j - i)))) by lia.
    cbn [nth_error].
    rewrite nth_error_app2; rewrite map_length, seq_length; [|lia].
    replace (n + (rs n i + (j - i)) - n)%nat with (rs n i + (j - i))%nat by lia.
    apply upper_nth; exact H.
  Qed.

  (** Pointwise description of a storage in [enc] form. *)
  Definition isenc (ord : Z) (n : nat) (J : jet S) (l : data S) : Prop :=
    length l = storage_len ord n /\
    nth_error l 0 = Some (Some (jf J)) /\
    (forall i, (i < n)%nat -> nth_error l (1 + i) = Some (Some (jg J i))) /\
    (ord <> 1 -> forall i j, (i <= j < n)%nat -> nth_error l (pos n i j) = Some (Some (jh J i j))).

  Lemma enc_isenc ord n J : isenc ord n J (full (enc ord n J)).
  Proof.
    split; [rewrite full_length; apply enc_length|].
    split; [reflexivity|]. split.
    - intros i H. apply nth_error_full, enc_nth_g, H.
    - intros Ho i j H. apply nth_error_full, enc_nth_h; assumption.
  Qed.

  Lemma isenc_enc ord n J l : isenc ord n J l -> l = full (enc ord n J).
  Proof.
    intros (HL & Hf & Hg & Hh).
    destruct (enc_isenc ord n J) as (HL' & Hf' & Hg' & Hh').
    apply nth_error_ext; [congruence|]. intros k Hk.
    destruct k as [|k]; [congruence|].
    destruct (Nat.lt_ge_cases k n) as [L|L].
    - change (Datatypes.S k) with (1 + k)%nat. rewrite Hg, Hg' by lia. reflexivity.
    - rewrite HL, storage_len_rs in Hk.
      destruct (Z.eqb_spec ord 1) as [->|Hne]; [lia|].
      destruct (pos_surj n (Datatypes.S k) ltac:(lia)) as (i & j & Hij & ->).
      rewrite Hh, Hh' by assumption. reflexivity.
  Qed.

  Lemma isenc_iff ord n J l : isenc ord n J l <-> l = full (enc ord n J).
  Proof. split; [apply isenc_enc|intros ->; apply enc_isenc]. Qed.

  (** Two jets with the same meaningful entries. *)
  Definition jeq (ord : Z) (n : nat) (J K : jet S) : Prop :=
    jf J = jf K /\ (forall i, (i < n)%nat -> jg J i = jg K i) /\
    (ord <> 1 -> forall i j, (i <= j < n)%nat -> jh J i j = jh K i j).

  Lemma enc_ext ord n J K : jeq ord n J K -> enc ord n J = enc ord n K.
  Proof.
    intros (Hf & Hg & Hh). apply full_inj.
    apply isenc_enc. destruct (enc_isenc ord n J) as (HL & H0 & H1 & H2).
    split; [exact HL|]. split; [rewrite H0, Hf; reflexivity|]. split.
    - intros i Hi. rewrite H1, Hg by assumption. reflexivity.
    - intros Ho i j Hij. rewrite H2, Hh by assumption. reflexivity.
  Qed.

  Lemma enc_inj ord n J K : enc ord n J = enc ord n K -> jeq ord n J K.
  Proof.
    intros E. destruct (enc_isenc ord n J) as (HL & H0 & H1 & H2).
    rewrite E in *. destruct (enc_isenc ord n K) as (HL' & H0' & H1' & H2').
    split; [congruence|]. split.
    - intros i Hi. specialize (H1 i Hi). specialize (H1' i Hi). congruence.
    - intros Ho i j Hij. specialize (H2 Ho i j Hij). specialize (H2' Ho i j Hij). congruence.
  Qed.

  (** Every fully initialised storage of the right length is [enc] of some jet. *)
  Definition dec (d0 : S) (n : nat) (l : data S) : jet S :=
    let get k := match nth_error l k with Some (Some v) => v | _ => d0 end in
    mkjet (get 0%nat) (fun i => get (1 + i)%nat) (fun i j => get (pos n i j)).
End Enc.
