(** The chain rule for arbitrary operands, and its consequence: the result depends only on the real
    function an expression denotes. *)
From Coq Require Import ZArith List Bool Reals Lra Lia.
From Coquelicot Require Import Coquelicot.
From Verif Require Import Outcome Scalar Model Spec Core Kernels OpsRep AccRep RealOps Deriv UDeriv BDeriv
  FactsLayout FactsOps ExprSpec Expr Struct FactsExpr.
Import ListNotations.
Open Scope R_scope.
Open Scope res_scope.

Definition chained (N : nat) (env : nat -> jet R) (G r : jet R) : Prop :=
  jf r = jf G /\ (forall i, jg r i = gsum N G (fun k => jg (env k) i)) /\
  (forall i j, hess r i j = gsum N G (fun k => hess (env k) i j) +
     hsum N G (fun k => jg (env k) i) (fun k => jg (env k) j)).

Lemma gsum_zero n J : gsum n J (fun _ => 0) = 0.
Proof. unfold gsum. rewrite (rsum_ext n _ (fun _ => 0)); [apply rsum_zero|]. intros; ring. Qed.

Lemma ch_u N env u G r : chained N env G r -> chained N env (jap_u Rops u G) (jap_u Rops u r).
Proof.
  intros (Ef & Eg & Eh). pose proof (ustruct u G) as H. pose proof (ustruct u r) as H'. rewrite Ef in H'.
  destruct (ucoef u (jf G)) as [[f a] aa]. cbn [jlk] in *. split; [|split].
  - destruct H as (-> & _), H' as (-> & _). reflexivity.
  - intros i. rewrite (gsum_jlike _ _ _ _ _ _ _ H). destruct H' as (_ & -> & _). rewrite Eg. reflexivity.
  - intros i j. rewrite (gsum_jlike _ _ _ _ _ _ _ H), (hsum_jlike _ _ _ _ _ _ _ _ H), (hess_jlike _ _ _ _ _ _ _ H'), !Eg, Eh. ring.
Qed.
Lemma ch_b N env b G r G' r' : chained N env G r -> chained N env G' r' ->
  chained N env (jap_b Rops b G G') (jap_b Rops b r r').
Proof.
  intros (Ef & Eg & Eh) (Ef2 & Eg2 & Eh2). pose proof (bstruct b G G') as H. pose proof (bstruct b r r') as H'. rewrite Ef, Ef2 in H'.
  destruct (bcoef b (jf G) (jf G')) as [[[[[f a] b'] aa] ab] bb]. cbn [blk] in *. split; [|split].
  - destruct H as (-> & _), H' as (-> & _). reflexivity.
  - intros i. rewrite (gsum_blike _ _ _ _ _ _ _ _ _ _ _ H). destruct H' as (_ & -> & _). rewrite Eg, Eg2. reflexivity.
  - intros i j. rewrite (gsum_blike _ _ _ _ _ _ _ _ _ _ _ H), (hsum_blike _ _ _ _ _ _ _ _ _ _ _ _ H),
      (hess_blike _ _ _ _ _ _ _ _ _ _ _ H'), !Eg, !Eg2, Eh, Eh2. ring.
Qed.
Lemma ch_h N env G r G' r' G2 r2 : chained N env G r -> chained N env G' r' -> chained N env G2 r2 ->
  chained N env (jap_hypot3 Rops G G' G2) (jap_hypot3 Rops r r' r2).
Proof.
  intros (Ef & Eg & Eh) (Ef2 & Eg2 & Eh2) (Ef3 & Eg3 & Eh3).
  destruct (tstruct G G' G2) as (a & b & e & aa & ab & ae & bb & be & ee & HT).
  pose proof (HT G G' G2 eq_refl eq_refl eq_refl) as H. pose proof (HT r r' r2 Ef Ef2 Ef3) as H'. clear HT.
  split; [|split].
  - destruct H as (-> & _), H' as (-> & _). reflexivity.
  - intros i. rewrite (gsum_tlike _ _ _ _ _ _ _ _ _ _ _ _ _ _ _ _ H). destruct H' as (_ & -> & _). rewrite Eg, Eg2, Eg3. reflexivity.
  - intros i j. rewrite (gsum_tlike _ _ _ _ _ _ _ _ _ _ _ _ _ _ _ _ H), (hsum_tlike _ _ _ _ _ _ _ _ _ _ _ _ _ _ _ _ _ H),
      (hess_tlike _ _ _ _ _ _ _ _ _ _ _ _ _ _ _ _ H'), !Eg, !Eg2, !Eg3, Eh, Eh2, Eh3. ring.
Qed.
Lemma gsum_jvar N k x w : (k < N)%nat -> gsum N (jvar Rops k x) w = w k.
Proof.
  intros Hk. unfold gsum. rewrite (rsum_single N k) by (try exact Hk; intros l Hl; cbn [jg jvar];
    rewrite (proj2 (Nat.eqb_neq l k) Hl); rcbn; ring). cbn [jg jvar]. rewrite Nat.eqb_refl. rcbn. ring.
Qed.
Lemma hsum_jvar N k x u v : hsum N (jvar Rops k x) u v = 0.
Proof.
  unfold hsum. rewrite (rsum_ext N _ (fun _ => 0)); [apply rsum_zero|]. intros i _.
  rewrite (rsum_ext N _ (fun _ => 0)); [apply rsum_zero|]. intros l _. unfold hess. cbn [jh jvar]. rcbn. ring.
Qed.
Lemma gsum_jconst N k w : gsum N (jconst Rops k) w = 0.
Proof. unfold gsum. rewrite (rsum_ext N _ (fun _ => 0)); [apply rsum_zero|]. intros; cbn [jg jconst]; rcbn; ring. Qed.
Lemma hsum_jconst N k u v : hsum N (jconst Rops k) u v = 0.
Proof.
  unfold hsum. rewrite (rsum_ext N _ (fun _ => 0)); [apply rsum_zero|]. intros i _.
  rewrite (rsum_ext N _ (fun _ => 0)); [apply rsum_zero|]. intros l _. unfold hess. cbn [jh jconst]. rcbn. ring.
Qed.
Lemma ch_ev N env e : vars_below N e ->
  chained N env (jev Rops (fun k => jvar Rops k (jf (env k))) e) (jev Rops env e).
Proof.
  induction e as [i|s|f e IH|b e1 IH1 e2 IH2|e1 IH1 e2 IH2 e3 IH3]; cbn [jev vars_below]; intros HV.
  - split; [reflexivity|]. split; intros; rewrite ?gsum_jvar, ?hsum_jvar by exact HV; ring.
  - split; [reflexivity|]. split; intros; rewrite ?gsum_jconst, ?hsum_jconst; unfold hess, jconst; cbn [jg jh]; rcbn; ring.
  - apply ch_u, IH, HV.
  - apply ch_b; [apply IH1, HV|apply IH2, HV].
  - apply ch_h; [apply IH1, HV|apply IH2, HV|apply IH3, HV].
Qed.

(** ** Chain rule through the accessors *)
Lemma point_derivs N e p : vars_below N e -> dom e p ->
  let G := jev Rops (fun i => jvar Rops i (p i)) e in
  jf G = rev e p /\ (forall i, (i < N)%nat -> partial (rev e) i p (jg G i)) /\
  (forall i j, (i < N)%nat -> (j < N)%nat -> partial2 (rev e) i j p (hess G i j)).
Proof.
  intros HV D G. split; [apply jev_f; auto|]. split.
  - intros i Hi. pose proof (jev_point N e p (unit_at i) (unit_at i) HV D) as T. unfold track in T. fold G in T.
    rewrite gsum_unit in T by exact Hi. apply (J2_partial _ (rev_ext e)) in T. apply T.
  - intros i j Hi Hj. pose proof (jev_point N e p (unit_at i) (unit_at j) HV D) as T. unfold track in T. fold G in T.
    rewrite hsum_unit in T by assumption. apply (J2_partial _ (rev_ext e)) in T. apply T.
Qed.

(** The values [p], gradients [g] and Hessians [h] of a list of numbers. *)
Lemma shows_env c n (xs : list (dd R)) p g h : cfg_ok c ->
  (forall k x, nth_error xs k = Some x -> shows c n x (p k) (g k) (h k)) ->
  exists env : nat -> jet R, (forall k x, nth_error xs k = Some x -> rep c n (env k) x) /\ (forall k, jf (env k) = p k) /\
    (forall k i, jg (env k) i = g k i) /\
    (c_ord c = 2%Z -> forall k i j, (k < length xs)%nat -> (i < n)%nat -> (j < n)%nat -> hess (env k) i j = h k i j).
Proof.
  intros Hc H. exists (fun k => mkjet (p k) (g k) (h k)). split; [|split; [reflexivity|split; [reflexivity|]]].
  - intros k x E. apply shows_rep; [exact Hc|]. apply H, E.
  - intros Ho k i j Hk Hi Hj. destruct (nth_error xs k) as [x|] eqn:E; [|apply nth_error_None in E; lia].
    pose proof (H k x E) as SH. pose proof (shows_rep _ _ _ _ _ _ Hc SH) as R.
    destruct SH as (_ & _ & _ & Hh). specialize (Hh Ho i j Hi Hj).
    rewrite (get_h_rep _ _ _ _ _ _ R ltac:(lia) Hi Hj) in Hh. congruence.
Qed.

Lemma chain_rule c n e xs p g h : cfg_ok c -> size_ok c n -> vars_below (length xs) e -> dom e p ->
  (forall k x, nth_error xs k = Some x -> shows c n x (p k) (g k) (h k)) ->
  let N := length xs in
  exists (a : nat -> R) (b : nat -> nat -> R) r,
    (forall k, (k < N)%nat -> partial (rev e) k p (a k)) /\
    (forall k l, (k < N)%nat -> (l < N)%nat -> partial2 (rev e) k l p (b k l)) /\
    run Rops c n xs e = Ok r /\
    shows c n r (rev e p) (fun i => rsum N (fun k => a k * g k i))
      (fun i j => rsum N (fun k => a k * h k i j) + rsum N (fun k => rsum N (fun l => b k l * g k i * g l j))).
Proof.
  intros Hc SO HV D HX N. destruct (shows_env c n xs p g h Hc HX) as (env & HE & Ep & Eg & Eh).
  destruct (run_rep Rops c n xs env e Hc SO HV HE) as (r & Er & R).
  destruct (point_derivs N e p HV D) as (P0 & P1 & P2).
  pose proof (ch_ev N env e HV) as (C0 & C1 & C2).
  assert (EV : jev Rops (fun k => jvar Rops k (jf (env k))) e = jev Rops (fun k => jvar Rops k (p k)) e).
  { clear -Ep. induction e; cbn [jev]; rewrite ?Ep; congruence. }
  rewrite EV in *. set (G := jev Rops (fun k => jvar Rops k (p k)) e) in *.
  exists (jg G), (hess G), r. split; [exact P1|]. split; [exact P2|]. split; [exact Er|].
  eapply shows_ext; [apply rep_shows, R| | |].
  - rewrite C0. exact P0.
  - intros i Hi. rewrite C1. unfold gsum. apply rsum_ext. intros k Hk. rewrite Eg. reflexivity.
  - intros Ho i j Hi Hj. rewrite C2. unfold gsum, hsum. f_equal; apply rsum_ext; intros k Hk.
    + rewrite (Eh Ho) by assumption. reflexivity.
    + apply rsum_ext. intros l Hl. rewrite !Eg. reflexivity.
Qed.

(** ** Expressions denoting the same function near the operands' values give the same number *)
Lemma set_at_close N p q i t d : (forall k, (k < N)%nat -> Rabs (q k - p k) < d / 2) -> 0 < d ->
  Rabs (t - q i) < d / 2 -> forall k, (k < N)%nat -> Rabs (set_at q i t k - p k) < d.
Proof.
  intros HQ Hd Ht k Hk. unfold set_at. destruct (Nat.eqb_spec k i) as [->|].
  - specialize (HQ i Hk). replace (t - p i) with ((t - q i) + (q i - p i)) by ring.
    eapply Rle_lt_trans; [apply Rabs_triang|]. lra.
  - specialize (HQ k Hk). lra.
Qed.
Lemma ball_abs (x y : R) (e : posreal) : ball x e y -> Rabs (y - x) < e.
Proof. intros H. exact H. Qed.
Lemma abs_ball (x y : R) (e : posreal) : Rabs (y - x) < e -> ball x e y.
Proof. intros H. exact H. Qed.

Lemma partial_near N F1 F2 p q d i l1 l2 : 0 < d ->
  (forall q, (forall k, (k < N)%nat -> Rabs (q k - p k) < d) -> F1 q = F2 q) ->
  (forall k, (k < N)%nat -> Rabs (q k - p k) < d / 2) ->
  partial F1 i q l1 -> partial F2 i q l2 -> l1 = l2.
Proof.
  intros Hd HE HQ H1 H2. unfold partial in *.
  assert (Hd2 : 0 < d / 2) by lra.
  apply is_derive_unique in H2. rewrite <- H2. symmetry. apply is_derive_unique.
  eapply is_derive_ext_loc; [|exact H1]. exists (mkposreal (d / 2) Hd2). intros t Ht. apply ball_abs in Ht. cbn in Ht.
  apply HE. apply (set_at_close N p q i t d); assumption.
Qed.
Lemma partial2_near N F1 F2 p d i j l1 l2 : 0 < d -> (i < N)%nat ->
  (forall q, (forall k, (k < N)%nat -> Rabs (q k - p k) < d) -> F1 q = F2 q) ->
  partial2 F1 i j p l1 -> partial2 F2 i j p l2 -> l1 = l2.
Proof.
  intros Hd Hi HE (D1 & HD1 & H1) (D2 & HD2 & H2).
  assert (Hd4 : 0 < d / 2) by lra.
  apply is_derive_unique in H2. rewrite <- H2. symmetry. apply is_derive_unique.
  apply (is_derive_ext_loc D1); [|exact H1].
  assert (HB : locally (p i) (fun s => Rabs (s - p i) < d / 2)).
  { exists (mkposreal (d / 2) Hd4). intros s Hs. apply ball_abs in Hs. exact Hs. }
  generalize (filter_and _ _ HB (filter_and _ _ HD1 HD2)). apply filter_imp. intros s (Hs & P1 & P2).
  eapply (partial_near N F1 F2 p (set_at p i s) d j); try eassumption.
  intros k Hk. unfold set_at. destruct (Nat.eqb_spec k i) as [->|]; [exact Hs|].
  replace (p k - p k) with 0 by ring. rewrite Rabs_R0. lra.
Qed.

Lemma jev_near N e1 e2 p : vars_below N e1 -> vars_below N e2 -> dom e1 p -> dom e2 p ->
  near N p (fun q => rev e1 q = rev e2 q) -> forall env, (forall k, jf (env k) = p k) ->
  forall ord n, jeq ord n (jev Rops env e1) (jev Rops env e2).
Proof.
  intros V1 V2 D1 D2 (d & Hd & HE) env Ep ord n.
  destruct (point_derivs N e1 p V1 D1) as (P0 & P1 & P2). destruct (point_derivs N e2 p V2 D2) as (Q0 & Q1 & Q2).
  pose proof (ch_ev N env e1 V1) as (C0 & C1 & C2). pose proof (ch_ev N env e2 V2) as (B0 & B1 & B2).
  assert (EV : forall e, jev Rops (fun k => jvar Rops k (jf (env k))) e = jev Rops (fun k => jvar Rops k (p k)) e).
  { clear -Ep. intros e. induction e; cbn [jev]; rewrite ?Ep; congruence. }
  rewrite EV in *. set (G := jev Rops (fun k => jvar Rops k (p k)) e1) in *. set (K := jev Rops (fun k => jvar Rops k (p k)) e2) in *.
  assert (PP : forall k, (k < N)%nat -> Rabs (p k - p k) < d / 2).
  { intros k _. replace (p k - p k) with 0 by ring. rewrite Rabs_R0. lra. }
  assert (EG : forall k, (k < N)%nat -> jg G k = jg K k).
  { intros k Hk. eapply (partial_near N _ _ p p d k); try eassumption; [apply P1|apply Q1]; exact Hk. }
  assert (EH : forall k l, (k < N)%nat -> (l < N)%nat -> hess G k l = hess K k l).
  { intros k l Hk Hl. eapply (partial2_near N _ _ p d k l); try eassumption; [apply P2|apply Q2]; assumption. }
  assert (G1 : forall w, gsum N G w = gsum N K w).
  { intros w. apply rsum_ext. intros k Hk. rewrite EG by exact Hk. reflexivity. }
  assert (H1 : forall w z, hsum N G w z = hsum N K w z).
  { intros w z. apply rsum_ext. intros k Hk. apply rsum_ext. intros l Hl. rewrite EH by assumption. reflexivity. }
  split; [|split].
  - rewrite C0, B0, P0, Q0. apply HE. intros k Hk. specialize (PP k Hk). lra.
  - intros i _. rewrite C1, B1. apply G1.
  - intros _ i j Hij. rewrite <- (hess_upper (jev Rops env e1)), <- (hess_upper (jev Rops env e2)) by lia.
    rewrite C2, B2, G1, H1. reflexivity.
Qed.

Lemma same_function c n e1 e2 xs p : cfg_ok c -> size_ok c n -> List.Forall (wf c n) xs ->
  (forall k x, nth_error xs k = Some x -> get_f x = Ok (p k)) ->
  vars_below (length xs) e1 -> vars_below (length xs) e2 -> dom e1 p -> dom e2 p ->
  near (length xs) p (fun q => rev e1 q = rev e2 q) ->
  agree c (run Rops c n xs e1) (run Rops c n xs e2).
Proof.
  intros Hc SO W HF V1 V2 D1 D2 HN. destruct (env_of c n (jconst Rops 0) xs W) as (env0 & HE0).
  set (env := fun k => if Nat.ltb k (length xs) then env0 k else jconst Rops (p k)).
  assert (HE : forall i x, nth_error xs i = Some x -> rep c n (env i) x).
  { intros i x E. unfold env. assert (Hi : (i < length xs)%nat) by (apply nth_error_Some; congruence).
    destruct (Nat.ltb_spec i (length xs)); [|lia]. apply HE0, E. }
  assert (EP : forall k, jf (env k) = p k).
  { intros k. unfold env. destruct (Nat.ltb_spec k (length xs)) as [Hk|Hk]; [|reflexivity].
    destruct (nth_error xs k) as [x|] eqn:E; [|apply nth_error_None in E; lia].
    pose proof (HF k x E) as F. rewrite (get_f_rep _ _ _ _ (HE0 k x E)) in F. congruence. }
  eapply agree_rep; [apply run_rep; eassumption|apply run_rep; eassumption|].
  apply (jev_near (length xs) e1 e2 p); assumption.
Qed.
