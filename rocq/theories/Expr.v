(** Derivative exactness for expressions. *)
From Coq Require Import ZArith List Bool Reals Lra Lia Psatz.
From Coquelicot Require Import Coquelicot.
From Verif Require Import Outcome Scalar Model Spec Core Kernels OpsRep AccRep PadRep RealOps Deriv UDeriv BDeriv
  FactsLayout ExprSpec.
Import ListNotations.
Open Scope R_scope.

(** ** Sums *)
Lemma rsum_ext n f g : (forall i, (i < n)%nat -> f i = g i) -> rsum n f = rsum n g.
Proof.
  induction n as [|n IH]; intros H; cbn; [reflexivity|]. rewrite IH by (intros; apply H; lia).
  rewrite H by lia. reflexivity.
Qed.
Lemma rsum_plus n f g : rsum n (fun i => f i + g i) = rsum n f + rsum n g.
Proof. induction n as [|n IH]; cbn; [ring|]. rewrite IH. ring. Qed.
Lemma rsum_scal n k f : rsum n (fun i => k * f i) = k * rsum n f.
Proof. induction n as [|n IH]; cbn; [ring|]. rewrite IH. ring. Qed.
Lemma rsum_zero n : rsum n (fun _ => 0) = 0.
Proof. induction n as [|n IH]; cbn; [reflexivity|]. rewrite IH. ring. Qed.
Lemma rsum_single n i f : (i < n)%nat -> (forall k, k <> i -> f k = 0) -> rsum n f = f i.
Proof.
  induction n as [|n IH]; intros Hi H; [lia|]. cbn. destruct (Nat.eq_dec i n) as [->|Hn].
  - rewrite (rsum_ext n f (fun _ => 0)), rsum_zero by (intros; apply H; lia). ring.
  - rewrite IH by (try lia; assumption). rewrite (H n) by lia. ring.
Qed.
Lemma rsum_prod n m f g : rsum n f * rsum m g = rsum n (fun i => rsum m (fun j => f i * g j)).
Proof.
  induction n as [|n IH]; cbn; [ring|]. rewrite <- IH, rsum_scal. ring.
Qed.

(** ** Directional sums of a jet *)
Definition gsum n (J : jet R) (u : nat -> R) : R := rsum n (fun i => jg J i * u i).
Definition hsum n (J : jet R) (u v : nat -> R) : R :=
  rsum n (fun i => rsum n (fun j => hess J i j * u i * v j)).

(** [phi s t] moves from the value with speed [u] in [s] and [v] in [t]; the jet [J] records its
    derivatives. *)
Definition track n (u v : nat -> R) (phi : R -> R -> R) (J : jet R) : Prop :=
  J2 phi (jf J) (gsum n J u) (gsum n J v) (hsum n J u v).

Lemma gsum_jlike n p0 p1 p2 J r u : jlike p0 p1 p2 J r -> gsum n r u = p1 * gsum n J u.
Proof.
  intros (_ & Hg & _). unfold gsum. rewrite <- rsum_scal. apply rsum_ext. intros i _. rewrite Hg. ring.
Qed.
Lemma min_max_prod (g k : nat -> R) i j :
  g (Nat.min i j) * k (Nat.max i j) + k (Nat.min i j) * g (Nat.max i j) = g i * k j + k i * g j.
Proof.
  destruct (Nat.le_ge_cases i j).
  - rewrite Nat.min_l, Nat.max_r by lia. reflexivity.
  - rewrite Nat.min_r, Nat.max_l by lia. ring.
Qed.
Lemma min_max_sq (g : nat -> R) i j : g (Nat.min i j) * g (Nat.max i j) = g i * g j.
Proof. pose proof (min_max_prod g g i j). lra. Qed.
Lemma hess_jlike p0 p1 p2 J r i j : jlike p0 p1 p2 J r ->
  hess r i j = p1 * hess J i j + p2 * (jg J i * jg J j).
Proof.
  intros (_ & _ & Hh). unfold hess. rewrite Hh. rewrite <- (min_max_sq (jg J) i j). ring.
Qed.
Lemma hsum_jlike n p0 p1 p2 J r u v : jlike p0 p1 p2 J r ->
  hsum n r u v = p1 * hsum n J u v + p2 * gsum n J u * gsum n J v.
Proof.
  intros HL. unfold hsum, gsum. rewrite Rmult_assoc, rsum_prod, <- !rsum_scal, <- rsum_plus.
  apply rsum_ext. intros i _. rewrite <- !rsum_scal, <- rsum_plus. apply rsum_ext. intros j _.
  rewrite (hess_jlike _ _ _ _ _ _ _ HL). ring.
Qed.
Lemma gsum_blike n p a b aa ab bb J K r u : blike p a b aa ab bb J K r ->
  gsum n r u = a * gsum n J u + b * gsum n K u.
Proof.
  intros (_ & Hg & _). unfold gsum. rewrite <- !rsum_scal, <- rsum_plus. apply rsum_ext. intros i _.
  rewrite Hg. ring.
Qed.
Lemma hess_blike p a b aa ab bb J K r i j : blike p a b aa ab bb J K r ->
  hess r i j = a * hess J i j + b * hess K i j + aa * (jg J i * jg J j)
    + ab * (jg J i * jg K j + jg K i * jg J j) + bb * (jg K i * jg K j).
Proof.
  intros (_ & _ & Hh). unfold hess. rewrite Hh.
  rewrite <- (min_max_sq (jg J) i j), <- (min_max_sq (jg K) i j), <- (min_max_prod (jg J) (jg K) i j). ring.
Qed.
Lemma hsum_blike n p a b aa ab bb J K r u v : blike p a b aa ab bb J K r ->
  hsum n r u v = a * hsum n J u v + b * hsum n K u v + aa * gsum n J u * gsum n J v
    + ab * (gsum n J u * gsum n K v + gsum n K u * gsum n J v) + bb * gsum n K u * gsum n K v.
Proof.
  intros HL. unfold hsum, gsum.
  rewrite (Rmult_assoc aa), (Rmult_assoc bb), !rsum_prod, <- !rsum_scal, <- !rsum_plus, <- rsum_scal, <- !rsum_plus.
  apply rsum_ext. intros i _. rewrite <- !rsum_scal, <- !rsum_plus, <- rsum_scal, <- !rsum_plus. apply rsum_ext. intros j _.
  rewrite (hess_blike _ _ _ _ _ _ _ _ _ _ _ HL). ring.
Qed.

Lemma track_value n u v phi J : track n u v phi J -> phi 0 0 = jf J.
Proof. intros H. apply H. Qed.

Lemma track_u n u v phi J f : track n u v phi J -> udom f (jf J) ->
  track n u v (fun s t => ureal f (phi s t)) (jap_u Rops f J).
Proof.
  intros H D. destruct (uder f (jf J) D) as (p1 & p2 & HD & HL). specialize (HL J eq_refl).
  unfold track. rewrite (gsum_jlike _ _ _ _ _ _ u HL), (gsum_jlike _ _ _ _ _ _ v HL), (hsum_jlike _ _ _ _ _ _ u v HL).
  destruct HL as (-> & _). exact (J2_D2 _ _ _ _ _ _ _ _ H HD).
Qed.
Lemma track_b n u v p q J K b : track n u v p J -> track n u v q K -> bdom b (jf J) (jf K) ->
  track n u v (fun s t => breal b (p s t) (q s t)) (jap_b Rops b J K).
Proof.
  intros H H' D. destruct (bder b _ _ D) as (da & db & daa & dab & dbb & HB & HL). specialize (HL J K eq_refl eq_refl).
  unfold track. rewrite (gsum_blike _ _ _ _ _ _ _ _ _ _ u HL), (gsum_blike _ _ _ _ _ _ _ _ _ _ v HL),
    (hsum_blike _ _ _ _ _ _ _ _ _ _ u v HL).
  destruct HL as (-> & _). eapply J2_eq; [apply (HB _ _ _ _ _ _ _ _ H H')| | | |]; first [reflexivity|ring].
Qed.

(** hypot with three arguments: general shape, then the derivative. *)
Definition tlike (p a b e aa ab ae bb be ee : R) (J K L r : jet R) : Prop :=
  jf r = p /\ (forall i, jg r i = a * jg J i + b * jg K i + e * jg L i) /\
  (forall i j, jh r i j = a * jh J i j + b * jh K i j + e * jh L i j
     + aa * (jg J i * jg J j) + bb * (jg K i * jg K j) + ee * (jg L i * jg L j)
     + ab * (jg J i * jg K j + jg K i * jg J j) + ae * (jg J i * jg L j + jg L i * jg J j)
     + be * (jg K i * jg L j + jg L i * jg K j)).
Lemma gsum_tlike n p a b e aa ab ae bb be ee J K L r u : tlike p a b e aa ab ae bb be ee J K L r ->
  gsum n r u = a * gsum n J u + b * gsum n K u + e * gsum n L u.
Proof.
  intros (_ & Hg & _). unfold gsum. rewrite <- !rsum_scal, <- !rsum_plus. apply rsum_ext. intros i _.
  rewrite Hg. ring.
Qed.
Lemma hess_tlike p a b e aa ab ae bb be ee J K L r i j : tlike p a b e aa ab ae bb be ee J K L r ->
  hess r i j = a * hess J i j + b * hess K i j + e * hess L i j
     + aa * (jg J i * jg J j) + bb * (jg K i * jg K j) + ee * (jg L i * jg L j)
     + ab * (jg J i * jg K j + jg K i * jg J j) + ae * (jg J i * jg L j + jg L i * jg J j)
     + be * (jg K i * jg L j + jg L i * jg K j).
Proof.
  intros (_ & _ & Hh). unfold hess. rewrite Hh.
  rewrite <- (min_max_sq (jg J) i j), <- (min_max_sq (jg K) i j), <- (min_max_sq (jg L) i j), <- (min_max_prod (jg J) (jg K) i j),
    <- (min_max_prod (jg J) (jg L) i j), <- (min_max_prod (jg K) (jg L) i j). ring.
Qed.
Lemma hsum_tlike n p a b e aa ab ae bb be ee J K L r u v : tlike p a b e aa ab ae bb be ee J K L r ->
  hsum n r u v = a * hsum n J u v + b * hsum n K u v + e * hsum n L u v
     + aa * (gsum n J u * gsum n J v) + bb * (gsum n K u * gsum n K v) + ee * (gsum n L u * gsum n L v)
     + ab * (gsum n J u * gsum n K v + gsum n K u * gsum n J v) + ae * (gsum n J u * gsum n L v + gsum n L u * gsum n J v)
     + be * (gsum n K u * gsum n L v + gsum n L u * gsum n K v).
Proof.
  intros HL. unfold hsum, gsum.
  rewrite !rsum_prod, <- !rsum_plus, <- !rsum_scal, <- !rsum_plus.
  apply rsum_ext. intros i _. rewrite <- !rsum_plus, <- !rsum_scal, <- !rsum_plus. apply rsum_ext. intros j _.
  rewrite (hess_tlike _ _ _ _ _ _ _ _ _ _ _ _ _ _ _ _ HL). ring.
Qed.
Lemma jt_tlike f a b e aa ab ae bb be ee J K L :
  tlike f a b e aa ab ae bb be ee J K L
    (jt Rops f (CVal a) (CVal b) (CVal e) (CVal aa) (CVal ab) (CVal ae) (CVal bb) (CVal be) (CVal ee) J K L).
Proof.
  split; [reflexivity|]. split; intros; unfold jt; rcbn; ring.
Qed.
Lemma track_h n u v p q w J K L : track n u v p J -> track n u v q K -> track n u v w L ->
  hdom (jf J) (jf K) (jf L) ->
  track n u v (fun s t => hreal (p s t) (q s t) (w s t)) (jap_hypot3 Rops J K L).
Proof.
  intros H1 H2 H3 D. pose proof (hder _ _ _ _ _ _ _ _ _ _ _ _ _ _ _ D H1 H2 H3) as HJ. cbv zeta in HJ.
  unfold jap_hypot3. cbv zeta.
  match goal with |- track _ _ _ _ (jt _ ?f (CVal ?a) (CVal ?b) (CVal ?e) (CVal ?aa) (CVal ?ab) (CVal ?ae) (CVal ?bb) (CVal ?be) (CVal ?ee) _ _ _) =>
    pose proof (jt_tlike f a b e aa ab ae bb be ee J K L) as HL end.
  unfold track. rewrite (gsum_tlike _ _ _ _ _ _ _ _ _ _ _ _ _ _ _ u HL), (gsum_tlike _ _ _ _ _ _ _ _ _ _ _ _ _ _ _ v HL),
    (hsum_tlike _ _ _ _ _ _ _ _ _ _ _ _ _ _ _ u v HL).
  eapply J2_eq; [exact HJ|reflexivity|reflexivity|reflexivity|]. rcbn.
  set (F := sqrt (jf J * jf J + jf K * jf K + jf L * jf L)).
  assert (F <> 0).
  { pose proof (sqrt_lt_R0 _ (sumsq3_pos _ _ _ D)). unfold F. lra. }
  field. exact H.
Qed.

Lemma track_var n u v p i : (i < n)%nat ->
  track n u v (fun s t => p i + s * u i + t * v i) (jvar Rops i (p i)).
Proof.
  intros Hi. unfold track. cbn [jf jvar].
  assert (G : forall w, gsum n (jvar Rops i (p i)) w = w i).
  { intros w. unfold gsum. rewrite (rsum_single n i) by (try exact Hi; intros k Hk; cbn [jg jvar];
      rewrite (proj2 (Nat.eqb_neq k i) Hk); rcbn; ring). cbn [jg jvar]. rewrite Nat.eqb_refl. rcbn. ring. }
  assert (HH : hsum n (jvar Rops i (p i)) u v = 0).
  { unfold hsum. rewrite (rsum_ext n _ (fun _ => 0)); [apply rsum_zero|]. intros k _.
    rewrite (rsum_ext n _ (fun _ => 0)); [apply rsum_zero|]. intros l _. unfold hess. cbn [jh jvar]. rcbn. ring. }
  rewrite !G, HH. apply J2_lin.
Qed.
Lemma track_const n u v k : track n u v (fun _ _ => k) (jconst Rops k).
Proof.
  unfold track. cbn [jf jconst].
  assert (G : forall w, gsum n (jconst Rops k) w = 0).
  { intros w. unfold gsum. rewrite (rsum_ext n _ (fun _ => 0)); [apply rsum_zero|]. intros; cbn [jg jconst]; rcbn; ring. }
  assert (HH : hsum n (jconst Rops k) u v = 0).
  { unfold hsum. rewrite (rsum_ext n _ (fun _ => 0)); [apply rsum_zero|]. intros i _.
    rewrite (rsum_ext n _ (fun _ => 0)); [apply rsum_zero|]. intros l _. unfold hess. cbn [jh jconst]. rcbn. ring. }
  rewrite !G, HH. apply J2_const.
Qed.

(** ** Jets of expressions *)
Fixpoint jev {S} (O : Ops S) (env : nat -> jet S) (e : expr S) : jet S :=
  match e with
  | EVar i => env i
  | EConst s => jconst O s
  | EU u e => jap_u O u (jev O env e)
  | EB b e1 e2 => jap_b O b (jev O env e1) (jev O env e2)
  | EH e1 e2 e3 => jap_hypot3 O (jev O env e1) (jev O env e2) (jev O env e3)
  end.

Lemma run_rep {S} (O : Ops S) c n xs env e : cfg_ok c -> size_ok c n -> vars_below (length xs) e ->
  (forall i x, nth_error xs i = Some x -> rep c n (env i) x) ->
  exists r, run O c n xs e = Ok r /\ rep c n (jev O env e) r.
Proof.
  intros Hc SO HV HX. induction e as [i|s|u e IH|b e1 IH1 e2 IH2|e1 IH1 e2 IH2 e3 IH3]; cbn [run jev vars_below] in *.
  - destruct (nth_error xs i) as [x|] eqn:E; [|apply nth_error_None in E; lia]. exists x. split; [reflexivity|apply HX, E].
  - apply constant_n_rep. exact SO.
  - destruct (IH HV) as (x & -> & R). cbn [bind]. apply apply_u_rep; assumption.
  - destruct (IH1 (proj1 HV)) as (x & -> & R). destruct (IH2 (proj2 HV)) as (y & -> & R'). cbn [bind].
    apply apply_b_rep; assumption.
  - destruct HV as (V1 & V2 & V3). destruct (IH1 V1) as (x & -> & R1). destruct (IH2 V2) as (y & -> & R2).
    destruct (IH3 V3) as (z & -> & R3). cbn [bind]. apply hypot3_rep; assumption.
Qed.

Lemma jap_u_f f J : udom f (jf J) -> jf (jap_u Rops f J) = ureal f (jf J).
Proof. intros D. destruct (uder f (jf J) D) as (p1 & p2 & _ & HL). destruct (HL J eq_refl) as (H & _). exact H. Qed.
Lemma jap_b_f b J K : bdom b (jf J) (jf K) -> jf (jap_b Rops b J K) = breal b (jf J) (jf K).
Proof. intros D. destruct (bder b _ _ D) as (? & ? & ? & ? & ? & _ & HL). destruct (HL J K eq_refl eq_refl) as (H & _). exact H. Qed.

Lemma jev_f env p e : (forall i, jf (env i) = p i) -> dom e p -> jf (jev Rops env e) = rev e p.
Proof.
  intros HE. induction e as [i|s|u e IH|b e1 IH1 e2 IH2|e1 IH1 e2 IH2 e3 IH3]; cbn [jev rev dom]; intros D.
  - apply HE.
  - reflexivity.
  - destruct D as (D & DU). rewrite <- (IH D) in DU |- *. apply jap_u_f, DU.
  - destruct D as (D1 & D2 & DB). rewrite <- (IH1 D1), <- (IH2 D2) in DB |- *. apply jap_b_f, DB.
  - destruct D as (D1 & D2 & D3 & DB). rewrite <- (IH1 D1), <- (IH2 D2), <- (IH3 D3). reflexivity.
Qed.

Lemma jev_track n u v p env e : (forall i, jf (env i) = p i) ->
  (forall i, (i < n)%nat -> track n u v (fun s t => p i + s * u i + t * v i) (env i)) ->
  vars_below n e -> dom e p ->
  track n u v (fun s t => rev e (fun k => p k + s * u k + t * v k)) (jev Rops env e).
Proof.
  intros HE HT. induction e as [i|s|f e IH|b e1 IH1 e2 IH2|e1 IH1 e2 IH2 e3 IH3]; cbn [jev rev dom vars_below]; intros HV D.
  - apply HT, HV.
  - apply track_const.
  - destruct D as (D & DU). apply track_u; [apply IH; assumption|]. rewrite (jev_f env p e HE D). exact DU.
  - destruct D as (D1 & D2 & DB). destruct HV as (V1 & V2).
    apply (track_b n u v _ _ _ _ b (IH1 V1 D1) (IH2 V2 D2)). rewrite (jev_f env p e1 HE D1), (jev_f env p e2 HE D2). exact DB.
  - destruct D as (D1 & D2 & D3 & DB). destruct HV as (V1 & V2 & V3).
    apply (track_h n u v _ _ _ _ _ _ (IH1 V1 D1) (IH2 V2 D2) (IH3 V3 D3)).
    rewrite (jev_f env p e1 HE D1), (jev_f env p e2 HE D2), (jev_f env p e3 HE D3). exact DB.
Qed.

Lemma rev_ext e p q : (forall k, p k = q k) -> rev e p = rev e q.
Proof. intros H. induction e; cbn [rev]; congruence. Qed.

(** ** From two-parameter derivatives to partial derivatives *)
Definition unit_at (i : nat) : nat -> R := fun k => if Nat.eqb k i then 1 else 0.
Lemma gsum_unit n J i : (i < n)%nat -> gsum n J (unit_at i) = jg J i.
Proof.
  intros Hi. unfold gsum. rewrite (rsum_single n i) by (try exact Hi; intros k Hk; unfold unit_at;
    rewrite (proj2 (Nat.eqb_neq k i) Hk); ring). unfold unit_at. rewrite Nat.eqb_refl. ring.
Qed.
Lemma hsum_unit n J i j : (i < n)%nat -> (j < n)%nat -> hsum n J (unit_at i) (unit_at j) = hess J i j.
Proof.
  intros Hi Hj. unfold hsum. rewrite (rsum_single n i); [|exact Hi|].
  - rewrite (rsum_single n j); [unfold unit_at; rewrite !Nat.eqb_refl; ring|exact Hj|].
    intros k Hk. unfold unit_at. rewrite (proj2 (Nat.eqb_neq k j) Hk). ring.
  - intros k Hk. rewrite (rsum_ext n _ (fun _ => 0)); [apply rsum_zero|]. intros l _. unfold unit_at.
    rewrite (proj2 (Nat.eqb_neq k i) Hk). ring.
Qed.

Lemma is_derive_shift (f : R -> R) (a l : R) : is_derive f 0 l -> is_derive (fun t => f (t - a)) a l.
Proof.
  intros H. replace l with (1 * l) by ring.
  apply (is_derive_comp f (fun t => t - a) a l 1).
  - replace (a - a) with 0 by ring. exact H.
  - auto_derive; [exact I|ring].
Qed.
Lemma locally_shift (P : R -> Prop) a : locally 0 P -> locally a (fun s => P (s - a)).
Proof.
  intros (d & H). exists d. intros y Hy. apply H. unfold ball in *. cbn in *. unfold AbsRing_ball, abs, minus, plus, opp in *. cbn in *.
  replace (y - a + - 0) with (y + - a) by ring. exact Hy.
Qed.

Lemma J2_partial (F : (nat -> R) -> R) (HF : forall p q, (forall k, p k = q k) -> F p = F q) p i j a b c d :
  J2 (fun s t => F (fun k => p k + s * unit_at i k + t * unit_at j k)) a b c d ->
  F p = a /\ partial F i p b /\ partial2 F i j p d.
Proof.
  intros (Ha & Hb & D & HD & Hc & Hd). split; [|split].
  - rewrite <- Ha. apply HF. intros k. ring.
  - unfold partial. eapply is_derive_ext; [|apply (is_derive_shift _ (p i) _ Hb)]. intros t. cbn beta. apply HF. intros k.
    unfold set_at, unit_at. destruct (Nat.eqb_spec k i) as [->|]; ring.
  - exists (fun s => D (s - p i)). split; [|apply is_derive_shift, Hd].
    apply (locally_shift _ (p i)) in HD. revert HD. apply filter_imp. intros s H. cbn beta in H.
    unfold partial. eapply is_derive_ext; [|apply (is_derive_shift _ (set_at p i s j) _ H)].
    intros t. cbn beta. apply HF. intros k. unfold set_at, unit_at.
    destruct (Nat.eqb_spec k j); destruct (Nat.eqb_spec k i); destruct (Nat.eqb_spec j i);
      subst; first [ring|congruence].
Qed.
