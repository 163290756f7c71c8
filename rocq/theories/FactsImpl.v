(** Derivatives of implicit functions from iterations. *)
From Coq Require Import ZArith List Bool Reals Lra Lia Psatz FunctionalExtensionality.
From Coquelicot Require Import Coquelicot.
From Verif Require Import Outcome Scalar Model Spec RealOps ExprSpec NumSpec Deriv UDeriv BDeriv FactsExpr FactsNum
  Expr CreateRep OpsRep AccRep PadRep FactsLayout FactsSessS Chain Cont NestSpec FactsNest ParamSpec MeanSpec FactsMean ImplSpec Samples.
Import ListNotations.
Open Scope R_scope.

(** ** Sequences *)
Lemma seq_contract (a q ee : nat -> R) (qq : R) : Rabs qq < 1 -> is_lim_seq q qq -> is_lim_seq ee 0 ->
  (forall k, a (S k) = q k * a k + ee k) -> is_lim_seq a 0.
Proof.
  intros Hq Lq Le Hrec. set (r := (1 + Rabs qq) / 2). assert (Hr : 0 <= r < 1) by (unfold r; pose proof (Rabs_pos qq); lra).
  apply is_lim_seq_spec. intros eps. cbn.
  apply is_lim_seq_spec in Lq. apply is_lim_seq_spec in Le. cbn in Lq, Le.
  assert (P1 : 0 < r - Rabs qq) by (unfold r; lra).
  assert (P2 : 0 < eps / 2 * (1 - r)) by (pose proof (cond_pos eps); nra).
  destruct (Lq (mkposreal _ P1)) as [K1 H1]. destruct (Le (mkposreal _ P2)) as [K2 H2]. cbn in H1, H2.
  set (K := Nat.max K1 K2).
  assert (B : forall m, Rabs (a (K + m)%nat) <= r ^ m * Rabs (a K) + eps / 2).
  { induction m as [|m IH].
    - rewrite Nat.add_0_r. cbn. pose proof (cond_pos eps). lra.
    - rewrite Nat.add_succ_r, Hrec. eapply Rle_trans; [apply Rabs_triang|]. rewrite Rabs_mult.
      assert (Q : Rabs (q (K + m)%nat) <= r).
      { pose proof (H1 (K + m)%nat ltac:(unfold K; lia)) as Hd. pose proof (Rabs_triang_inv (q (K + m)%nat) qq). lra. }
      pose proof (H2 (K + m)%nat ltac:(unfold K; lia)) as He. replace (ee (K + m)%nat - 0) with (ee (K + m)%nat) in He by ring.
      pose proof (Rabs_pos (a (K + m)%nat)). pose proof (Rabs_pos (q (K + m)%nat)).
      assert (Rabs (q (K + m)%nat) * Rabs (a (K + m)%nat) <= r * (r ^ m * Rabs (a K) + eps / 2)) by (apply Rmult_le_compat; lra).
      cbn [pow]. nra. }
  assert (LP : is_lim_seq (fun m => r ^ m * Rabs (a K)) 0).
  { replace (Finite 0) with (Rbar_mult (Finite 0) (Finite (Rabs (a K)))) by (cbn; f_equal; ring).
    apply is_lim_seq_mult'; [apply is_lim_seq_geom; rewrite Rabs_pos_eq; lra|apply is_lim_seq_const]. }
  apply is_lim_seq_spec in LP. cbn in LP. assert (P3 : 0 < eps / 2) by (pose proof (cond_pos eps); lra).
  destruct (LP (mkposreal _ P3)) as [M HM]. cbn in HM. exists (K + M)%nat. intros k Hk.
  replace k with (K + (k - K))%nat by lia. pose proof (B (k - K)%nat) as Bk. pose proof (HM (k - K)%nat ltac:(lia)) as Hm.
  rewrite Rminus_0_r in *. pose proof (Rle_abs (r ^ (k - K) * Rabs (a K))). lra.
Qed.
Lemma lim_to (a : nat -> R) (l : R) : is_lim_seq (fun k => a k - l) 0 -> is_lim_seq a l.
Proof.
  intros H. apply (is_lim_seq_ext (fun k => (a k - l) + l)); [intros; ring|].
  replace (Finite l) with (Finite (0 + l)) by (f_equal; ring). apply is_lim_seq_plus'; [exact H|apply is_lim_seq_const].
Qed.
Lemma lim_from (a : nat -> R) (l : R) : is_lim_seq a l -> is_lim_seq (fun k => a k - l) 0.
Proof.
  intros H. replace (Finite 0) with (Finite (l - l)) by (f_equal; ring). apply is_lim_seq_minus'; [exact H|apply is_lim_seq_const].
Qed.
Lemma lim_rsum n (a : nat -> nat -> R) (l : nat -> R) : (forall i, (i < n)%nat -> is_lim_seq (fun k => a k i) (l i)) ->
  is_lim_seq (fun k => rsum n (a k)) (rsum n l).
Proof.
  induction n as [|n IH]; intros H; cbn [rsum]; [apply is_lim_seq_const|]. apply is_lim_seq_plus'; [apply IH; intros; apply H; lia|apply H; lia].
Qed.
Lemma rsum_first n f : rsum (S n) f = f 0%nat + rsum n (fun i => f (S i)).
Proof. induction n as [|n IH]; [cbn; ring|]. change (rsum (S (S n)) f) with (rsum (S n) f + f (S n)). rewrite IH. cbn [rsum]. ring. Qed.

(** ** One step, on jets *)
Definition penv (p : nat -> R) (J : jet R) : nat -> jet R :=
  fun m => match m with Datatypes.O => J | Datatypes.S m => jvar Rops m (p m) end.
Definition W (a : R) (i : nat) : nat -> R := fun m => match m with Datatypes.O => a | Datatypes.S m => unit_at i m end.
Definition jat (e : expr R) (P : nat -> R) : jet R := jev Rops (fun m => jvar Rops m (P m)) e.

Lemma jev_env_ext e (env env' : nat -> jet R) : (forall m, env m = env' m) -> jev Rops env e = jev Rops env' e.
Proof. intros H. induction e; cbn [jev]; congruence. Qed.
Lemma penv_f p J m : jf (penv p J m) = with_x (jf J) p m.
Proof. destruct m; reflexivity. Qed.
Lemma gsum_W n G a i : (i < n)%nat -> gsum (S n) G (W a i) = jg G 0 * a + jg G (S i).
Proof.
  intros Hi. unfold gsum. rewrite rsum_first. cbn [W]. f_equal. rewrite (rsum_single n i) by (try exact Hi; intros k Hk; unfold unit_at;
    rewrite (proj2 (Nat.eqb_neq k i) Hk); ring). unfold unit_at. rewrite Nat.eqb_refl. ring.
Qed.
Lemma rsum_ext' n f g : (forall i, f i = g i) -> rsum n f = rsum n g.
Proof. intros H. apply rsum_ext. intros; apply H. Qed.
Lemma step_jet n e p J : vars_below (S n) e ->
  let G := jat e (with_x (jf J) p) in let r := jev Rops (penv p J) e in
  jf r = jf G /\ (forall i, (i < n)%nat -> jg r i = jg G 0 * jg J i + jg G (S i)) /\
  (forall i j, (i < n)%nat -> (j < n)%nat -> hess r i j = jg G 0 * hess J i j + hsum (S n) G (W (jg J i) i) (W (jg J j) j)).
Proof.
  intros HV G r. pose proof (ch_ev (S n) (penv p J) e HV) as (C0 & C1 & C2).
  assert (EG : jev Rops (fun k => jvar Rops k (jf (penv p J k))) e = G) by (apply jev_env_ext; intros m; rewrite penv_f; reflexivity).
  rewrite EG in *. fold r in C0, C1, C2.
  assert (EW : forall i, (fun k => jg (penv p J k) i) = W (jg J i) i).
  { intros i. apply functional_extensionality. intros [|m]; [reflexivity|]. cbn. unfold unit_at. rewrite (Nat.eqb_sym m i). destruct (Nat.eqb i m); reflexivity. }
  split; [exact C0|]. split.
  - intros i Hi. rewrite C1, EW. apply gsum_W, Hi.
  - intros i j Hi Hj. rewrite C2, !EW. f_equal. unfold gsum. rewrite rsum_first.
    rewrite (rsum_ext' n _ (fun _ => 0)); [rewrite rsum_zero; cbn [penv]; ring|]. intros m. cbn [penv]. unfold hess. cbn [jh jvar]. cbn. ring.
Qed.

(** ** Iterates as jets *)
Fixpoint jiter (e : expr R) (p : nat -> R) (J : jet R) (k : nat) : jet R :=
  match k with Datatypes.O => J | Datatypes.S k => jev Rops (penv p (jiter e p J k)) e end.
Lemma iterate_rep c n e p J X ps : cfg_ok c -> size_ok c n -> vars_below (S n) e ->
  variables Rops c (coords n p) = Ok ps -> rep c n J X ->
  forall k, exists Y, iterate c n ps e k X = Ok Y /\ rep c n (jiter e p J k) Y.
Proof.
  intros Hc SO HV EP RX. destruct (variables_rep Rops c (coords n p)) as (ps' & E & HL & HX); rewrite FactsExpr.coords_length in *; [exact SO|].
  assert (ps' = ps) by congruence. subst ps'.
  induction k as [|k (Y & EY & RY)]; cbn [iterate jiter]; [eauto|]. rewrite EY. cbn [bind].
  apply run_rep; [exact Hc|exact SO|cbn [length]; rewrite HL; exact HV|].
  intros [|i] x Hx; cbn in Hx; [injection Hx as <-; exact RY|]. cbn [penv].
  assert (Hi : (i < n)%nat) by (rewrite <- HL; apply nth_error_Some; congruence).
  destruct (HX i (p i)) as (x' & Ex & Rx); [apply coords_nth, Hi|]. congruence.
Qed.

(** ** The implicit function *)
Lemma jev_trackg n u v N (phi : nat -> R -> R -> R) env e :
  (forall i, (i < N)%nat -> track n u v (phi i) (env i)) -> vars_below N e -> dom e (fun i => jf (env i)) ->
  track n u v (fun s t => rev e (fun k => phi k s t)) (jev Rops env e).
Proof.
  intros HT. set (P := fun i => jf (env i)). assert (HE : forall i, jf (env i) = P i) by reflexivity.
  induction e as [i|s|f e IH|b e1 IH1 e2 IH2|e1 IH1 e2 IH2 e3 IH3]; cbn [jev rev dom vars_below]; intros HV D.
  - apply HT, HV.
  - apply track_const.
  - destruct D as (D & DU). apply track_u; [apply IH; assumption|]. rewrite (jev_f env P e HE D). exact DU.
  - destruct D as (D1 & D2 & DB). destruct HV as (V1 & V2).
    apply (track_b n u v _ _ _ _ b (IH1 V1 D1) (IH2 V2 D2)). rewrite (jev_f env P e1 HE D1), (jev_f env P e2 HE D2). exact DB.
  - destruct D as (D1 & D2 & D3 & DB). destruct HV as (V1 & V2 & V3).
    apply (track_h n u v _ _ _ _ _ _ (IH1 V1 D1) (IH2 V2 D2) (IH3 V3 D3)).
    rewrite (jev_f env P e1 HE D1), (jev_f env P e2 HE D2), (jev_f env P e3 HE D3). exact DB.
Qed.
Lemma J2_unique phi a b c d a' b' c' d' : J2 phi a b c d -> J2 phi a' b' c' d' -> a = a' /\ b = b' /\ c = c' /\ d = d'.
Proof.
  intros (Ha & Hb & D & HD & Hc & Hd) (Ha' & Hb' & D' & HD' & Hc' & Hd').
  assert (LE : locally 0 (fun s => D s = D' s)).
  { generalize (filter_and _ _ HD HD'). apply filter_imp. intros s [H1 H2].
    rewrite <- (is_derive_unique _ _ _ H1), <- (is_derive_unique _ _ _ H2). reflexivity. }
  split; [congruence|]. split; [rewrite <- (is_derive_unique _ _ _ Hb), <- (is_derive_unique _ _ _ Hb'); reflexivity|]. split.
  - rewrite <- Hc, <- Hc'. exact (locally_singleton _ _ LE).
  - rewrite <- (is_derive_unique _ _ _ Hd), <- (is_derive_unique _ _ _ Hd'). symmetry. apply Derive_ext_loc.
    revert LE. apply filter_imp. intros s Hs. symmetry. exact Hs.
Qed.
Lemma set_unit p i s : set_at p i (p i + s) = along p (unit_at i) s.
Proof. apply functional_extensionality. intros k. unfold set_at, along, unit_at. destruct (Nat.eqb_spec k i) as [->|]; ring. Qed.
Lemma loc_shift (Q : R -> Prop) a : locally a Q -> locally 0 (fun s => Q (a + s)).
Proof.
  intros (d & H). exists d. intros y Hy. apply H. unfold ball in *. cbn in *. unfold AbsRing_ball, Hierarchy.abs, minus, plus, opp in *. cbn in *.
  replace (a + y + - a) with (y + - 0) by ring. exact Hy.
Qed.
Lemma partial_unit F i p l : partial F i p l -> is_derive (fun t => F (along p (unit_at i) t)) 0 l.
Proof.
  intros H. apply shift_derive in H. eapply is_derive_ext; [|exact H]. intros t. cbn beta. now rewrite set_unit.
Qed.

Lemma implicit_jet n e p xi i j a l : vars_below (S n) e -> dom e (with_x (xi p) p) -> (i < n)%nat -> (j < n)%nat ->
  solves_near n (fun x q => x = rev e (with_x x q)) p xi -> partial xi i p a -> partial2 xi i j p l ->
  let G := jat e (with_x (xi p) p) in
  exists b, partial xi j p b /\ a = jg G 0 * a + jg G (S i) /\ b = jg G 0 * b + jg G (S j) /\
    l = jg G 0 * l + hsum (S n) G (W a i) (W b j).
Proof.
  intros HV D Hi Hj SN Pa (DD & LD & Pl) G.
  set (q := fun s t => along (along p (unit_at i) s) (unit_at j) t). set (phi := fun s t => xi (q s t)).
  assert (A0 : forall p' v, along p' v 0 = p') by (intros; apply functional_extensionality; intros k; unfold along; ring).
  assert (LD' : locally 0 (fun s => is_derive (fun t => phi s t) 0 (DD (p i + s)))).
  { apply loc_shift in LD. revert LD. apply filter_imp. intros s H. apply partial_unit in H. rewrite set_unit in H. exact H. }
  set (b := DD (p i)).
  assert (Pb : partial xi j p b).
  { apply locally_singleton in LD. unfold b. replace (set_at p i (p i)) with p in LD; [exact LD|].
    apply functional_extensionality. intros k. unfold set_at. destruct (Nat.eqb_spec k i) as [->|]; reflexivity. }
  assert (JP : J2 phi (xi p) a b l).
  { split; [unfold phi, q; now rewrite !A0|]. split.
    - eapply is_derive_ext; [|apply partial_unit, Pa]. intros t. cbn beta. unfold phi, q. now rewrite A0.
    - exists (fun s => DD (p i + s)). split; [exact LD'|]. split; [unfold b; f_equal; ring|]. apply shift_derive. exact Pl. }
  set (K := mkjet (xi p) (fun m => if Nat.eqb m 0 then a else b) (fun _ _ => l)).
  set (KP := fun m => mkjet (p m) (fun k => if Nat.eqb k 0 then unit_at i m else unit_at j m) (fun _ _ => 0)).
  set (env := fun m => match m with Datatypes.O => K | Datatypes.S m => KP m end).
  set (phis := fun m (s t : R) => with_x (phi s t) (q s t) m).
  assert (TR : track 2 (unit_at 0) (unit_at 1) (fun s t => rev e (fun k => phis k s t)) (jev Rops env e)).
  { apply (jev_trackg 2 _ _ (S n)); [|exact HV|].
    - intros [|m] Hm; unfold track; rewrite !gsum_unit, hsum_unit by lia; cbn [env].
      + exact JP.
      + cbn. eapply J2_ext; [|apply (J2_lin (p m) (unit_at i m) (unit_at j m))].
        exists (mkposreal 1 Rlt_0_1). intros s _. exists (mkposreal 1 Rlt_0_1). intros t _. unfold phis, q, along. cbn. ring.
    - replace (fun k => jf (env k)) with (with_x (xi p) p); [exact D|]. apply functional_extensionality. intros [|m]; reflexivity. }
  unfold track in TR. rewrite !gsum_unit, hsum_unit in TR by lia.
  apply (J2_ext _ phi) in TR.
  2:{ unfold near2. pose proof (SN i j Hi Hj) as H. apply loc_shift in H. revert H. apply filter_imp. intros s H. apply loc_shift in H. revert H. apply filter_imp.
      intros t H. cbv zeta in H. rewrite set_unit in H. rewrite set_unit in H. unfold phi, phis, q. symmetry. rewrite H at 1.
      apply rev_ext. intros [|m]; reflexivity. }
  destruct (J2_unique _ _ _ _ _ _ _ _ _ JP TR) as (_ & Ea & Eb & El).
  pose proof (ch_ev (S n) env e HV) as (_ & C1 & C2).
  assert (EG : jev Rops (fun k => jvar Rops k (jf (env k))) e = G) by (apply jev_env_ext; intros [|m]; reflexivity).
  rewrite EG in *.
  assert (EW0 : (fun k => jg (env k) 0%nat) = W a i) by (apply functional_extensionality; intros [|m]; reflexivity).
  assert (EW1 : (fun k => jg (env k) 1%nat) = W b j) by (apply functional_extensionality; intros [|m]; reflexivity).
  exists b. split; [exact Pb|]. rewrite C1, EW0, gsum_W in Ea by exact Hi. rewrite C1, EW1, gsum_W in Eb by exact Hj.
  rewrite C2, EW0, EW1 in El. split; [exact Ea|]. split; [exact Eb|]. rewrite El at 1. f_equal.
  unfold gsum. rewrite rsum_first. rewrite (rsum_ext' n _ (fun _ => 0)); [rewrite rsum_zero; cbn; ring|]. intros m. cbn. unfold hess. cbn. ring.
Qed.
Lemma implicit_jet1 n e p xi i a : vars_below (S n) e -> dom e (with_x (xi p) p) -> (i < n)%nat ->
  solves_near n (fun x q => x = rev e (with_x x q)) p xi -> partial xi i p a ->
  let G := jat e (with_x (xi p) p) in a = jg G 0 * a + jg G (S i).
Proof.
  intros HV D Hi SN Pa G.
  set (q := fun s (t : R) => along p (unit_at i) s). set (phi := fun s t => xi (q s t)).
  assert (A0 : forall p' v, along p' v 0 = p') by (intros; apply functional_extensionality; intros k; unfold along; ring).
  assert (JP : J2 phi (xi p) a 0 0).
  { split; [unfold phi, q; now rewrite !A0|]. split; [apply partial_unit, Pa|].
    exists (fun _ => 0). split; [|split; [reflexivity|apply @is_derive_const]].
    exists (mkposreal 1 Rlt_0_1). intros s _. exact (is_derive_const (K:=R_AbsRing) (V:=R_NormedModule) (xi (along p (unit_at i) s)) 0). }
  set (K := mkjet (xi p) (fun m => if Nat.eqb m 0 then a else 0) (fun _ _ => 0)).
  set (KP := fun m => mkjet (p m) (fun k => if Nat.eqb k 0 then unit_at i m else 0) (fun _ _ => 0)).
  set (env := fun m => match m with Datatypes.O => K | Datatypes.S m => KP m end).
  set (phis := fun m (s t : R) => with_x (phi s t) (q s t) m).
  assert (TR : track 2 (unit_at 0) (unit_at 1) (fun s t => rev e (fun k => phis k s t)) (jev Rops env e)).
  { apply (jev_trackg 2 _ _ (S n)); [|exact HV|].
    - intros [|m] Hm; unfold track; rewrite !gsum_unit, hsum_unit by lia; cbn [env].
      + exact JP.
      + cbn. eapply J2_ext; [|apply (J2_lin (p m) (unit_at i m) 0)].
        exists (mkposreal 1 Rlt_0_1). intros s _. exists (mkposreal 1 Rlt_0_1). intros t _. unfold phis, q, along. cbn. ring.
    - replace (fun k => jf (env k)) with (with_x (xi p) p); [exact D|]. apply functional_extensionality. intros [|m]; reflexivity. }
  unfold track in TR. rewrite !gsum_unit, hsum_unit in TR by lia.
  apply (J2_ext _ phi) in TR.
  2:{ unfold near2. pose proof (SN i i Hi Hi) as H. apply locally_singleton in H. 
      assert (EQ : set_at p i (p i) = p) by (apply functional_extensionality; intros k; unfold set_at; destruct (Nat.eqb_spec k i) as [->|]; reflexivity).
      rewrite EQ in H. apply loc_shift in H. revert H. apply filter_imp. intros s H. exists (mkposreal 1 Rlt_0_1). intros t _.
      cbv zeta in H. rewrite set_unit in H. unfold phi, phis, q. symmetry. rewrite H at 1.
      apply rev_ext. intros [|m]; reflexivity. }
  destruct (J2_unique _ _ _ _ _ _ _ _ _ JP TR) as (_ & Ea & _ & _).
  pose proof (ch_ev (S n) env e HV) as (_ & C1 & _).
  assert (EG : jev Rops (fun k => jvar Rops k (jf (env k))) e = G) by (apply jev_env_ext; intros [|m]; reflexivity).
  rewrite EG in *.
  assert (EW0 : (fun k => jg (env k) 0%nat) = W a i) by (apply functional_extensionality; intros [|m]; reflexivity).
  rewrite C1, EW0, gsum_W in Ea by exact Hi. exact Ea.
Qed.

(** ** Iterates at the solution *)
Lemma jat_derivs n e P : vars_below (S n) e -> dom e P -> jf (jat e P) = rev e P /\ forall l, partial (rev e) 0 P l -> jg (jat e P) 0 = l.
Proof.
  intros HV D. destruct (point_derivs (S n) e P HV D) as (E0 & E1 & _). split; [exact E0|]. intros l Hl.
  unfold partial in *. specialize (E1 0%nat ltac:(lia)). apply is_derive_unique in E1, Hl. unfold jat. congruence.
Qed.
Lemma solves_here n E p xi i : (i < n)%nat -> solves_near n E p xi -> E (xi p) p.
Proof.
  intros Hi H. specialize (H i i Hi Hi). apply locally_singleton in H.
  assert (EQ : set_at p i (p i) = p) by (apply functional_extensionality; intros k; apply set_at_at).
  rewrite EQ in H. apply locally_singleton in H. cbv zeta in H. rewrite EQ in H. exact H.
Qed.
Lemma jiter_f n e p J : vars_below (S n) e -> dom e (with_x (jf J) p) -> jf J = rev e (with_x (jf J) p) -> forall k, jf (jiter e p J k) = jf J.
Proof.
  intros HV D E. induction k as [|k IH]; [reflexivity|]. cbn [jiter]. destruct (step_jet n e p (jiter e p J k) HV) as (E0 & _).
  cbv zeta in E0. rewrite E0, IH. rewrite (proj1 (jat_derivs n e _ HV D)). symmetry. exact E.
Qed.
Lemma W_lim (a : nat -> R) (l : R) i m : is_lim_seq a l -> is_lim_seq (fun k => W (a k) i m) (W l i m).
Proof. intros H. destruct m; cbn [W]; [exact H|apply is_lim_seq_const]. Qed.
Lemma hsum_lim n (G : nat -> jet R) (L : jet R) (a b : nat -> R) (la lb : R) i j :
  (forall s t, (s < S n)%nat -> (t < S n)%nat -> is_lim_seq (fun k => hess (G k) s t) (hess L s t)) -> is_lim_seq a la -> is_lim_seq b lb ->
  is_lim_seq (fun k => hsum (S n) (G k) (W (a k) i) (W (b k) j)) (hsum (S n) L (W la i) (W lb j)).
Proof.
  intros HG Ha Hb. unfold hsum. apply lim_rsum. intros s Hs. apply lim_rsum. intros t Ht.
  apply is_lim_seq_mult'; [apply is_lim_seq_mult'|]; [apply HG; assumption|apply W_lim, Ha|apply W_lim, Hb].
Qed.

(** Limits of the derivatives, once the coefficients of the steps converge. *)
Lemma jets_converge n e p J xi : vars_below (S n) e -> dom e (with_x (xi p) p) ->
  solves_near n (fun x q => x = rev e (with_x x q)) p xi ->
  let L := jat e (with_x (xi p) p) in let G := fun k => jat e (with_x (jf (jiter e p J k)) p) in
  Rabs (jg L 0) < 1 ->
  (forall i, (i < S n)%nat -> is_lim_seq (fun k => jg (G k) i) (jg L i)) ->
  (forall i a, (i < n)%nat -> partial xi i p a -> is_lim_seq (fun k => jg (jiter e p J k) i) a) /\
  ((forall i j, (i < S n)%nat -> (j < S n)%nat -> is_lim_seq (fun k => hess (G k) i j) (hess L i j)) ->
   forall i j a l, (i < n)%nat -> (j < n)%nat -> partial xi i p a -> partial2 xi i j p l -> is_lim_seq (fun k => hess (jiter e p J k) i j) l).
Proof.
  intros HV D SN L G Hq LG.
  assert (ST : forall k, _) by (intros k; exact (step_jet n e p (jiter e p J k) HV)). cbv zeta in ST.
  assert (GR : forall i a, (i < n)%nat -> partial xi i p a -> is_lim_seq (fun k => jg (jiter e p J k) i) a).
  { intros i a Hi Pa. pose proof (implicit_jet1 n e p xi i a HV D Hi SN Pa) as Ea. cbv zeta in Ea. fold L in Ea.
    apply lim_to. apply (seq_contract _ (fun k => jg (G k) 0) (fun k => jg (G k) 0 * a + jg (G k) (S i) - a) (jg L 0) Hq); [apply LG; lia| |].
    - replace (Finite 0) with (Finite (jg L 0 * a + jg L (S i) - a)) by (f_equal; lra).
      apply is_lim_seq_minus'; [apply is_lim_seq_plus'; [apply is_lim_seq_mult'; [apply LG; lia|apply is_lim_seq_const]|apply LG; lia]|apply is_lim_seq_const].
    - intros k. cbn [jiter]. destruct (ST k) as (_ & E1 & _). rewrite (E1 i Hi). unfold G. ring. }
  split; [exact GR|]. intros LH i j a l Hi Hj Pa Pl.
  destruct (implicit_jet n e p xi i j a l HV D Hi Hj SN Pa Pl) as (b & Pb & _ & _ & El). fold L in El.
  apply lim_to. apply (seq_contract _ (fun k => jg (G k) 0)
    (fun k => jg (G k) 0 * l + hsum (S n) (G k) (W (jg (jiter e p J k) i) i) (W (jg (jiter e p J k) j) j) - l) (jg L 0) Hq); [apply LG; lia| |].
  - replace (Finite 0) with (Finite (jg L 0 * l + hsum (S n) L (W a i) (W b j) - l)) by (f_equal; lra).
    apply is_lim_seq_minus'; [apply is_lim_seq_plus'; [apply is_lim_seq_mult'; [apply LG; lia|apply is_lim_seq_const]|]|apply is_lim_seq_const].
    apply hsum_lim; [exact LH|apply GR; assumption|apply GR; assumption].
  - intros k. cbn [jiter]. destruct (ST k) as (_ & _ & E2). rewrite (E2 i j Hi Hj). unfold G. ring.
Qed.

(** ** Statements *)
Lemma iterate_shows c n e p J X ps : cfg_ok c -> size_ok c n -> vars_below (S n) e -> variables Rops c (coords n p) = Ok ps -> rep c n J X ->
  forall k, exists Y, iterate c n ps e k X = Ok Y /\ shows c n Y (jf (jiter e p J k)) (jg (jiter e p J k)) (hess (jiter e p J k)).
Proof.
  intros Hc SO HV EP RX k. destruct (iterate_rep c n e p J X ps Hc SO HV EP RX k) as (Y & E & R). exists Y. split; [exact E|apply rep_shows, R].
Qed.

Lemma at_solution c n e p ps X xi g0 h0 q : cfg_ok c -> size_ok c n -> vars_below (S n) e -> dom e (with_x (xi p) p) ->
  xi p = rev e (with_x (xi p) p) ->
  solves_near n (fun x q => x = rev e (with_x x q)) p xi -> partial (rev e) 0 (with_x (xi p) p) q ->
  variables Rops c (coords n p) = Ok ps -> shows c n X (xi p) g0 h0 ->
  exists g h, (forall k, exists Y, iterate c n ps e k X = Ok Y /\ shows c n Y (xi p) (g k) (h k)) /\
    (forall i a, (i < n)%nat -> partial xi i p a -> forall k, g k i - a = q ^ k * (g0 i - a)) /\
    (forall i j a l, (i < n)%nat -> (j < n)%nat -> partial xi i p a -> partial2 xi i j p l ->
       (q = 0 -> forall k, (2 <= k)%nat -> h k i j = l) /\ (Rabs q < 1 -> is_lim_seq (fun k => h k i j) l)).
Proof.
  intros Hc SO HV D EX SN Pq EP SX.
  set (J := mkjet (xi p) g0 h0). pose proof (shows_rep _ _ _ _ _ _ Hc SX) as RX. fold J in RX.
  assert (F : forall k, jf (jiter e p J k) = xi p) by (apply (jiter_f n e p J HV); [exact D|exact EX]).
  set (L := jat e (with_x (xi p) p)).
  assert (EQ : jg L 0 = q) by (apply (proj2 (jat_derivs n e _ HV D)), Pq).
  assert (ST : forall k, _) by (intros k; exact (step_jet n e p (jiter e p J k) HV)). cbv zeta in ST.
  assert (EL : forall k, jat e (with_x (jf (jiter e p J k)) p) = L) by (intros k; rewrite F; reflexivity).
  exists (fun k => jg (jiter e p J k)), (fun k => hess (jiter e p J k)).
  split; [|split].
  - intros k. destruct (iterate_shows c n e p J X ps Hc SO HV EP RX k) as (Y & E & S). rewrite F in S. eauto.
  - intros i a Hi Pa. pose proof (implicit_jet1 n e p xi i a HV D Hi SN Pa) as Ea. cbv zeta in Ea. fold L in Ea. rewrite EQ in Ea.
    induction k as [|k IH]; [cbn; ring|]. destruct (ST k) as (_ & E1 & _). specialize (E1 i Hi). rewrite EL, EQ in E1. cbn [jiter]. rewrite E1.
    replace (q * jg (jiter e p J k) i + jg L (S i) - a) with (q * (jg (jiter e p J k) i - a)) by (rewrite Ea at 2; ring).
    rewrite IH. cbn [pow]. ring.
  - intros i j a l Hi Hj Pa Pl. split.
    + intros Hq k Hk. destruct (implicit_jet n e p xi i j a l HV D Hi Hj SN Pa Pl) as (b & Pb & Ea & Eb & El). fold L in Ea, Eb, El.
      destruct k as [|[|k]]; [lia|lia|]. clear Hk. rewrite EQ, Hq in Ea, Eb, El.
      assert (G1 : forall i a, (i < n)%nat -> a = 0 * a + jg L (S i) -> jg (jiter e p J (S k)) i = a).
      { intros i' a' Hi' Ea'. destruct (ST k) as (_ & E1 & _). specialize (E1 i' Hi'). rewrite EL, EQ, Hq in E1. cbn [jiter]. rewrite E1. lra. }
      destruct (ST (S k)) as (_ & _ & E2). specialize (E2 i j Hi Hj). rewrite EL, EQ, Hq, (G1 i a Hi Ea), (G1 j b Hj Eb) in E2.
      change (jiter e p J (S (S k))) with (jev Rops (penv p (jiter e p J (S k))) e). rewrite E2. lra.
    + intros Hq. pose proof (jets_converge n e p J xi HV D SN) as C. cbv zeta in C. fold L in C. rewrite EQ in C. specialize (C Hq).
      destruct C as (_ & C). { intros i' _. apply (is_lim_seq_ext (fun _ => jg L i')); [intros k; rewrite EL; reflexivity|apply is_lim_seq_const]. }
      apply (C) with (a := a); try assumption.
      intros i' j' _ _. apply (is_lim_seq_ext (fun _ => hess L i' j')); [intros k; rewrite EL; reflexivity|apply is_lim_seq_const].
Qed.

(** Newton's method. *)
Lemma newton_exact c n f p ps X xi g0 h0 d : cfg_ok c -> size_ok c n -> vars_below (S n) f -> dom f (with_x (xi p) p) ->
  rev f (with_x (xi p) p) = 0 -> solves_near n (fun x q => rev f (with_x x q) = 0) p xi -> partial (rev f) 0 (with_x (xi p) p) d -> d <> 0 ->
  variables Rops c (coords n p) = Ok ps -> shows c n X (xi p) g0 h0 ->
  exists Y1 Y2 g1 h1 g2 h2, iterate c n ps (newton d f) 1 X = Ok Y1 /\ iterate c n ps (newton d f) 2 X = Ok Y2 /\
    shows c n Y1 (xi p) g1 h1 /\ shows c n Y2 (xi p) g2 h2 /\
    (forall i a, (i < n)%nat -> partial xi i p a -> g1 i = a /\ g2 i = a) /\
    (forall i j a l, (i < n)%nat -> (j < n)%nat -> partial xi i p a -> partial2 xi i j p l -> h2 i j = l).
Proof.
  intros Hc SO HV D E0 SN Pd Hd EP SX.
  set (P := with_x (xi p) p) in *. set (J := mkjet (xi p) g0 h0). pose proof (shows_rep _ _ _ _ _ _ Hc SX) as RX. fold J in RX.
  assert (HVN : vars_below (S n) (newton d f)) by (cbn; split; [lia|exact HV]).
  assert (DN : dom (newton d f) P) by (cbn; repeat split; assumption).
  assert (EX : xi p = rev (newton d f) P) by (cbn; fold P; rewrite E0; unfold Rdiv; ring).
  assert (Pq : partial (rev (newton d f)) 0 P 0).
  { unfold partial in *. cbn [newton rev breal ureal].
    assert (A : is_derive (fun t => minus (t : R_NormedModule) (/ d * rev f (set_at P 0 t))) (P 0%nat) (minus 1 (/ d * d))).
    { apply (is_derive_minus (K:=R_AbsRing) (V:=R_NormedModule)); [exact (is_derive_id (K:=R_AbsRing) (P 0%nat))|apply (is_derive_scal _ _ (/ d) _ Pd)]. }
    replace (minus 1 (/ d * d)) with 0 in A by (unfold minus, plus, opp; cbn; field; exact Hd).
    eapply is_derive_ext; [|exact A]. intros t. unfold set_at, minus, plus, opp. cbn. unfold Rdiv. ring. }
  assert (SN' : solves_near n (fun x q => x = rev (newton d f) (with_x x q)) p xi).
  { intros i j Hi Hj. generalize (SN i j Hi Hj). apply filter_imp. intros s. apply filter_imp. intros t H. cbv zeta in *. cbn. rewrite H. unfold Rdiv. ring. }
  destruct (at_solution c n (newton d f) p ps X xi g0 h0 0 Hc SO HVN DN EX SN' Pq EP SX) as (g & h & I & G & H).
  destruct (I 1%nat) as (Y1 & E1 & S1). destruct (I 2%nat) as (Y2 & E2 & S2).
  assert (Z : forall i a, (i < n)%nat -> partial xi i p a -> g 1%nat i = a /\ g 2%nat i = a).
  { intros i a Hi Pa. pose proof (G i a Hi Pa 1%nat). pose proof (G i a Hi Pa 2%nat). cbn in *. lra. }
  exists Y1, Y2, (g 1%nat), (h 1%nat), (g 2%nat), (h 2%nat). split; [exact E1|]. split; [exact E2|]. split; [exact S1|]. split; [exact S2|].
  split; [exact Z|]. intros i j a l Hi Hj Pa Pl. exact (proj1 (H i j a l Hi Hj Pa Pl) eq_refl 2%nat (le_n 2)).
Qed.

(** ** From nearby values *)
Lemma cont_seq (F : (nat -> R) -> R) N x0 p (v : nat -> R) : cont N (with_x x0 p) F -> is_lim_seq v x0 ->
  is_lim_seq (fun k => F (with_x (v k) p)) (F (with_x x0 p)).
Proof.
  intros HF HL. apply (filterlim_comp _ _ _ (fun k => with_x (v k) p) F eventually (near N (with_x x0 p)) _); [|exact HF].
  intros Q (d & Hd & HQ). apply is_lim_seq_spec in HL. destruct (HL (mkposreal d Hd)) as [K HK]. exists K. intros k Hk. apply HQ.
  intros [|m] _; cbn; [exact (HK k Hk)|]. rewrite Rminus_eq_0, Rabs_R0. exact Hd.
Qed.
Lemma jat_cont n e P : vars_below (S n) e -> no_abs e -> smooth 2 e P ->
  (forall i, cont (S n) P (fun q => jg (jat e q) i)) /\ (forall i j, cont (S n) P (fun q => hess (jat e q) i j)).
Proof.
  intros HV NA SM. destruct (xjet_smooth 1 P e NA SM) as (_ & S1 & S2). destruct (xjet_plain (S n) e (conj HV NA)) as (_ & V1 & V2).
  assert (R : forall X (F : (nat -> R) -> R), vars_below (S n) X -> smooth 1 X P -> (forall q, rev X q = F q) -> cont (S n) P F).
  { intros X F V S E. replace F with (rev X) by (apply functional_extensionality; exact E). apply rev_cont; [exact V|apply (smooth_dom 0), S]. }
  split.
  - intros i. apply (R (jg (xjet e) i)); [apply V1|apply S1|]. intros q. apply (xjet_rev e q NA).
  - intros i j. apply (R (hess (xjet e) i j)); [apply V2|unfold hess; destruct (Nat.leb i j); apply S2|]. intros q. apply (xjet_rev e q NA).
Qed.
Lemma attracted (g : R -> R) x0 q : g x0 = x0 -> is_derive g x0 q -> Rabs q < 1 ->
  forall V : R -> Prop, locally x0 V -> exists r d, 0 <= r < 1 /\ 0 < d /\ forall x, Rabs (x - x0) < d -> V x /\ Rabs (g x - x0) <= r * Rabs (x - x0).
Proof.
  intros E0 (_ & HD) Hq V (dv & HVV). exists ((1 + Rabs q) / 2).
  assert (P : 0 < (1 - Rabs q) / 2) by lra.
  specialize (HD x0 (fun P H => H) (mkposreal _ P)). destruct HD as (d & HD). cbn in HD.
  exists (Rmin d dv). pose proof (Rabs_pos q). split; [lra|]. split; [apply Rmin_pos; apply cond_pos|]. intros x Hx.
  pose proof (Rmin_l d dv). pose proof (Rmin_r d dv).
  split; [apply HVV, Chain.abs_ball; lra|].
  specialize (HD x ltac:(apply Chain.abs_ball; lra)). unfold norm in HD. cbn in HD. unfold Hierarchy.abs, minus, plus, opp, scal in HD. cbn in HD. unfold mult in HD. cbn in HD.
  rewrite E0 in HD. replace (g x - x0) with ((g x + - x0 + - ((x + - x0) * q)) + q * (x - x0)) by ring.
  eapply Rle_trans; [apply Rabs_triang|]. rewrite (Rabs_mult q). replace (x + - x0) with (x - x0) in HD by ring.
  replace (g x + - x0 + - ((x - x0) * q)) with (g x + - x0 + - ((x - x0) * q)) in HD by ring. 
  replace (x + - x0) with (x - x0) by ring. nra.
Qed.
Lemma near_solution c n e p ps xi q : cfg_ok c -> size_ok c n -> vars_below (S n) e -> no_abs e -> smooth 2 e (with_x (xi p) p) ->
  xi p = rev e (with_x (xi p) p) ->
  solves_near n (fun x q => x = rev e (with_x x q)) p xi -> partial (rev e) 0 (with_x (xi p) p) q -> Rabs q < 1 ->
  variables Rops c (coords n p) = Ok ps ->
  exists d, 0 < d /\ forall X x g0 h0, shows c n X x g0 h0 -> Rabs (x - xi p) < d ->
  exists v g h, (forall k, exists Y, iterate c n ps e k X = Ok Y /\ shows c n Y (v k) (g k) (h k)) /\
    is_lim_seq v (xi p) /\
    (forall i a, (i < n)%nat -> partial xi i p a -> is_lim_seq (fun k => g k i) a) /\
    (forall i j a l, (i < n)%nat -> (j < n)%nat -> partial xi i p a -> partial2 xi i j p l -> is_lim_seq (fun k => h k i j) l).
Proof.
  intros Hc SO HV NA SM EX SN Pq Hq EP. set (P := with_x (xi p) p) in *.
  pose proof (smooth_dom 1 e P SM) as D.
  assert (EP0 : forall x, set_at P 0 x = with_x x p) by (intros x; apply functional_extensionality; intros [|m]; reflexivity).
  destruct (attracted (fun x => rev e (set_at P 0 x)) (xi p) q) with (V := fun x => dom e (with_x x p)) as (r & d & Hr & Hd & HA).
  - cbn beta. rewrite EP0. symmetry. exact EX.
  - exact Pq.
  - exact Hq.
  - pose proof (near_smooth (S n) 1 e P HV SM) as N. apply (near_line (S n) P 0) in N. revert N. apply filter_imp. intros x H.
    rewrite EP0 in H. exact (smooth_dom 1 e _ H).
  - exists d. split; [exact Hd|]. intros X x g0 h0 SX Hx.
    set (J := mkjet x g0 h0). pose proof (shows_rep _ _ _ _ _ _ Hc SX) as RX. fold J in RX.
    exists (fun k => jf (jiter e p J k)), (fun k => jg (jiter e p J k)), (fun k => hess (jiter e p J k)).
    split; [exact (iterate_shows c n e p J X ps Hc SO HV EP RX)|].
    assert (ST : forall k, _) by (intros k; exact (step_jet n e p (jiter e p J k) HV)). cbv zeta in ST.
    assert (B : forall k, Rabs (jf (jiter e p J k) - xi p) <= r ^ k * Rabs (x - xi p) /\ Rabs (jf (jiter e p J k) - xi p) < d).
    { induction k as [|k (IH1 & IH2)]; [cbn; split; [lra|exact Hx]|]. destruct (HA _ IH2) as (DV & C). rewrite EP0 in C.
      destruct (ST k) as (E0 & _). rewrite (proj1 (jat_derivs n e _ HV DV)) in E0. cbn [jiter]. rewrite E0.
      pose proof (Rabs_pos (jf (jiter e p J k) - xi p)). split; [cbn [pow]; nra|nra]. }
    assert (LV : is_lim_seq (fun k => jf (jiter e p J k)) (xi p)).
    { apply lim_to. apply is_lim_seq_abs_0. apply (is_lim_seq_le_le (fun _ => 0) _ (fun k => r ^ k * Rabs (x - xi p))).
      - intros k. split; [apply Rabs_pos|apply B].
      - apply is_lim_seq_const.
      - replace (Finite 0) with (Finite (0 * Rabs (x - xi p))) by (f_equal; ring).
        apply is_lim_seq_mult'; [apply is_lim_seq_geom; rewrite Rabs_pos_eq; lra|apply is_lim_seq_const]. }
    split; [exact LV|]. destruct (jat_cont n e P HV NA SM) as (C1 & C2).
    pose proof (jets_converge n e p J xi HV D SN) as C. cbv zeta in C. fold P in C.
    rewrite (proj2 (jat_derivs n e P HV D) q Pq) in C. specialize (C Hq).
    destruct C as (CG & CH). { intros i Hi. exact (cont_seq (fun q => jg (jat e q) i) (S n) (xi p) p _ (C1 i) LV). }
    split; [exact CG|]. apply CH. intros i j Hi Hj. exact (cont_seq (fun q => hess (jat e q) i j) (S n) (xi p) p _ (C2 i j) LV).
Qed.

(** ** A square root *)
Lemma sqrt4 : sqrt 4 = 2.
Proof. replace 4 with (2 * 2) by ring. apply sqrt_square. lra. Qed.
Lemma sqrt_case : let xi := fun q : nat -> R => sqrt (q 0%nat) in let p := fun _ : nat => 4 in
  xi p = 2 /\ rev root2 (with_x (xi p) p) = 0 /\ solves_near 1 (fun x q => rev root2 (with_x x q) = 0) p xi /\
  partial (rev root2) 0 (with_x (xi p) p) 4 /\ partial xi 0 p (/ 4) /\ partial2 xi 0 0 p (- / 32) /\ smooth 2 (newton 4 root2) (with_x (xi p) p).
Proof.
  intros xi p. assert (E : xi p = 2) by (unfold xi, p; apply sqrt4).
  assert (P4 : locally 4 (fun s => 0 < s)) by (apply (open_gt 0 4); lra).
  refine (conj E (conj _ (conj _ (conj _ (conj _ (conj _ _)))))).
  - rewrite E. cbn. unfold p. ring.
  - intros i j Hi Hj. assert (i = 0%nat) by lia. assert (j = 0%nat) by lia. subst. unfold p, set_at. cbn.
    apply filter_imp with (P := fun s => 0 < s); [|exact P4]. intros s Hs. apply filter_imp with (P := fun s => 0 < s); [|apply (open_gt 0 s), Hs].
    intros t Ht. unfold xi. cbn. rewrite sqrt_sqrt; lra.
  - rewrite E. unfold partial. cbn. unfold set_at. cbn. auto_derive; [exact I|]. unfold p. ring.
  - unfold partial, xi, set_at, p. cbn. replace (/ 4) with (1 / (2 * sqrt 4)) by (rewrite sqrt4; field).
    auto_derive; [lra|]. rewrite sqrt4. field.
  - exists (fun s => / (2 * sqrt s)). split.
    + apply filter_imp with (P := fun s => 0 < s); [|exact P4]. intros s Hs. unfold partial, xi, set_at. cbn. auto_derive; [exact Hs|]. field. apply Rgt_not_eq, sqrt_lt_R0, Hs.
    + unfold p. auto_derive; [split; [lra|split; [rewrite sqrt4; lra|exact I]]|]. rewrite !sqrt4. field.
  - cbn. repeat split; lra.
Qed.
Lemma sqrt_run : exists ps X, variables Rops (sta2 1) [4] = Ok ps /\ constant_n Rops (sta2 1) 2 1 = Ok X /\
  iterate (sta2 1) 1 ps (newton 4 root2) 1 X = Ok (mk 1 [Some 2; Some (/ 4); Some 0]) /\
  iterate (sta2 1) 1 ps (newton 4 root2) 2 X = Ok (mk 1 [Some 2; Some (/ 4); Some (- / 32)]).
Proof.
  eexists _, _. split; [reflexivity|]. split; [reflexivity|].
  split; lazy -[Rplus Rmult Rminus Ropp Rinv Rdiv IZR]; repeat f_equal; field.
Qed.
