(** Derivatives of the solutions of systems of equations from iterations. *)
From Coq Require Import ZArith List Bool Reals Lra Lia Psatz FunctionalExtensionality.
From Coquelicot Require Import Coquelicot.
From Verif Require Import Outcome Scalar Model Spec RealOps ExprSpec NumSpec Deriv UDeriv BDeriv FactsExpr FactsNum
  Expr CreateRep OpsRep AccRep PadRep FactsLayout FactsSessS Chain Cont NestSpec FactsNest ParamSpec MeanSpec FactsMean FitSpec FactsFit
  ImplSpec FactsImpl SysSpec Samples.
Import ListNotations.
Open Scope R_scope.

(** ** Sequences *)
Lemma seq_below (a ee : nat -> R) r K : 0 <= r < 1 -> (forall k, 0 <= a k) -> (forall k, (K <= k)%nat -> a (S k) <= r * a k + ee k) ->
  is_lim_seq ee 0 -> is_lim_seq a 0.
Proof.
  intros Hr Pa Hrec Le. apply is_lim_seq_spec. intros eps. cbn. apply is_lim_seq_spec in Le. cbn in Le.
  assert (P2 : 0 < eps / 2 * (1 - r)) by (pose proof (cond_pos eps); nra).
  destruct (Le (mkposreal _ P2)) as [K2 H2]. cbn in H2. set (K' := Nat.max K K2).
  assert (B : forall m, a (K' + m)%nat <= r ^ m * a K' + eps / 2).
  { induction m as [|m IH].
    - rewrite Nat.add_0_r. cbn. pose proof (cond_pos eps). lra.
    - rewrite Nat.add_succ_r. eapply Rle_trans; [apply Hrec; unfold K'; lia|].
      pose proof (H2 (K' + m)%nat ltac:(unfold K'; lia)) as He. rewrite Rminus_0_r in He. pose proof (Rle_abs (ee (K' + m)%nat)).
      pose proof (Rmult_le_compat_l r _ _ (proj1 Hr) IH). cbn [pow]. nra. }
  assert (LP : is_lim_seq (fun m => r ^ m * a K') 0).
  { replace (Finite 0) with (Finite (0 * a K')) by (f_equal; ring).
    apply is_lim_seq_mult'; [apply is_lim_seq_geom; rewrite Rabs_pos_eq; lra|apply is_lim_seq_const]. }
  apply is_lim_seq_spec in LP. cbn in LP. assert (P3 : 0 < eps / 2) by (pose proof (cond_pos eps); lra).
  destruct (LP (mkposreal _ P3)) as [M HM]. cbn in HM. exists (K' + M)%nat. intros k Hk.
  replace k with (K' + (k - K'))%nat by lia. pose proof (B (k - K')%nat) as Bk. pose proof (HM (k - K')%nat ltac:(lia)) as Hm.
  rewrite Rminus_0_r in *. pose proof (Rle_abs (r ^ (k - K') * a K')). rewrite Rabs_pos_eq by apply Pa. lra.
Qed.
Fixpoint vmax (m : nat) (f : nat -> R) : R := match m with Datatypes.O => 0 | Datatypes.S m => Rmax (vmax m f) (f m) end.
Lemma vmax_pos m f : 0 <= vmax m f.
Proof. induction m; cbn; [lra|]. eapply Rle_trans; [eassumption|apply Rmax_l]. Qed.
Lemma vmax_ge m f i : (i < m)%nat -> f i <= vmax m f.
Proof.
  induction m as [|m IH]; intros Hi; [lia|]. cbn. destruct (Nat.eq_dec i m) as [->|Hn]; [apply Rmax_r|].
  eapply Rle_trans; [apply IH; lia|apply Rmax_l].
Qed.
Lemma vmax_le m f B : 0 <= B -> (forall i, (i < m)%nat -> f i <= B) -> vmax m f <= B.
Proof. intros HB H. induction m as [|m IH]; cbn; [exact HB|]. apply Rmax_lub; [apply IH; intros; apply H; lia|apply H; lia]. Qed.
Lemma rsum_abs m f : Rabs (rsum m f) <= rsum m (fun i => Rabs (f i)).
Proof. induction m as [|m IH]; cbn; [rewrite Rabs_R0; lra|]. eapply Rle_trans; [apply Rabs_triang|lra]. Qed.
Lemma rsum_le m f g : (forall i, (i < m)%nat -> f i <= g i) -> rsum m f <= rsum m g.
Proof. induction m as [|m IH]; intros H; cbn; [lra|]. pose proof (H m ltac:(lia)). pose proof (IH (fun i Hi => H i (Nat.lt_lt_succ_r _ _ Hi))). lra. Qed.
Lemma rsum_pos m f : (forall i, (i < m)%nat -> 0 <= f i) -> 0 <= rsum m f.
Proof. intros H. rewrite <- (rsum_zero m). apply rsum_le, H. Qed.
Lemma rsum_term m f i : (forall i, (i < m)%nat -> 0 <= f i) -> (i < m)%nat -> f i <= rsum m f.
Proof.
  induction m as [|m IH]; intros H Hi; [lia|]. cbn. destruct (Nat.eq_dec i m) as [->|Hn].
  - pose proof (rsum_pos m f (fun i Hi => H i (Nat.lt_lt_succ_r _ _ Hi))). lra.
  - pose proof (H m ltac:(lia)). pose proof (IH (fun i Hi => H i (Nat.lt_lt_succ_r _ _ Hi)) ltac:(lia)). lra.
Qed.
Lemma row_bound m q a : Rabs (rsum m (fun j => q j * a j)) <= rsum m (fun j => Rabs (q j)) * vmax m (fun j => Rabs (a j)).
Proof.
  eapply Rle_trans; [apply rsum_abs|]. rewrite Rmult_comm, <- rsum_scal. apply rsum_le. intros i Hi. rewrite Rabs_mult, Rmult_comm.
  apply Rmult_le_compat_r; [apply Rabs_pos|]. apply (vmax_ge m (fun j => Rabs (a j))), Hi.
Qed.
Lemma eventually_all m (P : nat -> nat -> Prop) : (forall i, (i < m)%nat -> exists K, forall k, (K <= k)%nat -> P i k) ->
  exists K, forall i k, (i < m)%nat -> (K <= k)%nat -> P i k.
Proof.
  induction m as [|m IH]; intros H; [exists 0%nat; intros; lia|].
  destruct IH as (K1 & H1); [intros; apply H; lia|]. destruct (H m ltac:(lia)) as (K2 & H2). exists (Nat.max K1 K2). intros i k Hi Hk.
  destruct (Nat.eq_dec i m) as [->|Hn]; [apply H2; lia|apply H1; lia].
Qed.
Lemma vec_contract m (a : nat -> nat -> R) (q : nat -> nat -> nat -> R) (ee : nat -> nat -> R) (qq : nat -> nat -> R) r : r < 1 ->
  (forall i, (i < m)%nat -> rsum m (fun j => Rabs (qq i j)) <= r) ->
  (forall i j, (i < m)%nat -> (j < m)%nat -> is_lim_seq (fun k => q k i j) (qq i j)) ->
  (forall i, (i < m)%nat -> is_lim_seq (fun k => ee k i) 0) ->
  (forall k i, (i < m)%nat -> a (S k) i = rsum m (fun j => q k i j * a k j) + ee k i) ->
  forall i, (i < m)%nat -> is_lim_seq (fun k => a k i) 0.
Proof.
  intros Hr HQ Lq Le Hrec i0 Hi0. assert (R0 : 0 <= r) by (eapply Rle_trans; [|apply (HQ i0 Hi0)]; apply rsum_pos; intros; apply Rabs_pos).
  set (r' := (1 + r) / 2).
  destruct (eventually_all m (fun i k => rsum m (fun j => Rabs (q k i j)) <= r')) as (K & HK).
  { intros i Hi. assert (L : is_lim_seq (fun k => rsum m (fun j => Rabs (q k i j))) (rsum m (fun j => Rabs (qq i j)))).
    { apply (lim_rsum m (fun k j => Rabs (q k i j))). intros j Hj. apply (is_lim_seq_abs _ (Finite (qq i j))). apply Lq; assumption. }
    apply is_lim_seq_spec in L. cbn in L. assert (P : 0 < (1 - r) / 2) by lra. destruct (L (mkposreal _ P)) as (K & HK). exists K. intros k Hk.
    specialize (HK k Hk). cbn in HK. apply Rabs_def2 in HK. pose proof (HQ i Hi). unfold r'. lra. }
  assert (LM : is_lim_seq (fun k => vmax m (fun i => Rabs (a k i))) 0).
  { apply (seq_below _ (fun k => rsum m (fun i => Rabs (ee k i))) r' K).
    - unfold r'. lra.
    - intros k. apply vmax_pos.
    - intros k Hk. pose proof (vmax_pos m (fun i => Rabs (a k i))). pose proof (rsum_pos m (fun i => Rabs (ee k i)) (fun i _ => Rabs_pos _)).
      apply vmax_le; [unfold r'; nra|]. intros i Hi. rewrite (Hrec k i Hi). eapply Rle_trans; [apply Rabs_triang|].
      pose proof (row_bound m (q k i) (a k)). pose proof (HK i k Hi Hk). pose proof (rsum_term m (fun i => Rabs (ee k i)) i (fun i _ => Rabs_pos _) Hi). cbn beta in *. nra.
    - replace (Finite 0) with (Finite (rsum m (fun _ => 0))) by (f_equal; apply rsum_zero). apply (lim_rsum m (fun k j => Rabs (ee k j)) (fun _ => 0)). intros j Hj. apply -> is_lim_seq_abs_0. apply Le, Hj. }
  apply is_lim_seq_abs_0. apply (is_lim_seq_le_le (fun _ => 0) _ (fun k => vmax m (fun i => Rabs (a k i)))).
  - intros k. split; [apply Rabs_pos|]. apply (vmax_ge m (fun i => Rabs (a k i))), Hi0.
  - apply is_lim_seq_const.
  - exact LM.
Qed.
Lemma rsum_split m n f : rsum (m + n) f = rsum m f + rsum n (fun i => f (m + i)%nat).
Proof. induction n as [|n IH]; [rewrite Nat.add_0_r; cbn; ring|]. rewrite Nat.add_succ_r. cbn [rsum]. rewrite IH. ring. Qed.

(** ** One step, on jets *)
Definition senv (m : nat) (p : nat -> R) (J : nat -> jet R) : nat -> jet R :=
  fun k => if Nat.ltb k m then J k else jvar Rops (k - m) (p (k - m)%nat).
Definition Vd (m : nat) (a u : nat -> R) : nat -> R := fun k => if Nat.ltb k m then a k else u (k - m)%nat.
Definition V (m : nat) (a : nat -> R) (i : nat) : nat -> R := Vd m a (unit_at i).
Lemma ltb_add m i : Nat.ltb (m + i) m = false.
Proof. apply Nat.ltb_ge. lia. Qed.
Lemma gsum_V m n G a i : (i < n)%nat -> gsum (m + n) G (V m a i) = rsum m (fun j => jg G j * a j) + jg G (m + i).
Proof.
  intros Hi. unfold gsum. rewrite rsum_split. f_equal.
  - apply rsum_ext. intros k Hk. unfold V, Vd. rewrite (proj2 (Nat.ltb_lt k m) Hk). reflexivity.
  - rewrite (rsum_single n i); [|exact Hi|].
    + unfold V, Vd. rewrite ltb_add. replace (m + i - m)%nat with i by lia. unfold unit_at. rewrite Nat.eqb_refl. ring.
    + intros k Hk. unfold V, Vd. rewrite ltb_add. replace (m + k - m)%nat with k by lia. unfold unit_at. rewrite (proj2 (Nat.eqb_neq k i) Hk). ring.
Qed.
Lemma senv_f m p J k : jf (senv m p J k) = with_xs m (fun i => jf (J i)) p k.
Proof. unfold senv, with_xs. destruct (Nat.ltb k m); reflexivity. Qed.
Lemma sys_step m n e p J : vars_below (m + n) e ->
  let G := jat e (with_xs m (fun i => jf (J i)) p) in let r := jev Rops (senv m p J) e in
  jf r = jf G /\ (forall s, (s < n)%nat -> jg r s = rsum m (fun j => jg G j * jg (J j) s) + jg G (m + s)) /\
  (forall s t, (s < n)%nat -> (t < n)%nat -> hess r s t = rsum m (fun j => jg G j * hess (J j) s t) +
     hsum (m + n) G (V m (fun j => jg (J j) s) s) (V m (fun j => jg (J j) t) t)).
Proof.
  intros HV G r. pose proof (ch_ev (m + n) (senv m p J) e HV) as (C0 & C1 & C2).
  assert (EG : jev Rops (fun k => jvar Rops k (jf (senv m p J k))) e = G) by (apply jev_env_ext; intros k; rewrite senv_f; reflexivity).
  rewrite EG in *. fold r in C0, C1, C2.
  assert (EW : forall s, (fun k => jg (senv m p J k) s) = V m (fun j => jg (J j) s) s).
  { intros s. apply functional_extensionality. intros k. unfold senv, V, Vd. destruct (Nat.ltb k m); [reflexivity|]. cbn. unfold unit_at. rewrite (Nat.eqb_sym (k - m) s). destruct (Nat.eqb s (k - m)); reflexivity. }
  split; [exact C0|]. split.
  - intros s Hs. rewrite C1, EW. apply gsum_V, Hs.
  - intros s t Hs Ht. rewrite C2, !EW. f_equal. unfold gsum. rewrite rsum_split.
    rewrite (rsum_ext' n _ (fun _ => 0)).
    + rewrite rsum_zero, Rplus_0_r. apply rsum_ext. intros k Hk. unfold senv. rewrite (proj2 (Nat.ltb_lt k m) Hk). reflexivity.
    + intros k. unfold senv. rewrite ltb_add. unfold hess. cbn. ring.
Qed.
Fixpoint siter (es : list (expr R)) (m : nat) (p : nat -> R) (J : nat -> jet R) (k : nat) : nat -> jet R :=
  match k with Datatypes.O => J | Datatypes.S k => fun i => jev Rops (senv m p (siter es m p J k)) (nth i es (EConst 0)) end.

(** ** The iterates *)
Definition reps c n m (J : nat -> jet R) (Xs : list (dd R)) : Prop :=
  length Xs = m /\ forall i, (i < m)%nat -> exists X, nth_error Xs i = Some X /\ rep c n (J i) X.
Lemma run_all_rep c n env xs es : cfg_ok c -> size_ok c n -> List.Forall (vars_below (length xs)) es ->
  (forall i x, nth_error xs i = Some x -> rep c n (env i) x) ->
  exists Ys, run_all c n xs es = Ok Ys /\ reps c n (length es) (fun i => jev Rops env (nth i es (EConst 0))) Ys.
Proof.
  intros Hc SO HV HX. induction es as [|e es IH]; cbn [run_all].
  - exists []. split; [reflexivity|]. split; [reflexivity|]. cbn. intros; lia.
  - inversion HV as [|? ? V1 V2]; subst. destruct (run_rep Rops c n xs env e Hc SO V1 HX) as (Y & EY & RY). destruct (IH V2) as (Ys & EYs & HL & RYs).
    rewrite EY, EYs. cbn. eexists. split; [reflexivity|]. split; [cbn; congruence|]. intros [|i] Hi; cbn in *; [eauto|apply RYs; lia].
Qed.
Lemma sweep_rep c n m es p J Xs ps : cfg_ok c -> size_ok c n -> length es = m -> List.Forall (vars_below (m + n)) es ->
  variables Rops c (coords n p) = Ok ps -> reps c n m J Xs ->
  forall k, exists Ys, sweep c n ps es k Xs = Ok Ys /\ reps c n m (siter es m p J k) Ys.
Proof.
  intros Hc SO Hm HV EP RX. destruct (variables_rep Rops c (coords n p)) as (ps' & E & HL & HX); rewrite FactsExpr.coords_length in *; [exact SO|].
  assert (ps' = ps) by congruence. subst ps'.
  induction k as [|k (Ys & EY & LY & RY)]; cbn [sweep siter]; [eauto|]. rewrite EY. cbn [bind].
  destruct (run_all_rep c n (senv m p (siter es m p J k)) (Ys ++ ps) es) as (Zs & EZ & RZ); [exact Hc|exact SO|rewrite app_length, HL, LY; exact HV| |rewrite Hm in RZ; eauto].
  intros i x Hx. unfold senv. destruct (Nat.ltb_spec i m) as [Hi|Hi].
  - rewrite nth_error_app1 in Hx by lia. destruct (RY i Hi) as (X & EX & RX'). congruence.
  - rewrite nth_error_app2 in Hx by lia. rewrite LY in Hx. assert (Hn : (i - m < n)%nat) by (rewrite <- HL; apply nth_error_Some; congruence).
    destruct (HX (i - m)%nat (p (i - m)%nat)) as (x' & Ex & Rx); [apply coords_nth, Hn|]. congruence.
Qed.
Lemma reps_shows c n m J Xs : reps c n m J Xs -> shows_all c n m Xs (fun i => jf (J i)) (fun i => jg (J i)) (fun i => hess (J i)).
Proof. intros (L & H). split; [exact L|]. intros i Hi. destruct (H i Hi) as (X & E & R). exists X. split; [exact E|apply rep_shows, R]. Qed.
Lemma shows_reps c n m Xs f g h : cfg_ok c -> shows_all c n m Xs f g h -> reps c n m (fun i => mkjet (f i) (g i) (h i)) Xs.
Proof. intros Hc (L & H). split; [exact L|]. intros i Hi. destruct (H i Hi) as (X & E & R). exists X. split; [exact E|apply shows_rep; assumption]. Qed.

(** ** The functions defined by the system *)
Lemma sys_track m n es p u v (phi : nat -> R -> R -> R) x a b l : length es = m -> List.Forall (vars_below (m + n)) es ->
  List.Forall (fun e => dom e (with_xs m x p)) es ->
  (forall k, (k < m)%nat -> J2 (phi k) (x k) (a k) (b k) (l k)) ->
  near2 (fun s t => is_solution es m (fun k => phi k s t) (fun r => p r + s * u r + t * v r)) ->
  let G k := jat (nth k es (EConst 0)) (with_xs m x p) in
  forall k, (k < m)%nat -> a k = gsum (m + n) (G k) (Vd m a u) /\
    l k = rsum m (fun s => jg (G k) s * l s) + hsum (m + n) (G k) (Vd m a u) (Vd m b v).
Proof.
  intros Hm HV D JP SN G.
  set (q := fun s t => (fun r => p r + s * u r + t * v r)).
  set (K := fun k => mkjet (x k) (fun s => if Nat.eqb s 0 then a k else b k) (fun _ _ => l k)).
  set (KP := fun k => mkjet (p k) (fun s => if Nat.eqb s 0 then u k else v k) (fun _ _ => 0)).
  set (env := fun k => if Nat.ltb k m then K k else KP (k - m)%nat).
  set (phis := fun k (s t : R) => with_xs m (fun k => phi k s t) (q s t) k).
  intros k Hk. set (e := nth k es (EConst 0)). assert (IN : In e es) by (apply nth_In; lia).
  assert (HVe : vars_below (m + n) e) by (revert IN; generalize e; apply Forall_forall, HV).
  assert (De : dom e (with_xs m x p)) by (revert IN; generalize e; apply Forall_forall, D).
  assert (TR : track 2 (unit_at 0) (unit_at 1) (fun s t => rev e (fun k => phis k s t)) (jev Rops env e)).
  { apply (jev_trackg 2 _ _ (m + n)); [|exact HVe|].
    - intros k' Hk'. unfold track; rewrite !gsum_unit, hsum_unit by lia. unfold env, phis, with_xs. destruct (Nat.ltb_spec k' m) as [H|H].
      + apply JP, H.
      + cbn. eapply J2_ext; [|apply (J2_lin (p (k' - m)%nat) (u (k' - m)%nat) (v (k' - m)%nat))].
        exists (mkposreal 1 Rlt_0_1). intros s _. exists (mkposreal 1 Rlt_0_1). intros t _. unfold q. cbn. ring.
    - replace (fun k => jf (env k)) with (with_xs m x p); [exact De|]. apply functional_extensionality. intros s. unfold env, with_xs. destruct (Nat.ltb s m); reflexivity. }
  unfold track in TR. rewrite !gsum_unit, hsum_unit in TR by lia.
  apply (J2_ext _ (phi k)) in TR.
  2:{ revert SN. apply near2_imp. intros s t H. unfold phis. symmetry. rewrite (H k Hk) at 1. reflexivity. }
  destruct (J2_unique _ _ _ _ _ _ _ _ _ (JP k Hk) TR) as (_ & Ea & Eb & El).
  pose proof (ch_ev (m + n) env e HVe) as (_ & C1 & C2).
  assert (EG : jev Rops (fun k => jvar Rops k (jf (env k))) e = G k).
  { apply jev_env_ext. intros s. unfold env, with_xs. destruct (Nat.ltb s m); reflexivity. }
  rewrite EG in *.
  assert (EW0 : (fun k => jg (env k) 0%nat) = Vd m a u) by (apply functional_extensionality; intros s; unfold env, Vd; destruct (Nat.ltb s m); reflexivity).
  assert (EW1 : (fun k => jg (env k) 1%nat) = Vd m b v) by (apply functional_extensionality; intros s; unfold env, Vd; destruct (Nat.ltb s m); reflexivity).
  rewrite C1, EW0 in Ea. rewrite C2, EW0, EW1 in El. split; [exact Ea|]. rewrite El at 1. f_equal.
  unfold gsum. rewrite rsum_split. rewrite (rsum_ext' n _ (fun _ => 0)).
  - rewrite rsum_zero, Rplus_0_r. apply rsum_ext. intros s Hs. unfold env. rewrite (proj2 (Nat.ltb_lt s m) Hs). reflexivity.
  - intros s. unfold env. rewrite ltb_add. unfold hess. cbn. ring.
Qed.
Lemma along_00 p v : along p v 0 = p.
Proof. apply functional_extensionality; intros k; unfold along; ring. Qed.
Lemma set_self p i : set_at p i (p i) = p.
Proof. apply functional_extensionality; intros s; apply set_at_at. Qed.
Lemma system_jet1 m n es p xi i a : length es = m -> List.Forall (vars_below (m + n)) es ->
  List.Forall (fun e => dom e (with_xs m (xi p) p)) es -> (i < n)%nat -> system_near n (is_solution es m) p xi ->
  (forall k, (k < m)%nat -> partial (fun q => xi q k) i p (a k)) ->
  let G k := jat (nth k es (EConst 0)) (with_xs m (xi p) p) in
  forall k, (k < m)%nat -> a k = rsum m (fun s => jg (G k) s * a s) + jg (G k) (m + i).
Proof.
  intros Hm HV D Hi SN Pa G k Hk.
  destruct (sys_track m n es p (unit_at i) (fun _ => 0) (fun k s t => xi (along p (unit_at i) s) k) (xi p) a (fun _ => 0) (fun _ => 0) Hm HV D) with (k := k) as (E & _);
    [| |exact Hk|].
  - intros k' Hk'. split; [now rewrite along_00|]. split; [apply (partial_unit (fun q => xi q k')), Pa, Hk'|].
    exists (fun _ => 0). split; [|split; [reflexivity|apply @is_derive_const]].
    exists (mkposreal 1 Rlt_0_1). intros s _. exact (is_derive_const (K:=R_AbsRing) (V:=R_NormedModule) (xi (along p (unit_at i) s) k') 0).
  - pose proof (SN i i Hi Hi) as H. apply locally_singleton in H. rewrite set_self in H. apply loc_shift in H. unfold near2. revert H.
    apply filter_imp. intros s H. exists (mkposreal 1 Rlt_0_1). intros t _. cbv zeta in H. rewrite set_unit in H.
    replace (fun r => p r + s * unit_at i r + t * 0) with (along p (unit_at i) s) by (apply functional_extensionality; intros r; unfold along; ring).
    exact H.
  - etransitivity; [exact E|]. apply (gsum_V m n (G k) a i Hi).
Qed.
Lemma system_jet2 m n es p xi i j a b l : length es = m -> List.Forall (vars_below (m + n)) es ->
  List.Forall (fun e => dom e (with_xs m (xi p) p)) es -> (i < n)%nat -> (j < n)%nat ->
  system_near n (is_solution es m) p xi ->
  (forall k, (k < m)%nat -> partial (fun q => xi q k) i p (a k)) -> (forall k, (k < m)%nat -> partial (fun q => xi q k) j p (b k)) ->
  (forall k, (k < m)%nat -> partial2 (fun q => xi q k) i j p (l k)) ->
  let G k := jat (nth k es (EConst 0)) (with_xs m (xi p) p) in
  forall k, (k < m)%nat -> l k = rsum m (fun s => jg (G k) s * l s) + hsum (m + n) (G k) (V m a i) (V m b j).
Proof.
  intros Hm HV D Hi Hj SN Pa Pb Pl G k Hk.
  destruct (sys_track m n es p (unit_at i) (unit_at j) (fun k s t => xi (along (along p (unit_at i) s) (unit_at j) t) k) (xi p) a b l Hm HV D) with (k := k) as (_ & E);
    [| |exact Hk|exact E].
  - clear k Hk. intros k Hk. destruct (Pl k Hk) as (DD & LD & Pl'). specialize (Pa k Hk). specialize (Pb k Hk).
    assert (EB : DD (p i) = b k).
    { pose proof (locally_singleton _ _ LD) as H. unfold partial in H, Pb. cbn beta in H, Pb. rewrite set_self in H.
      apply is_derive_unique in H, Pb. congruence. }
    split; [now rewrite !along_00|]. split.
    - eapply is_derive_ext; [|apply partial_unit, Pa]. intros t. cbn beta. now rewrite along_00.
    - exists (fun s => DD (p i + s)). split; [|split; [rewrite Rplus_0_r; exact EB|apply shift_derive; exact Pl']].
      apply loc_shift in LD. revert LD. apply filter_imp. intros s H. apply partial_unit in H. rewrite set_unit in H. exact H.
  - unfold near2. pose proof (SN i j Hi Hj) as H. apply loc_shift in H. revert H. apply filter_imp. intros s H. apply loc_shift in H. revert H. apply filter_imp.
    intros t H. cbv zeta in H. rewrite set_unit in H. rewrite set_unit in H.
    replace (fun r => p r + s * unit_at i r + t * unit_at j r) with (along (along p (unit_at i) s) (unit_at j) t) by (apply functional_extensionality; intros r; unfold along; ring).
    exact H.
Qed.

(** ** Limits *)
Lemma V_lim m (a : nat -> nat -> R) (l : nat -> R) i s : (forall j, (j < m)%nat -> is_lim_seq (fun k => a k j) (l j)) ->
  is_lim_seq (fun k => V m (a k) i s) (V m l i s).
Proof. intros H. unfold V, Vd. destruct (Nat.ltb_spec s m) as [Hs|Hs]; [apply H, Hs|apply is_lim_seq_const]. Qed.
Lemma hsum_limV m n (G : nat -> jet R) (L : jet R) (a b : nat -> nat -> R) (la lb : nat -> R) i j :
  (forall s t, (s < m + n)%nat -> (t < m + n)%nat -> is_lim_seq (fun k => hess (G k) s t) (hess L s t)) ->
  (forall s, (s < m)%nat -> is_lim_seq (fun k => a k s) (la s)) -> (forall s, (s < m)%nat -> is_lim_seq (fun k => b k s) (lb s)) ->
  is_lim_seq (fun k => hsum (m + n) (G k) (V m (a k) i) (V m (b k) j)) (hsum (m + n) L (V m la i) (V m lb j)).
Proof.
  intros HG Ha Hb. unfold hsum. apply lim_rsum. intros s Hs. apply lim_rsum. intros t Ht.
  apply is_lim_seq_mult'; [apply is_lim_seq_mult'|]; [apply HG; assumption|apply V_lim, Ha|apply V_lim, Hb].
Qed.
Lemma rsum_minus m f g : rsum m (fun i => f i - g i) = rsum m f - rsum m g.
Proof. induction m as [|m IH]; cbn; [ring|]. rewrite IH. ring. Qed.
Lemma Forall_nth_in {A} (P : A -> Prop) es d k : List.Forall P es -> (k < length es)%nat -> P (nth k es d).
Proof. intros H Hk. apply (proj1 (Forall_forall P es) H), nth_In, Hk. Qed.
Lemma sys_converge m n es p J xi r : length es = m -> List.Forall (vars_below (m + n)) es -> List.Forall (fun e => dom e (with_xs m (xi p) p)) es ->
  system_near n (is_solution es m) p xi ->
  let L i := jat (nth i es (EConst 0)) (with_xs m (xi p) p) in
  let G k i := jat (nth i es (EConst 0)) (with_xs m (fun i => jf (siter es m p J k i)) p) in
  r < 1 -> (forall i, (i < m)%nat -> rsum m (fun j => Rabs (jg (L i) j)) <= r) ->
  (forall i s, (i < m)%nat -> (s < m + n)%nat -> is_lim_seq (fun k => jg (G k i) s) (jg (L i) s)) ->
  (forall s a, (s < n)%nat -> (forall i, (i < m)%nat -> partial (fun q => xi q i) s p (a i)) ->
     forall i, (i < m)%nat -> is_lim_seq (fun k => jg (siter es m p J k i) s) (a i)) /\
  ((forall i s t, (i < m)%nat -> (s < m + n)%nat -> (t < m + n)%nat -> is_lim_seq (fun k => hess (G k i) s t) (hess (L i) s t)) ->
   forall s t a b l, (s < n)%nat -> (t < n)%nat -> (forall i, (i < m)%nat -> partial (fun q => xi q i) s p (a i)) ->
     (forall i, (i < m)%nat -> partial (fun q => xi q i) t p (b i)) -> (forall i, (i < m)%nat -> partial2 (fun q => xi q i) s t p (l i)) ->
     forall i, (i < m)%nat -> is_lim_seq (fun k => hess (siter es m p J k i) s t) (l i)).
Proof.
  intros Hm HV D SN L G Hr HQ LG.
  assert (ST : forall k i, (i < m)%nat -> _) by (intros k i Hi; exact (sys_step m n (nth i es (EConst 0)) p (siter es m p J k) (Forall_nth_in _ es _ i HV ltac:(lia)))). cbv zeta in ST.
  assert (GR : forall s a, (s < n)%nat -> (forall i, (i < m)%nat -> partial (fun q => xi q i) s p (a i)) ->
     forall i, (i < m)%nat -> is_lim_seq (fun k => jg (siter es m p J k i) s) (a i)).
  { intros s a Hs Pa. pose proof (system_jet1 m n es p xi s a Hm HV D Hs SN Pa) as Ea. cbv beta zeta in Ea.
    intros i Hi. apply lim_to.
    apply (vec_contract m (fun k i => jg (siter es m p J k i) s - a i) (fun k i j => jg (G k i) j)
      (fun k i => rsum m (fun j => jg (G k i) j * a j) + jg (G k i) (m + s) - a i) (fun i j => jg (L i) j) r Hr HQ); [intros; apply LG; lia| | |exact Hi].
    - clear i Hi. intros i Hi.
      replace (Finite 0) with (Finite (rsum m (fun j => jg (L i) j * a j) + jg (L i) (m + s) - a i)) by (f_equal; pose proof (Ea i Hi); unfold L; lra).
      apply is_lim_seq_minus'; [apply is_lim_seq_plus'; [|apply LG; lia]|apply is_lim_seq_const].
      apply (lim_rsum m (fun k j => jg (G k i) j * a j)). intros j Hj. apply is_lim_seq_mult'; [apply LG; lia|apply is_lim_seq_const].
    - clear i Hi. intros k i Hi. cbn [siter]. destruct (ST k i Hi) as (_ & E1 & _). rewrite (E1 s Hs). unfold G.
      rewrite (rsum_ext' m (fun j => _ * (_ - a j)) (fun j => jg (jat (nth i es (EConst 0)) (with_xs m (fun i => jf (siter es m p J k i)) p)) j * jg (siter es m p J k j) s -
        jg (jat (nth i es (EConst 0)) (with_xs m (fun i => jf (siter es m p J k i)) p)) j * a j)) by (intros; ring). rewrite rsum_minus. ring. }
  split; [exact GR|]. intros LH s t a b l Hs Ht Pa Pb Pl.
  pose proof (system_jet2 m n es p xi s t a b l Hm HV D Hs Ht SN Pa Pb Pl) as El. cbv beta zeta in El.
  intros i Hi. apply lim_to.
  apply (vec_contract m (fun k i => hess (siter es m p J k i) s t - l i) (fun k i j => jg (G k i) j)
      (fun k i => rsum m (fun j => jg (G k i) j * l j) + hsum (m + n) (G k i) (V m (fun j => jg (siter es m p J k j) s) s) (V m (fun j => jg (siter es m p J k j) t) t) - l i)
      (fun i j => jg (L i) j) r Hr HQ); [intros; apply LG; lia| | |exact Hi].
  - clear i Hi. intros i Hi.
    replace (Finite 0) with (Finite (rsum m (fun j => jg (L i) j * l j) + hsum (m + n) (L i) (V m a s) (V m b t) - l i)) by (f_equal; pose proof (El i Hi); unfold L; lra).
    apply is_lim_seq_minus'; [apply is_lim_seq_plus'|apply is_lim_seq_const].
    + apply (lim_rsum m (fun k j => jg (G k i) j * l j)). intros j Hj. apply is_lim_seq_mult'; [apply LG; lia|apply is_lim_seq_const].
    + apply (hsum_limV m n (fun k => G k i) (L i) (fun k j => jg (siter es m p J k j) s) (fun k j => jg (siter es m p J k j) t)); [intros; apply LH; assumption|apply GR; assumption|apply GR; assumption].
  - clear i Hi. intros k i Hi. cbn [siter]. destruct (ST k i Hi) as (_ & _ & E2). rewrite (E2 s t Hs Ht). unfold G.
    rewrite (rsum_ext' m (fun j => _ * (_ - l j)) (fun j => jg (jat (nth i es (EConst 0)) (with_xs m (fun i => jf (siter es m p J k i)) p)) j * hess (siter es m p J k j) s t -
        jg (jat (nth i es (EConst 0)) (with_xs m (fun i => jf (siter es m p J k i)) p)) j * l j)) by (intros; ring). rewrite rsum_minus. ring.
Qed.

(** ** Statements *)
Lemma siter_f m n es p J : length es = m -> List.Forall (vars_below (m + n)) es -> List.Forall (fun e => dom e (with_xs m (fun i => jf (J i)) p)) es ->
  is_solution es m (fun i => jf (J i)) p -> forall k i, (i < m)%nat -> jf (siter es m p J k i) = jf (J i).
Proof.
  intros Hm HV D E. induction k as [|k IH]; intros i Hi; [reflexivity|]. cbn [siter].
  destruct (sys_step m n (nth i es (EConst 0)) p (siter es m p J k) (Forall_nth_in _ es _ i HV ltac:(lia))) as (E0 & _). cbv zeta in E0. rewrite E0.
  replace (with_xs m (fun i => jf (siter es m p J k i)) p) with (with_xs m (fun i => jf (J i)) p).
  - pose proof (Forall_nth_in _ es (EConst 0) i HV ltac:(lia)) as Hv. pose proof (Forall_nth_in _ es (EConst 0) i D ltac:(lia)) as Hd.
    destruct (point_derivs (m + n) _ _ Hv Hd) as (EF & _). unfold jat. rewrite EF. symmetry. apply E, Hi.
  - apply functional_extensionality. intros s. unfold with_xs. destruct (Nat.ltb_spec s m) as [Hs|Hs]; [symmetry; apply IH, Hs|reflexivity].
Qed.
Lemma jat_partial N e P j l : vars_below N e -> dom e P -> (j < N)%nat -> partial (rev e) j P l -> jg (jat e P) j = l.
Proof.
  intros HV D Hj Pl. destruct (point_derivs N e P HV D) as (_ & E1 & _). specialize (E1 j Hj). unfold partial in *.
  apply is_derive_unique in E1, Pl. unfold jat. congruence.
Qed.
Lemma system_at_solution c n m es p ps Xs xi g0 h0 (Q : nat -> nat -> R) : cfg_ok c -> size_ok c n -> length es = m ->
  List.Forall (vars_below (m + n)) es -> List.Forall (fun e => dom e (with_xs m (xi p) p)) es ->
  is_solution es m (xi p) p -> system_near n (is_solution es m) p xi ->
  (forall i j, (i < m)%nat -> (j < m)%nat -> partial (eq_at es i) j (with_xs m (xi p) p) (Q i j)) ->
  variables Rops c (coords n p) = Ok ps -> shows_all c n m Xs (xi p) g0 h0 ->
  exists g h, (forall k, exists Ys, sweep c n ps es k Xs = Ok Ys /\ shows_all c n m Ys (xi p) (g k) (h k)) /\
    (forall i, (i < m)%nat -> g 0%nat i = g0 i) /\
    (forall s a, (s < n)%nat -> (forall i, (i < m)%nat -> partial (fun q => xi q i) s p (a i)) ->
       forall k i, (i < m)%nat -> g (S k) i s - a i = rsum m (fun j => Q i j * (g k j s - a j))) /\
    (forall s t a b l, (s < n)%nat -> (t < n)%nat -> (forall i, (i < m)%nat -> partial (fun q => xi q i) s p (a i)) ->
       (forall i, (i < m)%nat -> partial (fun q => xi q i) t p (b i)) -> (forall i, (i < m)%nat -> partial2 (fun q => xi q i) s t p (l i)) ->
       ((forall i j, (i < m)%nat -> (j < m)%nat -> Q i j = 0) -> forall k i, (2 <= k)%nat -> (i < m)%nat -> h k i s t = l i) /\
       forall r, r < 1 -> (forall i, (i < m)%nat -> rsum m (fun j => Rabs (Q i j)) <= r) ->
         forall i, (i < m)%nat -> is_lim_seq (fun k => g k i s) (a i) /\ is_lim_seq (fun k => h k i s t) (l i)).
Proof.
  intros Hc SO Hm HV D EX SN PQ EP SX.
  set (J := fun i => mkjet (xi p i) (g0 i) (h0 i)). pose proof (shows_reps _ _ _ _ _ _ _ Hc SX) as RX. fold J in RX.
  assert (F : forall k i, (i < m)%nat -> jf (siter es m p J k i) = xi p i) by (apply (siter_f m n es p J Hm HV); [exact D|exact EX]).
  set (L := fun i => jat (nth i es (EConst 0)) (with_xs m (xi p) p)).
  assert (EW : forall k, with_xs m (fun i => jf (siter es m p J k i)) p = with_xs m (xi p) p).
  { intros k. apply functional_extensionality. intros s. unfold with_xs. destruct (Nat.ltb_spec s m) as [Hs|Hs]; [apply F, Hs|reflexivity]. }
  assert (EQ : forall i j, (i < m)%nat -> (j < m)%nat -> jg (L i) j = Q i j).
  { intros i j Hi Hj. apply (jat_partial (m + n)); [apply (Forall_nth_in _ es _ i HV); lia|apply (Forall_nth_in _ es (EConst 0) i D); lia|lia|apply PQ; assumption]. }
  assert (ST : forall k i, (i < m)%nat -> _) by (intros k i Hi; exact (sys_step m n (nth i es (EConst 0)) p (siter es m p J k) (Forall_nth_in _ es _ i HV ltac:(lia)))). cbv zeta in ST.
  exists (fun k i => jg (siter es m p J k i)), (fun k i => hess (siter es m p J k i)).
  split; [|split; [|split]].
  - intros k. destruct (sweep_rep c n m es p J Xs ps Hc SO Hm HV EP RX k) as (Ys & E & R). exists Ys. split; [exact E|].
    apply reps_shows in R. destruct R as (LY & HY). split; [exact LY|]. intros i Hi. specialize (HY i Hi). rewrite F in HY by exact Hi. exact HY.
  - intros i Hi. reflexivity.
  - intros s a Hs Pa k i Hi. pose proof (system_jet1 m n es p xi s a Hm HV D Hs SN Pa i Hi) as Ea. cbv beta zeta in Ea.
    destruct (ST k i Hi) as (_ & E1 & _). specialize (E1 s Hs). rewrite EW in E1. cbn [siter]. rewrite E1. fold (L i) in Ea |- *.
    rewrite (rsum_ext m (fun j => Q i j * _) (fun j => jg (L i) j * jg (siter es m p J k j) s - jg (L i) j * a j)) by (intros j Hj; rewrite EQ by assumption; ring).
    rewrite rsum_minus. lra.
  - intros s t a b l Hs Ht Pa Pb Pl. split.
    + intros HQ k i Hk Hi. destruct k as [|[|k]]; [lia|lia|]. clear Hk.
      assert (Z : forall i (f : nat -> R), (i < m)%nat -> rsum m (fun j => jg (L i) j * f j) = 0).
      { intros i' f Hi'. rewrite (rsum_ext m _ (fun _ => 0)); [apply rsum_zero|]. intros j Hj. rewrite EQ, HQ by assumption. ring. }
      assert (G1 : forall s a, (s < n)%nat -> (forall i, (i < m)%nat -> partial (fun q => xi q i) s p (a i)) -> forall i, (i < m)%nat -> jg (siter es m p J (S k) i) s = a i).
      { intros s' a' Hs' Pa' i' Hi'. pose proof (system_jet1 m n es p xi s' a' Hm HV D Hs' SN Pa' i' Hi') as Ea. cbv beta zeta in Ea. fold (L i') in Ea.
        rewrite Z in Ea by exact Hi'. destruct (ST k i' Hi') as (_ & E1 & _). specialize (E1 s' Hs'). rewrite EW in E1. fold (L i') in E1. rewrite Z in E1 by exact Hi'.
        cbn [siter]. rewrite E1. symmetry. exact Ea. }
      pose proof (system_jet2 m n es p xi s t a b l Hm HV D Hs Ht SN Pa Pb Pl i Hi) as El. cbv beta zeta in El. fold (L i) in El. rewrite Z in El by exact Hi.
      destruct (ST (S k) i Hi) as (_ & _ & E2). specialize (E2 s t Hs Ht). rewrite EW in E2. fold (L i) in E2. rewrite Z in E2 by exact Hi.
      change (siter es m p J (S (S k)) i) with (jev Rops (senv m p (siter es m p J (S k))) (nth i es (EConst 0))). rewrite E2, El. f_equal.
      assert (VE : forall s a, (s < n)%nat -> (forall i, (i < m)%nat -> partial (fun q => xi q i) s p (a i)) -> V m (fun j => jg (siter es m p J (S k) j) s) s = V m a s).
      { intros s' a' Hs' Pa'. apply functional_extensionality. intros r'. unfold V, Vd. destruct (Nat.ltb_spec r' m) as [H|H]; [apply G1; assumption|reflexivity]. }
      rewrite (VE s a Hs Pa), (VE t b Ht Pb). reflexivity.
    + intros r Hr HQ i Hi.
      destruct (sys_converge m n es p J xi r Hm HV D SN Hr) as (CG & CH).
      * intros i' Hi'. rewrite (rsum_ext m _ (fun j => Rabs (Q i' j))) by (intros j Hj; f_equal; apply EQ; assumption). apply HQ, Hi'.
      * intros i' s' Hi' Hs'. apply (is_lim_seq_ext (fun _ => jg (L i') s')); [intros k; rewrite EW; reflexivity|apply is_lim_seq_const].
      * split; [apply (CG s a Hs Pa i Hi)|]. apply CH with (a := a) (b := b); try assumption.
        intros i' s' t' Hi' Hs' Ht'. apply (is_lim_seq_ext (fun _ => hess (L i') s' t')); [intros k; rewrite EW; reflexivity|apply is_lim_seq_const].
Qed.

(** Newton's method. *)
Lemma rev_lin b fs q : rev (lin b fs) q = rsum (length fs) (fun j => b j * rev (nth j fs (EConst 0)) q).
Proof.
  revert b. induction fs as [|f fs IH]; intros b; [reflexivity|]. cbn [lin length]. rewrite rsum_first. cbn. rewrite IH. reflexivity.
Qed.
Lemma newtons_length B fs : length (newtons B fs) = length fs.
Proof. unfold newtons. rewrite map_length, seq_length. reflexivity. Qed.
Lemma newtons_nth B fs i : (i < length fs)%nat -> nth i (newtons B fs) (EConst 0) = EB Bsub (EVar i) (lin (B i) fs).
Proof.
  intros Hi. unfold newtons. rewrite (nth_indep _ _ (EB Bsub (EVar (length fs)) (lin (B (length fs)) fs))) by (rewrite map_length, seq_length; exact Hi).
  rewrite (map_nth (fun i => EB Bsub (EVar i) (lin (B i) fs))), seq_nth by exact Hi. reflexivity.
Qed.
Lemma newtons_Forall B fs (P : expr R -> Prop) : (forall i, (i < length fs)%nat -> P (EB Bsub (EVar i) (lin (B i) fs))) -> List.Forall P (newtons B fs).
Proof.
  intros H. apply Forall_forall. unfold newtons. intros e He. apply in_map_iff in He. destruct He as (i & <- & Hi). apply in_seq in Hi. apply H. lia.
Qed.
Lemma lin_below N b fs : List.Forall (vars_below N) fs -> vars_below N (lin b fs).
Proof. intros H. revert b. induction H; intros b; cbn; auto. Qed.
Lemma lin_dom q b fs : List.Forall (fun f => dom f q) fs -> dom (lin b fs) q.
Proof. intros H. revert b. induction H; intros b; cbn; auto. Qed.
Lemma derive_rsum m (f : nat -> R -> R) (d : nat -> R) x : (forall j, (j < m)%nat -> is_derive (f j) x (d j)) -> is_derive (fun t => rsum m (fun j => f j t)) x (rsum m d).
Proof.
  induction m as [|m IH]; intros H; cbn [rsum]; [exact (is_derive_const (K:=R_AbsRing) (V:=R_NormedModule) 0 x)|].
  apply (is_derive_plus (K:=R_AbsRing) (V:=R_NormedModule)); [apply IH; intros; apply H; lia|apply H; lia].
Qed.
Lemma system_newton c n m fs p ps Xs xi g0 h0 (D B : nat -> nat -> R) : cfg_ok c -> size_ok c n -> length fs = m ->
  List.Forall (vars_below (m + n)) fs -> List.Forall (fun f => dom f (with_xs m (xi p) p)) fs ->
  (forall i, (i < m)%nat -> eq_at fs i (with_xs m (xi p) p) = 0) ->
  system_near n (fun x q => forall i, (i < m)%nat -> eq_at fs i (with_xs m x q) = 0) p xi ->
  (forall i j, (i < m)%nat -> (j < m)%nat -> partial (eq_at fs i) j (with_xs m (xi p) p) (D i j)) ->
  (forall i j, (i < m)%nat -> (j < m)%nat -> rsum m (fun k => B i k * D k j) = if Nat.eqb i j then 1 else 0) ->
  variables Rops c (coords n p) = Ok ps -> shows_all c n m Xs (xi p) g0 h0 ->
  exists Y1 Y2 g1 h1 g2 h2, sweep c n ps (newtons B fs) 1 Xs = Ok Y1 /\ sweep c n ps (newtons B fs) 2 Xs = Ok Y2 /\
    shows_all c n m Y1 (xi p) g1 h1 /\ shows_all c n m Y2 (xi p) g2 h2 /\
    (forall s a, (s < n)%nat -> (forall i, (i < m)%nat -> partial (fun q => xi q i) s p (a i)) -> forall i, (i < m)%nat -> g1 i s = a i /\ g2 i s = a i) /\
    (forall s t a b l, (s < n)%nat -> (t < n)%nat -> (forall i, (i < m)%nat -> partial (fun q => xi q i) s p (a i)) ->
       (forall i, (i < m)%nat -> partial (fun q => xi q i) t p (b i)) -> (forall i, (i < m)%nat -> partial2 (fun q => xi q i) s t p (l i)) ->
       forall i, (i < m)%nat -> h2 i s t = l i).
Proof.
  intros Hc SO Hm HV DF E0 SN PD INV EP SX. set (P := with_xs m (xi p) p) in *. set (es := newtons B fs).
  assert (Hl : length es = m) by (unfold es; rewrite newtons_length; exact Hm).
  assert (EA : forall i q, (i < m)%nat -> eq_at es i q = q i - rsum m (fun j => B i j * eq_at fs j q)).
  { intros i q Hi. unfold eq_at, es. rewrite newtons_nth by lia. cbn. rewrite rev_lin, Hm. reflexivity. }
  assert (SOL : forall x q, (forall i, (i < m)%nat -> eq_at fs i (with_xs m x q) = 0) -> is_solution es m x q).
  { intros x q H i Hi. rewrite EA by exact Hi. rewrite (rsum_ext m _ (fun _ => 0)) by (intros j Hj; rewrite H by exact Hj; ring).
    rewrite rsum_zero. unfold with_xs. rewrite (proj2 (Nat.ltb_lt i m) Hi). ring. }
  destruct (system_at_solution c n m es p ps Xs xi g0 h0 (fun _ _ => 0) Hc SO Hl) as (g & h & I & _ & G & H); try assumption.
  - apply newtons_Forall. intros i Hi. cbn. split; [lia|apply lin_below, HV].
  - apply newtons_Forall. intros i Hi. cbn. repeat split. apply lin_dom, DF.
  - apply SOL, E0.
  - intros i j Hi Hj. generalize (SN i j Hi Hj). apply filter_imp. intros s. apply filter_imp. intros t. cbv zeta. apply SOL.
  - intros i j Hi Hj. unfold partial.
    assert (A : is_derive (fun t => minus (set_at P j t i) (rsum m (fun k => B i k * eq_at fs k (set_at P j t)))) (P j)
      (minus (if Nat.eqb i j then 1 else 0) (rsum m (fun k => B i k * D k j)))).
    { apply (is_derive_minus (K:=R_AbsRing) (V:=R_NormedModule)).
      - unfold set_at. destruct (Nat.eqb i j); [exact (is_derive_id (K:=R_AbsRing) (P j))|exact (is_derive_const (K:=R_AbsRing) (V:=R_NormedModule) (P i) (P j))].
      - apply (derive_rsum m (fun k t => B i k * eq_at fs k (set_at P j t))). intros k Hk. apply (is_derive_scal _ _ (B i k) _ (PD k j Hk Hj)). }
    rewrite INV in A by assumption. rewrite minus_eq_zero in A.
    eapply is_derive_ext; [|exact A]. intros t. cbn beta. rewrite EA by exact Hi. reflexivity.
  - destruct (I 1%nat) as (Y1 & E1 & S1). destruct (I 2%nat) as (Y2 & E2 & S2).
    exists Y1, Y2, (g 1%nat), (h 1%nat), (g 2%nat), (h 2%nat). split; [exact E1|]. split; [exact E2|]. split; [exact S1|]. split; [exact S2|]. split.
    + intros s a Hs Pa i Hi. pose proof (G s a Hs Pa 0%nat i Hi) as G1. pose proof (G s a Hs Pa 1%nat i Hi) as G2.
      rewrite (rsum_ext' m _ (fun _ => 0)), rsum_zero in G1 by (intros; ring). rewrite (rsum_ext' m _ (fun _ => 0)), rsum_zero in G2 by (intros; ring). lra.
    + intros s t a b l Hs Ht Pa Pb Pl i Hi. apply (proj1 (H s t a b l Hs Ht Pa Pb Pl)); [reflexivity|lia|exact Hi].
Qed.

(** ** From nearby values *)
Lemma value_contract m n e x0 p r : vars_below (m + n) e -> smooth 2 e (with_xs m x0 p) -> 0 <= r < 1 ->
  rsum m (fun j => Rabs (jg (jat e (with_xs m x0 p)) j)) <= r ->
  exists d, 0 < d /\ forall x M, 0 <= M < d -> (forall j, (j < m)%nat -> Rabs (x j - x0 j) <= M) ->
    dom e (with_xs m x p) /\ Rabs (rev e (with_xs m x p) - rev e (with_xs m x0 p)) <= (1 + r) / 2 * M.
Proof.
  intros HV SM Hr HR. set (P := with_xs m x0 p) in *. set (J := jat e P) in *. pose proof (smooth_dom 1 e P SM) as D.
  destruct (near_smooth (m + n) 1 e P HV SM) as (d1 & Hd1 & N1).
  destruct (expr_uniform (m + n) e P 1 HV D Rlt_0_1) as (d2 & Hd2 & U). cbv zeta in U. change (jev Rops (fun i => jvar Rops i (P i)) e) with J in U.
  destruct (gsum_bnd (m + n) J) as (K & HK & BK).
  set (C := (1 + K) * (INR m * INR m) + 1). assert (HC : 1 <= C) by (unfold C; pose proof (pos_INR m); nra).
  assert (PC : 0 < (1 - r) / 2 / C) by (apply Rdiv_lt_0_compat; lra).
  assert (PD : 0 < d2 / (INR m + 1)) by (apply Rdiv_lt_0_compat; [exact Hd2|pose proof (pos_INR m); lra]).
  exists (Rmin d1 (Rmin (d2 / (INR m + 1)) ((1 - r) / 2 / C))). split; [repeat apply Rmin_pos; assumption|].
  intros x M (M0 & HM) Hx. pose proof (Rmin_l d1 (Rmin (d2 / (INR m + 1)) ((1 - r) / 2 / C))) as M1. pose proof (Rmin_r d1 (Rmin (d2 / (INR m + 1)) ((1 - r) / 2 / C))) as M23.
  pose proof (Rmin_l (d2 / (INR m + 1)) ((1 - r) / 2 / C)) as M2. pose proof (Rmin_r (d2 / (INR m + 1)) ((1 - r) / 2 / C)) as M3.
  set (d := fun k => with_xs m x p k - P k).
  assert (Dz : forall i, d (m + i)%nat = 0) by (intros i; unfold d, P, with_xs; rewrite ltb_add; ring).
  assert (Dm : forall j, (j < m)%nat -> Rabs (d j) <= M) by (intros j Hj; unfold d, P, with_xs; rewrite (proj2 (Nat.ltb_lt j m) Hj); apply Hx, Hj).
  assert (N1d : norm1 (m + n) d <= INR m * M).
  { unfold norm1. rewrite rsum_split. rewrite (rsum_ext' n _ (fun _ => 0)) by (intros i; rewrite Dz, Rabs_R0; reflexivity). rewrite rsum_zero, Rplus_0_r.
    clear - Dm. revert Dm. generalize d. clear d. intros d Dm. induction m as [|m' IH]; [cbn; lra|]. cbn [rsum]. rewrite S_INR. pose proof (Dm m' ltac:(lia)).
    pose proof (IH (fun j Hj => Dm j (Nat.lt_lt_succ_r _ _ Hj))). lra. }
  pose proof (pos_INR m) as PM. pose proof (norm1_pos (m + n) d) as ND.
  assert (L2 : norm1 (m + n) d < d2).
  { assert (A : M * (INR m + 1) < d2 / (INR m + 1) * (INR m + 1)) by (apply Rmult_lt_compat_r; lra).
    replace (d2 / (INR m + 1) * (INR m + 1)) with d2 in A by (field; lra). nra. }
  assert (L3 : C * M <= (1 - r) / 2).
  { assert (A : M * C <= (1 - r) / 2 / C * C) by (apply Rmult_le_compat_r; lra). replace ((1 - r) / 2 / C * C) with ((1 - r) / 2) in A by (field; lra). lra. }
  assert (SH : shift P d = with_xs m x p) by (apply functional_extensionality; intros k; unfold shift, d; ring).
  specialize (U d L2). specialize (BK d). rewrite SH in U.
  assert (GB : Rabs (gsum (m + n) J d) <= r * M).
  { unfold gsum. rewrite rsum_split. rewrite (rsum_ext' n _ (fun _ => 0)) by (intros i; rewrite Dz; ring). rewrite rsum_zero, Rplus_0_r.
    eapply Rle_trans; [apply (row_bound m (jg J) d)|]. pose proof (vmax_pos m (fun j => Rabs (d j))).
    pose proof (vmax_le m (fun j => Rabs (d j)) M M0 Dm). pose proof (rsum_pos m (fun j => Rabs (jg J j)) (fun i _ => Rabs_pos _)).
    apply Rmult_le_compat; assumption. }
  split.
  - apply (smooth_dom 1). apply N1. intros k Hk. fold (d k). destruct (Nat.ltb_spec k m) as [H|H].
    + eapply Rle_lt_trans; [apply Dm, H|lra].
    + replace k with (m + (k - m))%nat by lia. rewrite Dz, Rabs_R0. exact Hd1.
  - assert (EF : jf J = rev e P) by (apply (point_derivs (m + n) e P HV D)). rewrite EF in U.
    replace (rev e (with_xs m x p) - rev e P) with
      ((rev e (with_xs m x p) - (rev e P + gsum (m + n) J d + / 2 * hsum (m + n) J d d)) + (gsum (m + n) J d + / 2 * hsum (m + n) J d d)) by ring.
    eapply Rle_trans; [apply Rabs_triang|]. eapply Rle_trans; [apply Rplus_le_compat_l, Rabs_triang|].
    rewrite Rabs_mult, (Rabs_pos_eq (/ 2)) by lra.
    assert (N2 : norm1 (m + n) d ^ 2 <= INR m * INR m * (M * M)).
    { replace (INR m * INR m * (M * M)) with ((INR m * M) * (INR m * M)) by ring. cbn. rewrite Rmult_1_r. apply Rmult_le_compat; assumption. }
    pose proof (Rabs_pos (hsum (m + n) J d d)).
    assert (A1 : (1 + K) * norm1 (m + n) d ^ 2 <= (1 + K) * (INR m * INR m * (M * M))) by (apply Rmult_le_compat_l; lra).
    assert (A2 : (1 + K) * (INR m * INR m * (M * M)) <= C * M * M) by (unfold C; nra).
    assert (A3 : C * M * M <= (1 - r) / 2 * M) by (apply Rmult_le_compat_r; assumption). nra.
Qed.
Lemma all_close m (P : nat -> R -> Prop) : (forall i, (i < m)%nat -> exists d, 0 < d /\ forall M, 0 <= M < d -> P i M) ->
  exists d, 0 < d /\ forall i M, (i < m)%nat -> 0 <= M < d -> P i M.
Proof.
  induction m as [|m IH]; intros H; [exists 1; split; [lra|intros; lia]|].
  destruct IH as (d1 & P1 & H1); [intros; apply H; lia|]. destruct (H m ltac:(lia)) as (d2 & P2 & H2). exists (Rmin d1 d2). split; [apply Rmin_pos; assumption|].
  intros i M Hi HM. pose proof (Rmin_l d1 d2). pose proof (Rmin_r d1 d2). destruct (Nat.eq_dec i m) as [->|Hn]; [apply H2; lra|apply H1; [lia|lra]].
Qed.
Lemma jat_cont' N e P : vars_below N e -> no_abs e -> smooth 2 e P ->
  (forall i, cont N P (fun q => jg (jat e q) i)) /\ (forall i j, cont N P (fun q => hess (jat e q) i j)).
Proof.
  intros HV NA SM. destruct (xjet_smooth 1 P e NA SM) as (_ & S1 & S2). destruct (xjet_plain N e (conj HV NA)) as (_ & V1 & V2).
  assert (R : forall X (F : (nat -> R) -> R), vars_below N X -> smooth 1 X P -> (forall q, rev X q = F q) -> cont N P F).
  { intros X F V S E. replace F with (rev X) by (apply functional_extensionality; exact E). apply rev_cont; [exact V|apply (smooth_dom 0), S]. }
  split.
  - intros i. apply (R (jg (xjet e) i)); [apply V1|apply S1|]. intros q. apply (xjet_rev e q NA).
  - intros i j. apply (R (hess (xjet e) i j)); [apply V2|unfold hess; destruct (Nat.leb i j); apply S2|]. intros q. apply (xjet_rev e q NA).
Qed.
Lemma cont_seqs (F : (nat -> R) -> R) m n x0 p (v : nat -> nat -> R) : cont (m + n) (with_xs m x0 p) F ->
  (forall i, (i < m)%nat -> is_lim_seq (fun k => v k i) (x0 i)) ->
  is_lim_seq (fun k => F (with_xs m (v k) p)) (F (with_xs m x0 p)).
Proof.
  intros HF HL. apply (filterlim_comp _ _ _ (fun k => with_xs m (v k) p) F eventually (near (m + n) (with_xs m x0 p)) _); [|exact HF].
  intros Q (d & Hd & HQ). destruct (eventually_all m (fun i k => Rabs (v k i - x0 i) < d)) as (K & HK).
  { intros i Hi. pose proof (HL i Hi) as L. apply is_lim_seq_spec in L. destruct (L (mkposreal d Hd)) as [K HK]. exists K. exact HK. }
  exists K. intros k Hk. apply HQ. intros s _. unfold with_xs. destruct (Nat.ltb_spec s m) as [H|H]; [apply HK; assumption|].
  rewrite Rminus_eq_0, Rabs_R0. exact Hd.
Qed.
Lemma system_near_solution c n m es p ps xi (Q : nat -> nat -> R) r : cfg_ok c -> size_ok c n -> length es = m ->
  List.Forall (vars_below (m + n)) es -> List.Forall no_abs es -> List.Forall (fun e => smooth 2 e (with_xs m (xi p) p)) es ->
  is_solution es m (xi p) p -> system_near n (is_solution es m) p xi ->
  (forall i j, (i < m)%nat -> (j < m)%nat -> partial (eq_at es i) j (with_xs m (xi p) p) (Q i j)) ->
  r < 1 -> (forall i, (i < m)%nat -> rsum m (fun j => Rabs (Q i j)) <= r) ->
  variables Rops c (coords n p) = Ok ps ->
  exists d, 0 < d /\ forall Xs x g0 h0, shows_all c n m Xs x g0 h0 -> (forall i, (i < m)%nat -> Rabs (x i - xi p i) < d) ->
  exists v g h, (forall k, exists Ys, sweep c n ps es k Xs = Ok Ys /\ shows_all c n m Ys (v k) (g k) (h k)) /\
    (forall i, (i < m)%nat -> is_lim_seq (fun k => v k i) (xi p i)) /\
    (forall s a, (s < n)%nat -> (forall i, (i < m)%nat -> partial (fun q => xi q i) s p (a i)) ->
       forall i, (i < m)%nat -> is_lim_seq (fun k => g k i s) (a i)) /\
    (forall s t a b l, (s < n)%nat -> (t < n)%nat -> (forall i, (i < m)%nat -> partial (fun q => xi q i) s p (a i)) ->
       (forall i, (i < m)%nat -> partial (fun q => xi q i) t p (b i)) -> (forall i, (i < m)%nat -> partial2 (fun q => xi q i) s t p (l i)) ->
       forall i, (i < m)%nat -> is_lim_seq (fun k => h k i s t) (l i)).
Proof.
  intros Hc SO Hm HV NA SM EX SN PQ Hr HQ EP. set (P := with_xs m (xi p) p) in *.
  assert (D : List.Forall (fun e => dom e P) es) by (revert SM; apply Forall_impl; intros e; apply smooth_dom).
  assert (EQ : forall i j, (i < m)%nat -> (j < m)%nat -> jg (jat (nth i es (EConst 0)) P) j = Q i j).
  { intros i j Hi Hj. apply (jat_partial (m + n)); [apply (Forall_nth_in _ es _ i HV); lia|apply (Forall_nth_in _ es (EConst 0) i D); lia|lia|apply PQ; assumption]. }
  assert (HQ' : forall i, (i < m)%nat -> rsum m (fun j => Rabs (jg (jat (nth i es (EConst 0)) P) j)) <= r).
  { intros i Hi. rewrite (rsum_ext m _ (fun j => Rabs (Q i j))) by (intros j Hj; f_equal; apply EQ; assumption). apply HQ, Hi. }
  destruct (all_close m (fun i M => forall x, (forall j, (j < m)%nat -> Rabs (x j - xi p j) <= M) ->
    dom (nth i es (EConst 0)) (with_xs m x p) /\ Rabs (eq_at es i (with_xs m x p) - xi p i) <= (1 + r) / 2 * M)) as (d & Hd & HA).
  { intros i Hi. assert (R0 : 0 <= r) by (eapply Rle_trans; [|apply (HQ i Hi)]; apply rsum_pos; intros; apply Rabs_pos).
    destruct (value_contract m n (nth i es (EConst 0)) (xi p) p r) as (d & Hd & HA);
      [apply (Forall_nth_in _ es _ i HV); lia|apply (Forall_nth_in _ es (EConst 0) i SM); lia|lra|apply HQ', Hi|].
    exists d. split; [exact Hd|]. intros M HM x Hx. destruct (HA x M HM Hx) as (H1 & H2). split; [exact H1|].
    rewrite (EX i Hi) at 1. exact H2. }
  exists d. split; [exact Hd|]. intros Xs x g0 h0 SX Hx.
  set (J := fun i => mkjet (x i) (g0 i) (h0 i)). pose proof (shows_reps _ _ _ _ _ _ _ Hc SX) as RX. fold J in RX.
  exists (fun k i => jf (siter es m p J k i)), (fun k i => jg (siter es m p J k i)), (fun k i => hess (siter es m p J k i)).
  split; [intros k; destruct (sweep_rep c n m es p J Xs ps Hc SO Hm HV EP RX k) as (Ys & E & R); exists Ys; split; [exact E|apply reps_shows, R]|].
  set (M0 := vmax m (fun i => Rabs (x i - xi p i))).
  assert (LV : forall i, (i < m)%nat -> is_lim_seq (fun k => jf (siter es m p J k i)) (xi p i)).
  { intros i0 Hi0. assert (R0 : 0 <= r) by (eapply Rle_trans; [|apply (HQ i0 Hi0)]; apply rsum_pos; intros; apply Rabs_pos).
    assert (HM0 : 0 <= M0 < d).
    { split; [apply vmax_pos|]. unfold M0. clear - Hd Hx. induction m as [|m' IH]; cbn [vmax]; [exact Hd|]. apply Rmax_lub_lt; [apply IH; intros; apply Hx; lia|apply Hx; lia]. }
    set (r' := (1 + r) / 2). assert (Hr' : 0 <= r' < 1) by (unfold r'; lra).
    assert (B : forall k i, (i < m)%nat -> Rabs (jf (siter es m p J k i) - xi p i) <= r' ^ k * M0).
    { induction k as [|k IH]; intros i Hi.
      - cbn [siter pow J jf]. rewrite Rmult_1_l. apply (vmax_ge m (fun i => Rabs (x i - xi p i))), Hi.
      - assert (PK : 0 <= r' ^ k <= 1) by (split; [apply pow_le; lra|rewrite <- (pow1 k); apply pow_incr; lra]).
        destruct (HA i (r' ^ k * M0) Hi) with (x := fun i => jf (siter es m p J k i)) as (DV & C); [nra|exact IH|].
        cbn [siter]. destruct (sys_step m n (nth i es (EConst 0)) p (siter es m p J k) (Forall_nth_in _ es _ i HV ltac:(lia))) as (E0 & _). cbv zeta in E0. rewrite E0.
        unfold jat. rewrite (proj1 (point_derivs (m + n) _ _ (Forall_nth_in _ es _ i HV ltac:(lia)) DV)).
        eapply Rle_trans; [exact C|]. fold r'. cbn [pow]. lra. }
    apply lim_to. apply is_lim_seq_abs_0. apply (is_lim_seq_le_le (fun _ => 0) _ (fun k => r' ^ k * M0)).
    - intros k. split; [apply Rabs_pos|apply B, Hi0].
    - apply is_lim_seq_const.
    - replace (Finite 0) with (Finite (0 * M0)) by (f_equal; ring).
      apply is_lim_seq_mult'; [apply is_lim_seq_geom; rewrite Rabs_pos_eq; lra|apply is_lim_seq_const]. }
  split; [exact LV|].
  assert (CC : forall i, (i < m)%nat -> _) by (intros i Hi; exact (jat_cont' (m + n) (nth i es (EConst 0)) P (Forall_nth_in _ es _ i HV ltac:(lia))
    (Forall_nth_in _ es (EConst 0) i NA ltac:(lia)) (Forall_nth_in _ es (EConst 0) i SM ltac:(lia)))).
  destruct (sys_converge m n es p J xi r Hm HV D SN Hr HQ') as (CG & CH).
  - intros i s Hi Hs. exact (cont_seqs (fun q => jg (jat (nth i es (EConst 0)) q) s) m n (xi p) p (fun k i => jf (siter es m p J k i)) (proj1 (CC i Hi) s) LV).
  - split; [exact CG|]. apply CH. intros i s t Hi Hs Ht.
    exact (cont_seqs (fun q => hess (jat (nth i es (EConst 0)) q) s t) m n (xi p) p (fun k i => jf (siter es m p J k i)) (proj2 (CC i Hi) s t) LV).
Qed.

(** ** The roots of a quadratic polynomial *)
Lemma near_system n E p xi : near n p (fun q => E (xi q) q) -> system_near n E p xi.
Proof.
  intros H i j Hi Hj. apply near_near in H. apply (near_line n p i) in H. revert H. apply filter_imp. intros s H.
  exact (near_line n (set_at p i s) j _ H).
Qed.
Lemma sqrt_1' : sqrt (3 * 3 - 4 * 2) = 1.
Proof. replace (3 * 3 - 4 * 2) with 1 by ring. apply sqrt_1. Qed.
Lemma vieta_case : let p := vieta_point in let xi := vieta_roots in let P := with_xs 2 (xi p) p in
  (xi p 0%nat = 2 /\ xi p 1%nat = 1) /\
  (forall i, (i < 2)%nat -> eq_at vieta i P = 0) /\
  system_near 2 (fun x q => forall i, (i < 2)%nat -> eq_at vieta i (with_xs 2 x q) = 0) p xi /\
  (forall i j, (i < 2)%nat -> (j < 2)%nat -> partial (eq_at vieta i) j P (vieta_jac i j)) /\
  (forall i j, (i < 2)%nat -> (j < 2)%nat -> rsum 2 (fun k => vieta_inv i k * vieta_jac k j) = if Nat.eqb i j then 1 else 0) /\
  partial (fun q => xi q 0%nat) 0 p 2 /\ partial (fun q => xi q 0%nat) 1 p (- 1) /\ partial2 (fun q => xi q 0%nat) 0 1 p 3.
Proof.
  intros p xi P. assert (E0 : xi p 0%nat = 2) by (unfold xi, p, vieta_roots, vieta_point; rewrite sqrt_1'; lra).
  assert (E1 : xi p 1%nat = 1) by (unfold xi, p, vieta_roots, vieta_point; rewrite sqrt_1'; lra).
  refine (conj (conj E0 E1) (conj _ (conj _ (conj _ (conj _ (conj _ (conj _ _))))))).
  - intros [|[|i]] Hi; [| |lia]; unfold P, eq_at, with_xs; cbn -[xi vieta_point]; rewrite E0, E1; unfold p, vieta_point; ring.
  - apply near_system.
    assert (N : near 2 p (fun q => 0 < q 0%nat * q 0%nat - 4 * q 1%nat)).
    { apply (cont_near 2 p (fun q => q 0%nat * q 0%nat - 4 * q 1%nat) (fun t => 0 < t)); [|apply open_pos|unfold p, vieta_point; lra].
      apply cont_minus; apply cont_mult; try (apply cont_var; lia). apply cont_const. }
    revert N. apply FactsReal.near_imp. intros q Hq.
    assert (S : sqrt (q 0%nat * q 0%nat - 4 * q 1%nat) * sqrt (q 0%nat * q 0%nat - 4 * q 1%nat) = q 0%nat * q 0%nat - 4 * q 1%nat) by (apply sqrt_sqrt; lra).
    intros [|[|i]] Hi; [| |lia]; unfold eq_at, with_xs, xi, vieta_roots; cbn -[sqrt].
    + field.
    + set (s := sqrt (q 0%nat * q 0%nat - 4 * q 1%nat)) in *. nra.
  - intros [|[|i]] [|[|j]] Hi Hj; try lia; unfold partial, eq_at, P, with_xs, set_at; cbn -[xi vieta_point]; rewrite ?E0, ?E1; auto_derive; auto; unfold vieta_jac; ring.
  - intros [|[|i]] [|[|j]] Hi Hj; try lia; cbn; ring.
  - unfold partial, xi, vieta_roots, set_at, p, vieta_point. cbn -[sqrt]. auto_derive; [lra|]. replace (3 * 3 + - (4 * 2)) with 1 by ring. rewrite sqrt_1. field.
  - unfold partial, xi, vieta_roots, set_at, p, vieta_point. cbn -[sqrt]. auto_derive; [lra|]. replace (3 * 3 + - (4 * 2)) with 1 by ring. rewrite sqrt_1. field.
  - exists (fun s => - / sqrt (s * s - 4 * 2)). split.
    + assert (L : locally 3 (fun s => 0 < s * s - 4 * 2)).
      { apply (locally_interval _ 3 (Finite (29/10)) (Finite 4)); cbn; try lra. intros y H1 H2. nra. }
      revert L. apply filter_imp. intros s Hs. unfold partial, xi, vieta_roots, set_at, p, vieta_point. cbn -[sqrt]. auto_derive; [lra|].
      replace (s * s + - (4 * 2)) with (s * s - 4 * 2) by ring. field. apply Rgt_not_eq, sqrt_lt_R0, Hs.
    + unfold p, vieta_point. auto_derive; [split; [lra|]; split; [|exact I]; replace (3 * 3 + - (4 * 2)) with 1 by ring; rewrite sqrt_1; lra|].
      replace (3 * 3 + - (4 * 2)) with 1 by ring. rewrite sqrt_1. field.
Qed.
Lemma vieta_run : exists ps X Y, variables Rops (sta2 2) [3; 2] = Ok ps /\ constant_n Rops (sta2 2) 2 2 = Ok X /\ constant_n Rops (sta2 2) 1 2 = Ok Y /\
  sweep (sta2 2) 2 ps (newtons vieta_inv vieta) 1 [X; Y] =
    Ok [mk 2 [Some 2; Some 2; Some (- 1); Some 0; Some 0; Some 0]; mk 2 [Some 1; Some (- 1); Some 1; Some 0; Some 0; Some 0]] /\
  sweep (sta2 2) 2 ps (newtons vieta_inv vieta) 2 [X; Y] =
    Ok [mk 2 [Some 2; Some 2; Some (- 1); Some (- 4); Some 3; Some (- 2)]; mk 2 [Some 1; Some (- 1); Some 1; Some 4; Some (- 3); Some 2]].
Proof.
  eexists _, _, _. split; [reflexivity|]. split; [reflexivity|]. split; [reflexivity|].
  split; lazy -[Rplus Rmult Rminus Ropp Rinv Rdiv IZR]; repeat f_equal; field.
Qed.
