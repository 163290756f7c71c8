(** C15-C19, C46: expressions, in terms of the public accessors. *)
From Coq Require Import ZArith List Bool Reals Lra Lia.
From Coquelicot Require Import Coquelicot.
From Verif Require Import Outcome Scalar Model Spec Core Kernels OpsRep AccRep PadRep RealOps Deriv UDeriv BDeriv
  FactsLayout FactsOps ExprSpec Expr Struct.
Import ListNotations.
Open Scope R_scope.
Open Scope res_scope.

(** ** Running an expression on [variables(p)] *)
Lemma coords_nth n p i : (i < n)%nat -> nth_error (coords n p) i = Some (p i).
Proof.
  intros H. unfold coords. rewrite nth_error_map, (nth_error_nth' _ 0%nat) by (rewrite seq_length; exact H).
  rewrite seq_nth by exact H. reflexivity.
Qed.
Lemma coords_length n p : length (coords n p) = n.
Proof. unfold coords. rewrite map_length, seq_length. reflexivity. Qed.

Lemma run_variables c n e p : cfg_ok c -> size_ok c n -> vars_below n e ->
  exists xs r, variables Rops c (coords n p) = Ok xs /\ run Rops c n xs e = Ok r /\
    rep c n (jev Rops (fun i => jvar Rops i (p i)) e) r.
Proof.
  intros Hc SO HV. destruct (variables_rep Rops c (coords n p)) as (xs & E & HL & HX);
    rewrite coords_length in *; [exact SO|].
  destruct (run_rep Rops c n xs (fun i => jvar Rops i (p i)) e Hc SO) as (r & Er & R).
  - rewrite HL. exact HV.
  - intros i x Hx. assert (Hi : (i < n)%nat) by (rewrite <- HL; apply nth_error_Some; congruence).
    destruct (HX i (p i) (coords_nth n p i Hi)) as (x' & E' & R'). congruence.
  - eauto.
Qed.

Lemma jev_point n e p u v : vars_below n e -> dom e p ->
  track n u v (fun s t => rev e (fun k => p k + s * u k + t * v k)) (jev Rops (fun i => jvar Rops i (p i)) e).
Proof.
  intros HV D. apply jev_track; auto. intros i Hi. apply track_var, Hi.
Qed.

Lemma J2_dir e p u v a b c d :
  J2 (fun s t => rev e (fun k => p k + s * u k + t * v k)) a b c d ->
  dirder (rev e) u p b /\ dirder2 (rev e) u v p d.
Proof.
  intros (Ha & Hb & D & HD & Hc & Hd). split.
  - unfold dirder. eapply is_derive_ext; [|exact Hb]. intros t. cbn beta. apply rev_ext. intros k. unfold along. ring.
  - exists D. split; [|exact Hd]. revert HD. apply filter_imp. intros s H. unfold dirder.
    eapply is_derive_ext; [|exact H]. intros t. cbn beta. apply rev_ext. intros k. unfold along. ring.
Qed.

Lemma exact1 c n e p : cfg_ok c -> size_ok c n -> vars_below n e -> dom e p ->
  exists xs r, variables Rops c (coords n p) = Ok xs /\ run Rops c n xs e = Ok r /\ wf c n r /\
    get_f r = Ok (rev e p) /\
    exists g, (forall i, (i < n)%nat -> get_g c r (Z.of_nat i) = Ok (g i) /\ partial (rev e) i p (g i)) /\
      forall u, dirder (rev e) u p (rsum n (fun i => g i * u i)).
Proof.
  intros Hc SO HV D. destruct (run_variables c n e p Hc SO HV) as (xs & r & E & Er & R).
  set (J := jev Rops (fun i => jvar Rops i (p i)) e) in *.
  exists xs, r. split; [exact E|]. split; [exact Er|]. split; [eapply rep_wf, R|]. split.
  { rewrite (get_f_rep _ _ _ _ R). f_equal. apply jev_f; auto. }
  exists (jg J). split.
  - intros i Hi. split; [eapply get_g_rep; eassumption|].
    pose proof (jev_point n e p (unit_at i) (unit_at i) HV D) as T. unfold track in T. fold J in T.
    rewrite gsum_unit in T by exact Hi. apply (J2_partial _ (rev_ext e)) in T. apply T.
  - intros u. pose proof (jev_point n e p u u HV D) as T. apply J2_dir in T. apply T.
Qed.

Lemma exact2 c n e p : cfg_ok c -> c_ord c = 2%Z -> size_ok c n -> vars_below n e -> dom e p ->
  exists xs r, variables Rops c (coords n p) = Ok xs /\ run Rops c n xs e = Ok r /\ wf c n r /\
    exists h, (forall i j, (i < n)%nat -> (j < n)%nat ->
        get_h c r (Z.of_nat i) (Z.of_nat j) = Ok (h i j) /\ partial2 (rev e) i j p (h i j)) /\
      forall u v, dirder2 (rev e) u v p (rsum n (fun i => rsum n (fun j => h i j * u i * v j))).
Proof.
  intros Hc Ho SO HV D. destruct (run_variables c n e p Hc SO HV) as (xs & r & E & Er & R).
  set (J := jev Rops (fun i => jvar Rops i (p i)) e) in *.
  exists xs, r. split; [exact E|]. split; [exact Er|]. split; [eapply rep_wf, R|].
  exists (hess J). split.
  - intros i j Hi Hj. split; [eapply get_h_rep; try eassumption; lia|].
    pose proof (jev_point n e p (unit_at i) (unit_at j) HV D) as T. unfold track in T. fold J in T.
    rewrite hsum_unit in T by assumption. apply (J2_partial _ (rev_ext e)) in T. apply T.
  - intros u v. pose proof (jev_point n e p u v HV D) as T. apply J2_dir in T. apply T.
Qed.

(** ** eval over the reals *)
Lemma fold_rsum n (w : nat -> R) a : fold_left (fun r i => r + w i) (seq 0 n) a = a + rsum n w.
Proof.
  induction n as [|n IH]; cbn [rsum]; [cbn; ring|]. rewrite seq_S, fold_left_app, IH. cbn. ring.
Qed.
Definition taylor (c : cfg) (n : nat) (f : R) (g : nat -> R) (h : nat -> nat -> R) (d : nat -> R) : R :=
  f + rsum n (fun i => d i * g i) +
  (if Z.eqb (c_ord c) 1 then 0 else 1 / 2 * rsum n (fun i => rsum n (fun j => d i * d j * h i j))).
Lemma eval_taylor c n J x d : rep c n J x -> (n <= length d)%nat ->
  eval Rops c x d = Ok (taylor c n (jf J) (jg J) (hess J) (fun i => nth i d 0)).
Proof.
  intros R HL. rewrite (eval_rep Rops c n J x d R HL). f_equal. unfold eval_spec, taylor, sum_g.
  change (o_Z Rops 0) with 0. change (o_add Rops) with Rplus. change (o_mul Rops) with Rmult. change (o_half Rops) with (/ 2).
  rewrite (fold_rsum n (fun i => nth i d 0 * jg J i)).
  destruct (Z.eqb (c_ord c) 1); [ring|]. f_equal. replace (1 / 2) with (/ 2) by field. f_equal. unfold quad.
  change (o_Z Rops 0) with 0. change (o_add Rops) with Rplus. change (o_mul Rops) with Rmult.
  rewrite (fold_rsum n (fun i => nth i d 0 * row_sum Rops n J d i)), Rplus_0_l. apply rsum_ext. intros i Hi.
  unfold row_sum. change (o_Z Rops 0) with 0. change (o_add Rops) with Rplus. change (o_mul Rops) with Rmult.
  rewrite (fold_rsum n (fun j => nth j d 0 * hess J i j)), Rplus_0_l, <- rsum_scal. apply rsum_ext. intros j Hj. ring.
Qed.

Lemma eval_is_taylor c n x f g h d : cfg_ok c -> shows c n x f g h -> (n <= length d)%nat ->
  eval Rops c x d = Ok (
    f + rsum n (fun i => nth i d 0 * g i) +
    (if Z.eqb (c_ord c) 1 then 0
     else 1 / 2 * rsum n (fun i => rsum n (fun j => nth i d 0 * nth j d 0 * h i j)))).
Proof.
  intros Hc SH HL. pose proof (shows_rep _ _ _ _ _ _ Hc SH) as R. rewrite (eval_taylor _ _ _ _ _ R HL).
  f_equal. unfold taylor. cbn [jf jg]. f_equal. destruct (Z.eqb_spec (c_ord c) 1) as [Ho|Ho]; [reflexivity|].
  f_equal. apply rsum_ext. intros i Hi. apply rsum_ext. intros j Hj. f_equal.
  assert (Ho2 : c_ord c = 2%Z) by (destruct Hc as [[?|?] _]; congruence).
  destruct SH as (_ & _ & _ & Hh). pose proof (Hh Ho2 i j Hi Hj) as E. rewrite (get_h_rep _ _ _ _ _ _ R Ho Hi Hj) in E. congruence.
Qed.
Lemma eval_prefix {S} (O : Ops S) c n x d d' : cfg_ok c -> wf c n x -> firstn n d = firstn n d' ->
  (n <= length d)%nat -> (n <= length d')%nat -> exists v, eval O c x d = Ok v /\ eval O c x d' = Ok v.
Proof.
  intros Hc W E HL HL'. destruct (wf_rep _ _ _ W) as (J & R).
  rewrite (eval_rep O c n J x d R HL), (eval_rep O c n J x d' R HL'). eexists. split; [reflexivity|]. f_equal.
  assert (EN : forall i, (i < n)%nat -> nth i d' (o_Z O 0%Z) = nth i d (o_Z O 0%Z)).
  { intros i Hi. rewrite <- (firstn_skipn n d), <- (firstn_skipn n d'), <- E.
    rewrite !app_nth1 by (rewrite firstn_length; lia). reflexivity. }
  unfold eval_spec, quad, row_sum, sum_g.
  assert (FE : forall (w w' : nat -> S) l a, (forall i, In i l -> w i = w' i) ->
    fold_left (fun r i => o_add O r (w i)) l a = fold_left (fun r i => o_add O r (w' i)) l a).
  { intros w w' l. induction l as [|b l IH]; intros a H; cbn; [reflexivity|]. rewrite (H b) by (left; reflexivity).
    apply IH. intros; apply H; right; assumption. }
  rewrite (FE (fun i => o_mul O (nth i d' (o_Z O 0%Z)) (jg J i)) (fun i => o_mul O (nth i d (o_Z O 0%Z)) (jg J i))).
  2:{ intros i Hi. apply in_seq in Hi. rewrite EN by lia. reflexivity. }
  destruct (Z.eqb (c_ord c) 1); [reflexivity|]. f_equal. f_equal.
  apply (FE (fun i => o_mul O (nth i d' (o_Z O 0%Z)) (fold_left (fun s j => o_add O s (o_mul O (nth j d' (o_Z O 0%Z)) (hess J i j))) (seq 0 n) (o_Z O 0%Z)))).
  intros i Hi. apply in_seq in Hi. rewrite EN by lia. f_equal.
  apply (FE (fun j => o_mul O (nth j d' (o_Z O 0%Z)) (hess J i j))). intros j Hj. apply in_seq in Hj. rewrite EN by lia. reflexivity.
Qed.

(** ** Taylor's theorem with Peano remainder *)
Lemma locally_0_abs (P : R -> Prop) : locally 0 P -> exists d, 0 < d /\ forall y, Rabs y < d -> P y.
Proof.
  intros [d H]. exists d. split; [apply cond_pos|]. intros y Hy. apply H.
  unfold ball; cbn. unfold AbsRing_ball, abs, minus, plus, opp; cbn. replace (y + - 0) with y by ring. exact Hy.
Qed.
Lemma derive_0_small (f : R -> R) l eps : is_derive f 0 l -> 0 < eps ->
  exists d, 0 < d /\ forall y, Rabs y < d -> Rabs (f y - f 0 - y * l) <= eps * Rabs y.
Proof.
  intros [_ H] He. specialize (H 0 (is_filter_lim_locally_unique _ _)) || specialize (H 0 (fun P HP => HP)).
  specialize (H (mkposreal eps He)). apply locally_0_abs in H as (d & Hd & H). exists d. split; [exact Hd|].
  intros y Hy. specialize (H y Hy). cbn in H. unfold norm, minus, plus, opp, scal in H; cbn in H. unfold abs, mult in H; cbn in H.
  replace (y + - 0) with y in H by ring. replace (f y + - f 0 + - (y * l)) with (f y - f 0 - y * l) in H by ring. exact H.
Qed.
Lemma taylor_peano (psi D : R -> R) d2 eps :
  locally 0 (fun s => is_derive psi s (D s)) -> is_derive D 0 d2 -> 0 < eps ->
  exists d, 0 < d /\ forall t, Rabs t < d ->
    Rabs (psi t - (psi 0 + t * D 0 + 1 / 2 * (t * t * d2))) <= eps * (t * t).
Proof.
  intros HL HD He. apply locally_0_abs in HL as (d1 & Hd1 & HL).
  destruct (derive_0_small D d2 eps HD He) as (d & Hd & HS).
  exists (Rmin d1 d). split; [apply Rmin_glb_lt; assumption|]. intros t Ht.
  assert (Ht1 : Rabs t < d1) by (eapply Rlt_le_trans; [exact Ht|apply Rmin_l]).
  assert (Ht2 : Rabs t < d) by (eapply Rlt_le_trans; [exact Ht|apply Rmin_r]).
  set (rho := fun s => psi s - (psi 0 + s * D 0 + 1 / 2 * (s * s * d2))).
  set (drho := fun s => D s - D 0 - s * d2).
  assert (IN : forall s, Rmin 0 t <= s <= Rmax 0 t -> Rabs s <= Rabs t).
  { intros s Hs. unfold Rmin, Rmax in Hs. destruct (Rle_dec 0 t).
    - rewrite !Rabs_pos_eq by lra. lra.
    - rewrite !Rabs_left1 by lra. lra. }
  assert (DR : forall s, Rmin 0 t <= s <= Rmax 0 t -> is_derive rho s (drho s)).
  { intros s Hs. pose proof (IN s Hs). assert (HP : is_derive psi s (D s)) by (apply HL; lra).
    unfold rho, drho.
    replace (D s - D 0 - s * d2) with (minus (D s) (D 0 + s * d2)) by (unfold minus, plus, opp; cbn; ring).
    apply (is_derive_minus psi (fun s => psi 0 + s * D 0 + 1 / 2 * (s * s * d2))); [exact HP|].
    auto_derive; [exact I|]. field. }
  destruct (MVT_gen rho 0 t drho) as (xi & Hxi & EQ).
  - intros s Hs. apply DR. lra.
  - intros s Hs. apply continuity_pt_filterlim. apply (ex_derive_continuous rho). eexists. apply DR, Hs.
  - assert (R0 : rho 0 = 0) by (unfold rho; ring). fold (rho t). replace (rho t) with (drho xi * t) by lra.
    rewrite Rabs_mult. pose proof (IN xi Hxi) as Hx. assert (HB : Rabs (drho xi) <= eps * Rabs xi).
    { unfold drho. apply HS. lra. }
    replace (t * t) with (Rabs t * Rabs t) by (rewrite <- Rabs_mult; apply Rabs_pos_eq; nra).
    pose proof (Rabs_pos t). pose proof (Rabs_pos xi).
    apply Rle_trans with (eps * Rabs xi * Rabs t); [apply Rmult_le_compat_r; assumption|].
    rewrite <- Rmult_assoc. apply Rmult_le_compat_r; [assumption|]. apply Rmult_le_compat_l; lra.
Qed.

Lemma nth_coords n p i : (i < n)%nat -> nth i (coords n p) 0 = p i.
Proof. intros H. apply nth_error_nth, coords_nth, H. Qed.

Lemma taylor_line c n J v t : taylor c n (jf J) (jg J) (hess J) (fun i => nth i (coords n (fun i => t * v i)) 0) =
  jf J + t * gsum n J v + (if Z.eqb (c_ord c) 1 then 0 else 1 / 2 * (t * t * hsum n J v v)).
Proof.
  unfold taylor, gsum, hsum. f_equal; [f_equal|].
  - rewrite <- rsum_scal. apply rsum_ext. intros i Hi. rewrite nth_coords by exact Hi. ring.
  - destruct (Z.eqb (c_ord c) 1); [reflexivity|]. f_equal. rewrite <- rsum_scal. apply rsum_ext. intros i Hi.
    rewrite <- rsum_scal. apply rsum_ext. intros j Hj. rewrite !nth_coords by assumption. ring.
Qed.

Lemma J2_line e p v a b c d : J2 (fun s t => rev e (fun k => p k + s * v k + t * v k)) a b c d ->
  rev e p = a /\ exists D, locally 0 (fun s => is_derive (fun t => rev e (along p v t)) s (D s)) /\
    D 0 = c /\ is_derive D 0 d.
Proof.
  intros (Ha & Hb & D & HD & Hc & Hd). split.
  - rewrite <- Ha. apply rev_ext. intros k. ring.
  - exists D. split; [|split; assumption]. revert HD. apply filter_imp. intros s H.
    assert (HS : is_derive (fun t => rev e (along p v t)) s (D s)).
    { eapply is_derive_ext; [|apply (is_derive_shift _ s _ H)]. intros t. cbn beta. apply rev_ext. intros k. unfold along. ring. }
    exact HS.
Qed.

Lemma eval_approx c n e p v eps : cfg_ok c -> size_ok c n -> vars_below n e -> dom e p -> 0 < eps ->
  exists xs r, variables Rops c (coords n p) = Ok xs /\ run Rops c n xs e = Ok r /\
    exists delta, 0 < delta /\ forall t, Rabs t < delta ->
      exists y, eval Rops c r (coords n (fun i => t * v i)) = Ok y /\
        Rabs (rev e (along p v t) - y) <= eps * (if Z.eqb (c_ord c) 1 then Rabs t else t * t).
Proof.
  intros Hc SO HV D He. destruct (run_variables c n e p Hc SO HV) as (xs & r & E & Er & R).
  exists xs, r. split; [exact E|]. split; [exact Er|].
  pose proof (jev_point n e p v v HV D) as T. unfold track in T.
  set (J := jev Rops (fun i => jvar Rops i (p i)) e) in *.
  pose proof T as T1. apply J2_line in T1 as (EF & DD & HL & HD0 & HD).
  assert (Z0 : rev e (along p v 0) = jf J).
  { rewrite <- EF. apply rev_ext. intros k. unfold along. ring. }
  destruct (Z.eqb_spec (c_ord c) 1) as [Ho|Ho].
  - assert (HD1 : is_derive (fun t => rev e (along p v t)) 0 (gsum n J v)).
    { rewrite <- HD0. exact (locally_singleton _ _ HL). }
    destruct (derive_0_small _ _ eps HD1 He) as (d & Hd & HS). exists d. split; [exact Hd|]. intros t Ht.
    rewrite (eval_taylor _ _ _ _ _ R) by (rewrite coords_length; lia). eexists. split; [reflexivity|].
    rewrite taylor_line, Ho. cbn [Z.eqb Pos.eqb]. specialize (HS t Ht). cbn beta in HS. rewrite Z0 in HS.
    replace (rev e (along p v t) - (jf J + t * gsum n J v + 0)) with (rev e (along p v t) - jf J - t * gsum n J v) by ring.
    exact HS.
  - destruct (taylor_peano _ _ _ eps HL HD He) as (d & Hd & HS). exists d. split; [exact Hd|]. intros t Ht.
    rewrite (eval_taylor _ _ _ _ _ R) by (rewrite coords_length; lia). eexists. split; [reflexivity|].
    rewrite taylor_line. destruct (Z.eqb_spec (c_ord c) 1); [contradiction|].
    specialize (HS t Ht). cbn beta in HS. rewrite Z0, HD0 in HS. exact HS.
Qed.

(** ** Padding and relabelling *)
Definition rho_right (n : nat) : nat -> option nat := fun i => if Nat.ltb i n then Some i else None.
Definition rho_left (h : nat) : nat -> option nat := fun i => if Nat.ltb i h then None else Some (i - h)%nat.
Lemma re_padr m n J : reindexed m (rho_right n) J (jpadr Rops n J).
Proof.
  split; [reflexivity|]. unfold rho_right. split.
  - intros i _. unfold jpadr; cbn [jg]. destruct (Nat.ltb_spec i n); reflexivity.
  - intros i j _ _. unfold hess, jpadr; cbn [jh].
    destruct (Nat.ltb_spec (Nat.max i j) n), (Nat.ltb_spec i n), (Nat.ltb_spec j n); try lia; reflexivity.
Qed.
Lemma re_padl m h J : reindexed m (rho_left h) J (jpadl Rops h J).
Proof.
  split; [reflexivity|]. unfold rho_left. split.
  - intros i _. unfold jpadl; cbn [jg]. destruct (Nat.ltb_spec i h); reflexivity.
  - intros i j _ _. unfold hess, jpadl; cbn [jh].
    destruct (Nat.ltb_spec (Nat.min i j) h), (Nat.ltb_spec i h), (Nat.ltb_spec j h); try lia; try reflexivity.
    cbn [pick2]. f_equal; lia.
Qed.
Lemma re_jeq ord m rho J K K' : reindexed m rho J K -> reindexed m rho J K' -> jeq ord m K K'.
Proof.
  intros (E1 & E2 & E3) (F1 & F2 & F3). split; [congruence|]. split.
  - intros i Hi. rewrite E2, F2 by exact Hi. reflexivity.
  - intros _ i j Hij. rewrite <- (hess_upper K), <- (hess_upper K') by lia. rewrite E3, F3 by lia. reflexivity.
Qed.

Lemma env_of {S} c n (d : jet S) xs : List.Forall (wf c n) xs -> exists env : nat -> jet S,
  forall i x, nth_error xs i = Some x -> rep c n (env i) x.
Proof.
  induction 1 as [|x xs W _ (env & IH)].
  - exists (fun _ => d). intros [|i] x; discriminate.
  - destruct (wf_rep _ _ _ W) as (J & R). exists (fun i => match i with O => J | Datatypes.S k => env k end).
    intros [|i] y E; cbn in E; [injection E as <-; exact R|]. apply IH, E.
Qed.

Lemma Forall2_len {A B} (P : A -> B -> Prop) xs ys : Forall2 P xs ys -> length xs = length ys.
Proof. induction 1; cbn; congruence. Qed.
Lemma Forall2_nth_l {A B} (P : A -> B -> Prop) xs ys i y : Forall2 P xs ys -> nth_error ys i = Some y ->
  exists x, nth_error xs i = Some x /\ P x y.
Proof.
  intros H. revert i. induction H as [|a b xs ys Hab _ IH]; intros [|i] E; cbn in *; try discriminate.
  - injection E as <-. eauto.
  - apply IH, E.
Qed.

Lemma pad_run (pad : dd R -> Z -> res (dd R)) jpad rho c n m e xs ys :
  (forall J x, rep c n J x -> exists r, pad x (Z.of_nat m) = Ok r /\ rep c m (jpad J) r) ->
  (forall J, reindexed m rho J (jpad J)) ->
  cfg_ok c -> size_ok c n -> size_ok c m -> List.Forall (wf c n) xs ->
  Forall2 (fun x y => pad x (Z.of_nat m) = Ok y) xs ys -> vars_below (length xs) e ->
  agree c (r <- run Rops c n xs e ;; pad r (Z.of_nat m)) (run Rops c m ys e).
Proof.
  intros HP HR Hc SO SO' W F HV. destruct (env_of c n (jconst Rops 0) xs W) as (env & HE).
  destruct (run_rep Rops c n xs env e Hc SO HV HE) as (r & Er & R).
  destruct (run_rep Rops c m ys (fun i => jpad (env i)) e Hc SO') as (r' & Er' & R').
  - rewrite <- (Forall2_len _ _ _ F). exact HV.
  - intros i y Hy. destruct (Forall2_nth_l _ _ _ _ _ F Hy) as (x & Hx & E). cbn beta in E.
    destruct (HP _ _ (HE i x Hx)) as (y' & E' & Ry). congruence.
  - rewrite Er, Er'. cbn [bind]. destruct (HP _ _ R) as (q & Eq & Rq).
    apply (agree_rep c m (jpad (jev Rops env e)) (jev Rops (fun i => jpad (env i)) e)); eauto.
    eapply re_jeq; [apply HR|]. apply (re_ev m rho (length xs)); [exact HV|]. intros; apply HR.
Qed.
Lemma pad_right_run c n m e xs ys : cfg_ok c -> size_ok c n -> size_ok c m -> (n <= m)%nat -> List.Forall (wf c n) xs ->
  Forall2 (fun x y => pad_right Rops c x (Z.of_nat m) = Ok y) xs ys -> vars_below (length xs) e ->
  agree c (r <- run Rops c n xs e ;; pad_right Rops c r (Z.of_nat m)) (run Rops c m ys e).
Proof.
  intros Hc SO SO' Hnm. apply (pad_run (pad_right Rops c) (jpadr Rops n) (rho_right n)); try assumption.
  - intros J x R. apply pad_right_rep; assumption.
  - apply re_padr.
Qed.
Lemma pad_left_run c n m e xs ys : cfg_ok c -> size_ok c n -> size_ok c m -> (n <= m)%nat -> List.Forall (wf c n) xs ->
  Forall2 (fun x y => pad_left Rops c x (Z.of_nat m) = Ok y) xs ys -> vars_below (length xs) e ->
  agree c (r <- run Rops c n xs e ;; pad_left Rops c r (Z.of_nat m)) (run Rops c m ys e).
Proof.
  intros Hc SO SO' Hnm. apply (pad_run (pad_left Rops c) (jpadl Rops (m - n)) (rho_left (m - n))); try assumption.
  - intros J x R. apply pad_left_rep; assumption.
  - apply re_padl.
Qed.

Lemma relabels_rep c c' n m rho x y : cfg_ok c -> cfg_ok c' -> c_ord c' = c_ord c ->
  (forall i k, (i < m)%nat -> rho i = Some k -> (k < n)%nat) -> relabels c c' n m rho x y ->
  exists J J', rep c n J x /\ rep c' m J' y /\ reindexed m rho J J'.
Proof.
  intros Hc Hc' Ho HR (f & g & h & SX & SY). destruct (wf_rep _ _ _ (shows_wf _ _ _ _ _ _ SX)) as (J & R).
  exists J, (mkjet f (fun i => pick (jg J) (rho i)) (fun i j => pick2 (hess J) (rho i) (rho j))).
  pose proof (rep_shows _ _ _ _ R) as (_ & Jf & Jg & Jh). destruct SX as (_ & Xf & Xg & Xh).
  split; [exact R|]. split.
  - apply shows_rep; [exact Hc'|]. eapply shows_ext; [exact SY|reflexivity| |].
    + intros i Hi. cbn beta. destruct (rho i) as [k|] eqn:E; cbn [pick]; [|reflexivity].
      assert (Hk : (k < n)%nat) by (eapply HR; eassumption). specialize (Jg k Hk). rewrite Xg in Jg by exact Hk. congruence.
    + intros H2 i j Hi Hj. cbn beta. destruct (rho i) as [k|] eqn:E, (rho j) as [l|] eqn:E'; cbn [pick2]; try reflexivity.
      assert (Hk : (k < n)%nat) by (eapply (HR i); eassumption). assert (Hl : (l < n)%nat) by (eapply (HR j); eassumption).
      specialize (Jh ltac:(congruence) k l Hk Hl). rewrite Xh in Jh by (try assumption; congruence). congruence.
  - split; [cbn; congruence|]. split; [reflexivity|]. intros i j _ _. unfold hess at 1; cbn [jh].
    destruct (Nat.le_ge_cases i j); [rewrite Nat.min_l, Nat.max_r by lia; reflexivity|].
    rewrite Nat.min_r, Nat.max_l by lia. destruct (rho i), (rho j); cbn [pick2]; try reflexivity. apply hess_sym.
Qed.
Lemma rep_relabels c c' n m rho J J' x y : rep c n J x -> rep c' m J' y -> reindexed m rho J J' ->
  relabels c c' n m rho x y.
Proof.
  intros R R' (E1 & E2 & E3). exists (jf J), (jg J), (hess J). split; [apply rep_shows, R|].
  eapply shows_ext; [apply rep_shows, R'|exact E1| |].
  - intros i Hi. apply E2, Hi.
  - intros _ i j Hi Hj. apply E3; assumption.
Qed.
Lemma relabel_run c c' n m rho e xs ys : cfg_ok c -> cfg_ok c' -> c_ord c' = c_ord c -> size_ok c n -> size_ok c' m ->
  (forall i k, (i < m)%nat -> rho i = Some k -> (k < n)%nat) ->
  Forall2 (relabels c c' n m rho) xs ys -> vars_below (length xs) e ->
  exists r r', run Rops c n xs e = Ok r /\ run Rops c' m ys e = Ok r' /\ relabels c c' n m rho r r'.
Proof.
  intros Hc Hc' Ho SO SO' HR F HV.
  assert (HE : exists env env', (forall i x, nth_error xs i = Some x -> rep c n (env i) x) /\
     (forall i y, nth_error ys i = Some y -> rep c' m (env' i) y) /\
     (forall i, (i < length xs)%nat -> reindexed m rho (env i) (env' i))).
  { clear HV. induction F as [|x y xs ys Hxy _ (env & env' & H1 & H2 & H3)].
    - exists (fun _ => jconst Rops 0), (fun _ => jconst Rops 0). split; [|split]; intros [|i]; cbn; intros; try discriminate; lia.
    - destruct (relabels_rep c c' n m rho x y Hc Hc' Ho HR Hxy) as (J & J' & R & R' & RE).
      exists (fun i => match i with O => J | Datatypes.S k => env k end), (fun i => match i with O => J' | Datatypes.S k => env' k end).
      split; [|split].
      + intros [|i] z E; cbn in E; [injection E as <-; exact R|apply H1, E].
      + intros [|i] z E; cbn in E; [injection E as <-; exact R'|apply H2, E].
      + intros [|i] Hi; [exact RE|]. apply H3. cbn in Hi. lia. }
  destruct HE as (env & env' & H1 & H2 & H3).
  destruct (run_rep Rops c n xs env e Hc SO HV H1) as (r & Er & R).
  destruct (run_rep Rops c' m ys env' e Hc' SO') as (r' & Er' & R'); [rewrite <- (Forall2_len _ _ _ F); exact HV|exact H2|].
  exists r, r'. split; [exact Er|]. split; [exact Er'|]. eapply rep_relabels; try eassumption.
  eapply re_ev; eassumption.
Qed.
