(** Facts about sparse numbers with only some of their names. *)
From Coq Require Import ZArith List Bool String Permutation Reals Lra Lia.
From Verif Require Import Outcome Scalar Model Spec RealOps ExprSpec ProgSpec ModelS ModelObj ModelObjS SpecS FactsS FactsSReal OnlySpec.
Import ListNotations.
Open Scope list_scope.

Section Only.
  Context {S : Type} (O : Ops S) (p : string -> bool).
  Implicit Types (t : table S) (x y z : ss S).
  Notation kp := (keep p).
  Notation on := (only p).

  Lemma find_keep t k : t_find (kp t) k = if p k then t_find t k else None.
  Proof.
    unfold keep in *. induction t as [|(k0, v) t IH]; cbn; [destruct (p k); reflexivity|].
    destruct (p k0) eqn:E0; cbn; rewrite ?IH; destruct (String.eqb_spec k0 k) as [->|N]; rewrite ?E0; reflexivity.
  Qed.
  Lemma update_keep t k f : kp (t_update O t k f) = if p k then t_update O (kp t) k f else kp t.
  Proof.
    unfold keep in *. induction t as [|(k0, v) t IH]; cbn; [destruct (p k); reflexivity|].
    destruct (String.eqb_spec k0 k) as [->|N]; cbn.
    - destruct (p k) eqn:E; cbn; rewrite ?E, ?String.eqb_refl; reflexivity.
    - rewrite IH. destruct (p k0) eqn:E0; destruct (p k) eqn:E; cbn; try reflexivity.
      apply String.eqb_neq in N. rewrite N. reflexivity.
  Qed.
  Lemma map_keep f t : t_map f (kp t) = kp (t_map f t).
  Proof. unfold t_map. unfold keep in *. induction t as [|(k, v) t IH]; cbn; [reflexivity|]. destruct (p k); cbn; rewrite IH; reflexivity. Qed.
  Lemma merge_keep g (b : table S) : forall t, t_merge O g (kp t) (kp b) = kp (t_merge O g t b).
  Proof.
    unfold t_merge. induction b as [|(k, v) b IH]; cbn -[keep]; intros t; [reflexivity|].
    rewrite <- IH. rewrite update_keep. unfold keep at 2. cbn. destruct (p k); reflexivity.
  Qed.
  Lemma keys_keep t : map fst (kp t) = filter p (map fst t).
  Proof. unfold keep in *. induction t as [|(k, v) t IH]; cbn; [reflexivity|]. destruct (p k); cbn; rewrite IH; reflexivity. Qed.
  Lemma self_keep f l : forall t,
    fold_left (fun t k => t_update O t k f) (filter p l) (kp t) = kp (fold_left (fun t k => t_update O t k f) l t).
  Proof.
    induction l as [|k l IH]; cbn -[keep]; intros t; [reflexivity|]. rewrite <- IH, update_keep. destruct (p k); reflexivity.
  Qed.
  Lemma merge_self_keep g t : t_merge_self O g (kp t) = kp (t_merge_self O g t).
  Proof. unfold t_merge_self. rewrite keys_keep. apply self_keep. Qed.

  (** *** numbers *)
  Lemma u_only u x : s_apply_u O u (on x) = on (s_apply_u O u x).
  Proof.
    destruct x as [f d]. unfold only. destruct u; cbn -[t_map keep]; unfold s_abs, s_divs, s_smul, s_muls, s_subs, s_sadd, s_adds, s_ssub, s_neg, s_sdiv, s_unary; cbn -[t_map keep];
      try destruct (o_lt O _ (o_Z O 0)); cbn -[t_map keep]; rewrite ?map_keep; reflexivity.
  Qed.
  Lemma b_only b x y : s_apply_b O b (on x) (on y) = on (s_apply_b O b x y).
  Proof.
    rewrite !binary_shape. cbn [only s_f s_d]. destruct (sk_b O b (s_f x) (s_f y)) as ((f, da), db).
    unfold only, s_binary. cbn [s_f s_d]. rewrite map_keep, merge_keep. reflexivity.
  Qed.
  Lemma h_only x y z : s_hypot3 O (on x) (on y) (on z) = on (s_hypot3 O x y z).
  Proof. unfold s_hypot3, only, s_ternary. cbn [s_f s_d]. rewrite map_keep, !merge_keep. reflexivity. Qed.
  Lemma assign_only o x (y : option (ss S)) : s_assign O o (on x) (option_map on y) = on (s_assign O o x y).
  Proof.
    destruct y as [y|]; destruct o; cbn [s_assign option_map]; unfold s_add_assign, s_sub_assign, s_mul_assign, s_div_assign, only; cbn [s_f s_d];
      rewrite ?map_keep, ?merge_keep, ?merge_self_keep; reflexivity.
  Qed.
  Lemma assign_s_only o x s : s_assign_s O o (on x) s = on (s_assign_s O o x s).
  Proof.
    destruct o; cbn [s_assign_s]; unfold s_adds_assign, s_subs_assign, s_divs_assign, s_muls_assign, only; cbn [s_f s_d];
      rewrite ?keys_keep, ?self_keep; reflexivity.
  Qed.

  Lemma run_only env e : s_run O (fun i => on (env i)) e = on (s_run O env e).
  Proof.
    induction e as [i|s|u e IH|b e1 IH1 e2 IH2|e1 IH1 e2 IH2 e3 IH3]; cbn [s_run]; rewrite ?IH, ?IH1, ?IH2, ?IH3, ?u_only, ?b_only, ?h_only; reflexivity.
  Qed.
  Lemma keep_perm t t' : Permutation t t' -> Permutation (kp t) (kp t').
  Proof.
    unfold keep in *. induction 1; cbn; try constructor; auto.
    - destruct (p (fst x)); [constructor|]; assumption.
    - destruct (p (fst x)), (p (fst y)); try constructor; apply Permutation_refl.
    - eapply perm_trans; eassumption.
  Qed.
  Lemma reorders_only x y : reorders x y -> reorders (on x) (on y).
  Proof. intros (E & H). split; [exact E|apply keep_perm, H]. Qed.
  Lemma keys_ok_only x : keys_ok x -> keys_ok (on x).
  Proof. unfold keys_ok, names. cbn [only s_d]. rewrite keys_keep. apply NoDup_filter. Qed.
  Lemma get_d_only x k : p k = true -> s_get_d O (on x) k = s_get_d O x k.
  Proof. intros E. unfold s_get_d. cbn [only s_d]. rewrite find_keep, E. reflexivity. Qed.
  Lemma names_only x k : In k (names (on x)) <-> In k (names x) /\ p k = true.
  Proof. unfold names. cbn [only s_d]. rewrite keys_keep. apply filter_In. Qed.
  Lemma only_reads_re x y : keys_ok x -> reorders (on x) y -> only_reads O p x y.
  Proof.
    intros K R. pose proof (reorders_reads O _ _ (keys_ok_only _ K) R) as (E & Z & D). split; [symmetry; exact E|]. split.
    - intros k Hk. rewrite <- D. apply get_d_only, Hk.
    - intros k. rewrite <- names_only. split; apply Permutation_in; [apply Permutation_sym|]; apply keys_of_perm, R.
  Qed.
  Lemma runs_only env e x : s_runs O env e x -> s_runs O (fun i => on (env i)) e (on x).
  Proof.
    intros R. induction R as [i x Rx|s x Rx|u e x y R IH Rx|b e1 e2 x1 x2 y R1 IH1 R2 IH2 Rx
                             |e1 e2 e3 x1 x2 x3 y R1 IH1 R2 IH2 R3 IH3 Rx].
    - apply RVar, reorders_only, Rx.
    - apply RConst. apply (reorders_only _ _ Rx).
    - eapply RU; [exact IH|]. rewrite u_only. apply reorders_only, Rx.
    - eapply RB; [exact IH1|exact IH2|]. rewrite b_only. apply reorders_only, Rx.
    - eapply RH; [exact IH1|exact IH2|exact IH3|]. rewrite h_only. apply reorders_only, Rx.
  Qed.
  Lemma expressions_only env e x y : (forall i, keys_ok (env i)) ->
    s_runs O env e x -> s_runs O (fun i => on (env i)) e y -> only_reads O p x y.
  Proof.
    intros K R R'. apply only_reads_re; [eapply runs_keys; eassumption|].
    eapply (runs_unique O (fun i => on (env i))); [intros i; apply keys_ok_only, K|intros i; apply reorders_refl|apply runs_only, R|exact R'].
  Qed.

  (** *** programs *)
  Lemma get_only (st : list (ss S)) r : get (map on st) r = match get st r with Ok x => Ok (on x) | Throw e => Throw e | Abort => Abort | UB => UB end.
  Proof. unfold get. rewrite nth_error_map. destruct (nth_error st r); reflexivity. Qed.
  Lemma put_only (st : list (ss S)) r x : put (map on st) r (on x) = map on (put st r x).
  Proof. revert r. induction st as [|a st IH]; intros [|r]; cbn; try reflexivity. f_equal. apply IH. Qed.
  Definition ores (m : res (ss S)) : res (ss S) := match m with Ok x => Ok (on x) | other => other end.
  Definition ost (m : res (list (ss S))) : res (list (ss S)) := match m with Ok st => Ok (map on st) | other => other end.
  Lemma write_only st r m : s_write (map on st) r (ores m) = ost (s_write st r m).
  Proof.
    unfold s_write. rewrite get_only. destruct (get st r) as [x0| | |]; cbn; try reflexivity.
    destruct m as [x| | |]; cbn; try reflexivity. rewrite put_only. reflexivity.
  Qed.
  Lemma step_only s st : s_step O s (map on st) = ost (s_step O s st).
  Proof.
    assert (T : forall r m m', m' = ores m -> s_write (map on st) r m' = ost (s_write st r m)).
    { intros r m m' ->. apply write_only. }
    destruct s; cbn [s_step]; try reflexivity; apply T; rewrite ?get_only.
    - reflexivity.
    - destruct (get st a); reflexivity.
    - destruct (get st a) as [x| | |]; cbn; try reflexivity. rewrite u_only. reflexivity.
    - destruct (get st a1) as [x| | |]; cbn; try reflexivity. rewrite ?get_only. destruct (get st a2) as [y| | |]; cbn; try reflexivity.
      rewrite b_only. reflexivity.
    - destruct (get st a1) as [x| | |]; cbn; try reflexivity. rewrite ?get_only. destruct (get st a2) as [y| | |]; cbn; try reflexivity.
      rewrite ?get_only. destruct (get st a3) as [z| | |]; cbn; try reflexivity. rewrite h_only. reflexivity.
    - destruct (get st r) as [x| | |]; cbn; try reflexivity. rewrite ?get_only. destruct (get st a) as [y| | |]; cbn; try reflexivity.
      assert (Q : (if Nat.eqb a r then None else Some (on y)) = option_map on (if Nat.eqb a r then None else Some y)) by (destruct (Nat.eqb a r); reflexivity).
      rewrite Q, assign_only. reflexivity.
    - destruct (get st r) as [x| | |]; cbn; try reflexivity. rewrite assign_s_only. reflexivity.
  Qed.
  Lemma test_only k (st : list (ss S)) : s_test O k (map on st) = s_test O k st.
  Proof.
    destruct k; cbn [s_test]; rewrite ?get_only; destruct (get st a) as [x| | |]; cbn; try reflexivity.
    destruct (get st b) as [y| | |]; reflexivity.
  Qed.
  Lemma exec_only fuel : forall s st, s_exec O fuel s (map on st) = only_result p (s_exec O fuel s st).
  Proof.
    induction fuel as [|fuel IH]; intros s st; [reflexivity|].
    assert (B : Some (s_step O s (map on st)) = only_result p (Some (s_step O s st))).
    { rewrite step_only. destruct (s_step O s st); reflexivity. }
    destruct s; try exact B; cbn [s_exec].
    - rewrite (IH s1 st). destruct (s_exec O fuel s1 st) as [[st1| | |]|]; cbn; try reflexivity. apply IH.
    - rewrite test_only. destruct (s_test O k st) as [[|]| | |]; cbn; try reflexivity; apply IH.
    - rewrite test_only. destruct (s_test O k st) as [[|]| | |]; cbn; try reflexivity.
      rewrite (IH s st). destruct (s_exec O fuel s st) as [[st1| | |]|]; cbn; try reflexivity. apply IH.
  Qed.
  Lemma Forall2_only (st st' : list (ss S)) : Forall2 reorders st st' -> Forall2 reorders (map on st) (map on st').
  Proof. induction 1; cbn; constructor; auto. apply reorders_only. assumption. Qed.
  Lemma execs_only s st st1 : s_execs O s st st1 -> s_execs O s (map on st) (map on st1).
  Proof.
    induction 1 as [s st st1 st2 Hb Hs Hp|s1 s2 st st1 st2 _ IH1 _ IH2|b s1 s2 st st1 Ht _ IH|b s1 s2 st st1 Ht _ IH|b s1 st Ht
                   |b s1 st st1 st2 Ht _ IH1 _ IH2].
    - pose proof (step_only s st) as E. rewrite Hs in E. eapply XStep; [exact Hb|exact E|apply Forall2_only, Hp].
    - eapply XSeq; eassumption.
    - apply XThen; [rewrite test_only; exact Ht|exact IH].
    - apply XElse; [rewrite test_only; exact Ht|exact IH].
    - apply XDone; rewrite test_only; exact Ht.
    - eapply XLoop; [rewrite test_only; exact Ht|exact IH1|exact IH2].
  Qed.
  Lemma Forall2_refl_on (st : list (ss S)) : Forall2 reorders st st.
  Proof. induction st; constructor; auto. apply reorders_refl. Qed.
  Lemma programs_only s st st1 st1' : List.Forall keys_ok st ->
    s_execs O s st st1 -> s_execs O s (map on st) st1' -> Forall2 (only_reads O p) st1 st1'.
  Proof.
    intros K R R'. pose proof (execs_only _ _ _ R) as Q. pose proof (execs_keys O _ _ _ R K) as K1.
    assert (K' : List.Forall keys_ok (map on st)). { clear - K. induction K; cbn; constructor; auto. apply keys_ok_only. assumption. }
    pose proof (execs_unique O _ _ _ Q _ _ K' (Forall2_refl_on _) R') as F.
    unfold allk in *. clear - K1 F. revert st1' F. induction st1 as [|x st1 IH]; cbn; intros st1' F; inversion F; subst; constructor.
    - apply only_reads_re; [inversion K1; assumption|assumption].
    - inversion K1; subst. apply IH; assumption.
  Qed.

  (** *** sessions *)
  Notation ho := (zonly_heap p).
  Lemma zget_only (st : zheap S) r : zget (ho st) r = match zget st r with Some (o, x) => Some (o, on x) | None => None end.
  Proof. unfold zget. cbn. destruct (znames st r) as [o|]; [|reflexivity]. rewrite nth_error_map. destruct (nth_error (zobjs st) o); reflexivity. Qed.
  Lemma znew_only (st : zheap S) r x : znew (ho st) r (on x) = ho (znew st r x).
  Proof. unfold znew, zonly_heap. cbn. rewrite map_app, map_length. reflexivity. Qed.
  Lemma zput_only (st : zheap S) o x : zput (ho st) o (on x) = ho (zput st o x).
  Proof. unfold zput, zonly_heap. cbn. rewrite put_only. reflexivity. Qed.
  Lemma zstep_only s st : zstep O (zonly p s) (ho st) = (fst (zstep O s st), ho (snd (zstep O s st))).
  Proof.
    destruct s; cbn [zonly zstep]; rewrite ?zget_only.
    - cbn [fst snd]. rewrite <- znew_only. reflexivity.
    - cbn [fst snd]. rewrite <- znew_only. reflexivity.
    - destruct (p k) eqn:E; cbn [zstep fst snd]; rewrite <- znew_only; unfold only, s_variable, s_ctor, s_constant; cbn; rewrite E; reflexivity.
    - destruct (zget st a) as [(o, x)|]; reflexivity.
    - destruct (zget st a) as [(o, x)|]; cbn [fst snd]; [|reflexivity]. rewrite u_only, znew_only. reflexivity.
    - destruct (zget st a1) as [(o, x)|]; cbn [fst snd]; [|reflexivity]. destruct (zget st a2) as [(o', y)|]; cbn [fst snd]; [|reflexivity].
      rewrite b_only, znew_only. reflexivity.
    - destruct (zget st a1) as [(o, x)|]; cbn [fst snd]; [|reflexivity]. destruct (zget st a2) as [(o', y)|]; cbn [fst snd]; [|reflexivity].
      destruct (zget st a3) as [(o'', z)|]; cbn [fst snd]; [|reflexivity]. rewrite h_only, znew_only. reflexivity.
    - destruct (zget st a) as [(oa, y)|]; cbn [fst snd]; [|reflexivity]. destruct (zget st r) as [(o', x)|]; cbn [fst snd]; [|reflexivity].
      assert (Q : (if Nat.eqb oa o' then None else Some (on y)) = option_map on (if Nat.eqb oa o' then None else Some y)) by (destruct (Nat.eqb oa o'); reflexivity).
      rewrite Q, assign_only, zput_only. reflexivity.
    - destruct (zget st r) as [(o', x)|]; cbn [fst snd]; [|reflexivity].
      destruct o; cbn [fst snd]; rewrite ?u_only, ?assign_s_only, ?znew_only, ?zput_only; reflexivity.
  Qed.
  Lemma zsession_only w : forall st, zsession O (map (zonly p) w) (ho st) = ho (zsession O w st).
  Proof. induction w as [|s w IH]; cbn; intros st; [reflexivity|]. rewrite zstep_only. cbn [snd]. apply IH. Qed.
  Lemma session_only w : zsession O (map (zonly p) w) zstart = ho (zsession O w zstart).
  Proof. exact (zsession_only w zstart). Qed.
End Only.

(** *** the derivative by one name *)
Section At.
  Context {S : Type} (O : Ops S) (k : string).
  Notation pk := (String.eqb k).
  Lemma same_at_only x y : keys_ok x -> keys_ok y -> same_at O k x y -> only pk x = only pk y.
  Proof.
    destruct x as [f t], y as [f' t']. intros Kx Ky (E & D & N). cbn in E. subst f'. unfold only. cbn [s_f s_d]. f_equal.
    unfold names, s_get_d, keys_ok, names in *. cbn [s_d] in *.
    assert (Q : forall t : table S, NoDup (map fst t) -> keep pk t = match t_find t k with Some v => [(k, v)] | None => [] end).
    { clear. unfold keep. induction t as [|(k0, v) t IH]; cbn; intros H; [reflexivity|]. inversion H; subst. rewrite String.eqb_sym.
      destruct (String.eqb_spec k0 k) as [->|Nk]; [|apply IH; assumption]. rewrite IH by assumption.
      destruct (t_find t k) as [w|] eqn:E; [|reflexivity]. exfalso. apply H2. clear - E.
      induction t as [|(k1, w1) t IH]; cbn in *; [discriminate|]. destruct (String.eqb_spec k1 k) as [->|]; auto. }
    rewrite !Q by assumption.
    assert (P : forall t : table S, In k (map fst t) <-> t_find t k <> None).
    { clear. induction t as [|(k0, v) t IH]; cbn; [intuition|]. destruct (String.eqb_spec k0 k) as [->|N]; [intuition congruence|].
      rewrite <- IH. intuition congruence. }
    rewrite !P in N. destruct (t_find t k), (t_find t' k); try congruence; exfalso.
    - apply (proj2 N); [discriminate|reflexivity].
    - apply (proj1 N); [discriminate|reflexivity].
  Qed.
  Lemma only_same_at x y z : only_reads O pk x z -> only_reads O pk y z -> same_at O k x y.
  Proof.
    intros (E & D & N) (E' & D' & N'). split; [congruence|]. specialize (D k (String.eqb_refl k)). specialize (D' k (String.eqb_refl k)).
    split; [congruence|]. specialize (N k). specialize (N' k). rewrite String.eqb_refl in N, N'. tauto.
  Qed.
End At.
Lemma runs_ext {S} (O : Ops S) env env' e x : (forall i, occurs i e -> env i = env' i) -> s_runs O env e x -> s_runs O env' e x.
Proof.
  intros H R. induction R as [i x Rx|s x Rx|u e x y R IH Rx|b e1 e2 x1 x2 y R1 IH1 R2 IH2 Rx
                             |e1 e2 e3 x1 x2 x3 y R1 IH1 R2 IH2 R3 IH3 Rx]; cbn in H.
  - apply RVar. rewrite <- H by reflexivity. exact Rx.
  - apply RConst, Rx.
  - eapply RU; [apply IH; exact H|exact Rx].
  - eapply RB; [apply IH1; auto|apply IH2; auto|exact Rx].
  - eapply RH; [apply IH1; auto|apply IH2; auto|apply IH3; auto|exact Rx].
Qed.
Lemma expressions_local {S} (O : Ops S) k env env' e x y : (forall i, keys_ok (env i)) -> (forall i, keys_ok (env' i)) ->
  (forall i, occurs i e -> same_at O k (env i) (env' i)) -> s_runs O env e x -> s_runs O env' e y -> same_at O k x y.
Proof.
  intros K K' H R R'.
  pose proof (runs_only O (String.eqb k) _ _ _ R) as Q. pose proof (runs_only O (String.eqb k) _ _ _ R') as Q'.
  apply (only_same_at O k x y (only (String.eqb k) x)).
  - apply only_reads_re; [eapply runs_keys; [exact K|exact R]|apply reorders_refl].
  - eapply expressions_only; [exact K'|exact R'|]. eapply runs_ext; [|exact Q].
    intros i Hi. cbn. apply same_at_only with O; auto.
Qed.
Lemma programs_local {S} (O : Ops S) k s st st' st1 st1' : List.Forall keys_ok st -> List.Forall keys_ok st' ->
  Forall2 (same_at O k) st st' -> s_execs O s st st1 -> s_execs O s st' st1' -> Forall2 (same_at O k) st1 st1'.
Proof.
  intros K K' H R R'.
  assert (E : map (only (String.eqb k)) st = map (only (String.eqb k)) st').
  { clear R R'. revert K K'. induction H; cbn; intros K K'; [reflexivity|]. inversion K; inversion K'; subst.
    f_equal; [apply same_at_only with O; assumption|auto]. }
  pose proof (execs_only O (String.eqb k) _ _ _ R) as Q. pose proof (programs_only O (String.eqb k) _ _ _ _ K R Q) as F.
  rewrite E in Q. pose proof (programs_only O (String.eqb k) _ _ _ _ K' R' Q) as F'.
  clear - F F'. revert st1' F'. set (z := map (only (String.eqb k)) st1) in *. clearbody z.
  induction F; intros st1' F'; inversion F'; subst; constructor; auto. eapply only_same_at; eassumption.
Qed.
