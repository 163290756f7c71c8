(** Facts about [SScalar]. *)
From Coq Require Import ZArith List Bool String Permutation Reals Lra Lia.
From Coquelicot Require Import Coquelicot.
From Verif Require Import Outcome Scalar Model Spec Core Kernels OpsRep AccRep PadRep RealOps Deriv UDeriv BDeriv
  FactsLayout FactsCtor FactsOps ExprSpec Expr Struct FactsExpr Chain FactsReal Cont ProgSpec Prog FactsProg ModelS SpecS.
Import ListNotations.
Open Scope string_scope. Open Scope list_scope.

Section Tables.
  Context {S : Type} (O : Ops S).
  Implicit Types (t b : table S) (k : string).
  Definition keys t := map fst t.
  Definition dflt (o : option S) : S := match o with Some v => v | None => o_Z O 0 end.

  Lemma find_map f t k : t_find (t_map f t) k = option_map f (t_find t k).
  Proof.
    induction t as [|(k', v) t IH]; cbn; [reflexivity|]. destruct (String.eqb k' k); [reflexivity|exact IH].
  Qed.
  Lemma find_update t k f k' :
    t_find (t_update O t k f) k' = if String.eqb k k' then Some (f (dflt (t_find t k))) else t_find t k'.
  Proof.
    induction t as [|(k0, v) t IH]; cbn; [reflexivity|].
    destruct (String.eqb_spec k0 k) as [->|Hk]; cbn; destruct (String.eqb_spec k k') as [->|Hk'];
      try (rewrite ?String.eqb_refl; reflexivity).
    - rewrite (proj2 (String.eqb_neq k0 k') Hk). rewrite IH. reflexivity.
    - rewrite IH. reflexivity.
  Qed.
  Lemma find_none t k : t_find t k = None <-> ~ In k (keys t).
  Proof.
    unfold keys. induction t as [|(k0, v) t IH]; cbn; [tauto|]. destruct (String.eqb_spec k0 k) as [->|H].
    - split; [discriminate|tauto].
    - rewrite IH. intuition.
  Qed.
  Lemma find_in t k v : NoDup (keys t) -> (t_find t k = Some v <-> In (k, v) t).
  Proof.
    unfold keys. induction t as [|(k0, v0) t IH]; cbn; intros H; [split; [discriminate|tauto]|].
    inversion H as [|? ? Hn Hd]; subst. destruct (String.eqb_spec k0 k) as [->|Hk].
    - split; [intros E; injection E as ->; auto|]. intros [E|E]; [congruence|].
      exfalso. apply Hn. change k with (fst (k, v)). apply in_map, E.
    - rewrite (IH Hd). split; [auto|]. intros [E|E]; [congruence|exact E].
  Qed.
  Lemma find_merge g t b k : NoDup (keys b) ->
    t_find (t_merge O g t b) k =
      match t_find b k with None => t_find t k | Some v => Some (g (dflt (t_find t k)) v) end.
  Proof.
    unfold t_merge. revert t. induction b as [|(k0, v) b IH]; cbn; intros t H; [reflexivity|].
    inversion H as [|? ? Hn Hd]; subst. rewrite IH by exact Hd. rewrite !find_update.
    destruct (String.eqb_spec k0 k) as [->|Hk]; [|reflexivity].
    apply find_none in Hn. rewrite Hn. reflexivity.
  Qed.
  Lemma keys_map f t : keys (t_map f t) = keys t.
  Proof. unfold keys, t_map. rewrite map_map. apply map_ext. intros (k, v). reflexivity. Qed.
  Lemma in_keys t k : In k (keys t) <-> exists v, t_find t k = Some v.
  Proof.
    destruct (t_find t k) as [v|] eqn:E.
    - split; [intros _; exists v; reflexivity|]. intros _.
      destruct (in_dec string_dec k (keys t)) as [H|H]; [exact H|]. apply find_none in H. congruence.
    - split; [intros H|intros (v & H); discriminate]. apply find_none in E. contradiction.
  Qed.
  Lemma keys_update t k f : NoDup (keys t) -> NoDup (keys (t_update O t k f)).
  Proof.
    induction t as [|(k0, v) t IH]; cbn; intros H; [repeat constructor; auto|].
    inversion H as [|? ? Hn Hd]; subst. destruct (String.eqb_spec k0 k) as [->|Hk]; [exact H|].
    cbn. constructor; [|apply IH, Hd]. rewrite <- find_none, find_update.
    rewrite (proj2 (String.eqb_neq k k0)) by congruence. apply find_none, Hn.
  Qed.
  Lemma keys_merge g t b : NoDup (keys t) -> NoDup (keys (t_merge O g t b)).
  Proof.
    unfold t_merge. revert t. induction b as [|(k0, v) b IH]; cbn; intros t H; [exact H|].
    apply IH, keys_update, H.
  Qed.
  Lemma in_keys_merge g t b k : NoDup (keys b) ->
    (In k (keys (t_merge O g t b)) <-> In k (keys t) \/ In k (keys b)).
  Proof.
    intros H. rewrite !in_keys, find_merge by exact H. destruct (t_find b k) as [v|].
    - split; [intros _; right; exists v; reflexivity|]. intros _. eexists; reflexivity.
    - split; [auto|]. intros [E|(v & E)]; [exact E|discriminate].
  Qed.
  Lemma keys_of_perm t t' : Permutation t t' -> Permutation (keys t) (keys t').
  Proof. apply Permutation_map. Qed.

  Lemma perm_find t t' : NoDup (keys t) ->
    (Permutation t t' <-> NoDup (keys t') /\ forall k, t_find t k = t_find t' k).
  Proof.
    intros H. split.
    - intros P. assert (H' : NoDup (keys t')) by (eapply Permutation_NoDup; [apply keys_of_perm, P|exact H]).
      split; [exact H'|]. intros k. destruct (t_find t k) as [v|] eqn:E; symmetry.
      + apply find_in; [exact H'|]. eapply Permutation_in; [exact P|]. apply find_in; assumption.
      + apply find_none. apply find_none in E. intros F. apply E.
        eapply Permutation_in; [apply Permutation_sym, keys_of_perm, P|exact F].
    - intros (H' & F). apply NoDup_Permutation.
      + eapply NoDup_map_inv. exact H.
      + eapply NoDup_map_inv. exact H'.
      + intros (k, v). rewrite <- !find_in by assumption. rewrite F. tauto.
  Qed.

  Lemma update_mid pre k v suf f : ~ In k (keys pre) ->
    t_update O (pre ++ (k, v) :: suf) k f = pre ++ (k, f v) :: suf.
  Proof.
    induction pre as [|(k0, v0) pre IH]; cbn; intros H.
    - rewrite String.eqb_refl. reflexivity.
    - rewrite (proj2 (String.eqb_neq k0 k)) by tauto. rewrite IH by tauto. reflexivity.
  Qed.
  Lemma fold_self_gen f suf : forall pre, NoDup (keys (pre ++ suf)) ->
    fold_left (fun t k => t_update O t k f) (keys suf) (pre ++ suf) = pre ++ t_map f suf.
  Proof.
    induction suf as [|(k, v) suf IH]; cbn; intros pre H; [reflexivity|].
    rewrite update_mid.
    - replace (pre ++ (k, f v) :: suf) with ((pre ++ [(k, f v)]) ++ suf) by (rewrite <- app_assoc; reflexivity).
      unfold keys in IH. rewrite IH; [rewrite <- app_assoc; reflexivity|].
      rewrite <- app_assoc. cbn. unfold keys in *. rewrite map_app in *. exact H.
    - unfold keys in H. rewrite map_app in H. cbn in H. apply NoDup_remove_2 in H. rewrite in_app_iff in H. tauto.
  Qed.
  Lemma fold_self f t : NoDup (keys t) -> fold_left (fun t k => t_update O t k f) (map fst t) t = t_map f t.
  Proof. intros H. exact (fold_self_gen f t [] H). Qed.
  Lemma merge_self g t : NoDup (keys t) -> t_merge_self O g t = t_map (fun o => g o o) t.
  Proof. intros H. exact (fold_self (fun o => g o o) t H). Qed.
  Lemma map_map_t f g t : t_map f (t_map g t) = t_map (fun v => f (g v)) t.
  Proof. unfold t_map. rewrite map_map. apply map_ext. intros (k, v). reflexivity. Qed.
  Lemma map_ext_t f g t : (forall v, f v = g v) -> t_map f t = t_map g t.
  Proof. intros H. apply map_ext. intros (k, v). rewrite H. reflexivity. Qed.
End Tables.

(** ** C31 *)
Section Names.
  Context {S : Type} (O : Ops S).
  Implicit Types (x y z : ss S).

  Lemma get_d_dflt x k : s_get_d O x k = dflt O (t_find (s_d x) k).
  Proof. reflexivity. Qed.

  (** Every unary function maps the table entry by entry. *)
  Lemma unary_shape u x : exists f F, s_apply_u O u x = mks f (t_map F (s_d x)).
  Proof.
    assert (I : forall t : table S, t = t_map (fun v => v) t).
    { intros t. unfold t_map. rewrite <- (map_id t) at 1. apply map_ext. intros (k, v). reflexivity. }
    destruct x as [xf xd]. destruct u; cbn; unfold s_abs, s_neg, s_adds, s_sadd, s_subs, s_ssub, s_muls, s_smul, s_divs, s_sdiv, s_unary; cbn;
      try destruct (o_lt O _ (o_Z O 0));
      try (eexists; eexists; reflexivity);
      (eexists; exists (fun v => v); apply (f_equal2 mks); [reflexivity|exact (I xd)]).
  Qed.
  Lemma names_u u x : names (s_apply_u O u x) = names x.
  Proof. destruct (unary_shape u x) as (f & F & ->). apply keys_map. Qed.

  (** Value and coefficients of the two-operand functions. *)
  Definition sk_b (b : bfun) (u v : S) : S * S * S :=
    let one := o_Z O 1 in
    match b with
    | Badd => (o_add O u v, one, one)
    | Bsub => (o_sub O u v, one, o_Z O (-1))
    | Bmul => (o_mul O u v, v, u)
    | Bdiv => (o_mul O u (o_div O one v), o_div O one v, o_div O (o_neg O u) (o_pow O v (o_Z O 2)))
    | Batan2 => let tmp := o_add O (o_mul O u u) (o_mul O v v) in
                (o_atan2 O u v, o_div O v tmp, o_div O (o_neg O u) tmp)
    | Bhypot => let f := o_hypot O u v in (f, o_div O u f, o_div O v f)
    end.
  Lemma binary_shape b x y : s_apply_b O b x y =
    let '(f, da, db) := sk_b b (s_f x) (s_f y) in mks f (s_binary O (s_d x) (s_d y) da db).
  Proof. destruct b; reflexivity. Qed.
  Lemma names_b b x y k : keys_ok y ->
    (In k (names (s_apply_b O b x y)) <-> In k (names x) \/ In k (names y)).
  Proof.
    intros H. rewrite binary_shape. destruct (sk_b b (s_f x) (s_f y)) as ((f, da), db).
    change (names ?z) with (keys (s_d z)). cbn [s_d]. unfold s_binary. rewrite in_keys_merge by exact H.
    rewrite keys_map. tauto.
  Qed.
  Lemma names_h x y z k : keys_ok y -> keys_ok z ->
    (In k (names (s_hypot3 O x y z)) <-> In k (names x) \/ In k (names y) \/ In k (names z)).
  Proof.
    intros H H'. change (names ?z) with (keys (s_d z)). cbn [s_d s_hypot3]. unfold s_ternary.
    rewrite !in_keys_merge by assumption. rewrite keys_map. tauto.
  Qed.
  Lemma keys_ok_u u x : keys_ok x -> keys_ok (s_apply_u O u x).
  Proof. unfold keys_ok. rewrite names_u. auto. Qed.
  Lemma keys_ok_b b x y : keys_ok x -> keys_ok (s_apply_b O b x y).
  Proof.
    intros H. rewrite binary_shape. destruct (sk_b b (s_f x) (s_f y)) as ((f, da), db).
    unfold keys_ok. change (names ?z) with (keys (s_d z)). cbn [s_d]. apply keys_merge. rewrite keys_map. exact H.
  Qed.
  Lemma keys_ok_h x y z : keys_ok x -> keys_ok (s_hypot3 O x y z).
  Proof.
    intros H. unfold keys_ok. change (names ?z) with (keys (s_d z)). cbn [s_d s_hypot3]. apply keys_merge, keys_merge.
    rewrite keys_map. exact H.
  Qed.
  Lemma keys_ok_var k v : keys_ok (s_variable O k v).
  Proof. repeat constructor. auto. Qed.
  Lemma keys_ok_const v : keys_ok (@s_constant S v).
  Proof. constructor. Qed.

  Lemma lookup_spec : forall name other v,
    (s_get_f (s_variable O name v) = v /\ s_get_d O (s_variable O name v) name = o_Z O 1 /\
     s_size (s_variable O name v) = 1%Z) /\
    (other <> name -> s_get_d O (s_variable O name v) other = o_Z O 0) /\
    (s_get_f (s_constant v) = v /\ s_get_d O (s_constant v) name = o_Z O 0 /\ s_size (s_constant v) = 0%Z).
  Proof.
    intros name other v. cbn. unfold s_get_d. cbn. rewrite String.eqb_refl. repeat split.
    intros H. rewrite (proj2 (String.eqb_neq name other)) by congruence. reflexivity.
  Qed.
  Lemma absent_zero x k : ~ In k (names x) -> s_get_d O x k = o_Z O 0.
  Proof. intros H. apply find_none in H. unfold s_get_d. rewrite H. reflexivity. Qed.
  Lemma stored_value x k v : keys_ok x -> In (k, v) (s_d x) -> s_get_d O x k = v.
  Proof. intros H Hi. apply find_in in Hi; [|exact H]. unfold s_get_d. rewrite Hi. reflexivity. Qed.
  Lemma size_counts x : s_size x = Z.of_nat (List.length (names x)).
  Proof. unfold s_size, names. rewrite map_length. reflexivity. Qed.

  Lemma names_run env e k : (forall i, occurs i e -> keys_ok (env i)) ->
    keys_ok (s_run O env e) /\
    (In k (names (s_run O env e)) <-> exists i, occurs i e /\ In k (names (env i))).
  Proof.
    induction e as [i|s|u e IH|b e1 IH1 e2 IH2|e1 IH1 e2 IH2 e3 IH3]; cbn [s_run occurs]; intros H.
    - split; [apply H; reflexivity|]. split; [intros Hk; exists i; auto|]. intros (j & -> & Hk). exact Hk.
    - split; [constructor|]. cbn. split; [tauto|]. intros (j & [] & _).
    - destruct (IH H) as (K & E). split; [apply keys_ok_u, K|]. rewrite names_u. exact E.
    - destruct (IH1 (fun i Hi => H i (or_introl Hi))) as (K1 & E1).
      destruct (IH2 (fun i Hi => H i (or_intror Hi))) as (K2 & E2).
      split; [apply keys_ok_b, K1|]. rewrite names_b, E1, E2 by exact K2. firstorder.
    - destruct (IH1 (fun i Hi => H i (or_introl Hi))) as (K1 & E1).
      destruct (IH2 (fun i Hi => H i (or_intror (or_introl Hi)))) as (K2 & E2).
      destruct (IH3 (fun i Hi => H i (or_intror (or_intror Hi)))) as (K3 & E3).
      split; [apply keys_ok_h, K1|]. rewrite names_h, E1, E2, E3 by assumption. firstorder.
  Qed.
End Names.

(** ** C33: independence of the iteration order *)
Section Order.
  Context {S : Type} (O : Ops S).
  Implicit Types (x y z : ss S).

  Lemma reorders_iff x y : keys_ok x ->
    (reorders x y <-> s_f x = s_f y /\ keys_ok y /\ forall k, t_find (s_d x) k = t_find (s_d y) k).
  Proof. intros H. unfold reorders. rewrite (perm_find (s_d x) (s_d y) H). reflexivity. Qed.
  Lemma reorders_refl x : reorders x x. Proof. split; reflexivity. Qed.
  Lemma reorders_sym x y : reorders x y -> reorders y x.
  Proof. intros (H & P). split; [auto|apply Permutation_sym, P]. Qed.
  Lemma reorders_trans x y z : reorders x y -> reorders y z -> reorders x z.
  Proof. intros (H & P) (H' & P'). split; [congruence|eapply Permutation_trans; eassumption]. Qed.
  Lemma reorders_keys x y : keys_ok x -> reorders x y -> keys_ok y.
  Proof. intros H R. apply (reorders_iff x y H) in R. apply R. Qed.
  Lemma reorders_reads x y : keys_ok x -> reorders x y -> same_reads O x y.
  Proof.
    intros H R. pose proof (proj2 R) as P. apply (reorders_iff x y H) in R. destruct R as (F & _ & D). split; [exact F|]. split.
    - unfold s_size. rewrite (Permutation_length P). reflexivity.
    - intros k. unfold s_get_d. rewrite D. reflexivity.
  Qed.

  Lemma map_reorders f F x y : Permutation (s_d x) (s_d y) -> reorders (mks f (t_map F (s_d x))) (mks f (t_map F (s_d y))).
  Proof. intros P. split; [reflexivity|]. apply Permutation_map, P. Qed.
  Lemma u_reorders u x y : reorders x y -> reorders (s_apply_u O u x) (s_apply_u O u y).
  Proof.
    destruct x as [xf xd], y as [yf yd]. intros (E & P). cbn [s_f s_d] in *. subst yf.
    destruct u; cbn [s_apply_u];
      unfold s_unary_op, sk_pow, sk_sqrt, sk_cbrt, sk_reciprocal, sk_cos, sk_sin, sk_tan, sk_acos, sk_asin, sk_atan,
        sk_cosh, sk_sinh, sk_tanh, sk_acosh, sk_asinh, sk_atanh, sk_exp, sk_log, sk_logb, sk_log2, sk_log10,
        s_abs, s_neg, s_adds, s_sadd, s_subs, s_ssub, s_muls, s_smul, s_divs, s_sdiv, s_unary; cbn [s_f s_d];
      try destruct (o_lt O xf (o_Z O 0));
      (split; [reflexivity|]); cbn [s_d]; unfold s_adds, s_muls; cbn [s_d]; first [exact P|apply Permutation_map, P].
  Qed.
  Lemma merge_perm g t t' b b' : NoDup (keys t) -> NoDup (keys b) -> Permutation t t' -> Permutation b b' ->
    Permutation (t_merge O g t b) (t_merge O g t' b').
  Proof.
    intros Ht Hb P P'. apply (perm_find t t' Ht) in P. apply (perm_find b b' Hb) in P'. destruct P as (Ht' & F), P' as (Hb' & F').
    apply perm_find; [apply keys_merge, Ht|]. split; [apply keys_merge, Ht'|]. intros k.
    rewrite !find_merge by assumption. rewrite F, F'. reflexivity.
  Qed.
  Lemma nodup_map F (t : table S) : NoDup (keys t) -> NoDup (keys (t_map F t)).
  Proof. rewrite keys_map. auto. Qed.
  Lemma b_reorders b x y x' y' : keys_ok x -> keys_ok y -> reorders x x' -> reorders y y' ->
    reorders (s_apply_b O b x y) (s_apply_b O b x' y').
  Proof.
    intros Kx Ky (E & P) (E' & P'). rewrite !binary_shape, <- E, <- E'.
    destruct (sk_b O b (s_f x) (s_f y)) as ((f, da), db). split; [reflexivity|]. cbn [s_d].
    apply merge_perm; [apply nodup_map, Kx|exact Ky|apply Permutation_map, P|exact P'].
  Qed.
  Lemma h_reorders x y z x' y' z' : keys_ok x -> keys_ok y -> keys_ok z -> reorders x x' -> reorders y y' -> reorders z z' ->
    reorders (s_hypot3 O x y z) (s_hypot3 O x' y' z').
  Proof.
    intros Kx Ky Kz (E & P) (E' & P') (E'' & P''). unfold s_hypot3. rewrite <- E, <- E', <- E''. split; [reflexivity|]. cbn [s_d].
    unfold s_ternary. apply merge_perm; [apply keys_merge, nodup_map, Kx|exact Kz| |exact P''].
    apply merge_perm; [apply nodup_map, Kx|exact Ky|apply Permutation_map, P|exact P'].
  Qed.
  Lemma assign_reorders o x x' b b' : keys_ok x -> reorders x x' ->
    match b, b' with Some y, Some y' => keys_ok y /\ reorders y y' | None, None => True | _, _ => False end ->
    reorders (s_assign O o x b) (s_assign O o x' b').
  Proof.
    intros Kx R H. pose proof (reorders_keys _ _ Kx R) as Kx'. destruct R as (E & P). destruct b as [y|], b' as [y'|]; try contradiction.
    - destruct H as (Ky & E' & P'). destruct o; cbn [s_assign]; unfold s_add_assign, s_sub_assign, s_mul_assign, s_div_assign;
        rewrite <- ?E, <- ?E'; (split; [reflexivity|]); cbn [s_d]; apply merge_perm;
        first [exact Ky|exact Kx|exact P'|exact P|apply nodup_map, Kx|apply Permutation_map, P].
    - destruct o; cbn [s_assign]; unfold s_add_assign, s_sub_assign, s_mul_assign, s_div_assign;
        rewrite <- ?E; (split; [reflexivity|]); cbn [s_d]; rewrite !merge_self by
          first [exact Kx|exact Kx'|apply nodup_map; first [exact Kx|exact Kx']];
        repeat apply Permutation_map; exact P.
  Qed.
  Lemma assign_s_reorders o x x' s : keys_ok x -> reorders x x' -> reorders (s_assign_s O o x s) (s_assign_s O o x' s).
  Proof.
    intros Kx R. pose proof (reorders_keys _ _ Kx R) as Kx'. destruct R as (E & P).
    destruct o; cbn [s_assign_s]; unfold s_adds_assign, s_subs_assign, s_divs_assign, s_muls_assign; rewrite <- ?E;
      (split; [reflexivity|]); cbn [s_d]; rewrite ?fold_self by assumption; first [exact P|apply Permutation_map, P].
  Qed.
  Lemma keys_ok_assign o x b : keys_ok x -> keys_ok (s_assign O o x b).
  Proof.
    intros K. unfold keys_ok. change (names ?z) with (keys (s_d z)).
    destruct b as [y|], o; cbn [s_assign]; unfold s_add_assign, s_sub_assign, s_mul_assign, s_div_assign; cbn [s_d];
      rewrite ?merge_self by first [exact K|apply nodup_map, K];
      repeat first [apply keys_merge|apply nodup_map]; exact K.
  Qed.
  Lemma keys_ok_assign_s o x s : keys_ok x -> keys_ok (s_assign_s O o x s).
  Proof.
    intros K. unfold keys_ok. change (names ?z) with (keys (s_d z)).
    destruct o; cbn [s_assign_s]; unfold s_adds_assign, s_subs_assign, s_divs_assign, s_muls_assign; cbn [s_d];
      rewrite ?fold_self by exact K; try apply nodup_map; exact K.
  Qed.

  Lemma scalar_inplace o x s : keys_ok x -> (o = Asub -> forall a b, o_sub O a b = o_add O a (o_neg O b)) ->
    s_assign_s O o x s = s_apply_u O (match o with Aadd => Uadds s | Asub => Usubs s | Amul => Umuls s | Adiv => Udivs s end) x.
  Proof.
    intros K H. destruct o; cbn [s_assign_s s_apply_u].
    - reflexivity.
    - unfold s_subs_assign, s_subs, s_sadd, s_adds. rewrite H by reflexivity. reflexivity.
    - unfold s_muls_assign, s_muls. rewrite fold_self by exact K. reflexivity.
    - unfold s_divs_assign, s_muls_assign, s_divs, s_smul, s_muls. rewrite fold_self by exact K. reflexivity.
  Qed.
  Lemma runs_keys env e x : (forall i, keys_ok (env i)) -> s_runs O env e x -> keys_ok x.
  Proof.
    intros H R. induction R; (eapply reorders_keys; [|eassumption]).
    - apply H. - constructor. - apply keys_ok_u, IHR. - apply keys_ok_b, IHR1. - apply keys_ok_h, IHR1.
  Qed.
  Lemma runs_unique env env' e x : (forall i, keys_ok (env i)) -> (forall i, reorders (env i) (env' i)) ->
    s_runs O env e x -> forall y, s_runs O env' e y -> reorders x y.
  Proof.
    intros H HE R. assert (H' : forall i, keys_ok (env' i)) by (intros i; eapply reorders_keys; [apply H|apply HE]).
    induction R as [i x Rx|s x Rx|u e x y R IH Rx|b e1 e2 x1 x2 y R1 IH1 R2 IH2 Rx|e1 e2 e3 x1 x2 x3 y R1 IH1 R2 IH2 R3 IH3 Rx];
      intros w Hw; inversion Hw; subst;
      (eapply reorders_trans; [apply reorders_sym, Rx|]); (eapply reorders_trans; [|eassumption]).
    - apply HE.
    - apply reorders_refl.
    - apply u_reorders. auto.
    - apply b_reorders; eauto using runs_keys.
    - apply h_reorders; eauto using runs_keys.
  Qed.
  Lemma run_runs env e : s_runs O env e (s_run O env e).
  Proof.
    induction e; cbn [s_run]; econstructor; try eassumption; apply reorders_refl.
  Qed.
  Lemma order_free env env' e x y : (forall i, keys_ok (env i)) -> (forall i, reorders (env i) (env' i)) ->
    s_runs O env e x -> s_runs O env' e y -> same_reads O x y.
  Proof.
    intros H HE R R'. apply reorders_reads; [eapply runs_keys; eassumption|]. eapply runs_unique; eassumption.
  Qed.

  (** Programs. *)
  Definition allk (st : list (ss S)) := List.Forall keys_ok st.
  Lemma get_cases (st : list (ss S)) r x : get st r = Ok x -> nth_error st r = Some x.
  Proof. unfold get. destruct (nth_error st r); congruence. Qed.
  Lemma get_keys st r x : allk st -> get st r = Ok x -> keys_ok x.
  Proof. intros H E. apply get_cases, nth_error_In in E. eapply List.Forall_forall in H; eassumption. Qed.
  Lemma get_rel st st' r x y : Forall2 reorders st st' -> get st r = Ok x -> get st' r = Ok y -> reorders x y.
  Proof.
    intros H E E'. apply get_cases in E, E'. revert r x y E E'. induction H as [|a b st st' Hab H IH]; intros [|r] x y E E'; cbn in *;
      try discriminate; [congruence|eauto].
  Qed.
  Ltac inv_bind H := repeat (let E := fresh "E" in let a := fresh "v" in apply bind_ok_inv in H; destruct H as (a & E & H); cbv beta in H).
  Lemma write_rel st st' r m m' st1 st1' : Forall2 reorders st st' -> s_write st r m = Ok st1 -> s_write st' r m' = Ok st1' ->
    (forall x x', m = Ok x -> m' = Ok x' -> reorders x x') -> Forall2 reorders st1 st1'.
  Proof.
    intros H E E' HM. unfold s_write in *. apply bind_ok_inv in E, E'. destruct E as (a & Ea & E), E' as (a' & Ea' & E').
    apply bind_ok_inv in E, E'. destruct E as (b & Eb & E), E' as (b' & Eb' & E'). injection E as <-. injection E' as <-.
    apply put_Forall2; auto.
  Qed.
  Lemma write_keys st r m st1 : allk st -> s_write st r m = Ok st1 -> (forall x, m = Ok x -> keys_ok x) -> allk st1.
  Proof.
    intros H E HM. unfold s_write in *. apply bind_ok_inv in E. destruct E as (a & Ea & E).
    apply bind_ok_inv in E. destruct E as (b & Eb & E). injection E as <-. apply put_Forall; auto.
  Qed.
  Lemma step_keys s st st1 : allk st -> s_step O s st = Ok st1 -> allk st1.
  Proof.
    intros H E. destruct s; cbn [s_step] in E; try (injection E as <-; exact H);
      (eapply write_keys; [exact H|exact E|]); intros w Ew.
    - injection Ew as <-. apply keys_ok_const.
    - eapply get_keys; eassumption.
    - apply bind_ok_inv in Ew. destruct Ew as (x & Ex & Ew). injection Ew as <-. apply keys_ok_u. eapply get_keys; eassumption.
    - apply bind_ok_inv in Ew. destruct Ew as (x & Ex & Ew). apply bind_ok_inv in Ew. destruct Ew as (y & Ey & Ew). injection Ew as <-.
      apply keys_ok_b. eapply get_keys; eassumption.
    - apply bind_ok_inv in Ew. destruct Ew as (x & Ex & Ew). apply bind_ok_inv in Ew. destruct Ew as (y & Ey & Ew).
      apply bind_ok_inv in Ew. destruct Ew as (z & Ez & Ew). injection Ew as <-.
      apply keys_ok_h. eapply get_keys; eassumption.
    - apply bind_ok_inv in Ew. destruct Ew as (x & Ex & Ew). apply bind_ok_inv in Ew. destruct Ew as (y & Ey & Ew). injection Ew as <-.
      apply keys_ok_assign. eapply get_keys; eassumption.
    - apply bind_ok_inv in Ew. destruct Ew as (x & Ex & Ew). injection Ew as <-. apply keys_ok_assign_s. eapply get_keys; eassumption.
  Qed.
  Lemma step_rel s st st' st1 st1' : allk st -> Forall2 reorders st st' -> s_step O s st = Ok st1 -> s_step O s st' = Ok st1' ->
    Forall2 reorders st1 st1'.
  Proof.
    intros K H E E'. destruct s; cbn [s_step] in E, E'; try (injection E as <-; injection E' as <-; exact H);
      (eapply write_rel; [exact H|exact E|exact E'|]); intros w w' Ew Ew'.
    - injection Ew as <-. injection Ew' as <-. apply reorders_refl.
    - eapply get_rel; eassumption.
    - apply bind_ok_inv in Ew, Ew'. destruct Ew as (x & Ex & Ew), Ew' as (x' & Ex' & Ew'). injection Ew as <-. injection Ew' as <-.
      apply u_reorders. eapply get_rel; eassumption.
    - apply bind_ok_inv in Ew, Ew'. destruct Ew as (x & Ex & Ew), Ew' as (x' & Ex' & Ew').
      apply bind_ok_inv in Ew, Ew'. destruct Ew as (y & Ey & Ew), Ew' as (y' & Ey' & Ew'). injection Ew as <-. injection Ew' as <-.
      apply b_reorders; eauto using get_keys, get_rel.
    - apply bind_ok_inv in Ew, Ew'. destruct Ew as (x & Ex & Ew), Ew' as (x' & Ex' & Ew').
      apply bind_ok_inv in Ew, Ew'. destruct Ew as (y & Ey & Ew), Ew' as (y' & Ey' & Ew').
      apply bind_ok_inv in Ew, Ew'. destruct Ew as (z & Ez & Ew), Ew' as (z' & Ez' & Ew'). injection Ew as <-. injection Ew' as <-.
      apply h_reorders; eauto using get_keys, get_rel.
    - apply bind_ok_inv in Ew, Ew'. destruct Ew as (x & Ex & Ew), Ew' as (x' & Ex' & Ew').
      apply bind_ok_inv in Ew, Ew'. destruct Ew as (y & Ey & Ew), Ew' as (y' & Ey' & Ew'). injection Ew as <-. injection Ew' as <-.
      apply assign_reorders; eauto using get_keys, get_rel. destruct (Nat.eqb a r); [exact I|]. eauto using get_keys, get_rel.
    - apply bind_ok_inv in Ew, Ew'. destruct Ew as (x & Ex & Ew), Ew' as (x' & Ex' & Ew'). injection Ew as <-. injection Ew' as <-.
      apply assign_s_reorders; eauto using get_keys, get_rel.
  Qed.
  Lemma test_rel k st st' b b' : Forall2 reorders st st' -> s_test O k st = Ok b -> s_test O k st' = Ok b' -> b = b'.
  Proof.
    intros H E E'. assert (G : forall r x y, get st r = Ok x -> get st' r = Ok y -> s_f x = s_f y)
      by (intros r x y Ex Ey; apply (get_rel st st' r x y H Ex Ey)).
    destruct k; cbn [s_test] in *.
    - apply bind_ok_inv in E, E'. destruct E as (x & Ex & E), E' as (x' & Ex' & E').
      apply bind_ok_inv in E, E'. destruct E as (y & Ey & E), E' as (y' & Ey' & E'). injection E as <-. injection E' as <-.
      unfold ss_compare. rewrite (G _ _ _ Ex Ex'), (G _ _ _ Ey Ey'). reflexivity.
    - apply bind_ok_inv in E, E'. destruct E as (x & Ex & E), E' as (x' & Ex' & E'). injection E as <-. injection E' as <-.
      unfold ss_compare_s. rewrite (G _ _ _ Ex Ex'). reflexivity.
    - apply bind_ok_inv in E, E'. destruct E as (x & Ex & E), E' as (x' & Ex' & E'). injection E as <-. injection E' as <-.
      unfold s_compare_ss, ss_compare_s. rewrite (G _ _ _ Ex Ex'). reflexivity.
  Qed.
  Lemma Forall2_rel_trans (a b c : list (ss S)) : Forall2 reorders a b -> Forall2 reorders b c -> Forall2 reorders a c.
  Proof.
    intros H. revert c. induction H; intros c H'; inversion H'; subst; constructor; eauto using reorders_trans.
  Qed.
  Lemma Forall2_rel_sym (a b : list (ss S)) : Forall2 reorders a b -> Forall2 reorders b a.
  Proof. intros H. induction H; constructor; auto using reorders_sym. Qed.
  Lemma Forall2_rel_keys st st' : allk st -> Forall2 reorders st st' -> allk st'.
  Proof.
    intros K H. induction H; [constructor|]. inversion K; subst. constructor; [eapply reorders_keys; eassumption|]. apply IHForall2. assumption.
  Qed.
  Lemma execs_keys s st st1 : s_execs O s st st1 -> allk st -> allk st1.
  Proof.
    intros X. induction X; intros K; auto. eapply Forall2_rel_keys; [|eassumption]. eapply step_keys; eassumption.
  Qed.
  Lemma execs_unique s st st1 : s_execs O s st st1 -> forall st' st1', allk st -> Forall2 reorders st st' ->
    s_execs O s st' st1' -> Forall2 reorders st1 st1'.
  Proof.
    intros X. induction X as [s st st1 st2 B E R|s1 s2 st st1 st2 X1 IH1 X2 IH2|b s1 s2 st st1 T X IH|b s1 s2 st st1 T X IH|b s1 st T|b s1 st st1 st2 T X1 IH1 X2 IH2];
      intros st' st1' K H X'.
    - inversion X'; subst; try contradiction B.
      eapply Forall2_rel_trans; [apply Forall2_rel_sym, R|]. eapply Forall2_rel_trans; [|eassumption]. eapply step_rel; eassumption.
    - inversion X'; subst; [match goal with B : basic _ |- _ => contradiction B end|].
      eapply IH2; [eapply execs_keys; eassumption| |eassumption]. eapply IH1; eassumption.
    - inversion X'; subst; [match goal with B : basic _ |- _ => contradiction B end|eapply IH; eassumption|].
      assert (true = false) by (eapply test_rel; eassumption). discriminate.
    - inversion X'; subst; [match goal with B : basic _ |- _ => contradiction B end| |eapply IH; eassumption].
      assert (false = true) by (eapply test_rel; eassumption). discriminate.
    - inversion X'; subst; [match goal with B : basic _ |- _ => contradiction B end|exact H|].
      assert (false = true) by (eapply test_rel; eassumption). discriminate.
    - inversion X'; subst; [match goal with B : basic _ |- _ => contradiction B end| |].
      + assert (true = false) by (eapply test_rel; eassumption). discriminate.
      + eapply IH2; [eapply execs_keys; eassumption| |eassumption]. eapply IH1; eassumption.
  Qed.
  Lemma exec_execs fuel : forall s st st1, s_exec O fuel s st = Some (Ok st1) -> s_execs O s st st1.
  Proof.
    assert (RR : forall l : list (ss S), Forall2 reorders l l) by (induction l; constructor; auto using reorders_refl).
    induction fuel as [|k IH]; intros s st st1 E; [discriminate|]. cbn [s_exec] in E.
    destruct s; try (injection E as E; eapply XStep; [exact I|first [exact E|rewrite <- E; reflexivity]|apply RR]).
    - destruct (s_exec O k s1 st) as [[st0| | |]|] eqn:E1; try discriminate. eapply XSeq; eapply IH; eassumption.
    - destruct (s_test O k0 st) as [[]| | |] eqn:T; try discriminate; [eapply XThen|eapply XElse]; eauto.
    - destruct (s_test O k0 st) as [[]| | |] eqn:T; try discriminate.
      + destruct (s_exec O k s st) as [[st0| | |]|] eqn:E1; try discriminate. eapply XLoop; eauto.
      + injection E as <-. apply XDone, T.
  Qed.
  Lemma order_free_programs s st st' st1 st1' : List.Forall keys_ok st -> Forall2 reorders st st' ->
    s_execs O s st st1 -> s_execs O s st' st1' -> Forall2 (same_reads O) st1 st1'.
  Proof.
    intros K H X X'. pose proof (execs_unique s st st1 X st' st1' K H X') as R. pose proof (execs_keys s st st1 X K) as K1.
    clear -R K1. induction R; constructor; inversion K1; subst; auto using reorders_reads.
  Qed.
End Order.
