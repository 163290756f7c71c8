(** Initialisation of members: what the strict reading changes, and that the size member of static numbers never matters. *)
From Coq Require Import ZArith List Bool Lia String.
From Verif Require Import Outcome Scalar Model ModelObj Spec Core Kernels OpsRep AccRep ProgSpec ParamSpec FactsParam ModelStrict FactsLayout FactsCtor.
Import ListNotations.
Open Scope Z_scope.
Open Scope res_scope.

Section Copies.
  Context {S : Type} (O : Ops S) (c : cfg).

  Lemma copy_full (vs : list S) : copy_data (full vs) = Ok (full vs).
  Proof. unfold copy_data, full. replace (forallb _ _) with true; [reflexivity|]. induction vs; cbn; auto. Qed.
  Lemma full_repeat (v : S) n : repeat (Some v) n = full (repeat v n).
  Proof. unfold full. induction n; cbn; congruence. Qed.
  Lemma copy_repeat (v : S) n : copy_data (repeat (Some v) n) = Ok (repeat (Some v) n).
  Proof. rewrite full_repeat. apply copy_full. Qed.
  Lemma copy_uninit : cfg_ok c -> is_dynamic c = false -> copy_data (@array_uninit S c) = UB.
  Proof.
    intros [Ho Hs] D. unfold copy_data, array_uninit. assert (0 < StaticDataSize c).
    { unfold is_dynamic in D. apply Z.eqb_neq in D. unfold StaticDataSize. destruct (c_ord c =? 1); [lia|].
      rewrite Z.quot_div_nonneg by nia. apply Z.div_str_pos. nia. }
    destruct (Z.to_nat _) eqn:E; [lia|]. reflexivity.
  Qed.
  (** Writing into initialised storage keeps it initialised. *)
  Definition settled (d : data S) : Prop := copy_data d = Ok d.
  Lemma settled_all d : settled d <-> forallb (fun a => match a with Some _ => true | None => false end) d = true.
  Proof. unfold settled, copy_data. destruct (forallb _ d); split; auto; discriminate. Qed.
  Lemma wr_settled d i v d' : settled d -> wr d i v = Ok d' -> settled d'.
  Proof.
    intros H%settled_all. unfold wr. destruct (_ || _); [discriminate|]. intros [= <-]. apply settled_all.
    revert H. generalize (Z.to_nat i). induction d as [|a d IH]; intros [|n] H; cbn in *; auto.
    - apply andb_true_iff in H. apply H.
    - apply andb_true_iff in H as [-> H]. cbn. apply IH, H.
  Qed.
End Copies.

Section Dynamic.
  Context {S : Type} (O : Ops S) (c : cfg).
  Hypothesis D : is_dynamic c = true.

  Local Notation usable := (@usable S c).
  Lemma usable_mk n d : settled d -> usable (mko (Some n) d) (mk n d).
  Proof.
    unfold settled. intros H. split; [split; [reflexivity|]; rewrite D; reflexivity|]. unfold copy_obj. cbn. rewrite H. reflexivity.
  Qed.
  Lemma usable_inv x y : usable x y -> exists n d, x = mko (Some n) d /\ y = mk n d /\ settled d.
  Proof.
    destruct x as [m d], y as [n d']. intros [[E1 E2] E3]. rewrite D in E2. cbn in *. subst. exists n, d'. split; [reflexivity|].
    split; [reflexivity|]. unfold copy_obj in E3. cbn in E3. unfold settled, copy_data in *. destruct (forallb _ _); [reflexivity|discriminate].
  Qed.
  Lemma default_dyn : usable (default_o O c) (ctor_default O c).
  Proof. unfold default_o, ctor_default. rewrite D. apply usable_mk. reflexivity. Qed.
  Lemma scalar_dyn f : res_rel usable (scalar_o O c f) (ctor_scalar O c f).
  Proof. unfold scalar_o, default_o, ctor_scalar. rewrite D. cbn. apply usable_mk. reflexivity. Qed.
  Lemma sized_dyn (vs : list S) n : res_rel usable (sized_o (full vs) n) (Ok (mk n (full vs))).
  Proof. unfold sized_o. rewrite copy_full. cbn [bind]. apply usable_mk. apply copy_full. Qed.
  Lemma create_dyn (vs : list S) : res_rel usable (create_o c (full vs)) (create c (full vs)).
  Proof.
    unfold create_o, create. rewrite D. apply (bind_par eq); [apply refl_par|]. intros s s' <-.
    exact (sized_dyn vs s).
  Qed.
  Lemma empty_dyn n : res_rel usable (empty_o O c n) (empty_n O c n).
  Proof.
    unfold empty_o, empty_n. rewrite D. apply (bind_par eq); [apply refl_par|]. intros s s' <-. unfold vec_new.
    destruct (_ || _); [exact eq_refl|]. cbn [bind]. unfold sized_o. rewrite copy_repeat. cbn [bind]. apply usable_mk, copy_repeat.
  Qed.
  Lemma zero_dyn n : res_rel usable (zero_o O c n) (zero_n O c n).
  Proof. generalize (empty_dyn n). unfold empty_o, empty_n, zero_o, zero_n. rewrite D. exact id. Qed.
  Lemma write_dyn x y i v : usable x y ->
    res_rel usable (d <- wr (ob_data x) i v ;; Ok (mko (ob_size x) d)) (d <- wr (m_data y) i v ;; Ok (mk (m_size y) d)).
  Proof.
    intros (n & d & -> & -> & H)%usable_inv. cbn [ob_data ob_size m_data m_size]. destruct (wr d i v) eqn:E; cbn; auto.
    apply usable_mk. exact (wr_settled _ _ _ _ H E).
  Qed.
  Lemma constant_dyn f n : res_rel usable (constant_o O c f n) (constant_n O c f n).
  Proof.
    unfold constant_o, constant_n, set_f. rewrite D. apply (bind_par usable); [apply zero_dyn|]. intros x y H. exact (write_dyn x y 0 f H).
  Qed.
  Lemma variable_dyn i f n : res_rel usable (variable_o O c i f n) (variable_n O c i f n).
  Proof.
    assert (E : variable_n O c i f n = (r <- constant_n O c f n ;; set_g c r i (o_Z O 1))).
    { unfold variable_n, constant_n. rewrite D. destruct (zero_n O c n); reflexivity. }
    rewrite E. unfold variable_o. apply (bind_par usable); [apply constant_dyn|]. intros x y H. unfold set_g.
    replace (size_o c x) with (Ok (size c y)).
    2:{ destruct (usable_inv _ _ H) as (m & d & -> & -> & _). unfold size_o, size. rewrite D. reflexivity. }
    cbn [bind]. apply (bind_par eq); [apply refl_par|]. intros _ _ _. apply (bind_par eq); [apply refl_par|]. intros k k' <-.
    exact (write_dyn x y k _ H).
  Qed.
  Lemma variables_dyn vs : res_rel (Forall2 usable) (variables_o O c vs) (variables O c vs) /\
    variables_array_o O c vs = variables_o O c vs.
  Proof.
    assert (HA : variables_array_o O c vs = variables_o O c vs) by (unfold variables_o; rewrite D; reflexivity).
    split; [|exact HA]. rewrite <- HA. unfold variables_array_o, variables. rewrite D. cbn [bind].
    clear HA. generalize (Z.of_nat (List.length vs)) as n. intros n. generalize 0. induction vs as [|v vs IH]; intros i; cbn [variables_from].
    { constructor. }
    apply (bind_par usable); [apply variable_dyn|]. intros x y [H1 H2]. rewrite H2. cbn [bind].
    apply (bind_par (Forall2 usable)); [apply IH|]. intros xs ys H. cbn. constructor; [split|]; assumption.
  Qed.
End Dynamic.

(** C77, dynamic types *)
Lemma dynamic_initialised {S} (O : Ops S) c : is_dynamic c = true ->
  usable c (default_o O c) (ctor_default O c) /\
  (forall f, res_rel (usable c) (scalar_o O c f) (ctor_scalar O c f)) /\
  (forall (vs : list S) n, res_rel (usable c) (sized_o (full vs) n) (Ok (mk n (full vs)))) /\
  (forall vs : list S, res_rel (usable c) (create_o c (full vs)) (create c (full vs))) /\
  (forall n, res_rel (usable c) (empty_o O c n) (empty_n O c n)) /\
  (forall n, res_rel (usable c) (zero_o O c n) (zero_n O c n)) /\
  (forall f n, res_rel (usable c) (constant_o O c f n) (constant_n O c f n)) /\
  (forall i f n, res_rel (usable c) (variable_o O c i f n) (variable_n O c i f n)) /\
  (forall vs, res_rel (Forall2 (usable c)) (variables_o O c vs) (variables O c vs) /\ variables_array_o O c vs = variables_o O c vs).
Proof.
  intros D. split; [apply default_dyn, D|]. split; [intros; apply scalar_dyn, D|]. split; [intros; apply sized_dyn, D|].
  split; [intros; apply create_dyn, D|]. split; [intros; apply empty_dyn, D|]. split; [intros; apply zero_dyn, D|].
  split; [intros; apply constant_dyn, D|]. split; [intros; apply variable_dyn, D|]. intros; apply variables_dyn, D.
Qed.

Section Static.
  Context {S : Type} (O : Ops S) (c : cfg).
  Hypothesis D : is_dynamic c = false.

  Local Notation stuck := (@stuck S c).
  Lemma stuck_mk n d : stuck (mko None d) (mk n d).
  Proof. split; [split; [reflexivity|]; rewrite D; reflexivity|reflexivity]. Qed.
  Lemma stuck_inv x y : stuck x y -> exists n d, x = mko None d /\ y = mk n d.
  Proof. destruct x as [m d], y as [n d']. intros [[E1 E2] _]. rewrite D in E2. cbn in *. subst. eauto. Qed.
  Lemma default_sta : stuck (default_o O c) (ctor_default O c).
  Proof. unfold default_o, ctor_default. rewrite D. apply stuck_mk. Qed.
  Lemma scalar_sta f : res_rel stuck (scalar_o O c f) (ctor_scalar O c f).
  Proof.
    unfold scalar_o, default_o, ctor_scalar. rewrite D. cbn [ob_data ob_size]. apply (bind_par eq); [apply refl_par|]. intros d d' <-.
    apply (bind_par eq); [apply refl_par|]. intros e e' <-. apply stuck_mk.
  Qed.
  Lemma data_sta (vs : list S) : res_rel stuck (data_o (full vs)) (Ok (mk (c_tsize c) (full vs))).
  Proof. unfold data_o. rewrite copy_full. apply stuck_mk. Qed.
  Lemma create_sta (vs : list S) : res_rel stuck (create_o c (full vs)) (create c (full vs)).
  Proof.
    unfold create_o, create. rewrite D. apply (bind_par eq); [apply refl_par|]. intros s s' <-.
    apply (bind_par eq); [apply refl_par|]. intros _ _ _. exact (data_sta vs).
  Qed.
  Lemma zero_sta n : res_rel stuck (zero_o O c n) (zero_n O c n).
  Proof.
    unfold zero_o, zero_n, zero. rewrite D. apply (bind_par eq); [apply refl_par|]. intros _ _ _. unfold data_o. rewrite copy_repeat.
    apply stuck_mk.
  Qed.
  Lemma write_sta x y i v : stuck x y ->
    res_rel stuck (d <- wr (ob_data x) i v ;; Ok (mko (ob_size x) d)) (d <- wr (m_data y) i v ;; Ok (mk (m_size y) d)).
  Proof.
    intros (n & d & -> & ->)%stuck_inv. cbn [ob_data ob_size m_data m_size]. destruct (wr d i v); cbn; auto. apply stuck_mk.
  Qed.
  Lemma constant_zero f n : constant_n O c f n = (r <- zero_n O c n ;; set_f r f).
  Proof. unfold constant_n, zero_n, constant. rewrite D. destruct (check_valid_size c n); reflexivity. Qed.
  Lemma constant_sta f n : res_rel stuck (constant_o O c f n) (constant_n O c f n).
  Proof.
    rewrite constant_zero. unfold constant_o, set_f. apply (bind_par stuck); [apply zero_sta|]. intros x y H. exact (write_sta x y 0 f H).
  Qed.
  Lemma variable_sta i f n : res_rel stuck (variable_o O c i f n) (variable_n O c i f n).
  Proof.
    assert (E : variable_n O c i f n = (r <- constant_n O c f n ;; set_g c r i (o_Z O 1))).
    { unfold variable_n, constant_n, variable, constant. rewrite D. destruct (check_valid_size c n); reflexivity. }
    rewrite E. unfold variable_o. apply (bind_par stuck); [apply constant_sta|]. intros x y H. unfold set_g, size_o, size.
    rewrite D. cbn [bind]. apply (bind_par eq); [apply refl_par|]. intros _ _ _. apply (bind_par eq); [apply refl_par|]. intros k k' <-.
    exact (write_sta x y k _ H).
  Qed.
  Lemma list_sta (vs : list S) :
    res_rel (fun x y => ob_data x = m_data y /\ ob_size x = Some (m_size y)) (list_o c vs) (ctor_list c vs).
  Proof.
    unfold list_o, ctor_list. rewrite D. apply (bind_par eq); [apply refl_par|]. intros s s' <-.
    apply (bind_par eq); [apply refl_par|]. intros d d' <-. split; reflexivity.
  Qed.
  Lemma empty_sta n : cfg_ok c -> size_ok c n -> empty_o O c (Z.of_nat n) = UB.
  Proof.
    intros Hc Hn. unfold empty_o. rewrite D, check_valid_size_ok by exact Hn. cbn [bind]. unfold data_o. rewrite copy_uninit by assumption.
    reflexivity.
  Qed.
  Lemma variables_sta vs : cfg_ok c -> size_ok c (List.length vs) -> vs <> [] -> variables_o O c vs = UB /\ variables_array_o O c vs = UB.
  Proof.
    intros Hc Hn NE. assert (HA : variables_array_o O c vs = UB).
    { unfold variables_array_o. destruct vs as [|v vs]; [contradiction|]. set (n := List.length (v :: vs)) in *. cbn [variables_from].
      destruct (variable_n_rep O c n 0 v Hn ltac:(unfold n; cbn; lia)) as (y & E & _). change (Z.of_nat 0) with 0 in E.
      generalize (variable_sta 0 v (Z.of_nat n)). rewrite E. destruct (variable_o O c 0 v (Z.of_nat n)) as [x| | |]; try contradiction.
      intros [_ H]. cbn [bind]. rewrite H. reflexivity. }
    split; [|exact HA]. unfold variables_o. rewrite D. replace (Z.of_nat (List.length vs) =? c_tsize c) with true.
    - unfold assert_. rewrite andb_false_r. exact HA.
    - symmetry. apply Z.eqb_eq. symmetry. apply Hn, D.
  Qed.
End Static.

(** The size member of a static number is never read. *)
Section Irrelevant.
  Context {S : Type} (O : Ops S) (c : cfg).
  Hypothesis D : is_dynamic c = false.
  Notation sd := (@same_data S).

  Lemma sd_refl x : sd x x. Proof. reflexivity. Qed.
  Lemma sd_mk z z' d : sd (mk z d) (mk z' d). Proof. reflexivity. Qed.
  Lemma res_sd m : res_rel sd m m. Proof. destruct m; cbn; auto. reflexivity. Qed.
  Lemma same_bind {X} (m : res X) (k k' : X -> res (dd S)) :
    (forall a, res_rel sd (k a) (k' a)) -> res_rel sd (bind m k) (bind m k').
  Proof. intros H. apply (bind_par eq); [apply refl_par|]. intros a b <-. apply H. Qed.
  Lemma size_sta (x : dd S) : size c x = c_tsize c. Proof. unfold size. rewrite D. reflexivity. Qed.

  Lemma set_f_sd x y v : sd x y -> res_rel sd (set_f x v) (set_f y v).
  Proof. unfold same_data, set_f. intros ->. apply same_bind. intros d. apply sd_mk. Qed.
  Lemma unary_sd inc x y : sd x y -> unary O c inc x = unary O c inc y.
  Proof. intros _. unfold unary, data_length, size. rewrite D. reflexivity. Qed.
  Lemma binary_sd inc x y : sd x y -> binary O c inc x = binary O c inc y.
  Proof. intros _. unfold binary, data_length, size. rewrite D. reflexivity. Qed.
  Lemma ternary_sd inc x y : sd x y -> ternary O c inc x = ternary O c inc y.
  Proof. intros _. unfold ternary, data_length, size. rewrite D. reflexivity. Qed.
  Lemma unary_op_sd F x y : sd x y -> unary_op O c F x = unary_op O c F y.
  Proof. intros H. unfold unary_op, get_f. rewrite (unary_sd false x y H), !size_sta, H. reflexivity. Qed.
  Lemma div_sd x y x' y' : sd x x' -> sd y y' -> div O c x y = div O c x' y'.
  Proof. intros H H'. unfold div, get_f. rewrite (binary_sd false x x' H), !size_sta, H, H'. reflexivity. Qed.
  Lemma binary_op_sd b F x y x' y' : sd x x' -> sd y y' -> binary_op O c b F x y = binary_op O c b F x' y'.
  Proof. intros H H'. unfold binary_op, get_f. rewrite (binary_sd false x x' H), !size_sta, H, H'. reflexivity. Qed.
  Lemma hypot3_sd x y z x' y' z' : sd x x' -> sd y y' -> sd z z' -> hypot3 O c x y z = hypot3 O c x' y' z'.
  Proof. intros H H' H''. unfold hypot3, get_f. rewrite (ternary_sd false x x' H), !size_sta, H, H', H''. reflexivity. Qed.
  Lemma neg_sd x y : sd x y -> neg O c x = neg O c y.
  Proof. intros H. unfold neg, data_length. rewrite !size_sta, D, H. reflexivity. Qed.
  Lemma adds_sd x y b : sd x y -> res_rel sd (adds O x b) (adds O y b).
  Proof.
    intros H. unfold adds. replace (get_f y) with (get_f x) by (unfold get_f; rewrite H; reflexivity). apply same_bind. intros a.
    apply set_f_sd, H.
  Qed.
  Lemma muls_sd x y b : sd x y -> muls O c x b = muls O c y b.
  Proof. intros H. unfold muls, data_length. rewrite !size_sta, D, H. reflexivity. Qed.
  Lemma ssub_sd x y b : sd x y -> ssub O c b x = ssub O c b y.
  Proof. intros H. unfold ssub. rewrite !size_sta, H. reflexivity. Qed.
  Lemma apply_u_sd u x y : sd x y -> res_rel sd (apply_u O c u x) (apply_u O c u y).
  Proof.
    intros H. destruct u; cbn [apply_u]; unfold sadd, subs, smul, divs, sdiv, sadd;
      try (rewrite (unary_op_sd _ x y H); apply res_sd); try (apply adds_sd, H).
    - rewrite (neg_sd x y H). apply res_sd.
    - unfold Model.abs. replace (get_f y) with (get_f x) by (unfold get_f; rewrite H; reflexivity). apply same_bind. intros v.
      destruct (o_lt O v _); [rewrite (neg_sd x y H); apply res_sd|exact H].
    - rewrite (ssub_sd x y _ H). apply res_sd.
    - rewrite (muls_sd x y _ H). apply res_sd.
    - rewrite (muls_sd x y _ H). apply res_sd.
    - unfold smul. rewrite (muls_sd x y _ H). apply res_sd.
  Qed.
  Lemma apply_b_sd b x y x' y' : sd x x' -> sd y y' -> apply_b O c b x y = apply_b O c b x' y'.
  Proof. intros H H'. destruct b; first [apply (binary_op_sd _ _ x y x' y' H H') | apply (div_sd x y x' y' H H')]. Qed.

  Definition oref_sd (b b' : option (dd S)) : Prop := match b, b' with Some x, Some y => sd x y | None, None => True | _, _ => False end.
  Lemma ref_of_sd b b' : oref_sd b b' -> ref_of b = ref_of b'.
  Proof. destruct b, b'; cbn; try contradiction; [intros ->|]; reflexivity. Qed.
  Lemma ref_size_sta (x : dd S) b : ref_size c x b = c_tsize c.
  Proof. destruct b; cbn; apply size_sta. Qed.
  Lemma assign_sd o x y b b' : sd x y -> oref_sd b b' -> res_rel sd (assign O c o x b) (assign O c o y b').
  Proof.
    intros H Hb. pose proof (ref_of_sd b b' Hb) as E. destruct o; cbn [assign].
    - unfold add_assign. rewrite !ref_size_sta, !size_sta, E, H. apply same_bind. intros _. apply same_bind. intros d. apply sd_mk.
    - unfold sub_assign. rewrite !ref_size_sta, !size_sta, E, H. apply same_bind. intros _. apply same_bind. intros d. apply sd_mk.
    - unfold mul_assign, ref_f. rewrite !ref_size_sta, !size_sta, E, H. repeat (apply same_bind; intro).
      destruct (c_ord c =? 1); [apply sd_mk|]. apply same_bind. intros [it d]. apply sd_mk.
    - unfold div_assign, ref_f. rewrite !ref_size_sta, !size_sta, E, (binary_sd false x y H), H. repeat (apply same_bind; intro).
      apply sd_mk.
  Qed.
  Lemma assign_s_sd o x y v : sd x y -> res_rel sd (assign_s O o x v) (assign_s O o y v).
  Proof.
    intros H. destruct o; cbn [assign_s]; unfold adds_assign, subs_assign, divs_assign, muls_assign, sderef, get_f, set_f; rewrite H;
      repeat (apply same_bind; intro); apply sd_mk.
  Qed.
  Lemma set_h1_sd x y i v : sd x y -> res_rel sd (set_h1 c x i v) (set_h1 c y i v).
  Proof.
    intros H. unfold set_h1, idx_h1. rewrite !size_sta, H. apply same_bind. intros k. apply same_bind. intros d. apply sd_mk.
  Qed.
  Lemma set_h_sd x y i j v : sd x y -> res_rel sd (set_h c x i j v) (set_h c y i j v).
  Proof.
    intros H. unfold set_h, idx_h. rewrite !size_sta, H. apply same_bind. intros k. apply same_bind. intros d. apply sd_mk.
  Qed.
  Lemma set_g_sd x y i v : sd x y -> res_rel sd (set_g c x i v) (set_g c y i v).
  Proof.
    intros H. unfold set_g. rewrite !size_sta, H. repeat (apply same_bind; intro). apply sd_mk.
  Qed.
  Lemma set_hm_sd x y m : sd x y -> res_rel sd (set_hm c x m) (set_hm c y m).
  Proof.
    intros H. unfold set_hm. rewrite !size_sta. apply (bind_par (pair_rel eq sd)).
    - apply for_par; [|split; [reflexivity|exact H]]. intros i st st' Hst. apply for_par; [|exact Hst].
      intros j [it u] [it' u'] [E1 E2]. cbn [fst snd] in *. subst it'.
      apply (bind_par eq); [apply refl_par|]. intros v v' <-. apply (bind_par sd); [apply set_h1_sd, E2|]. intros w w' E3. split; [reflexivity|exact E3].
    - intros [it u] [it' u'] [E1 E2]. exact E2.
  Qed.
  Lemma set_zero_sd x y : sd x y -> res_rel sd (set_zero O x) (set_zero O y).
  Proof. intros H. unfold set_zero. rewrite H. apply same_bind. intros d. apply sd_mk. Qed.

  (** All methods that only read. *)
  Lemma observers_sd x y : sd x y ->
    get_f x = get_f y /\ (forall i, get_g c x i = get_g c y i /\ get_g_mut c x i = get_g_mut c y i /\ get_h1 c x i = get_h1 c y i) /\
    (forall i j, get_h c x i j = get_h c y i j) /\ (forall mode, hm O c x mode = hm O c y mode) /\ get_ag c x = get_ag c y /\
    (forall d, eval O c x d = eval O c y d) /\ size c x = size c y /\ data_length c x = data_length c y /\
    (forall o z, compare O o x z = compare O o y z /\ compare O o z x = compare O o z y).
  Proof.
    destruct x as [z d], y as [z' d']. unfold same_data. cbn [m_data]. intros <-.
    assert (Hg : forall i, get_g c (mk z d) i = get_g c (mk z' d) i) by (intros; unfold get_g; rewrite !size_sta; reflexivity).
    assert (Hh : forall i, get_h1 c (mk z d) i = get_h1 c (mk z' d) i) by (intros; unfold get_h1, idx_h1; rewrite !size_sta; reflexivity).
    split; [reflexivity|]. split; [intros; split; [apply Hg|]; split; [unfold get_g_mut; rewrite !size_sta; reflexivity|apply Hh]|].
    split; [intros; unfold get_h, idx_h; rewrite !size_sta; reflexivity|].
    split; [intros; unfold hm, get_h1, idx_h1; rewrite !size_sta; reflexivity|].
    split; [unfold get_ag; rewrite !size_sta; reflexivity|].
    split; [intros; unfold eval, get_g; rewrite !size_sta; reflexivity|].
    split; [rewrite !size_sta; reflexivity|]. split; [unfold data_length; rewrite D; reflexivity|]. intros; split; reflexivity.
  Qed.
End Irrelevant.

(** C77: sessions on heaps that differ only in the size members of static numbers. *)
Section Sessions.
  Context {S : Type} (O : Ops S) (c : cfg) (slack : nat -> nat).
  Hypothesis D : is_dynamic c = false.

  Definition out_alike (a b : out S) : Prop :=
    match a, b with
    | Done st, Done st' => alike st st'
    | Raised e st, Raised e' st' => e = e' /\ alike st st'
    | Aborted, Aborted | Wild, Wild => True
    | _, _ => False
    end.
  Lemma alike_refl (st : heap S) : alike st st. Proof. repeat split. Qed.
  Lemma objs_at (l l' : list (Z * nat)) o : map snd l = map snd l' ->
    match nth_error l o, nth_error l' o with Some (_, b), Some (_, b') => b = b' | None, None => True | _, _ => False end.
  Proof.
    revert l' o. induction l as [|[z b] l IH]; intros [|[z' b'] l'] [|o]; cbn; intros E; try discriminate; try exact I.
    - injection E; auto.
    - injection E as _ E. apply IH, E.
  Qed.
  Lemma put_objs (l l' : list (Z * nat)) o z z' b : map snd l = map snd l' -> map snd (put l o (z, b)) = map snd (put l' o (z', b)).
  Proof.
    revert l' o. induction l as [|[? ?] l IH]; intros [|[? ?] l'] [|o]; cbn; intros E; try discriminate; auto.
    - injection E as _ E. f_equal. exact E.
    - injection E as E1 E. f_equal; [exact E1|]. apply IH, E.
  Qed.
  Lemma fresh_alike (st st' : heap S) r x y : alike st st' -> same_data x y -> alike (fresh slack st r x) (fresh slack st' r y).
  Proof.
    intros (E1 & E2 & E3 & E4) H. unfold fresh, alike. cbn [objs bufs names views]. rewrite !map_app, E1, E2, E3, E4, H. cbn [map snd].
    replace (List.length (objs st')) with (List.length (objs st)); [repeat split|]. rewrite <- (map_length snd), E1, map_length. reflexivity.
  Qed.
  Lemma store_alike (st st' : heap S) o b k x y : alike st st' -> same_data x y -> alike (store st o b k x) (store st' o b k y).
  Proof.
    intros (E1 & E2 & E3 & E4) H. unfold store, alike. cbn [objs bufs names views]. rewrite E2, E3, E4, H.
    split; [|repeat split]. apply put_objs, E1.
  Qed.
  Lemma load_alike (st st' : heap S) o : alike st st' -> res_rel same_data (load st o) (load st' o).
  Proof.
    intros (E1 & E2 & _). unfold load. generalize (objs_at _ _ o E1). rewrite E2.
    destruct (nth_error (objs st) o) as [[z b]|], (nth_error (objs st') o) as [[z' b']|]; try contradiction; [|exact (fun _ => I)].
    intros <-. destruct (nth_error (bufs st') b) as [[[d k]|]|]; exact I || reflexivity.
  Qed.
  Lemma lift_alike {X Y} (Q : X -> Y -> Prop) (st st' : heap S) m m' (k : X -> out S) (k' : Y -> out S) : alike st st' -> res_rel Q m m' ->
    (forall a b, Q a b -> out_alike (k a) (k' b)) -> out_alike (lift st m k) (lift st' m' k').
  Proof. intros A H HK. destruct m, m'; cbn in *; try contradiction; auto. subst. split; [reflexivity|exact A]. Qed.
  Lemma obj_of_alike (st st' : heap S) r k k' : alike st st' -> (forall o, out_alike (k o) (k' o)) -> out_alike (obj_of st r k) (obj_of st' r k').
  Proof.
    intros A H. unfold obj_of. destruct A as (E1 & E2 & E3 & E4). rewrite E3. destruct (names st' r); [apply H|]. split; [reflexivity|].
    repeat split; assumption.
  Qed.
  Lemma arg_alike (st st' : heap S) r k k' : alike st st' -> (forall x y, same_data x y -> out_alike (k x) (k' y)) ->
    out_alike (arg st r k) (arg st' r k').
  Proof.
    intros A H. unfold arg. apply obj_of_alike; [exact A|]. intros o. eapply lift_alike; [exact A|apply load_alike, A|exact H].
  Qed.
  Lemma make_alike (st st' : heap S) r m m' : alike st st' -> res_rel same_data m m' -> out_alike (make slack st r m) (make slack st' r m').
  Proof. intros A H. unfold make. eapply lift_alike; [exact A|exact H|]. intros x y E. apply fresh_alike; assumption. Qed.
  Lemma make_eq (st st' : heap S) r m : alike st st' -> out_alike (make slack st r m) (make slack st' r m).
  Proof. intros A. apply make_alike; [exact A|]. apply res_sd. Qed.
  Lemma inplace_alike (st st' : heap S) r f f' : alike st st' ->
    (forall o x y, same_data x y -> res_rel same_data (f o x) (f' o y)) -> out_alike (inplace st r f) (inplace st' r f').
  Proof.
    intros A H. unfold inplace. apply obj_of_alike; [exact A|]. intros o. generalize (objs_at _ _ o (proj1 A)).
    destruct (nth_error (objs st) o) as [[z b]|], (nth_error (objs st') o) as [[z' b']|]; try contradiction; [|exact (fun _ => I)].
    intros <-. pose proof (proj1 (proj2 A)) as EB. rewrite EB. destruct (nth_error (bufs st') b) as [[[d k]|]|]; try exact I.
    eapply lift_alike; [exact A|apply H; reflexivity|]. intros x y E. apply store_alike; assumption.
  Qed.
  Lemma raised_alike e (st st' : heap S) : alike st st' -> out_alike (Raised e st) (Raised e st').
  Proof. intros A. split; [reflexivity|exact A]. Qed.

  Lemma pstep_alike s st st' : alike st st' -> out_alike (pstep O c slack s st) (pstep O c slack s st').
  Proof.
    intros A. destruct s; cbn [pstep]; rewrite ?D; cbn [negb andb].
    - apply make_eq, A.
    - apply make_eq, A.
    - apply make_eq, A.
    - destruct (negb _); [apply raised_alike, A|apply make_eq, A].
    - apply obj_of_alike; [exact A|]. intros o. unfold bound. destruct A as (E1 & E2 & E3 & E4). cbn. rewrite E2, E3, E4. repeat split. exact E1.
    - apply arg_alike; [exact A|]. intros x y H. apply fresh_alike; assumption.
    - apply arg_alike; [exact A|]. intros x y H. apply make_alike; [exact A|]. apply apply_u_sd; assumption.
    - apply arg_alike; [exact A|]. intros x x' Hx. apply arg_alike; [exact A|]. intros y y' Hy.
      rewrite (apply_b_sd O c D b x y x' y' Hx Hy). apply make_eq, A.
    - apply arg_alike; [exact A|]. intros x x' Hx. apply arg_alike; [exact A|]. intros y y' Hy. apply arg_alike; [exact A|]. intros z z' Hz.
      rewrite (hypot3_sd O c D x y z x' y' z' Hx Hy Hz). apply make_eq, A.
    - apply raised_alike, A.
    - apply raised_alike, A.
    - apply obj_of_alike; [exact A|]. intros oa. apply inplace_alike; [exact A|]. intros ob x y H.
      destruct (Nat.eqb oa ob); [apply assign_sd; [exact D|exact H|exact I]|].
      apply (bind_par same_data); [apply load_alike, A|]. intros u v Huv. apply assign_sd; assumption.
    - destruct o; try (apply inplace_alike; [exact A|]; intros ob x y H; apply assign_s_sd, H);
        (apply arg_alike; [exact A|]; intros x y H; apply make_alike; [exact A|]; apply apply_u_sd; assumption).
    - apply inplace_alike; [exact A|]. intros o x y H. apply set_f_sd, H.
    - apply inplace_alike; [exact A|]. intros o x y H. apply set_h_sd; assumption.
    - apply obj_of_alike; [exact A|]. intros _. destruct (negb _); [apply raised_alike, A|].
      apply inplace_alike; [exact A|]. intros o x y H. apply set_hm_sd; assumption.
    - apply raised_alike, A.
    - apply obj_of_alike; [exact A|]. intros o. generalize (objs_at _ _ o (proj1 A)).
      destruct (nth_error (objs st) o) as [[z b]|], (nth_error (objs st') o) as [[z' b']|]; try contradiction; [|exact (fun _ => I)].
      intros <-. eapply lift_alike; [exact A|apply load_alike, A|]. intros x y H. unfold size. rewrite D. destruct (_ <? 0); [exact I|].
      destruct A as (E1 & E2 & E3 & E4). cbn. unfold alike. cbn. rewrite E2, E3, E4. repeat split. exact E1.
    - apply obj_of_alike; [exact A|]. intros o. generalize (objs_at _ _ o (proj1 A)).
      destruct (nth_error (objs st) o) as [[z b]|], (nth_error (objs st') o) as [[z' b']|]; try contradiction; [|exact (fun _ => I)].
      intros <-. eapply lift_alike; [exact A|apply load_alike, A|]. intros x y H. rewrite H.
      destruct A as (E1 & E2 & E3 & E4). cbn. unfold alike. cbn. rewrite E2, E3, E4. repeat split. exact E1.
    - destruct A as (E1 & E2 & E3 & E4). rewrite E4. destruct (views st' w) as [v|]; [|split; [reflexivity|repeat split; assumption]].
      destruct (np_index v i); [|split; [reflexivity|repeat split; assumption]]. unfold view_read. rewrite E2.
      eapply (lift_alike eq); [repeat split; assumption|apply refl_par|]. intros ? ? _. repeat split; assumption.
    - destruct A as (E1 & E2 & E3 & E4). rewrite E4. destruct (views st' w) as [x|]; [|split; [reflexivity|repeat split; assumption]].
      destruct (np_index x i); [|split; [reflexivity|repeat split; assumption]]. unfold view_write. rewrite E2.
      eapply (lift_alike alike); [repeat split; assumption| |].
      + destruct (nth_error (bufs st') (v_buf x)) as [[[d k]|]|]; try exact I. apply (bind_par eq); [apply refl_par|]. intros d' d'' <-.
        cbn. unfold alike. cbn. rewrite E3, E4. repeat split. exact E1.
      + intros a b H. exact H.
  Qed.
  Lemma session_alike p : forall st st', alike st st' -> res_rel alike (session O c slack p st) (session O c slack p st').
  Proof.
    induction p as [|s p IH]; intros st st' A; cbn [session]; [exact A|]. generalize (pstep_alike s st st' A).
    destruct (pstep O c slack s st), (pstep O c slack s st'); cbn; try contradiction; auto. intros [_ H]. apply IH, H.
  Qed.
End Sessions.

(** The element reference in [operator*=]. *)
Lemma mul_assign_done {S} (O : Ops S) c n (x : dd S) b : cfg_ok c -> wf c n x ->
  match b with Some y => wf c n y | None => True end -> exists r, mul_assign O c x b = Ok r /\ wf c n r.
Proof.
  intros Hc Hx Hb. destruct (wf_rep _ _ _ Hx) as (J & RJ). destruct b as [y|].
  - destruct (wf_rep _ _ _ Hb) as (K & RK). destruct (mul_assign_rep O c n J K x y RJ RK) as (r & E & R).
    exists r. split; [exact E|]. exact (rep_wf _ _ _ _ R).
  - destruct (mul_assign_self O c n J x RJ) as (r & E & R). exists r. split; [exact E|]. exact (rep_wf _ _ _ _ R).
Qed.
Lemma mul_assign_reference {S} (O : Ops S) c n (x : dd S) b : cfg_ok c -> wf c n x ->
  match b with Some y => wf c n y | None => True end ->
  (c_ord c = 1 \/ (0 < n)%nat -> mul_assign_ref O c x b = mul_assign O c x b) /\
  (c_ord c = 2 -> n = 0%nat -> mul_assign_ref O c x b = UB /\ exists r, mul_assign O c x b = Ok r).
Proof.
  intros Hc Hx Hb. destruct (mul_assign_done O c n x b Hc Hx Hb) as (r & E & W). unfold mul_assign_ref. rewrite E. cbn [bind].
  destruct (wf_rep _ _ _ W) as (J & R). rewrite (len_rep c _ _ _ R). pose proof R as (ES & _). rewrite ES. split.
  - intros H. destruct (Z.eqb_spec (c_ord c) 1); [reflexivity|]. destruct H as [|H]; [contradiction|].
    destruct (Z.ltb_spec (1 + Z.of_nat n) (Z.of_nat (storage_len (c_ord c) n))) as [|L]; [reflexivity|].
    exfalso. unfold storage_len in L. destruct (Z.eqb_spec (c_ord c) 1); [contradiction|].
    assert ((1 + n) * 2 + 2 <= (n + 1) * (n + 2))%nat by nia.
    assert (2 + n <= (n + 1) * (n + 2) / 2)%nat by (apply Nat.div_le_lower_bound; lia). lia.
  - intros H ->. rewrite H. split; [reflexivity|eauto].
Qed.

(** C77, static types *)
Lemma static_stuck {S} (O : Ops S) c : is_dynamic c = false -> cfg_ok c ->
  stuck c (default_o O c) (ctor_default O c) /\
  (forall f, res_rel (stuck c) (scalar_o O c f) (ctor_scalar O c f)) /\
  (forall vs : list S, res_rel (stuck c) (data_o (full vs)) (Ok (mk (c_tsize c) (full vs)))) /\
  (forall vs : list S, res_rel (stuck c) (create_o c (full vs)) (create c (full vs))) /\
  (forall n, res_rel (stuck c) (zero_o O c n) (zero_n O c n)) /\
  (forall f n, res_rel (stuck c) (constant_o O c f n) (constant_n O c f n)) /\
  (forall i f n, res_rel (stuck c) (variable_o O c i f n) (variable_n O c i f n)) /\
  (forall n, size_ok c n -> empty_o O c (Z.of_nat n) = UB) /\
  (forall vs, size_ok c (List.length vs) -> vs <> [] -> variables_o O c vs = UB /\ variables_array_o O c vs = UB).
Proof.
  intros D Hc. split; [apply default_sta, D|]. split; [intros; apply scalar_sta, D|]. split; [intros; apply data_sta, D|].
  split; [intros; apply create_sta, D|]. split; [intros; apply zero_sta, D|]. split; [intros; apply constant_sta, D|].
  split; [intros; apply variable_sta, D|]. split; [intros; apply empty_sta; assumption|]. intros; apply variables_sta; assumption.
Qed.
Lemma static_list {S} c n (vs : list S) : is_dynamic c = false -> cfg_ok c -> c_exc c = true ->
  size_ok c n -> List.length vs = storage_len (c_ord c) n ->
  exists x, list_o c vs = Ok x /\ copy_obj x = Ok x /\ ob_data x = full vs.
Proof.
  intros D Hc Hx Hn HL. destruct (ctor_list_static c n vs Hc D Hx Hn HL) as (r & E & Hr).
  generalize (list_sta c D vs). rewrite E. destruct (list_o c vs) as [x| | |]; try contradiction. intros [E1 E2].
  exists x. split; [reflexivity|]. assert (E3 : ob_data x = full vs) by (rewrite E1; apply Hr). split; [|exact E3].
  unfold copy_obj. rewrite E2, E3, copy_full. cbn [bind]. rewrite <- E3, <- E2. destruct x; reflexivity.
Qed.
