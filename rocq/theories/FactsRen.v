(** Facts about renaming the variables of sparse numbers. *)
From Coq Require Import ZArith List Bool String Permutation Reals Lra Lia.
From Verif Require Import Outcome Scalar Model Spec RealOps ExprSpec ProgSpec ModelS ModelObj ModelObjS SpecS FactsS FactsSReal RenSpec.
Import ListNotations.
Open Scope list_scope.

Section Ren.
  Context {S : Type} (O : Ops S) (P : string -> Prop) (rho : string -> string) (SEP : separates P rho).
  Implicit Types (t : table S) (x y z : ss S).
  Notation rt := (retable rho).
  Notation rn := (rename rho).
  Definition inP t := forall k, In k (keys t) -> P k.

  Lemma inP_cons k (v : S) t : inP ((k, v) :: t) <-> P k /\ inP t.
  Proof. unfold inP. cbn. split; [intros H; split; auto|]. intros (H & H') k' [<-|E]; auto. Qed.
  Lemma eqb_ren k k' : P k -> P k' -> String.eqb (rho k) (rho k') = String.eqb k k'.
  Proof.
    intros H H'. destruct (String.eqb_spec k k') as [->|N]; [apply String.eqb_refl|].
    apply String.eqb_neq. intros E. apply N, SEP; assumption.
  Qed.
  Lemma find_ren t k : inP t -> P k -> t_find (rt t) (rho k) = t_find t k.
  Proof.
    intros H Hk. induction t as [|(k0, v) t IH]; [reflexivity|]. apply inP_cons in H. destruct H as (H0 & H). cbn.
    rewrite eqb_ren by assumption. destruct (String.eqb k0 k); [reflexivity|exact (IH H)].
  Qed.
  Lemma update_ren t k f : inP t -> P k -> t_update O (rt t) (rho k) f = rt (t_update O t k f).
  Proof.
    intros H Hk. induction t as [|(k0, v) t IH]; [reflexivity|]. apply inP_cons in H. destruct H as (H0 & H). cbn.
    rewrite eqb_ren by assumption. destruct (String.eqb k0 k); [reflexivity|]. cbn. f_equal. exact (IH H).
  Qed.
  Lemma update_in t k f : inP t -> P k -> inP (t_update O t k f).
  Proof.
    intros H Hk. induction t as [|(k0, v) t IH]; cbn; [apply inP_cons; split; [exact Hk|intros k' []]|].
    apply inP_cons in H. destruct H as (H0 & H). destruct (String.eqb k0 k); apply inP_cons; auto.
  Qed.
  Lemma map_ren f t : t_map f (rt t) = rt (t_map f t).
  Proof. unfold t_map, retable. rewrite !map_map. apply map_ext. intros (k, v). reflexivity. Qed.
  Lemma map_in f t : inP t -> inP (t_map f t).
  Proof. unfold inP. rewrite keys_map. auto. Qed.
  Lemma merge_ren g (b : table S) : forall t, inP t -> inP b -> t_merge O g (rt t) (rt b) = rt (t_merge O g t b).
  Proof.
    unfold t_merge. induction b as [|(k, v) b IH]; cbn; intros t Ht Hb; [reflexivity|].
    apply inP_cons in Hb. destruct Hb as (Hk & Hb). rewrite update_ren by assumption. apply IH; [|exact Hb]. apply update_in; assumption.
  Qed.
  Lemma merge_in g (b : table S) : forall t, inP t -> inP b -> inP (t_merge O g t b).
  Proof.
    unfold t_merge. induction b as [|(k, v) b IH]; cbn; intros t Ht Hb; [exact Ht|].
    apply inP_cons in Hb. destruct Hb as (Hk & Hb). apply IH; [|exact Hb]. apply update_in; assumption.
  Qed.
  Lemma self_ren f l : forall t, inP t -> (forall k, In k l -> P k) ->
    fold_left (fun t k => t_update O t k f) (map rho l) (rt t) = rt (fold_left (fun t k => t_update O t k f) l t) /\
    inP (fold_left (fun t k => t_update O t k f) l t).
  Proof.
    induction l as [|k l IH]; cbn; intros t Ht Hl; [auto|]. rewrite update_ren by auto. apply IH; [|auto]. apply update_in; auto.
  Qed.
  Lemma keys_ren t : map fst (rt t) = map rho (map fst t).
  Proof. unfold retable. rewrite !map_map. reflexivity. Qed.
  Lemma merge_self_ren g t : inP t -> t_merge_self O g (rt t) = rt (t_merge_self O g t) /\ inP (t_merge_self O g t).
  Proof. intros H. unfold t_merge_self. rewrite keys_ren. apply self_ren; [exact H|exact H]. Qed.

  (** *** numbers *)
  Lemma u_ren u x : s_apply_u O u (rn x) = rn (s_apply_u O u x).
  Proof.
    destruct x as [f d]. unfold rename. destruct u; cbn -[t_map retable]; unfold s_abs, s_divs, s_smul, s_muls, s_subs, s_sadd, s_adds, s_ssub, s_neg, s_sdiv, s_unary; cbn -[t_map retable];
      try destruct (o_lt O _ (o_Z O 0)); cbn -[t_map retable]; rewrite ?map_ren; reflexivity.
  Qed.
  Lemma u_in u x : within P x -> within P (s_apply_u O u x).
  Proof. unfold within. rewrite names_u. auto. Qed.
  Lemma b_ren b x y : within P x -> within P y -> s_apply_b O b (rn x) (rn y) = rn (s_apply_b O b x y).
  Proof.
    intros Hx Hy. rewrite !binary_shape. cbn [rename s_f s_d]. destruct (sk_b O b (s_f x) (s_f y)) as ((f, da), db).
    unfold rename, s_binary. cbn [s_f s_d]. rewrite map_ren, merge_ren by (first [apply map_in; exact Hx|exact Hy]). reflexivity.
  Qed.
  Lemma b_in b x y : within P x -> within P y -> within P (s_apply_b O b x y).
  Proof.
    intros Hx Hy. rewrite !binary_shape. destruct (sk_b O b (s_f x) (s_f y)) as ((f, da), db).
    apply merge_in; [apply map_in; exact Hx|exact Hy].
  Qed.
  Lemma h_ren x y z : within P x -> within P y -> within P z -> s_hypot3 O (rn x) (rn y) (rn z) = rn (s_hypot3 O x y z).
  Proof.
    intros Hx Hy Hz. unfold s_hypot3, rename, s_ternary. cbn [s_f s_d].
    rewrite map_ren, !merge_ren by (try assumption; try apply merge_in; try assumption; apply map_in; assumption). reflexivity.
  Qed.
  Lemma h_in x y z : within P x -> within P y -> within P z -> within P (s_hypot3 O x y z).
  Proof. intros Hx Hy Hz. apply merge_in; [apply merge_in; [apply map_in; exact Hx|exact Hy]|exact Hz]. Qed.
  Lemma assign_ren o x (y : option (ss S)) : within P x -> (forall y', y = Some y' -> within P y') ->
    s_assign O o (rn x) (option_map rn y) = rn (s_assign O o x y) /\ within P (s_assign O o x y).
  Proof.
    intros Hx Hy. destruct y as [y|].
    - specialize (Hy y eq_refl). destruct o; cbn [s_assign option_map]; unfold s_add_assign, s_sub_assign, s_mul_assign, s_div_assign, rename; cbn [s_f s_d]; (split; [|unfold within; change (names ?z) with (keys (s_d z)); cbn [s_d]]);
        rewrite ?map_ren, ?merge_ren by (try exact Hy; try apply map_in; exact Hx);
        first [reflexivity|apply merge_in; [first [exact Hx|apply map_in; exact Hx]|exact Hy]].
    - destruct o; cbn [s_assign option_map]; unfold s_add_assign, s_sub_assign, s_mul_assign, s_div_assign, rename; cbn [s_f s_d]; (split; [|unfold within; change (names ?z) with (keys (s_d z)); cbn [s_d]]);
        rewrite ?map_ren;
        first [ rewrite (proj1 (merge_self_ren _ _ (map_in _ _ Hx))); reflexivity
              | rewrite (proj1 (merge_self_ren _ _ Hx)); reflexivity
              | apply (proj2 (merge_self_ren _ _ (map_in _ _ Hx)))
              | apply (proj2 (merge_self_ren _ _ Hx)) ].
  Qed.
  Lemma assign_s_ren o x s : within P x -> s_assign_s O o (rn x) s = rn (s_assign_s O o x s) /\ within P (s_assign_s O o x s).
  Proof.
    intros Hx. destruct o; cbn [s_assign_s]; unfold s_adds_assign, s_subs_assign, s_divs_assign, s_muls_assign, rename; cbn [s_f s_d];
      rewrite ?keys_ren; (split; [|unfold within; change (names ?z) with (keys (s_d z)); cbn [s_d]]);
      first [ reflexivity | exact Hx
            | rewrite (proj1 (self_ren _ _ _ Hx Hx)); reflexivity
            | apply (proj2 (self_ren _ _ _ Hx Hx)) ].
  Qed.
  Lemma ctor_ren (f : S) d : s_ctor f (rt d) = rn (s_ctor f d). Proof. reflexivity. Qed.

  Lemma run_ren env e : (forall i, within P (env i)) ->
    s_run O (fun i => rn (env i)) e = rn (s_run O env e) /\ within P (s_run O env e).
  Proof.
    intros H. induction e as [i|s|u e (IH & I)|b e1 (IH1 & I1) e2 (IH2 & I2)|e1 (IH1 & I1) e2 (IH2 & I2) e3 (IH3 & I3)]; cbn [s_run].
    - auto.
    - split; [reflexivity|intros k []].
    - rewrite IH, u_ren. split; [reflexivity|apply u_in, I].
    - rewrite IH1, IH2, b_ren by assumption. split; [reflexivity|apply b_in; assumption].
    - rewrite IH1, IH2, IH3, h_ren by assumption. split; [reflexivity|apply h_in; assumption].
  Qed.
  Lemma reorders_ren x y : reorders x y -> reorders (rn x) (rn y).
  Proof. intros (E & H). split; [exact E|apply Permutation_map, H]. Qed.
  Lemma reorders_in x y : reorders x y -> within P x -> within P y.
  Proof. intros (E & H) I k Hk. apply I. eapply Permutation_in; [apply Permutation_sym, keys_of_perm, H|exact Hk]. Qed.
  Lemma keys_ok_ren x : within P x -> keys_ok x -> keys_ok (rn x).
  Proof.
    intros I K. unfold keys_ok, names. cbn [rename s_d]. rewrite keys_ren. unfold keys_ok, names in K. change (inP (s_d x)) in I. unfold inP, keys in I.
    induction (map fst (s_d x)) as [|k l IH]; cbn; [constructor|]. inversion K; subst. constructor.
    - rewrite in_map_iff. intros (k' & E & Hk'). apply SEP in E; [|apply I; right; exact Hk'|apply I; left; reflexivity]. subst. contradiction.
    - apply IH; [intros k' Hk'; apply I; right; exact Hk'|assumption].
  Qed.
  Lemma ren_reads x y : within P x -> keys_ok x -> reorders (rn x) y -> renamed_reads O P rho x y.
  Proof.
    intros I K R. pose proof (reorders_reads O _ _ (keys_ok_ren _ I K) R) as (E & Z & D). split; [symmetry; exact E|]. split.
    - rewrite <- Z. unfold s_size. cbn. unfold retable. rewrite map_length. reflexivity.
    - split.
      + intros k Hk. rewrite <- D. unfold s_get_d. cbn [rename s_d]. rewrite find_ren by assumption. reflexivity.
      + intros k. assert (Q : In k (names y) <-> In k (names (rn x))).
        { split; apply Permutation_in; [apply Permutation_sym|]; apply keys_of_perm, R. }
        rewrite Q. unfold names. cbn [rename s_d]. rewrite keys_ren, in_map_iff. firstorder.
  Qed.
  Lemma runs_ren env e x : (forall i, within P (env i)) -> s_runs O env e x -> s_runs O (fun i => rn (env i)) e (rn x) /\ within P x.
  Proof.
    intros H R. induction R as [i x Rx|s x Rx|u e x y R (IH & I) Rx|b e1 e2 x1 x2 y R1 (IH1 & I1) R2 (IH2 & I2) Rx
                               |e1 e2 e3 x1 x2 x3 y R1 (IH1 & I1) R2 (IH2 & I2) R3 (IH3 & I3) Rx].
    - split; [apply RVar, reorders_ren, Rx|eapply reorders_in; [exact Rx|apply H]].
    - split; [apply RConst; apply (reorders_ren _ _ Rx)|eapply reorders_in; [exact Rx|intros k []]].
    - split; [eapply RU; [exact IH|rewrite u_ren; apply reorders_ren, Rx]|eapply reorders_in; [exact Rx|apply u_in, I]].
    - split; [eapply RB; [exact IH1|exact IH2|rewrite b_ren by assumption; apply reorders_ren, Rx]|eapply reorders_in; [exact Rx|apply b_in; assumption]].
    - split; [eapply RH; [exact IH1|exact IH2|exact IH3|rewrite h_ren by assumption; apply reorders_ren, Rx]
             |eapply reorders_in; [exact Rx|apply h_in; assumption]].
  Qed.
  Lemma expressions_renamed env e x y : (forall i, keys_ok (env i)) -> (forall i, within P (env i)) ->
    s_runs O env e x -> s_runs O (fun i => rn (env i)) e y -> renamed_reads O P rho x y.
  Proof.
    intros K I R R'. destruct (runs_ren _ _ _ I R) as (Q & Ix). apply ren_reads; [exact Ix|eapply runs_keys; eassumption|].
    eapply (runs_unique O (fun i => rn (env i))); [intros i; apply keys_ok_ren; auto|intros i; apply reorders_refl|exact Q|exact R'].
  Qed.

  (** *** programs *)
  Definition allin (st : list (ss S)) := List.Forall (within P) st.
  Lemma get_ren (st : list (ss S)) r : get (map rn st) r = match get st r with Ok x => Ok (rn x) | Throw e => Throw e | Abort => Abort | UB => UB end.
  Proof. unfold get. rewrite nth_error_map. destruct (nth_error st r); reflexivity. Qed.
  Lemma get_in st r x : allin st -> get st r = Ok x -> within P x.
  Proof. intros H E. apply get_cases in E. unfold allin in H. rewrite Forall_forall in H. apply H. eapply nth_error_In; exact E. Qed.
  Lemma put_ren (st : list (ss S)) r x : put (map rn st) r (rn x) = map rn (put st r x).
  Proof. revert r. induction st as [|a st IH]; intros [|r]; cbn; try reflexivity. f_equal. apply IH. Qed.
  Lemma put_in st r x : allin st -> within P x -> allin (put st r x).
  Proof.
    unfold allin. intros H Hx. revert r. induction H as [|a st Ha H IH]; intros [|r]; cbn; try constructor; auto.
  Qed.
  Definition rres (m : res (ss S)) : res (ss S) := match m with Ok x => Ok (rn x) | other => other end.
  Definition rst (m : res (list (ss S))) : res (list (ss S)) := match m with Ok st => Ok (map rn st) | other => other end.
  Lemma write_ren st r m : allin st -> (forall x, m = Ok x -> within P x) ->
    s_write (map rn st) r (rres m) = rst (s_write st r m) /\ forall st1, s_write st r m = Ok st1 -> allin st1.
  Proof.
    intros H Hm. unfold s_write. rewrite get_ren. destruct (get st r) as [x0| | |]; cbn; try (split; [reflexivity|intros; discriminate]).
    destruct m as [x| | |]; cbn; try (split; [reflexivity|intros; discriminate]).
    split; [rewrite put_ren; reflexivity|]. intros st1 E. injection E as <-. apply put_in; auto.
  Qed.
  Lemma step_ren s st : allin st -> s_step O s (map rn st) = rst (s_step O s st) /\ forall st1, s_step O s st = Ok st1 -> allin st1.
  Proof.
    intros H.
    assert (T : forall r m m', m' = rres m -> (forall x, m = Ok x -> within P x) ->
       s_write (map rn st) r m' = rst (s_write st r m) /\ forall st1, s_write st r m = Ok st1 -> allin st1).
    { intros r m m' -> Hm. apply write_ren; assumption. }
    destruct s; cbn [s_step]; try (split; [reflexivity|intros st1 E; injection E as <-; exact H]).
    - apply T; [reflexivity|]. intros x E. injection E as <-. intros k [].
    - apply T; [rewrite get_ren; destruct (get st a); reflexivity|]. intros x E. eapply get_in; eassumption.
    - apply T; rewrite ?get_ren; destruct (get st a) as [x| | |] eqn:E; cbn; try reflexivity; try discriminate.
      + rewrite u_ren. reflexivity.
      + intros x' Ex. injection Ex as <-. apply u_in. eapply get_in; eassumption.
    - apply T; rewrite ?get_ren; destruct (get st a1) as [x| | |] eqn:E; cbn; try reflexivity; try discriminate;
        rewrite ?get_ren; destruct (get st a2) as [y| | |] eqn:E'; cbn; try reflexivity; try discriminate.
      + rewrite b_ren by (eapply get_in; eassumption). reflexivity.
      + intros x' Ex. injection Ex as <-. apply b_in; eapply get_in; eassumption.
    - apply T; rewrite ?get_ren; destruct (get st a1) as [x| | |] eqn:E; cbn; try reflexivity; try discriminate;
        rewrite ?get_ren; destruct (get st a2) as [y| | |] eqn:E'; cbn; try reflexivity; try discriminate;
        rewrite ?get_ren; destruct (get st a3) as [z| | |] eqn:E''; cbn; try reflexivity; try discriminate.
      + rewrite h_ren by (eapply get_in; eassumption). reflexivity.
      + intros x' Ex. injection Ex as <-. apply h_in; eapply get_in; eassumption.
    - apply T; rewrite ?get_ren; destruct (get st r) as [x| | |] eqn:E; cbn; try reflexivity; try discriminate;
        rewrite ?get_ren; destruct (get st a) as [y| | |] eqn:E'; cbn; try reflexivity; try discriminate.
      + assert (Q : (if Nat.eqb a r then None else Some (rn y)) = option_map rn (if Nat.eqb a r then None else Some y)) by (destruct (Nat.eqb a r); reflexivity).
        rewrite Q. rewrite (proj1 (assign_ren o x (if Nat.eqb a r then None else Some y) (get_in _ _ _ H E)
          ltac:(intros y' Ey; destruct (Nat.eqb a r); [discriminate|injection Ey as <-; eapply get_in; eassumption]))). reflexivity.
      + intros x' Ex. injection Ex as <-. apply assign_ren; [eapply get_in; eassumption|].
        intros y' Ey. destruct (Nat.eqb a r); [discriminate|]. injection Ey as <-. eapply get_in; eassumption.
    - apply T; rewrite ?get_ren; destruct (get st r) as [x| | |] eqn:E; cbn; try reflexivity; try discriminate.
      + rewrite (proj1 (assign_s_ren o x s (get_in _ _ _ H E))). reflexivity.
      + intros x' Ex. injection Ex as <-. apply assign_s_ren. eapply get_in; eassumption.
  Qed.
  Lemma test_ren k (st : list (ss S)) : s_test O k (map rn st) = s_test O k st.
  Proof.
    destruct k; cbn [s_test]; rewrite ?get_ren; destruct (get st a) as [x| | |]; cbn; try reflexivity.
    destruct (get st b) as [y| | |]; reflexivity.
  Qed.
  Lemma exec_ren fuel : forall s st, allin st ->
    s_exec O fuel s (map rn st) = rename_result rho (s_exec O fuel s st) /\ forall st1, s_exec O fuel s st = Some (Ok st1) -> allin st1.
  Proof.
    induction fuel as [|fuel IH]; intros s st H; [split; [reflexivity|discriminate]|].
    assert (B : Some (s_step O s (map rn st)) = rename_result rho (Some (s_step O s st)) /\
                forall st1, Some (s_step O s st) = Some (Ok st1) -> allin st1).
    { destruct (step_ren s st H) as (E & I). rewrite E. split; [destruct (s_step O s st); reflexivity|].
      intros st1 E1. apply I. injection E1 as ->. reflexivity. }
    destruct s; try exact B; cbn [s_exec].
    - destruct (IH s1 st H) as (E1 & I1). rewrite E1. destruct (s_exec O fuel s1 st) as [[st1| | |]|]; cbn; try (split; [reflexivity|discriminate]).
      apply IH, I1. reflexivity.
    - rewrite test_ren. destruct (s_test O k st) as [[|]| | |]; cbn; try (split; [reflexivity|discriminate]); apply IH, H.
    - rewrite test_ren. destruct (s_test O k st) as [[|]| | |]; cbn; try (split; [reflexivity|discriminate]).
      + destruct (IH s st H) as (E1 & I1). rewrite E1. destruct (s_exec O fuel s st) as [[st1| | |]|]; cbn; try (split; [reflexivity|discriminate]).
        apply IH, I1. reflexivity.
      + split; [reflexivity|]. intros st1 E. injection E as <-. exact H.
  Qed.
  Lemma Forall2_ren (st st' : list (ss S)) : Forall2 reorders st st' -> Forall2 reorders (map rn st) (map rn st').
  Proof. induction 1; cbn; constructor; auto. apply reorders_ren. assumption. Qed.
  Lemma Forall2_in st st' : Forall2 reorders st st' -> allin st -> allin st'.
  Proof. unfold allin. induction 1; intros H'; inversion H'; subst; constructor; eauto. eapply reorders_in; eassumption. Qed.
  Lemma execs_ren s st st1 : s_execs O s st st1 -> allin st -> s_execs O s (map rn st) (map rn st1) /\ allin st1.
  Proof.
    induction 1 as [s st st1 st2 Hb Hs Hp|s1 s2 st st1 st2 _ IH1 _ IH2|b s1 s2 st st1 Ht _ IH|b s1 s2 st st1 Ht _ IH|b s1 st Ht
                   |b s1 st st1 st2 Ht _ IH1 _ IH2]; intros I.
    - destruct (step_ren s st I) as (E & I1). rewrite Hs in E. split; [eapply XStep; [exact Hb|exact E|apply Forall2_ren, Hp]|].
      eapply Forall2_in; [exact Hp|apply I1, Hs].
    - destruct (IH1 I) as (A & I1). destruct (IH2 I1) as (B & I2). split; [eapply XSeq; eassumption|exact I2].
    - destruct (IH I) as (A & I1). split; [apply XThen; [rewrite test_ren; exact Ht|exact A]|exact I1].
    - destruct (IH I) as (A & I1). split; [apply XElse; [rewrite test_ren; exact Ht|exact A]|exact I1].
    - split; [apply XDone; rewrite test_ren; exact Ht|exact I].
    - destruct (IH1 I) as (A & I1). destruct (IH2 I1) as (B & I2). split; [eapply XLoop; [rewrite test_ren; exact Ht|exact A|exact B]|exact I2].
  Qed.
  Lemma allk_ren st : allin st -> List.Forall keys_ok st -> List.Forall keys_ok (map rn st).
  Proof. unfold allin. induction 1; intros K; inversion K; subst; cbn; constructor; auto. apply keys_ok_ren; assumption. Qed.
  Lemma Forall2_refl_re (st : list (ss S)) : Forall2 reorders st st.
  Proof. induction st; constructor; auto. apply reorders_refl. Qed.
  Lemma programs_renamed s st st1 st1' : List.Forall keys_ok st -> List.Forall (within P) st ->
    s_execs O s st st1 -> s_execs O s (map rn st) st1' -> Forall2 (renamed_reads O P rho) st1 st1'.
  Proof.
    intros K I R R'. destruct (execs_ren _ _ _ R I) as (Q & I1). pose proof (execs_keys O _ _ _ R K) as K1.
    pose proof (execs_unique O _ _ _ Q _ _ (allk_ren _ I K) (Forall2_refl_re _) R') as F.
    unfold allin, allk in *. clear - SEP K1 I1 F. revert st1' F. induction st1 as [|x st1 IH]; cbn; intros st1' F; inversion F; subst; constructor.
    - apply ren_reads; [inversion I1; assumption|inversion K1; assumption|assumption].
    - inversion K1; inversion I1; subst. apply IH; assumption.
  Qed.

  (** *** eval, sessions *)
  Lemma eval_ren se x d : within P x -> inP d -> s_eval O se (rn x) (rt d) = s_eval O se x d.
  Proof.
    intros I Id. unfold s_eval. cbn [rename s_d]. change (inP (s_d x)) in I.
    generalize (Ok (o_Z O 0)). induction (s_d x) as [|(k, v) t IH]; cbn; intros r; [reflexivity|].
    apply inP_cons in I. destruct I as (Hk & I). rewrite find_ren by assumption. apply (IH I).
  Qed.
  Notation hr := (zrename_heap rho).
  Definition zin (st : zheap S) := List.Forall (within P) (zobjs st).
  Lemma zget_ren (st : zheap S) r : zget (hr st) r = match zget st r with Some (o, x) => Some (o, rn x) | None => None end.
  Proof. unfold zget. cbn. destruct (znames st r) as [o|]; [|reflexivity]. rewrite nth_error_map. destruct (nth_error (zobjs st) o); reflexivity. Qed.
  Lemma zget_in st r o x : zin st -> zget st r = Some (o, x) -> within P x.
  Proof.
    intros H. unfold zget. destruct (znames st r) as [o'|]; [|discriminate]. destruct (nth_error (zobjs st) o') as [x'|] eqn:E; [|discriminate].
    intros Q. injection Q as _ <-. unfold zin in H. rewrite Forall_forall in H. apply H. eapply nth_error_In, E.
  Qed.
  Lemma znew_ren (st : zheap S) r x : znew (hr st) r (rn x) = hr (znew st r x).
  Proof. unfold znew, zrename_heap. cbn. rewrite map_app, map_length. reflexivity. Qed.
  Lemma znew_in st r x : zin st -> within P x -> zin (znew st r x).
  Proof. unfold zin. cbn. intros. apply Forall_app. auto. Qed.
  Lemma zput_ren (st : zheap S) o x : zput (hr st) o (rn x) = hr (zput st o x).
  Proof. unfold zput, zrename_heap. cbn. rewrite put_ren. reflexivity. Qed.
  Lemma zput_in st o x : zin st -> within P x -> zin (zput st o x).
  Proof. unfold zin. cbn. apply put_in. Qed.
  Lemma zstep_ren s st : zin st -> zwithin P s ->
    zstep O (zrename rho s) (hr st) = (fst (zstep O s st), hr (snd (zstep O s st))) /\ zin (snd (zstep O s st)).
  Proof.
    intros H I. destruct s; cbn [zrename zstep zwithin] in *; rewrite ?zget_ren.
    - cbn [fst snd]. rewrite ctor_ren, znew_ren. split; [reflexivity|]. apply znew_in; [exact H|exact I].
    - cbn [fst snd]. change (s_constant v) with (rn (s_constant v)) at 1. rewrite znew_ren. split; [reflexivity|]. apply znew_in; [exact H|intros k []].
    - cbn [fst snd]. change (s_variable O (rho k) v) with (rn (s_variable O k v)). rewrite znew_ren. split; [reflexivity|].
      apply znew_in; [exact H|]. intros k' [<-|[]]. exact I.
    - destruct (zget st a) as [(o, x)|]; cbn; auto.
    - destruct (zget st a) as [(o, x)|] eqn:E; cbn [fst snd]; [|auto]. rewrite u_ren, znew_ren. split; [reflexivity|].
      apply znew_in; [exact H|]. apply u_in. eapply zget_in; eassumption.
    - destruct (zget st a1) as [(o, x)|] eqn:E; cbn [fst snd]; [|auto]. destruct (zget st a2) as [(o', y)|] eqn:E'; cbn [fst snd]; [|auto].
      pose proof (zget_in _ _ _ _ H E). pose proof (zget_in _ _ _ _ H E'). rewrite b_ren, znew_ren by assumption. split; [reflexivity|].
      apply znew_in; [exact H|]. apply b_in; assumption.
    - destruct (zget st a1) as [(o, x)|] eqn:E; cbn [fst snd]; [|auto]. destruct (zget st a2) as [(o', y)|] eqn:E'; cbn [fst snd]; [|auto].
      destruct (zget st a3) as [(o'', z)|] eqn:E''; cbn [fst snd]; [|auto].
      pose proof (zget_in _ _ _ _ H E). pose proof (zget_in _ _ _ _ H E'). pose proof (zget_in _ _ _ _ H E'').
      rewrite h_ren, znew_ren by assumption. split; [reflexivity|]. apply znew_in; [exact H|]. apply h_in; assumption.
    - destruct (zget st a) as [(oa, y)|] eqn:E; cbn [fst snd]; [|auto]. destruct (zget st r) as [(o', x)|] eqn:E'; cbn [fst snd]; [|auto].
      pose proof (zget_in _ _ _ _ H E). pose proof (zget_in _ _ _ _ H E').
      assert (Q : (if Nat.eqb oa o' then None else Some (rn y)) = option_map rn (if Nat.eqb oa o' then None else Some y)) by (destruct (Nat.eqb oa o'); reflexivity).
      destruct (assign_ren o x (if Nat.eqb oa o' then None else Some y)) as (A & B);
        [assumption|intros y' Ey; destruct (Nat.eqb oa o'); [discriminate|injection Ey as <-; assumption]|].
      rewrite Q, A, zput_ren. split; [reflexivity|]. apply zput_in; assumption.
    - destruct (zget st r) as [(o', x)|] eqn:E; cbn [fst snd]; [|auto]. pose proof (zget_in _ _ _ _ H E) as Ix.
      destruct (assign_s_ren o x v Ix) as (A & B).
      destruct o; cbn [fst snd]; rewrite ?u_ren, ?A, ?znew_ren, ?zput_ren; (split; [reflexivity|]);
        first [apply znew_in; [exact H|apply u_in, Ix]|apply zput_in; assumption].
  Qed.
  Lemma zsession_ren w : forall st, zin st -> List.Forall (zwithin P) w ->
    zsession O (map (zrename rho) w) (hr st) = hr (zsession O w st).
  Proof.
    induction w as [|s w IH]; cbn; intros st H I; [reflexivity|]. inversion I; subst.
    destruct (zstep_ren s st H) as (E & H1); [assumption|]. rewrite E. cbn [snd]. apply IH; assumption.
  Qed.
End Ren.

Lemma expr_renamed {S} (O : Ops S) P rho (env : nat -> ss S) e : separates P rho -> (forall i, within P (env i)) ->
  s_run O (fun i => rename rho (env i)) e = rename rho (s_run O env e).
Proof. intros H I. apply (run_ren O P rho H env e I). Qed.
Lemma exec_renamed {S} (O : Ops S) P rho fuel s (st : list (ss S)) : separates P rho -> List.Forall (within P) st ->
  s_exec O fuel s (map (rename rho) st) = rename_result rho (s_exec O fuel s st).
Proof. intros H I. apply (exec_ren O P rho H fuel s st I). Qed.
Lemma session_renamed {S} (O : Ops S) P rho (w : list (zstmt S)) : separates P rho -> List.Forall (zwithin P) w ->
  zsession O (map (zrename rho) w) zstart = zrename_heap rho (zsession O w zstart).
Proof. intros H I. exact (zsession_ren O P rho H w zstart (Forall_nil _) I). Qed.
Lemma eval_renamed {S} (O : Ops S) P rho se (x : ss S) d : separates P rho -> within P x -> (forall k, In k (map fst d) -> P k) ->
  s_eval O se (rename rho x) (retable rho d) = s_eval O se x d.
Proof. intros H I J. apply (eval_ren O P rho H); assumption. Qed.
