(** C106: sparse numbers over any commutative ring, and their sums and products in any order. *)
From Coq Require Import String ZArith List Bool Lia Setoid Ring Ring_theory Permutation QArith_base Qcanon.
From Verif Require Import Outcome Scalar Model Spec Core Kernels OpsRep AccRep ExprSpec Expr NumSpec FactsNum Samples ModelS SpecS FactsS RingSpec FactsRing RedSpec RedSSpec.
Import ListNotations.
Open Scope Z_scope.

Section RingS.
  Context {S : Type} (O : Ops S).
  Context (RT : ring_theory (o_Z O 0) (o_Z O 1) (o_add O) (o_mul O) (o_sub O) (o_neg O) eq).
  Context (ZS : forall k : Z, o_Z O (k + 1) = o_add O (o_Z O k) (o_Z O 1)).
  Add Ring SRingS : RT.
  Local Notation "x +! y" := (o_add O x y) (at level 50, left associativity).
  Local Notation "x -! y" := (o_sub O x y) (at level 50, left associativity).
  Local Notation "x *! y" := (o_mul O x y) (at level 40, left associativity).
  Local Notation "-! x" := (o_neg O x) (at level 35, right associativity).
  Local Notation "# z" := (o_Z O z) (at level 1, z at level 0).
  Local Notation gd := (s_get_d O).

  Lemma rd_map f F (t : table S) k : F #0 = #0 -> gd (mks f (t_map F t)) k = F (gd (mks f t) k).
  Proof. intros H. unfold s_get_d. cbn [s_d]. rewrite find_map. destruct (t_find t k); cbn; [reflexivity|symmetry; exact H]. Qed.
  Lemma rd_merge f g (t b : table S) k : NoDup (keys b) -> (forall o, g o #0 = o) ->
    gd (mks f (t_merge O g t b)) k = g (gd (mks f t) k) (gd (mks f b) k).
  Proof.
    intros H G. unfold s_get_d. cbn [s_d]. rewrite (find_merge O g t b k H).
    destruct (t_find b k) as [v|]; cbn [dflt]; [destruct (t_find t k); reflexivity|]. cbn. rewrite G. reflexivity.
  Qed.
  Lemma rd_f f f' (t : table S) k : gd (mks f t) k = gd (mks f' t) k. Proof. reflexivity. Qed.
  Lemma rd_eta x k : gd (mks (s_f x) (s_d x)) k = gd x k. Proof. destruct x; reflexivity. Qed.
  Lemma rd_binary f (a b : table S) da db k : NoDup (keys b) ->
    gd (mks f (s_binary O a b da db)) k = gd (mks f a) k *! da +! db *! gd (mks f b) k.
  Proof.
    intros H. unfold s_binary. rewrite rd_merge; [|exact H|intros; ring]. f_equal.
    rewrite (rd_map f (fun v => v *! da)) by ring. reflexivity.
  Qed.

  Section Shadow.
    Context (n : nat) (nm : nat -> string).
    Definition rshadow (J : jet S) (y : ss S) : Prop :=
      keys_ok y /\ s_f y = jf J /\ forall i, (i < n)%nat -> gd y (nm i) = jg J i.
    Definition algebraic (f : ufun S) : Prop :=
      match f with
      | Uneg | Uadds _ | Usadd _ | Usubs _ | Ussub _ | Umuls _ | Usmul _ | Udivs _ | Usdiv _ | Ureciprocal | Upow _ => True
      | _ => False
      end.
    Lemma rsh_u u J y : algebraic u -> rshadow J y -> rshadow (jap_u O u J) (s_apply_u O u y).
    Proof.
      intros HU (K & E & G). split; [apply keys_ok_u, K|]. destruct y as [yf yd]. cbn [s_f] in E. subst yf.
      assert (GM : forall f F i, F #0 = #0 -> (i < n)%nat -> gd (mks f (t_map F yd)) (nm i) = F (jg J i)).
      { intros f F i HF Hi. rewrite rd_map by exact HF. rewrite (rd_f f (jf J)). rewrite G by exact Hi. reflexivity. }
      destruct u; try contradiction; cbn [s_apply_u jap_u];
        unfold s_unary_op, sk_pow, sk_reciprocal, s_divs, s_smul, s_muls, s_subs, s_sadd, s_adds, s_ssub, s_neg, s_sdiv, s_unary,
          ju3, k_pow, k_reciprocal, k_sdiv; cbn [s_f s_d];
        (split; [reflexivity|]); intros i Hi;
        first [ exact (G i Hi)
              | rewrite GM by (try exact Hi; ring); unfold ju, jmap, jsetf; cbn; ring
              | rewrite GM by (try exact Hi; ring); cbn; rewrite ?(lit_m1 O RT ZS); ring
              | rewrite (rd_f _ (jf J)), G by exact Hi; reflexivity ].
    Qed.
    Lemma rsh_b b J K x y : match b with Badd | Bsub | Bmul | Bdiv => True | _ => False end ->
      rshadow J x -> rshadow K y -> rshadow (jap_b O b J K) (s_apply_b O b x y).
    Proof.
      intros HB (Kx & E & G) (Ky & E' & G'). split; [apply keys_ok_b, Kx|]. rewrite binary_shape, E, E'. unfold jap_b.
      assert (GB : forall f da db i, (i < n)%nat -> gd (mks f (s_binary O (s_d x) (s_d y) da db)) (nm i) = jg J i *! da +! db *! jg K i).
      { intros f da db i Hi. rewrite rd_binary by exact Ky. rewrite (rd_f f (s_f x)), rd_eta, G by exact Hi.
        rewrite (rd_f f (s_f y)), rd_eta, G' by exact Hi. reflexivity. }
      destruct b; try contradiction; cbn [sk_b k_b]; unfold k_add, k_sub, k_mul, k_div, jb6; cbv zeta;
        (split; [reflexivity|]); intros i Hi; rewrite GB by exact Hi; cbn; rewrite ?(lit_m1 O RT ZS); ring.
    Qed.
    Lemma rsh_const v : rshadow (jconst O v) (s_constant v).
    Proof. split; [constructor|]. split; [reflexivity|]. intros i Hi. reflexivity. Qed.
    Lemma rsh_var i v : distinct n nm -> (i < n)%nat -> rshadow (jvar O i v) (s_variable O (nm i) v).
    Proof.
      intros D Hi. split; [apply keys_ok_var|]. split; [reflexivity|]. intros j Hj. unfold s_get_d. cbn -[o_Z].
      destruct (String.eqb_spec (nm i) (nm j)) as [E|E].
      - apply D in E; [|assumption..]. subst j. rewrite Nat.eqb_refl. reflexivity.
      - destruct (Nat.eqb_spec j i) as [->|_]; [congruence|reflexivity].
    Qed.
    Lemma rsh_reorders J x y : rshadow J x -> reorders x y -> rshadow J y.
    Proof.
      intros (K & E & G) R. pose proof (reorders_keys _ _ K R) as K'. destruct (reorders_reads O _ _ K R) as (F & _ & D).
      split; [exact K'|]. split; [rewrite <- E; symmetry; exact F|]. intros i Hi. rewrite <- G by exact Hi. symmetry. apply D.
    Qed.
    Lemma rsh_runs env jenv p u v e X x : (forall i, occurs i e -> rshadow (jenv i) (env i)) -> hev O p u v e X ->
      s_runs O env e x -> rshadow (jev O jenv e) x.
    Proof.
      revert X x. induction e as [i|s|f e IH|b e1 IH1 e2 IH2|e1 _ e2 _ e3 _]; cbn [jev occurs hev]; intros X x H HX R; inversion R; subst.
      - eapply rsh_reorders; [apply H; reflexivity|eassumption].
      - eapply rsh_reorders; [apply rsh_const|eassumption].
      - destruct HX as (A & HA & HF). eapply rsh_reorders; [|eassumption]. apply rsh_u; [destruct f; try exact I; contradiction|].
        eapply IH; eassumption.
      - destruct HX as (A & B & HA & HB & HF). eapply rsh_reorders; [|eassumption]. apply rsh_b; [destruct b; try exact I; contradiction| |].
        + eapply IH1; [intros; apply H; left; assumption|eassumption|eassumption].
        + eapply IH2; [intros; apply H; right; assumption|eassumption|eassumption].
      - contradiction.
    Qed.
  End Shadow.

  Lemma vars_occur n (e : expr S) i : vars_below n e -> occurs i e -> (i < n)%nat.
  Proof.
    induction e as [k|s|f e IH|b e1 IH1 e2 IH2|e1 IH1 e2 IH2 e3 IH3]; cbn; intros H HO.
    - subst; exact H. - contradiction. - auto. - destruct H, HO; auto. - destruct H as (? & ? & ?), HO as [|[|]]; auto.
  Qed.
  Lemma ring_sparse (b : bool) n nm p e x :
    (b = false -> division_laws O) -> (b = true -> polynomial e) -> (b = false -> defined_at O p e) ->
    vars_below n e -> distinct n nm -> s_runs O (fun i => s_variable O (nm i) (p i)) e x ->
    forall u, exists X, hev O p u u e X /\ (forall X', hev O p u u e X' -> X' = X) /\
      h0 X = s_f x /\ h1 X = sum O n (fun i => gd x (nm i) *! u i).
  Proof.
    intros DL HP HD HV D R u.
    assert (DX : exists X, hev O p (fun _ => #0) (fun _ => #0) e X).
    { destruct b; [apply polynomial_defined, HP, eq_refl|exact (HD eq_refl)]. }
    destruct DX as (X0 & HX0). destruct (hev_moves O RT ZS p _ _ u u e X0 HX0) as (X & HX & _).
    assert (SH : rshadow n nm (jev O (fun i => jvar O i (p i)) e) x).
    { eapply rsh_runs; [|exact HX|exact R]. intros i Hi. apply rsh_var; [exact D|]. eapply vars_occur; eassumption. }
    destruct SH as (_ & E & G). exists X. split; [exact HX|].
    assert (U : forall X', hev O p u u e X' -> X' = lift O n u u (jev O (fun i => jvar O i (p i)) e))
      by (intros X'; apply (lift_hev O RT ZS n b); assumption).
    split; [intros X' HX'; rewrite (U X' HX'), (U X HX); reflexivity|]. rewrite (U X HX). cbn [lift h0 h1]. split; [symmetry; exact E|].
    unfold gs. apply sum_ext. intros i Hi. rewrite G by exact Hi. reflexivity.
  Qed.

  (** ** Any order *)
  Section Monoid.
    Context {A : Type} (op : A -> A -> A) (e0 : A).
    Context (comm : forall a b, op a b = op b a) (assoc : forall a b c, op a (op b c) = op (op a b) c) (unit : forall a, op e0 a = a).
    Lemma fold_app l l' : fold_right op e0 (l ++ l') = op (fold_right op e0 l) (fold_right op e0 l').
    Proof.
      rewrite fold_right_app. induction l as [|a xs IH]; cbn [fold_right]; [symmetry; apply unit|]. rewrite IH, assoc. reflexivity.
    Qed.
    Lemma tfold_list (t : tree A) : tfold op t = fold_right op e0 (leaves t).
    Proof.
      induction t as [a|l IHl r IHr]; cbn [tfold leaves fold_right]; [rewrite comm, unit; reflexivity|].
      rewrite IHl, IHr, fold_app. reflexivity.
    Qed.
    Lemma fold_perm l l' : Permutation l l' -> fold_right op e0 l = fold_right op e0 l'.
    Proof.
      intros H. induction H; cbn [fold_right]; [reflexivity|congruence| |congruence].
      rewrite !assoc, (comm y x). reflexivity.
    Qed.
  End Monoid.

  Definition view (k : string) (x : ss S) : S * S := (s_f x, gd x k).
  Definition vop (b : bfun) (x y : S * S) : S * S :=
    match b with Badd => (fst x +! fst y, snd x +! snd y) | _ => (fst x *! fst y, snd x *! fst y +! fst x *! snd y) end.
  Definition vunit (b : bfun) : S * S := match b with Badd => (#0, #0) | _ => (#1, #0) end.
  Lemma vop_comm b x y : vop b x y = vop b y x.
  Proof. destruct x, y, b; cbn; f_equal; ring. Qed.
  Lemma vop_assoc b x y z : vop b x (vop b y z) = vop b (vop b x y) z.
  Proof. destruct x, y, z, b; cbn; f_equal; ring. Qed.
  Lemma vop_unit b x : vop b (vunit b) x = x.
  Proof. destruct x, b; cbn; f_equal; ring. Qed.
  Lemma view_b b k x y : b = Badd \/ b = Bmul -> keys_ok y -> view k (s_apply_b O b x y) = vop b (view k x) (view k y).
  Proof.
    intros HB Ky. unfold view. destruct HB as [-> | ->]; cbn [s_apply_b]; unfold s_add, s_mul; cbn [s_f vop fst snd]; f_equal.
    - rewrite rd_binary by exact Ky. rewrite (rd_f _ (s_f x)), rd_eta, (rd_f _ (s_f y)), rd_eta. ring.
    - rewrite rd_binary by exact Ky. rewrite (rd_f _ (s_f x)), rd_eta, (rd_f _ (s_f y)), rd_eta. reflexivity.
  Qed.
  Lemma view_reorders k x y : keys_ok x -> reorders x y -> view k y = view k x.
  Proof. intros K R. destruct (reorders_reads O _ _ K R) as (F & _ & D). unfold view. rewrite D. unfold s_get_f in F. congruence. Qed.
  Lemma names_reorders k (x y : ss S) : reorders x y -> (In k (names y) <-> In k (names x)).
  Proof. intros (_ & P). unfold names. split; apply Permutation_in, Permutation_map; [symmetry|]; exact P. Qed.
  Lemma leaves_map {A B} (f : A -> B) t : leaves (tmap f t) = map f (leaves t).
  Proof. induction t; cbn; [reflexivity|]. rewrite map_app. congruence. Qed.

  Lemma reduces_view b t x : b = Badd \/ b = Bmul -> s_reduces O b t x -> List.Forall keys_ok (leaves t) ->
    keys_ok x /\ (forall k, In k (names x) <-> exists y, In y (leaves t) /\ In k (names y)) /\
    forall k, view k x = tfold (vop b) (tmap (view k) t).
  Proof.
    intros HB R. induction R as [x|l r x y z Rl IHl Rr IHr Rz]; cbn [leaves tmap tfold]; intros HK.
    - inversion HK; subst. split; [assumption|]. split; [|reflexivity]. intros k. split; [intros Hk; exists x; split; [left; reflexivity|exact Hk]|].
      intros (y & [<-|[]] & Hk). exact Hk.
    - apply Forall_app in HK. destruct HK as (HKl & HKr). destruct (IHl HKl) as (Kx & Nx & Vx), (IHr HKr) as (Ky & Ny & Vy).
      pose proof (keys_ok_b O b x y Kx) as Kb. split; [eapply reorders_keys; eassumption|]. split.
      + intros k. rewrite (names_reorders k _ _ Rz), (names_b O b x y k Ky), Nx, Ny. split.
        * intros [(w & Hw & Hk)|(w & Hw & Hk)]; exists w; (split; [apply in_or_app; auto|exact Hk]).
        * intros (w & Hw & Hk). apply in_app_or in Hw. destruct Hw; [left|right]; exists w; auto.
      + intros k. rewrite (view_reorders k _ _ Kb Rz), (view_b b k x y HB Ky), Vx, Vy. reflexivity.
  Qed.
  Lemma views_reorder x y : keys_ok x -> keys_ok y -> s_f x = s_f y -> (forall k, In k (names x) <-> In k (names y)) ->
    (forall k, gd x k = gd y k) -> reorders x y.
  Proof.
    intros Kx Ky E N G. apply (reorders_iff x y Kx). split; [exact E|]. split; [exact Ky|]. intros k. specialize (N k). specialize (G k).
    change (names ?z) with (keys (s_d z)) in N. rewrite !in_keys in N. unfold s_get_d in G.
    destruct (t_find (s_d x) k) as [v|], (t_find (s_d y) k) as [w|]; cbn in *.
    - congruence.
    - destruct (proj1 N); [eexists; reflexivity|]; congruence.
    - destruct (proj2 N); [eexists; reflexivity|]; congruence.
    - reflexivity.
  Qed.
  Lemma reductions_any_order b t t' x x' : b = Badd \/ b = Bmul -> Permutation (leaves t) (leaves t') -> List.Forall keys_ok (leaves t) ->
    s_reduces O b t x -> s_reduces O b t' x' -> reorders x x'.
  Proof.
    intros HB P HK R R'. assert (HK' : List.Forall keys_ok (leaves t')) by (eapply Permutation_Forall; eassumption).
    destruct (reduces_view b t x HB R HK) as (Kx & Nx & Vx), (reduces_view b t' x' HB R' HK') as (Kx' & Nx' & Vx').
    assert (V : forall k, view k x = view k x').
    { intros k. rewrite Vx, Vx'. rewrite !(tfold_list (vop b) (vunit b) (vop_comm b) (vop_assoc b) (vop_unit b)), !leaves_map.
      apply (fold_perm (vop b) (vunit b) (vop_comm b) (vop_assoc b)), Permutation_map, P. }
    apply views_reorder; [exact Kx|exact Kx'|exact (f_equal fst (V EmptyString))| |intros k; exact (f_equal snd (V k))].
    intros k. rewrite Nx, Nx'. split; intros (y & Hy & Hk); exists y; (split; [|exact Hk]); [eapply Permutation_in; eassumption|].
    eapply Permutation_in; [symmetry|]; eassumption.
  Qed.
  Lemma s_reduces_exists b (t : tree (ss S)) : exists x, s_reduces O b t x.
  Proof.
    induction t as [x|l (x & Hx) r (y & Hy)]; [eexists; constructor|]. exists (s_apply_b O b x y). econstructor; try eassumption. apply reorders_refl.
  Qed.
  (** Left to right. *)
  Lemma py_fold_view b xs : b = Badd \/ b = Bmul -> forall x, keys_ok x -> List.Forall keys_ok xs ->
    keys_ok (s_py_fold O b x xs) /\ (forall k, In k (names (s_py_fold O b x xs)) <-> In k (names x) \/ exists y, In y xs /\ In k (names y)) /\
    forall k, view k (s_py_fold O b x xs) = vop b (view k x) (fold_right (vop b) (vunit b) (map (view k) xs)).
  Proof.
    intros HB. unfold s_py_fold. induction xs as [|y ys IH]; intros x Kx HK; cbn [fold_left map fold_right].
    - split; [exact Kx|]. split; [intros k; split; [auto|intros [H|(y & [] & _)]; exact H]|]. intros k. rewrite vop_comm, vop_unit. reflexivity.
    - inversion HK as [|? ? Ky HK']; subst. destruct (IH (s_apply_b O b x y) (keys_ok_b O b x y Kx) HK') as (K & N & V). split; [exact K|]. split.
      + intros k. rewrite N, (names_b O b x y k Ky). cbn [In]. split.
        * intros [[H|H]|(w & Hw & Hk)]; [left; exact H|right; exists y; auto|right; exists w; auto].
        * intros [H|(w & [<-|Hw] & Hk)]; [auto|auto|right; exists w; auto].
      + intros k. rewrite V, (view_b b k x y HB Ky), <- vop_assoc. reflexivity.
  Qed.
  Lemma python_any_order x xs t y z : Permutation (leaves t) (x :: xs) -> List.Forall keys_ok (x :: xs) ->
    s_reduces O Badd t y -> s_reduces O Bmul t z -> reorders (s_py_sum O x xs) y /\ reorders (s_py_prod O x xs) z.
  Proof.
    intros P HK Ry Rz. assert (HKt : List.Forall keys_ok (leaves t)) by (eapply Permutation_Forall; [symmetry; exact P|exact HK]).
    inversion HK as [|? ? Kx HK']; subst.
    assert (G : forall b u w, b = Badd \/ b = Bmul -> keys_ok u -> (forall k, In k (names u) <-> In k (names x)) -> (forall k, view k u = view k x) ->
      s_reduces O b t w -> reorders (s_py_fold O b u xs) w).
    { intros b u w HB Ku Nu Vu R. destruct (reduces_view b t w HB R HKt) as (Kw & Nw & Vw).
      destruct (py_fold_view b xs HB u Ku HK') as (Kf & Nf & Vf).
      assert (V : forall k, view k (s_py_fold O b u xs) = view k w).
      { intros k. rewrite Vf, Vu, Vw, (tfold_list (vop b) (vunit b) (vop_comm b) (vop_assoc b) (vop_unit b)), leaves_map.
        rewrite (fold_perm (vop b) (vunit b) (vop_comm b) (vop_assoc b) _ _ (Permutation_map (view k) P)). reflexivity. }
      apply views_reorder; [exact Kf|exact Kw|exact (f_equal fst (V EmptyString))| |intros k; exact (f_equal snd (V k))].
      intros k. rewrite Nf, Nw, Nu. split.
      - intros [H|(v & Hv & Hk)]; [exists x|exists v]; (split; [apply (Permutation_in _ (Permutation_sym P)); cbn; auto|assumption]).
      - intros (v & Hv & Hk). apply (Permutation_in _ P) in Hv. destruct Hv as [<-|Hv]; [left; exact Hk|right; exists v; auto]. }
    split; (apply G; [auto|apply keys_ok_u, Kx|intros k; rewrite names_u; reflexivity| |assumption]); intros k; unfold view.
    - cbn. f_equal. ring.
    - cbn. unfold s_smul, s_muls. cbn [s_f]. f_equal; [ring|]. rewrite rd_map by ring. rewrite (rd_f _ (s_f x)), rd_eta. ring.
  Qed.

  (** ** Matrices *)
  Local Notation sum := (sum O).
  Lemma fold_sums (F G : nat -> S) m :
    fold_right (vop Badd) (vunit Badd) (map (fun q => (F q, G q)) (seq 0 m)) = (sum m F, sum m G).
  Proof.
    induction m as [|m IH]; [reflexivity|]. rewrite seq_S, map_app.
    rewrite (fold_app (vop Badd) (vunit Badd) (vop_assoc Badd) (vop_unit Badd)), IH. cbn. f_equal; f_equal; ring.
  Qed.
  Lemma sum_swap n m (F : nat -> nat -> S) : sum n (fun i => sum m (fun j => F i j)) = sum m (fun j => sum n (fun i => F i j)).
  Proof.
    induction n as [|n IH]; cbn [RingSpec.sum].
    - symmetry. apply (sum_zero O RT).
    - rewrite IH, <- (sum_plus O RT). reflexivity.
  Qed.
  Lemma dot_view m x y z : (forall k, (k < m)%nat -> keys_ok (x k) /\ keys_ok (y k)) -> s_dot O m x y z ->
    keys_ok z /\ (0 < m)%nat /\ (forall k, In k (names z) <-> exists q, (q < m)%nat /\ (In k (names (x q)) \/ In k (names (y q)))) /\
    s_f z = sum m (fun q => s_f (x q) *! s_f (y q)) /\
    forall k, gd z k = sum m (fun q => gd (x q) k *! s_f (y q) +! s_f (x q) *! gd (y q) k).
  Proof.
    intros HK (t & p & P & HP & R).
    assert (Kb : forall q, (q < m)%nat -> keys_ok (s_apply_b O Bmul (x q) (y q))) by (intros q Hq; apply keys_ok_b, HK, Hq).
    assert (LT : forall q, In q (leaves t) <-> (q < m)%nat).
    { intros q. split; intros H; [apply (Permutation_in _ P), in_seq in H; lia|apply (Permutation_in _ (Permutation_sym P)), in_seq; lia]. }
    destruct (reduces_view Badd _ z (or_introl eq_refl) R) as (Kz & Nz & Vz).
    { rewrite leaves_map. apply Forall_forall. intros w Hw. apply in_map_iff in Hw. destruct Hw as (q & <- & Hq). apply LT in Hq.
      eapply reorders_keys; [apply Kb, Hq|apply HP, Hq]. }
    split; [exact Kz|]. split.
    { destruct m; [|lia]. apply Permutation_sym, Permutation_nil in P. clear -P. induction t as [a|l IHl r IHr]; cbn in P; [discriminate|].
      apply app_eq_nil in P. apply IHl, P. }
    split.
    { intros k. rewrite Nz, leaves_map. split.
      - intros (w & Hw & Hk). apply in_map_iff in Hw. destruct Hw as (q & <- & Hq). apply LT in Hq. exists q. split; [exact Hq|].
        rewrite (names_reorders k _ _ (HP q Hq)) in Hk. apply (names_b O Bmul _ _ k (proj2 (HK q Hq))), Hk.
      - intros (q & Hq & Hk). exists (p q). split; [apply in_map, LT, Hq|]. rewrite (names_reorders k _ _ (HP q Hq)).
        apply (names_b O Bmul _ _ k (proj2 (HK q Hq))), Hk. }
    assert (V : forall k, view k z = (sum m (fun q => s_f (x q) *! s_f (y q)), sum m (fun q => gd (x q) k *! s_f (y q) +! s_f (x q) *! gd (y q) k))).
    { intros k. rewrite Vz, (tfold_list (vop Badd) (vunit Badd) (vop_comm Badd) (vop_assoc Badd) (vop_unit Badd)), !leaves_map, map_map.
      rewrite (fold_perm (vop Badd) (vunit Badd) (vop_comm Badd) (vop_assoc Badd) _ _ (Permutation_map (fun q => view k (p q)) P)).
      rewrite <- fold_sums. f_equal. apply map_ext_in. intros q Hq. apply in_seq in Hq.
      rewrite (view_reorders k _ _ (Kb q ltac:(lia)) (HP q ltac:(lia))), (view_b Bmul k _ _ (or_intror eq_refl) (proj2 (HK q ltac:(lia)))). reflexivity. }
    split; [exact (f_equal fst (V EmptyString))|]. intros k. exact (f_equal snd (V k)).
  Qed.
  Lemma matmul_any_order a b d e A B D AB BD L R : keys_mat a b A -> keys_mat b d B -> keys_mat d e D ->
    s_matmul O a b d A B AB -> s_matmul O a d e AB D L -> s_matmul O b d e B D BD -> s_matmul O a b e A BD R ->
    forall i j, (i < a)%nat -> (j < e)%nat -> reorders (L i j) (R i j).
  Proof.
    intros KA KB KD HAB HL HBD HR i j Hi Hj.
    assert (VAB : forall r, (r < d)%nat -> _) by (intros r Hr; exact (dot_view b _ _ _ (fun q Hq => conj (KA i q Hi Hq) (KB q r Hq Hr)) (HAB i r Hi Hr))).
    assert (VBD : forall q, (q < b)%nat -> _) by (intros q Hq; exact (dot_view d _ _ _ (fun r Hr => conj (KB q r Hq Hr) (KD r j Hr Hj)) (HBD q j Hq Hj))).
    destruct (dot_view d _ _ _ (fun r Hr => conj (proj1 (VAB r Hr)) (KD r j Hr Hj)) (HL i j Hi Hj)) as (KL & d0 & NL & FL & GL).
    destruct (dot_view b _ _ _ (fun q Hq => conj (KA i q Hi Hq) (proj1 (VBD q Hq))) (HR i j Hi Hj)) as (KR & b0 & NR & FR & GR).
    apply views_reorder; [exact KL|exact KR| | |].
    - rewrite FL, FR. transitivity (sum d (fun r => sum b (fun q => s_f (A i q) *! s_f (B q r) *! s_f (D r j)))).
      + apply sum_ext. intros r Hr. destruct (VAB r Hr) as (_ & _ & _ & -> & _).
        transitivity (s_f (D r j) *! sum b (fun q => s_f (A i q) *! s_f (B q r))); [ring|]. rewrite <- (sum_scal O RT). apply sum_ext. intros; ring.
      + rewrite sum_swap. apply sum_ext. intros q Hq. destruct (VBD q Hq) as (_ & _ & _ & -> & _).
        rewrite <- (sum_scal O RT). apply sum_ext. intros; ring.
    - intros k. rewrite NL, NR. split.
      + intros (r & Hr & [H|H]).
        * destruct (VAB r Hr) as (_ & _ & N & _). rewrite N in H. destruct H as (q & Hq & [H|H]); exists q; (split; [exact Hq|]); [left; exact H|].
          right. destruct (VBD q Hq) as (_ & _ & N' & _). rewrite N'. exists r. auto.
        * exists 0%nat. split; [exact b0|]. right. destruct (VBD 0%nat b0) as (_ & _ & N' & _). rewrite N'. exists r. auto.
      + intros (q & Hq & [H|H]).
        * exists 0%nat. split; [exact d0|]. left. destruct (VAB 0%nat d0) as (_ & _ & N & _). rewrite N. exists q. auto.
        * destruct (VBD q Hq) as (_ & _ & N' & _). rewrite N' in H. destruct H as (r & Hr & [H|H]); exists r; (split; [exact Hr|]); [|right; exact H].
          left. destruct (VAB r Hr) as (_ & _ & N & _). rewrite N. exists q. auto.
    - intros k. rewrite GL, GR.
      transitivity (sum d (fun r => sum b (fun q => gd (A i q) k *! s_f (B q r) *! s_f (D r j) +! s_f (A i q) *! gd (B q r) k *! s_f (D r j)
                                                      +! s_f (A i q) *! s_f (B q r) *! gd (D r j) k))).
      + apply sum_ext. intros r Hr. destruct (VAB r Hr) as (_ & _ & _ & F & G). rewrite F, G.
        transitivity (s_f (D r j) *! sum b (fun q => gd (A i q) k *! s_f (B q r) +! s_f (A i q) *! gd (B q r) k)
                      +! gd (D r j) k *! sum b (fun q => s_f (A i q) *! s_f (B q r))); [ring|].
        rewrite <- !(sum_scal O RT), <- (sum_plus O RT). apply sum_ext. intros; ring.
      + rewrite sum_swap. apply sum_ext. intros q Hq. destruct (VBD q Hq) as (_ & _ & _ & F & G). rewrite F, G.
        rewrite <- !(sum_scal O RT), <- (sum_plus O RT). apply sum_ext. intros; ring.
  Qed.
End RingS.

Lemma sparse_polynomials : forall (S : Type) (O : Ops S) (n : nat) (nm : nat -> string) (p : nat -> S) (e : expr S) (x : ss S),
  ring_laws O -> polynomial e -> vars_below n e -> distinct n nm -> s_runs O (fun i => s_variable O (nm i) (p i)) e x ->
  forall u, exists X, hev O p u u e X /\ (forall X', hev O p u u e X' -> X' = X) /\
    h0 X = s_f x /\ h1 X = sum O n (fun i => o_mul O (s_get_d O x (nm i)) (u i)).
Proof. intros S O n nm p e x (RT & ZS) HP. apply (ring_sparse O RT ZS true); auto; discriminate. Qed.
Lemma sparse_quotients : forall (S : Type) (O : Ops S) (n : nat) (nm : nat -> string) (p : nat -> S) (e : expr S) (x : ss S),
  ring_laws O -> division_laws O -> defined_at O p e -> vars_below n e -> distinct n nm -> s_runs O (fun i => s_variable O (nm i) (p i)) e x ->
  forall u, exists X, hev O p u u e X /\ (forall X', hev O p u u e X' -> X' = X) /\
    h0 X = s_f x /\ h1 X = sum O n (fun i => o_mul O (s_get_d O x (nm i)) (u i)).
Proof. intros S O n nm p e x (RT & ZS) HD HP. apply (ring_sparse O RT ZS false); auto; discriminate. Qed.
Lemma sparse_components : forall (S : Type) (O : Ops S) (n : nat) (nm : nat -> string) (p : nat -> S) (e : expr S) (x : ss S),
  ring_laws O -> polynomial e \/ division_laws O /\ defined_at O p e -> vars_below n e -> distinct n nm ->
  s_runs O (fun i => s_variable O (nm i) (p i)) e x ->
  forall i X, (i < n)%nat -> hev O p (dir O i) (dir O i) e X -> h0 X = s_f x /\ h1 X = s_get_d O x (nm i).
Proof.
  intros S O n nm p e x RL HP HV D R i X Hi HX.
  assert (H : exists X, hev O p (dir O i) (dir O i) e X /\ (forall X', hev O p (dir O i) (dir O i) e X' -> X' = X) /\
    h0 X = s_f x /\ h1 X = sum O n (fun k => o_mul O (s_get_d O x (nm k)) (dir O i k))).
  { destruct HP as [HP|(HD & HP)]; [apply sparse_polynomials|apply sparse_quotients]; assumption. }
  destruct H as (Y & HY & U & E0 & E1). rewrite (U X HX). split; [exact E0|]. rewrite E1.
  exact (gs_dir O (proj1 RL) n (mkjet (o_Z O 0) (fun k => s_get_d O x (nm k)) (fun _ _ => o_Z O 0)) i Hi).
Qed.
Lemma sparse_any_order : forall (S : Type) (O : Ops S), ring_laws O -> forall (b : bfun) (t t' : tree (ss S)) (x x' : ss S),
  b = Badd \/ b = Bmul -> Permutation (leaves t) (leaves t') -> List.Forall keys_ok (leaves t) ->
  s_reduces O b t x -> s_reduces O b t' x' -> reorders x x'.
Proof. intros S O (RT & ZS). exact (reductions_any_order O RT). Qed.
Lemma sparse_python_sum : forall (S : Type) (O : Ops S), ring_laws O -> forall (x : ss S) (xs : list (ss S)) (t : tree (ss S)) (y z : ss S),
  Permutation (leaves t) (x :: xs) -> List.Forall keys_ok (x :: xs) -> s_reduces O Badd t y -> s_reduces O Bmul t z ->
  reorders (s_py_sum O x xs) y /\ reorders (s_py_prod O x xs) z.
Proof. intros S O (RT & ZS). exact (python_any_order O RT). Qed.
Lemma sparse_matrix_products : forall (S : Type) (O : Ops S), ring_laws O -> forall (a b d e : nat) (A B D AB BD L R : nat -> nat -> ss S),
  keys_mat a b A -> keys_mat b d B -> keys_mat d e D ->
  s_matmul O a b d A B AB -> s_matmul O a d e AB D L -> s_matmul O b d e B D BD -> s_matmul O a b e A BD R ->
  forall i j, (i < a)%nat -> (j < e)%nat -> reorders (L i j) (R i j).
Proof. intros S O (RT & ZS). exact (matmul_any_order O RT). Qed.
Lemma sparse_dot : forall (S : Type) (O : Ops S), ring_laws O -> forall (m : nat) (x y : nat -> ss S) (z : ss S),
  (forall q, (q < m)%nat -> keys_ok (x q) /\ keys_ok (y q)) -> s_dot O m x y z ->
  s_f z = sum O m (fun q => o_mul O (s_f (x q)) (s_f (y q))) /\
  forall k, s_get_d O z k = sum O m (fun q => o_add O (o_mul O (s_get_d O (x q) k) (s_f (y q))) (o_mul O (s_f (x q)) (s_get_d O (y q) k))).
Proof. intros S O (RT & ZS) m x y z HK H. destruct (dot_view O RT m x y z HK H) as (_ & _ & _ & F & G). split; assumption. Qed.
