(** C75: derivatives over any commutative ring. *)
From Coq Require Import ZArith List Bool Lia Setoid Ring Field Ring_theory Eqdep_dec QArith_base Qreduction Qcanon.
From Verif Require Import Outcome Scalar Model Spec Core Kernels OpsRep AccRep FactsLayout ExprSpec Expr NumSpec FactsNum Samples RingSpec.
Import ListNotations.
Open Scope Z_scope.

Section RingFacts.
  Context {S : Type} (O : Ops S).
  Context (RT : ring_theory (o_Z O 0) (o_Z O 1) (o_add O) (o_mul O) (o_sub O) (o_neg O) eq).
  Context (ZS : forall k : Z, o_Z O (k + 1) = o_add O (o_Z O k) (o_Z O 1)).
  Add Ring SRing : RT.
  Local Notation "x +! y" := (o_add O x y) (at level 50, left associativity).
  Local Notation "x -! y" := (o_sub O x y) (at level 50, left associativity).
  Local Notation "x *! y" := (o_mul O x y) (at level 40, left associativity).
  Local Notation "-! x" := (o_neg O x) (at level 35, right associativity).
  Local Notation "# z" := (o_Z O z) (at level 1, z at level 0).
  Local Notation sum := (sum O).

  (** ** Literals *)
  Lemma lit_2 : #2 = #1 +! #1. Proof. exact (ZS 1). Qed.
  Lemma lit_m1 : #(-1) = -! #1.
  Proof. assert (H : #0 = #(-1) +! #1) by exact (ZS (-1)). transitivity ((#(-1) +! #1) -! #1); [ring|]. rewrite <- H. ring. Qed.
  Lemma lit_m2 : #(-2) = -! (#1 +! #1).
  Proof. assert (H : #(-1) = #(-2) +! #1) by exact (ZS (-2)). transitivity ((#(-2) +! #1) -! #1); [ring|]. rewrite <- H, lit_m1. ring. Qed.
  Lemma lit_succ k : #(Z.of_nat (Datatypes.S k)) = #(Z.of_nat k) +! #1.
  Proof. rewrite <- ZS. f_equal. lia. Qed.

  (** ** Sums *)
  Lemma sum_ext n f g : (forall i, (i < n)%nat -> f i = g i) -> sum n f = sum n g.
  Proof. induction n as [|n IH]; intros H; cbn; [reflexivity|]. rewrite IH by (intros; apply H; lia). rewrite H by lia. reflexivity. Qed.
  Lemma sum_plus n f g : sum n (fun i => f i +! g i) = sum n f +! sum n g.
  Proof. induction n as [|n IH]; cbn; [ring|]. rewrite IH. ring. Qed.
  Lemma sum_scal n k f : sum n (fun i => k *! f i) = k *! sum n f.
  Proof. induction n as [|n IH]; cbn; [ring|]. rewrite IH. ring. Qed.
  Lemma sum_zero n : sum n (fun _ => #0) = #0.
  Proof. induction n as [|n IH]; cbn; [reflexivity|]. rewrite IH. ring. Qed.
  Lemma sum_single n i f : (i < n)%nat -> (forall k, k <> i -> f k = #0) -> sum n f = f i.
  Proof.
    induction n as [|n IH]; intros Hi H; [lia|]. cbn. destruct (Nat.eq_dec i n) as [->|Hn].
    - rewrite (sum_ext n f (fun _ => #0)), sum_zero by (intros; apply H; lia). ring.
    - rewrite IH by (try lia; assumption). rewrite (H n) by lia. ring.
  Qed.
  Lemma sum_prod n m f g : sum n f *! sum m g = sum n (fun i => sum m (fun j => f i *! g j)).
  Proof. induction n as [|n IH]; cbn; [ring|]. rewrite <- IH, sum_scal. ring. Qed.

  (** ** Shapes of results, as for reals in Expr.v *)
  Definition gs n (J : jet S) (u : nat -> S) : S := sum n (fun i => jg J i *! u i).
  Definition hs n (J : jet S) (u v : nat -> S) : S := sum n (fun i => sum n (fun j => hess J i j *! u i *! v j)).
  Definition likeu (p0 p1 p2 : S) (J r : jet S) : Prop :=
    jf r = p0 /\ (forall i, jg r i = p1 *! jg J i) /\ (forall i j, jh r i j = p1 *! jh J i j +! p2 *! jg J i *! jg J j).
  Definition likeb (p a b ab bb : S) (J K r : jet S) : Prop :=
    jf r = p /\ (forall i, jg r i = a *! jg J i +! b *! jg K i) /\
    (forall i j, jh r i j = a *! jh J i j +! b *! jh K i j +! ab *! (jg J i *! jg K j +! jg K i *! jg J j) +! bb *! jg K i *! jg K j).

  Lemma mm_prod (g k : nat -> S) i j :
    g (Nat.min i j) *! k (Nat.max i j) +! k (Nat.min i j) *! g (Nat.max i j) = g i *! k j +! k i *! g j.
  Proof.
    destruct (Nat.le_ge_cases i j).
    - rewrite Nat.min_l, Nat.max_r by lia. reflexivity.
    - rewrite Nat.min_r, Nat.max_l by lia. ring.
  Qed.
  Lemma mm_sq (g : nat -> S) i j : g (Nat.min i j) *! g (Nat.max i j) = g i *! g j.
  Proof.
    destruct (Nat.le_ge_cases i j).
    - rewrite Nat.min_l, Nat.max_r by lia. reflexivity.
    - rewrite Nat.min_r, Nat.max_l by lia. ring.
  Qed.
  Lemma gs_u n p0 p1 p2 J r u : likeu p0 p1 p2 J r -> gs n r u = p1 *! gs n J u.
  Proof. intros (_ & Hg & _). unfold gs. rewrite <- sum_scal. apply sum_ext. intros i _. rewrite Hg. ring. Qed.
  Lemma hess_u p0 p1 p2 J r i j : likeu p0 p1 p2 J r -> hess r i j = p1 *! hess J i j +! p2 *! (jg J i *! jg J j).
  Proof. intros (_ & _ & Hh). unfold hess. rewrite Hh. rewrite <- (mm_sq (jg J) i j). ring. Qed.
  Lemma hs_u n p0 p1 p2 J r u v : likeu p0 p1 p2 J r -> hs n r u v = p1 *! hs n J u v +! p2 *! (gs n J u *! gs n J v).
  Proof.
    intros HL. unfold hs, gs. rewrite sum_prod, <- !sum_scal, <- sum_plus.
    apply sum_ext. intros i _. rewrite <- !sum_scal, <- sum_plus. apply sum_ext. intros j _.
    rewrite (hess_u _ _ _ _ _ _ _ HL). ring.
  Qed.
  Lemma gs_b n p a b ab bb J K r u : likeb p a b ab bb J K r -> gs n r u = a *! gs n J u +! b *! gs n K u.
  Proof. intros (_ & Hg & _). unfold gs. rewrite <- !sum_scal, <- sum_plus. apply sum_ext. intros i _. rewrite Hg. ring. Qed.
  Lemma hess_b p a b ab bb J K r i j : likeb p a b ab bb J K r ->
    hess r i j = a *! hess J i j +! b *! hess K i j +! ab *! (jg J i *! jg K j +! jg K i *! jg J j) +! bb *! (jg K i *! jg K j).
  Proof. intros (_ & _ & Hh). unfold hess. rewrite Hh. rewrite <- (mm_sq (jg K) i j), <- (mm_prod (jg J) (jg K) i j). ring. Qed.
  Lemma hs_b n p a b ab bb J K r u v : likeb p a b ab bb J K r ->
    hs n r u v = a *! hs n J u v +! b *! hs n K u v +! ab *! (gs n J u *! gs n K v +! gs n K u *! gs n J v) +! bb *! (gs n K u *! gs n K v).
  Proof.
    intros HL. unfold hs, gs. rewrite !sum_prod, <- !sum_plus, <- !sum_scal, <- !sum_plus.
    apply sum_ext. intros i _. rewrite <- !sum_plus, <- !sum_scal, <- !sum_plus. apply sum_ext. intros j _.
    rewrite (hess_b _ _ _ _ _ _ _ _ _ _ HL). ring.
  Qed.

  (** The value at p + u e1 + v e2 that a jet announces. *)
  Definition lift n (u v : nat -> S) (J : jet S) : hyper := mkh (jf J) (gs n J u) (gs n J v) (hs n J u v).
  Lemma lift_u n u v p0 p1 p2 J r : likeu p0 p1 p2 J r ->
    lift n u v r = mkh p0 (p1 *! gs n J u) (p1 *! gs n J v) (p1 *! hs n J u v +! p2 *! (gs n J u *! gs n J v)).
  Proof.
    intros HL. unfold lift. rewrite (gs_u _ _ _ _ _ _ u HL), (gs_u _ _ _ _ _ _ v HL), (hs_u _ _ _ _ _ _ u v HL). destruct HL as (-> & _).
    reflexivity.
  Qed.
  Lemma lift_b n u v p a b ab bb J K r : likeb p a b ab bb J K r ->
    lift n u v r = mkh p (a *! gs n J u +! b *! gs n K u) (a *! gs n J v +! b *! gs n K v)
      (a *! hs n J u v +! b *! hs n K u v +! ab *! (gs n J u *! gs n K v +! gs n K u *! gs n J v) +! bb *! (gs n K u *! gs n K v)).
  Proof.
    intros HL. unfold lift. rewrite (gs_b _ _ _ _ _ _ _ _ _ u HL), (gs_b _ _ _ _ _ _ _ _ _ v HL), (hs_b _ _ _ _ _ _ _ _ _ u v HL).
    destruct HL as (-> & _). reflexivity.
  Qed.

  Ltac hyp := unfold hadd, hmul, hneg, hconst; cbn [h0 h1 h2 h12]; f_equal; ring.
  (** ** Quotients *)
  Lemma hmul_cancel x z y : invertible O (h0 y) -> hmul O x y = hmul O z y -> x = z.
  Proof.
    intros (w & Hw) E. destruct x as [x0 x1 x2 x12], z as [z0 z1 z2 z12], y as [y0 y1 y2 y12].
    unfold hmul in E. cbn [h0 h1 h2 h12] in *. injection E as E0 E1 E2 E12.
    assert (C : forall s t, s *! y0 = t *! y0 -> s = t).
    { intros s t H. transitivity ((s *! y0) *! w); [ring [Hw]|]. rewrite H. ring [Hw]. }
    pose proof (C _ _ E0) as <-.
    assert (A : forall s a b, s +! a = s +! b -> a = b).
    { intros s a b H. transitivity ((s +! a) -! s); [ring|]. rewrite H. ring. }
    apply A, C in E1. apply A, C in E2. subst z1 z2. apply A, C in E12. subst z12. reflexivity.
  Qed.
  (** The quotient, given an inverse [w] of the value of the divisor. *)
  Definition hinv_by (w : S) (y : hyper) : hyper :=
    mkh w (-! (w *! w *! h1 y)) (-! (w *! w *! h2 y)) ((#1 +! #1) *! w *! w *! w *! h1 y *! h2 y -! w *! w *! h12 y).
  Lemma hinv_ok w y x : w *! h0 y = #1 -> hmul O (hmul O x (hinv_by w y)) y = x.
  Proof.
    destruct x as [x0 x1 x2 x12], y as [y0 y1 y2 y12]. cbn [h0]. intros Hw. unfold hmul, hinv_by. cbn [h0 h1 h2 h12].
    f_equal; ring [Hw].
  Qed.
  Lemma hquot_exists x y : invertible O (h0 y) -> exists z, hquot O x y z /\ forall w, w *! h0 y = #1 -> z = hmul O x (hinv_by w y).
  Proof.
    intros (w & Hw). exists (hmul O x (hinv_by w y)). split.
    - split; [exists w; exact Hw|apply hinv_ok, Hw].
    - intros w' Hw'. f_equal. f_equal. transitivity (w *! (w' *! h0 y)); [rewrite Hw'; ring|ring [Hw]].
  Qed.
  Lemma hquot_is x y z w : hquot O x y z -> w *! h0 y = #1 -> z = hmul O x (hinv_by w y).
  Proof. intros (HI & E) Hw. apply (hmul_cancel _ _ y HI). rewrite E. symmetry. apply hinv_ok, Hw. Qed.

  Lemma hpow_is x k : hpow O x k = mkh (spow O (h0 x) k) (#(Z.of_nat k) *! spow O (h0 x) (k - 1) *! h1 x)
    (#(Z.of_nat k) *! spow O (h0 x) (k - 1) *! h2 x)
    (#(Z.of_nat k) *! spow O (h0 x) (k - 1) *! h12 x +! (#(Z.of_nat k) -! #1) *! #(Z.of_nat k) *! spow O (h0 x) (k - 2) *! h1 x *! h2 x).
  Proof.
    induction k as [|k IH].
    - cbn [hpow spow Z.of_nat]. unfold hconst. f_equal; ring.
    - cbn [hpow]. rewrite IH. unfold hmul. cbn [h0 h1 h2 h12]. rewrite lit_succ. replace (Datatypes.S k - 1)%nat with k by lia.
      destruct k as [|k]; [cbn [spow Z.of_nat Nat.sub]; f_equal; ring|].
      replace (Datatypes.S k - 1)%nat with k by lia. replace (Datatypes.S (Datatypes.S k) - 2)%nat with k by lia. rewrite lit_succ.
      destruct k as [|k]; [cbn [spow Z.of_nat Nat.sub]; f_equal; ring|].
      replace (Datatypes.S (Datatypes.S k) - 2)%nat with k by lia. cbn [spow]. f_equal; ring.
  Qed.

  Section Division.
    Context (DL : division_laws O).
    Lemma div_is a b w : w *! b = #1 -> o_div O a b = a *! w.
    Proof.
      intros Hw. destruct DL as (D & _). specialize (D a b (ex_intro _ w Hw)).
      transitivity ((o_div O a b *! b) *! w); [ring [Hw]|]. rewrite D. reflexivity.
    Qed.
    Lemma div_sq a b w : w *! b = #1 -> o_div O a (o_pow O b #2) = a *! w *! w.
    Proof.
      intros Hw. destruct DL as (_ & P & _). rewrite (P b (ex_intro _ w Hw)). rewrite (div_is a (b *! b) (w *! w)) by ring [Hw]. ring.
    Qed.
    Lemma div_cube a b w : w *! b = #1 -> o_div O a (o_pow O b #3) = a *! w *! w *! w.
    Proof.
      intros Hw. destruct DL as (_ & _ & P). rewrite (P b (ex_intro _ w Hw)).
      rewrite (div_is a (b *! b *! b) (w *! w *! w)) by ring [Hw]. ring.
    Qed.
  End Division.

  (** ** Operators and functions *)
  Ltac jets := unfold jap_b, jap_u, jmap, jsetf, jb6, ju3, jb, ju;
    cbn [k_b k_add k_sub k_mul jf jg jh vset vadd vmul vacc cmul is_zero andb negb].
  Lemma like_add J K : likeb (jf J +! jf K) #1 #1 #0 #0 J K (jap_b O Badd J K).
  Proof. split; [reflexivity|]. split; intros; jets; ring. Qed.
  Lemma like_sub J K : likeb (jf J -! jf K) #1 (-! #1) #0 #0 J K (jap_b O Bsub J K).
  Proof. split; [reflexivity|]. split; intros; jets; ring. Qed.
  Lemma like_mul J K : likeb (jf J *! jf K) (jf K) (jf J) #1 #0 J K (jap_b O Bmul J K).
  Proof. split; [reflexivity|]. split; intros; jets; ring. Qed.
  Lemma like_ju f da daa J : likeu f da daa J (ju O f (CVal da) (CVal daa) J).
  Proof. split; [reflexivity|]. split; intros; jets; ring. Qed.

  Definition no_division (b : bool) (f : ufun S) : Prop :=
    b = true -> match f with Udivs _ | Usdiv _ | Ureciprocal => False | _ => True end.
  Lemma lift_hfun n u v (b : bool) f J X : (b = false -> division_laws O) -> no_division b f ->
    hfun O f (lift n u v J) X -> X = lift n u v (jap_u O f J).
  Proof.
    intros DL ND. destruct f; cbn [hfun]; try contradiction.
    - (* neg *) intros ->. rewrite (lift_u n u v (-! jf J) (-! #1) #0 J (jap_u O Uneg J)) by (split; [reflexivity|split; intros; jets; ring]).
      unfold lift. hyp.
    - (* pow *) intros (k & -> & HP & ->). rewrite hpow_is. cbn [jap_u ju3 k_pow]. rewrite (lift_u _ _ _ _ _ _ _ _ (like_ju _ _ _ J)).
      unfold lift. cbn [h0 h1 h2 h12].
      destruct k as [|k]; [rewrite (HP (jf J) 0%nat) by lia; cbn [Z.of_nat spow]; f_equal; ring|].
      rewrite (HP (jf J) (Datatypes.S k)) by lia. assert (E1 : #(Z.of_nat (Datatypes.S k)) -! #1 = #(Z.of_nat k)) by (rewrite lit_succ; ring).
      rewrite E1, (HP (jf J) k) by lia. replace (Datatypes.S k - 1)%nat with k by lia.
      destruct k as [|k]; [cbn [Z.of_nat]; f_equal; ring|].
      assert (E2 : #(Z.of_nat (Datatypes.S (Datatypes.S k))) -! #2 = #(Z.of_nat k)) by (rewrite !lit_succ, lit_2; ring).
      rewrite E2, (HP (jf J) k) by lia. replace (Datatypes.S (Datatypes.S k) - 2)%nat with k by lia. f_equal; ring.
    - (* reciprocal *) destruct b; [destruct (ND eq_refl)|]. specialize (DL eq_refl). intros Q. destruct Q as ((w & Hw) & E).
      rewrite (hquot_is _ _ _ w (conj (ex_intro _ w Hw) E) Hw). cbn [lift h0] in Hw.
      cbn [jap_u ju3 k_reciprocal]. rewrite (lift_u _ _ _ _ _ _ _ _ (like_ju _ _ _ J)). rewrite (div_is DL _ _ _ Hw), lit_m2.
      unfold lift, hinv_by. hyp.
    - (* adds *) intros ->. rewrite (lift_u n u v (jf J +! b0) #1 #0 J (jap_u O (Uadds b0) J)) by (split; [reflexivity|split; intros; jets; ring]). unfold lift. hyp.
    - (* sadd *) intros ->. rewrite (lift_u n u v (jf J +! a) #1 #0 J (jap_u O (Usadd a) J)) by (split; [reflexivity|split; intros; jets; ring]). unfold lift. hyp.
    - (* subs *) intros ->. rewrite (lift_u n u v (jf J +! -! b0) #1 #0 J (jap_u O (Usubs b0) J)) by (split; [reflexivity|split; intros; jets; ring]). unfold lift. hyp.
    - (* ssub *) intros ->. rewrite (lift_u n u v (-! jf J +! a) (-! #1) #0 J (jap_u O (Ussub a) J)) by (split; [reflexivity|split; intros; jets; ring]). unfold lift. hyp.
    - (* muls *) intros ->. rewrite (lift_u n u v (jf J *! b0) b0 #0 J (jap_u O (Umuls b0) J)) by (split; [reflexivity|split; intros; jets; ring]). unfold lift. hyp.
    - (* smul *) intros ->. rewrite (lift_u n u v (jf J *! a) a #0 J (jap_u O (Usmul a) J)) by (split; [reflexivity|split; intros; jets; ring]). unfold lift. hyp.
    - (* divs *) destruct b; [destruct (ND eq_refl)|]. specialize (DL eq_refl). intros Q. destruct Q as ((w & Hw) & E).
      rewrite (hquot_is _ _ _ w (conj (ex_intro _ w Hw) E) Hw). cbn [lift h0 hconst] in Hw.
      rewrite (lift_u n u v (jf J *! w) w #0 J (jap_u O (Udivs b0) J)) by (split; [jets; rewrite (div_is DL _ _ _ Hw); ring|split; intros; jets; rewrite (div_is DL _ _ _ Hw); ring]).
      unfold lift, hinv_by. hyp.
    - (* sdiv *) destruct b; [destruct (ND eq_refl)|]. specialize (DL eq_refl). intros Q. destruct Q as ((w & Hw) & E).
      rewrite (hquot_is _ _ _ w (conj (ex_intro _ w Hw) E) Hw). cbn [lift h0] in Hw.
      cbn [jap_u ju3 k_sdiv]. rewrite (lift_u _ _ _ _ _ _ _ _ (like_ju _ _ _ J)).
      rewrite (div_is DL _ _ _ Hw), (div_sq DL _ _ _ Hw), (div_cube DL _ _ _ Hw), lit_2. unfold lift, hinv_by. hyp.
  Qed.
  Lemma lift_hbin n u v (b : bool) o J K X : (b = false -> division_laws O) -> (b = true -> o <> Bdiv) ->
    hbin O o (lift n u v J) (lift n u v K) X -> X = lift n u v (jap_b O o J K).
  Proof.
    intros DL ND. destruct o; cbn [hbin]; try contradiction.
    - intros ->. rewrite (lift_b _ _ _ _ _ _ _ _ _ _ _ (like_add J K)). unfold lift. hyp.
    - intros ->. rewrite (lift_b _ _ _ _ _ _ _ _ _ _ _ (like_sub J K)). unfold lift. hyp.
    - intros ->. rewrite (lift_b _ _ _ _ _ _ _ _ _ _ _ (like_mul J K)). unfold lift. hyp.
    - destruct b; [destruct (ND eq_refl eq_refl)|]. specialize (DL eq_refl). intros Q. destruct Q as ((w & Hw) & E).
      rewrite (hquot_is _ _ _ w (conj (ex_intro _ w Hw) E) Hw). cbn [lift h0] in Hw.
      rewrite (lift_b n u v (jf J *! w) w (-! (jf J *! w *! w)) (-! (w *! w)) ((#1 +! #1) *! jf J *! w *! w *! w) J K (jap_b O Bdiv J K)).
      + unfold lift, hinv_by. hyp.
      + unfold jap_b, jb6, k_b, k_div. rewrite !(div_is DL _ _ _ Hw), !(div_sq DL _ _ _ Hw), !(div_cube DL _ _ _ Hw), lit_2, lit_m1.
        split; [cbn; ring|]. split; intros; jets; ring.
  Qed.

  Lemma lift_var n u v p i : (i < n)%nat -> lift n u v (jvar O i (p i)) = mkh (p i) (u i) (v i) #0.
  Proof.
    intros Hi. unfold lift. cbn [jf jvar].
    assert (G : forall w, gs n (jvar O i (p i)) w = w i).
    { intros w. unfold gs. rewrite (sum_single n i) by (try exact Hi; intros k Hk; cbn [jg jvar];
        rewrite (proj2 (Nat.eqb_neq k i) Hk); ring). cbn [jg jvar]. rewrite Nat.eqb_refl. ring. }
    rewrite !G. f_equal. unfold hs. rewrite (sum_ext n _ (fun _ => #0)); [apply sum_zero|]. intros k _.
    rewrite (sum_ext n _ (fun _ => #0)); [apply sum_zero|]. intros l _. unfold hess. cbn [jh jvar]. ring.
  Qed.
  Lemma lift_const n u v s : lift n u v (jconst O s) = hconst O s.
  Proof.
    unfold lift, hconst. cbn [jf jconst].
    assert (G : forall w, gs n (jconst O s) w = #0).
    { intros w. unfold gs. rewrite (sum_ext n _ (fun _ => #0)); [apply sum_zero|]. intros; cbn [jg jconst]; ring. }
    rewrite !G. f_equal. unfold hs. rewrite (sum_ext n _ (fun _ => #0)); [apply sum_zero|]. intros k _.
    rewrite (sum_ext n _ (fun _ => #0)); [apply sum_zero|]. intros l _. unfold hess. cbn [jh jconst]. ring.
  Qed.
  Lemma lift_hev n (b : bool) p u v e X : (b = false -> division_laws O) -> (b = true -> polynomial e) -> vars_below n e ->
    hev O p u v e X -> X = lift n u v (jev O (fun i => jvar O i (p i)) e).
  Proof.
    intros DL. revert X. induction e as [i|s|f e IH|o e1 IH1 e2 IH2|e1 _ e2 _ e3 _]; intros X HP HV; cbn [hev jev vars_below polynomial] in *.
    - intros ->. symmetry. apply lift_var, HV.
    - intros ->. symmetry. apply lift_const.
    - intros (A & HA & HX). rewrite (IH A (fun E => proj1 (HP E)) HV HA) in HX. apply lift_hfun with b; [exact DL| |exact HX].
      intros ->. destruct (HP eq_refl) as (_ & H). destruct f; try exact I; contradiction.
    - intros (A & B & HA & HB & HX). rewrite (IH1 A (fun E => proj1 (HP E)) (proj1 HV) HA) in HX.
      rewrite (IH2 B (fun E => proj1 (proj2 (HP E))) (proj2 HV) HB) in HX. apply lift_hbin with b; [exact DL| |exact HX].
      intros -> ->. destruct (HP eq_refl) as (_ & _ & H). exact H.
    - intros [].
  Qed.

  (** ** Existence *)
  Lemma hfun_moves f A A' X : hfun O f A X -> h0 A' = h0 A -> exists X', hfun O f A' X' /\ h0 X' = h0 X.
  Proof.
    assert (QQ : forall x y z x' y', hquot O x y z -> h0 x' = h0 x -> h0 y' = h0 y -> exists z', hquot O x' y' z' /\ h0 z' = h0 z).
    { intros x y z x' y' HQ Ex Ey. destruct (hquot_exists x' y') as (z' & HQ' & _); [rewrite Ey; apply HQ|]. exists z'. split; [exact HQ'|].
      destruct (proj1 HQ) as (w & Hw). rewrite (hquot_is _ _ _ w HQ Hw). rewrite <- Ey in Hw. rewrite (hquot_is _ _ _ w HQ' Hw).
      unfold hmul, hinv_by. cbn [h0]. rewrite Ex. reflexivity. }
    intros H E. destruct f; cbn [hfun] in *; try contradiction; subst;
      try (eexists; split; [reflexivity|]; unfold hneg, hadd, hmul, hconst; cbn [h0]; rewrite E; reflexivity).
    - destruct H as (k & -> & P & ->). exists (hpow O A' k). split; [exists k; auto|]. rewrite !hpow_is. cbn [h0]. rewrite E. reflexivity.
    - eapply QQ; [exact H|reflexivity|exact E].
    - eapply QQ; [exact H|exact E|reflexivity].
    - eapply QQ; [exact H|reflexivity|exact E].
  Qed.
  Lemma hbin_moves o A B A' B' X : hbin O o A B X -> h0 A' = h0 A -> h0 B' = h0 B -> exists X', hbin O o A' B' X' /\ h0 X' = h0 X.
  Proof.
    intros H E E'. destruct o; cbn [hbin] in *; try contradiction; subst;
      try (eexists; split; [reflexivity|]; unfold hneg, hadd, hmul, hconst; cbn [h0]; rewrite ?E, ?E'; reflexivity).
    destruct (hquot_exists A' B') as (z' & HQ' & _); [rewrite E'; apply H|]. exists z'. split; [exact HQ'|].
    destruct (proj1 H) as (w & Hw). rewrite (hquot_is _ _ _ w H Hw). rewrite <- E' in Hw. rewrite (hquot_is _ _ _ w HQ' Hw).
    unfold hmul, hinv_by. cbn [h0]. rewrite E. reflexivity.
  Qed.
  Lemma hev_moves p u v u' v' e X : hev O p u v e X -> exists X', hev O p u' v' e X' /\ h0 X' = h0 X.
  Proof.
    revert X. induction e as [i|s|f e IH|o e1 IH1 e2 IH2|e1 _ e2 _ e3 _]; intros X; cbn [hev].
    - intros ->. eexists. split; reflexivity.
    - intros ->. eexists. split; reflexivity.
    - intros (A & HA & HX). destruct (IH A HA) as (A' & HA' & E). destruct (hfun_moves f A A' X HX E) as (X' & HX' & E'). eauto.
    - intros (A & B & HA & HB & HX). destruct (IH1 A HA) as (A' & HA' & E). destruct (IH2 B HB) as (B' & HB' & E').
      destruct (hbin_moves o A B A' B' X HX E E') as (X' & HX' & E''). exists X'. split; [exists A', B'; auto|exact E''].
    - intros [].
  Qed.
  Lemma polynomial_defined p e : polynomial e -> exists X, hev O p (fun _ => #0) (fun _ => #0) e X.
  Proof.
    induction e as [i|s|f e IH|o e1 IH1 e2 IH2|e1 _ e2 _ e3 _]; cbn [hev polynomial].
    - eauto.
    - eauto.
    - intros (HE & HF). destruct (IH HE) as (A & HA). destruct f; try contradiction; eexists; exists A; (split; [exact HA|reflexivity]).
    - intros (HE & HE' & HF). destruct (IH1 HE) as (A & HA), (IH2 HE') as (B & HB).
      destruct o; try contradiction; eexists; exists A, B; (split; [exact HA|split; [exact HB|reflexivity]]).
    - intros [].
  Qed.

  Lemma gs_dir n J i : (i < n)%nat -> gs n J (dir O i) = jg J i.
  Proof.
    intros Hi. unfold gs. rewrite (sum_single n i) by (try exact Hi; intros k Hk; unfold dir; rewrite (proj2 (Nat.eqb_neq k i) Hk); ring).
    unfold dir. rewrite Nat.eqb_refl. ring.
  Qed.
  Lemma hs_dir n J i j : (i < n)%nat -> (j < n)%nat -> hs n J (dir O i) (dir O j) = hess J i j.
  Proof.
    intros Hi Hj. unfold hs. rewrite (sum_single n i) by (first [exact Hi|intros k Hk; rewrite (sum_ext n _ (fun _ => #0)); [apply sum_zero|];
      intros l _; unfold dir; rewrite (proj2 (Nat.eqb_neq k i) Hk); ring]).
    rewrite (sum_single n j) by (try exact Hj; intros k Hk; unfold dir; rewrite (proj2 (Nat.eqb_neq k j) Hk); ring).
    unfold dir. rewrite !Nat.eqb_refl. ring.
  Qed.

  Lemma ring_run (b : bool) c vs e : let n := length vs in let p := at_point O vs in
    (b = false -> division_laws O) -> (b = true -> polynomial e) -> (b = false -> defined_at O p e) ->
    cfg_ok c -> size_ok c n -> vars_below n e ->
    exists r f g h, evaluate O c vs e = Ok r /\ shows c n r f g h /\
      forall u v, exists X, hev O p u v e X /\ (forall X', hev O p u v e X' -> X' = X) /\
        h0 X = f /\ h1 X = sum n (fun i => g i *! u i) /\ h2 X = sum n (fun i => g i *! v i) /\
        h12 X = sum n (fun i => sum n (fun j => h i j *! u i *! v j)).
  Proof.
    intros n p DL HP HD Hc SO HV. destruct (evaluate_rep O c vs #0 e Hc SO HV) as (r & E & R).
    set (J := jev O (fun i => jvar O i (nth i vs #0)) e) in *. exists r, (jf J), (jg J), (hess J). split; [exact E|]. split; [apply rep_shows, R|].
    intros u v. assert (U : forall X', hev O p u v e X' -> X' = lift n u v J) by (intros X'; apply lift_hev with b; assumption).
    assert (D : exists X, hev O p (fun _ => #0) (fun _ => #0) e X).
    { destruct b; [apply polynomial_defined, HP, eq_refl|exact (HD eq_refl)]. }
    destruct D as (X0 & H0). destruct (hev_moves p _ _ u v e X0 H0) as (X & HX & _). exists X. split; [exact HX|].
    rewrite (U X HX). split; [exact U|]. repeat split.
  Qed.
End RingFacts.

Lemma ring_polynomials {S} (O : Ops S) c vs e : let n := length vs in let p := at_point O vs in
  ring_laws O -> polynomial e -> cfg_ok c -> size_ok c n -> vars_below n e ->
  exists r f g h, evaluate O c vs e = Ok r /\ shows c n r f g h /\
    forall u v, exists X, hev O p u v e X /\ (forall X', hev O p u v e X' -> X' = X) /\
      h0 X = f /\ h1 X = sum O n (fun i => o_mul O (g i) (u i)) /\ h2 X = sum O n (fun i => o_mul O (g i) (v i)) /\
      h12 X = sum O n (fun i => sum O n (fun j => o_mul O (o_mul O (h i j) (u i)) (v j))).
Proof. intros n p (RT & ZS) HP. apply (ring_run O RT ZS true); try discriminate; auto. Qed.
Lemma ring_quotients {S} (O : Ops S) c vs e : let n := length vs in let p := at_point O vs in
  ring_laws O -> division_laws O -> defined_at O p e -> cfg_ok c -> size_ok c n -> vars_below n e ->
  exists r f g h, evaluate O c vs e = Ok r /\ shows c n r f g h /\
    forall u v, exists X, hev O p u v e X /\ (forall X', hev O p u v e X' -> X' = X) /\
      h0 X = f /\ h1 X = sum O n (fun i => o_mul O (g i) (u i)) /\ h2 X = sum O n (fun i => o_mul O (g i) (v i)) /\
      h12 X = sum O n (fun i => sum O n (fun j => o_mul O (o_mul O (h i j) (u i)) (v j))).
Proof. intros n p (RT & ZS) DL HD. apply (ring_run O RT ZS false); try discriminate; auto. Qed.
(** One component at a time. *)
Lemma ring_components {S} (O : Ops S) c vs e : let n := length vs in let p := at_point O vs in
  ring_laws O -> polynomial e \/ division_laws O /\ defined_at O p e -> cfg_ok c -> size_ok c n -> vars_below n e ->
  exists r f g h, evaluate O c vs e = Ok r /\ shows c n r f g h /\
    forall i j X, (i < n)%nat -> (j < n)%nat -> hev O p (dir O i) (dir O j) e X ->
      h0 X = f /\ h1 X = g i /\ h2 X = g j /\ h12 X = h i j.
Proof.
  intros n p (RT & ZS) HP Hc SO HV. destruct (evaluate_rep O c vs (o_Z O 0) e Hc SO HV) as (r & E & R).
  set (J := jev O (fun i => jvar O i (nth i vs (o_Z O 0))) e) in *. exists r, (jf J), (jg J), (hess J). split; [exact E|]. split; [apply rep_shows, R|].
  intros i j X Hi Hj HX. assert (U : X = lift O n (dir O i) (dir O j) J).
  { destruct HP as [HP|(DL & _)]; [apply (lift_hev O RT ZS n true p)|apply (lift_hev O RT ZS n false p)]; try discriminate; auto. }
  rewrite U. unfold lift. cbn [h0 h1 h2 h12]. rewrite !gs_dir, !hs_dir by assumption. auto.
Qed.

(** ** Two scalar types *)
Lemma word_eq w (x y : word w) : wval x = wval y -> x = y.
Proof.
  destruct x as [x Hx], y as [y Hy]. cbn. intros <-. f_equal. apply UIP_dec. decide equality.
Qed.
Lemma word_ring w : ring_laws (word_ops w).
Proof.
  assert (M : 2 ^ Zpos w <> 0) by (apply Z.pow_nonzero; lia).
  assert (V : forall x : word w, wval x mod 2 ^ Zpos w = wval x) by (intros [x Hx]; apply Z.eqb_eq, Hx).
  split; [constructor; intros; apply word_eq; cbn|intros k; apply word_eq; cbn].
  all: rewrite ?Zplus_mod_idemp_l, ?Zplus_mod_idemp_r, ?Zmult_mod_idemp_l, ?Zmult_mod_idemp_r, ?Zminus_mod_idemp_l, ?Zminus_mod_idemp_r.
  all: first [apply V|rewrite Z.mul_1_l; apply V|rewrite Z.add_opp_diag_r; reflexivity|f_equal; lia].
Qed.
Lemma Qc_ring : ring_laws Qc_ops.
Proof.
  split; [exact Qcrt|]. intros k. apply Qc_is_canon.
  change (Qred (inject_Z (k + 1)) == Qred (Qred (inject_Z k) + Qred (inject_Z 1)))%Q.
  rewrite !Qred_correct. unfold Qeq. cbn. lia.
Qed.
Lemma Qc_division : division_laws Qc_ops.
Proof.
  assert (N : forall b : Qc, invertible Qc_ops b -> b <> Q2Qc 0).
  { intros b (y & H) ->. change (y * 0 = 1)%Qc in H. rewrite Qcmult_0_r in H. discriminate. }
  split; [|split].
  - intros a b H. change (a / b * b = a)%Qc. field. apply N, H.
  - intros b _. change (b * (b * 1) = b * b)%Qc. ring.
  - intros b _. change (b * (b * (b * 1)) = b * b * b)%Qc. ring.
Qed.
Lemma words_case : (forall w, ring_laws (word_ops w)) /\
  let O := word_ops 64 in let e := EB Bmul (EB Bmul (EVar 0) (EVar 0)) (EVar 1) in
  polynomial (S := word 64) e /\
  exists r f g h, evaluate O (sta2 2) [wrap 64 (2 ^ 33 + 1); wrap 64 3] e = Ok r /\ shows (sta2 2) 2 r f g h /\
    wval f = ((2 ^ 33 + 1) * (2 ^ 33 + 1) * 3) mod 2 ^ 64 /\
    wval (g 0%nat) = 2 * (2 ^ 33 + 1) * 3 /\ wval (g 1%nat) = ((2 ^ 33 + 1) * (2 ^ 33 + 1)) mod 2 ^ 64 /\
    wval (h 0%nat 0%nat) = 6 /\ wval (h 0%nat 1%nat) = 2 * (2 ^ 33 + 1) /\ wval (h 1%nat 1%nat) = 0.
Proof.
  split; [exact word_ring|]. intros O e. split; [cbn; tauto|].
  destruct (evaluate_rep O (sta2 2) [wrap 64 (2 ^ 33 + 1); wrap 64 3] (o_Z O 0) e) as (r & E & R).
  { apply cfg_sta2. lia. } { split; [reflexivity|vm_compute; discriminate]. } { cbn. lia. }
  apply rep_shows in R. do 4 eexists. split; [exact E|]. split; [exact R|]. vm_compute. repeat split.
Qed.
Lemma rationals_case : ring_laws Qc_ops /\ division_laws Qc_ops /\
  let e := EB Bdiv (EVar 0) (EVar 1) in let vs := [Q2Qc (Qmake 1 2); Q2Qc (Qmake 3 1)] in
  defined_at Qc_ops (at_point Qc_ops vs) e /\
  exists r f g h, evaluate Qc_ops (sta2 2) vs e = Ok r /\ shows (sta2 2) 2 r f g h /\
    f = Q2Qc (Qmake 1 6) /\ g 0%nat = Q2Qc (Qmake 1 3) /\ g 1%nat = Q2Qc (Qmake (-1) 18) /\
    h 0%nat 0%nat = Q2Qc 0 /\ h 0%nat 1%nat = Q2Qc (Qmake (-1) 9) /\ h 1%nat 1%nat = Q2Qc (Qmake 1 27).
Proof.
  split; [exact Qc_ring|]. split; [exact Qc_division|]. intros e vs. split.
  - destruct Qc_ring as (RT & ZS). destruct (hquot_exists Qc_ops RT (mkh (Q2Qc (Qmake 1 2)) 0%Qc 0%Qc 0%Qc) (mkh (Q2Qc (Qmake 3 1)) 0%Qc 0%Qc 0%Qc)) as (z & Hz & _).
    { exists (Q2Qc (Qmake 1 3)). apply Qc_is_canon. reflexivity. }
    exists z. do 2 eexists. split; [reflexivity|]. split; [reflexivity|exact Hz].
  - destruct (evaluate_rep Qc_ops (sta2 2) vs (o_Z Qc_ops 0) e) as (r & E & R).
    { apply cfg_sta2. lia. } { split; [reflexivity|vm_compute; discriminate]. } { cbn. lia. }
    apply rep_shows in R. do 4 eexists. split; [exact E|]. split; [exact R|].
    repeat split; apply Qc_is_canon; reflexivity.
Qed.
