(** Proofs for C98: relations between runs with different seeds, any scalar types. *)
From Coq Require Import ZArith List Bool Lia.
From Verif Require Import Outcome Scalar Model Spec Core Kernels OpsRep AccRep ExprSpec ProgSpec Expr Prog ParamSpec FactsLayout FactsExpr GradeSpec.
Import ListNotations.
Open Scope Z_scope.

Section Graded.
  Context {S T : Type} (P0 : S -> T -> Prop) (P1 : nat -> S -> T -> Prop) (P2 : nat -> nat -> S -> T -> Prop)
          (O : Ops S) (O' : Ops T) (G : graded P0 P1 P2 O O').

  (** Entries of jets; the second-order ones for the index pairs that are stored. *)
  Definition jrel (J : jet S) (K : jet T) : Prop :=
    P0 (jf J) (jf K) /\ (forall i, P1 i (jg J i) (jg K i)) /\ (forall i j, P2 i j (jh J i j) (jh K i j)).

  Definition crel (k : coef S) (k' : coef T) : Prop :=
    match k, k' with CZero, CZero | COne, COne | CMinusOne, CMinusOne => True | CVal a, CVal b => P0 a b | _, _ => False end.
  Definition vrel (P : S -> T -> Prop) (v : val S) (v' : val T) : Prop :=
    match v, v' with VZero, VZero => True | V a, V b => P a b | _, _ => False end.

  Lemma m11 i j a a' b b' : P1 i a a' -> P1 j b b' -> P2 i j (o_mul O a b) (o_mul O' a' b').
  Proof. intros A B. exact (proj1 (gr_mul11 _ _ _ _ _ G i j _ _ _ _ A B)). Qed.
  Lemma m11' i j a a' b b' : P1 j a a' -> P1 i b b' -> P2 i j (o_mul O a b) (o_mul O' a' b').
  Proof. intros A B. exact (proj2 (gr_mul11 _ _ _ _ _ G j i _ _ _ _ A B)). Qed.
  Lemma cmul1 i k k' a a' : crel k k' -> P1 i a a' -> vrel (P1 i) (cmul O k a) (cmul O' k' a').
  Proof.
    intros H A. destruct k, k'; cbn in *; try contradiction; auto.
    - now apply (gr_neg1 _ _ _ _ _ G). - now apply (gr_mul01 _ _ _ _ _ G).
  Qed.
  Lemma cmul2 i j k k' a a' : crel k k' -> P2 i j a a' -> vrel (P2 i j) (cmul O k a) (cmul O' k' a').
  Proof.
    intros H A. destruct k, k'; cbn in *; try contradiction; auto.
    - now apply (gr_neg2 _ _ _ _ _ G). - now apply (gr_mul02 _ _ _ _ _ G).
  Qed.
  Lemma vadd1 i a a' b b' : vrel (P1 i) a a' -> vrel (P1 i) b b' -> vrel (P1 i) (vadd O a b) (vadd O' a' b').
  Proof. destruct a, a', b, b'; cbn; try contradiction; auto. apply (gr_add1 _ _ _ _ _ G). Qed.
  Lemma vadd2 i j a a' b b' : vrel (P2 i j) a a' -> vrel (P2 i j) b b' -> vrel (P2 i j) (vadd O a b) (vadd O' a' b').
  Proof. destruct a, a', b, b'; cbn; try contradiction; auto. apply (gr_add2 _ _ _ _ _ G). Qed.
  Lemma vset1 i a a' : vrel (P1 i) a a' -> P1 i (vset O a) (vset O' a').
  Proof. destruct a, a'; cbn; try contradiction; auto. intros _. apply (gr_zero1 _ _ _ _ _ G). Qed.
  Lemma vset2 i j a a' : vrel (P2 i j) a a' -> P2 i j (vset O a) (vset O' a').
  Proof. destruct a, a'; cbn; try contradiction; auto. intros _. apply (gr_zero2 _ _ _ _ _ G). Qed.
  Lemma vmul11 i j a a' b b' : vrel (P1 i) a a' -> P1 j b b' -> vrel (P2 i j) (vmul O a b) (vmul O' a' b').
  Proof. destruct a, a'; cbn; try contradiction; auto. intros A B. now apply m11. Qed.
  Lemma vacc2 i j a a' b b' : P2 i j a a' -> vrel (P2 i j) b b' -> P2 i j (vacc O a b) (vacc O' a' b').
  Proof. destruct b, b'; cbn; try contradiction; auto. apply (gr_add2 _ _ _ _ _ G). Qed.
  Lemma crel_zero k k' : crel k k' -> is_zero k = is_zero k'.
  Proof. destruct k, k'; cbn; try contradiction; reflexivity. Qed.

  Ltac zeros := repeat match goal with H : crel ?k ?k' |- context [is_zero ?k] => rewrite (crel_zero _ _ H) end.
  Ltac grd := repeat first
    [ assumption
    | apply vset1 | apply vset2 | apply vacc2 | apply vadd1 | apply vadd2 | apply vmul11 | apply cmul1 | apply cmul2 ].

  Lemma ju_rel f f' da da' daa daa' J K : P0 f f' -> crel da da' -> crel daa daa' -> jrel J K ->
    jrel (ju O f da daa J) (ju O' f' da' daa' K).
  Proof.
    intros F A B (_ & HG & HH). split; [exact F|]. split; intros; cbn.
    - grd. apply HG.
    - zeros. destruct (is_zero daa'); grd; auto.
  Qed.
  Lemma jb_rel f f' da da' db db' daa daa' dab dab' dbb dbb' J K J' K' : P0 f f' -> crel da da' -> crel db db' -> crel daa daa' ->
    crel dab dab' -> crel dbb dbb' -> jrel J K -> jrel J' K' ->
    jrel (jb O f da db daa dab dbb J J') (jb O' f' da' db' daa' dab' dbb' K K').
  Proof.
    intros F A B A2 AB B2 (_ & HG & HH) (_ & HG' & HH'). split; [exact F|]. split; intros; cbn.
    - grd; auto.
    - zeros. destruct (is_zero daa' && is_zero dab' && is_zero dbb'); grd; auto.
  Qed.
  Lemma jt_rel f f' da da' db db' dc dc' daa daa' dab dab' dac dac' dbb dbb' dbc dbc' dcc dcc' J K J' K' J'' K'' :
    P0 f f' -> crel da da' -> crel db db' -> crel dc dc' -> crel daa daa' -> crel dab dab' -> crel dac dac' -> crel dbb dbb' ->
    crel dbc dbc' -> crel dcc dcc' -> jrel J K -> jrel J' K' -> jrel J'' K'' ->
    jrel (jt O f da db dc daa dab dac dbb dbc dcc J J' J'') (jt O' f' da' db' dc' daa' dab' dac' dbb' dbc' dcc' K K' K'').
  Proof.
    intros F A B C A2 AB AC B2 BC C2 (_ & HG & HH) (_ & HG' & HH') (_ & HG'' & HH''). split; [exact F|]. split; intros; cbn.
    - grd; auto.
    - zeros. destruct (is_zero daa' && is_zero dab' && is_zero dac' && is_zero dbb' && is_zero dbc' && is_zero dcc'); grd; auto.
  Qed.
  Lemma jmap_rel op op' J K : (forall a b, P0 a b -> P0 (op a) (op' b)) -> (forall i a b, P1 i a b -> P1 i (op a) (op' b)) ->
    (forall i j a b, P2 i j a b -> P2 i j (op a) (op' b)) -> jrel J K -> jrel (jmap op J) (jmap op' K).
  Proof. intros H0 H1 H2 (F & HG & HH). split; [|split]; intros; cbn; auto. Qed.
  Lemma jsetf_rel J K v v' : P0 v v' -> jrel J K -> jrel (jsetf J v) (jsetf K v').
  Proof. intros F (_ & HG & HH). split; [|split]; auto. Qed.
  Lemma jconst_rel v v' : P0 v v' -> jrel (jconst O v) (jconst O' v').
  Proof. intros F. split; [exact F|]. split; intros; cbn; [apply (gr_zero1 _ _ _ _ _ G)|apply (gr_zero2 _ _ _ _ _ G)]. Qed.

  Let A := gr_arith _ _ _ _ _ G.
  Ltac val := repeat first
    [ assumption
    | apply (ar_Z _ _ _ A) | apply (ar_half _ _ _ A) | apply (ar_add _ _ _ A) | apply (ar_sub _ _ _ A) | apply (ar_mul _ _ _ A)
    | apply (ar_div _ _ _ A) | apply (ar_neg _ _ _ A) | apply (ar_pow _ _ _ A) | apply (ar_sqrt _ _ _ A) | apply (ar_cbrt _ _ _ A)
    | apply (ar_cos _ _ _ A) | apply (ar_sin _ _ _ A) | apply (ar_tan _ _ _ A) | apply (ar_acos _ _ _ A) | apply (ar_asin _ _ _ A)
    | apply (ar_atan _ _ _ A) | apply (ar_atan2 _ _ _ A) | apply (ar_hypot _ _ _ A) | apply (ar_hypot3 _ _ _ A) | apply (ar_cosh _ _ _ A)
    | apply (ar_sinh _ _ _ A) | apply (ar_tanh _ _ _ A) | apply (ar_acosh _ _ _ A) | apply (ar_asinh _ _ _ A) | apply (ar_atanh _ _ _ A)
    | apply (ar_exp _ _ _ A) | apply (ar_log _ _ _ A) | apply (ar_log2 _ _ _ A) | apply (ar_log10 _ _ _ A) ].

  Lemma jneg_rel J K : jrel J K -> jrel (jmap (o_neg O) J) (jmap (o_neg O') K).
  Proof.
    apply jmap_rel; intros; [val|now apply (gr_neg1 _ _ _ _ _ G)|now apply (gr_neg2 _ _ _ _ _ G)].
  Qed.
  Lemma jscale_rel J K s s' : P0 s s' -> jrel J K -> jrel (jmap (fun v => o_mul O v s) J) (jmap (fun v => o_mul O' v s') K).
  Proof.
    intros H. apply jmap_rel; intros; [val|now apply (gr_mul10 _ _ _ _ _ G)|now apply (gr_mul20 _ _ _ _ _ G)].
  Qed.
  Lemma jap_u_rel u u' J K : ufun_rel P0 u u' -> jrel J K -> jrel (jap_u O u J) (jap_u O' u' K).
  Proof.
    intros U R. assert (F : P0 (jf J) (jf K)) by apply R. destruct u, u'; cbn in U; try contradiction; cbn [jap_u];
      try (apply ju_rel; [cbn; val..|exact R]); try (apply jneg_rel, R); try (apply jsetf_rel; [val|exact R]);
      try (apply jscale_rel; [val|exact R]).
    - rewrite (or_lt _ _ _ (gr_order _ _ _ _ _ G) _ _ _ _ F (ar_Z _ _ _ A 0)). destruct (o_lt O' (jf K) (o_Z O' 0)); [apply jneg_rel, R|exact R].
    - apply jsetf_rel; [val|apply jneg_rel, R].
  Qed.
  Lemma jap_b_rel b J K J' K' : jrel J K -> jrel J' K' -> jrel (jap_b O b J J') (jap_b O' b K K').
  Proof.
    intros R R'. assert (F : P0 (jf J) (jf K)) by apply R. assert (F' : P0 (jf J') (jf K')) by apply R'.
    destruct b; unfold jap_b; cbn [k_b]; apply jb_rel; try exact R; try exact R'; try exact I; cbn; val.
  Qed.
  Lemma jap_h_rel J K J' K' J'' K'' : jrel J K -> jrel J' K' -> jrel J'' K'' ->
    jrel (jap_hypot3 O J J' J'') (jap_hypot3 O' K K' K'').
  Proof.
    intros R R' R''. assert (F : P0 (jf J) (jf K)) by apply R. assert (F' : P0 (jf J') (jf K')) by apply R'.
    assert (F'' : P0 (jf J'') (jf K'')) by apply R''.
    unfold jap_hypot3. cbv zeta. apply jt_rel; try assumption; cbn; val.
  Qed.
  Lemma jmul_assign_rel J K J' K' : jrel J K -> jrel J' K' -> jrel (jmul_assign O J J') (jmul_assign O' K K').
  Proof.
    intros (F & HG & HH) (F' & HG' & HH'). split; [cbn; val|]. split; intros; cbn.
    - apply (gr_add1 _ _ _ _ _ G); apply (gr_mul01 _ _ _ _ _ G); auto.
    - apply (gr_add2 _ _ _ _ _ G); apply (gr_add2 _ _ _ _ _ G); first [apply (gr_mul02 _ _ _ _ _ G); now auto|apply m11; now auto|apply m11'; now auto].
  Qed.
  Lemma jmul_self_rel J K : jrel J K -> jrel (jmul_self O J) (jmul_self O' K).
  Proof.
    intros (F & HG & HH). assert (HG' : forall i, P1 i (o_add O (o_mul O (jf J) (jg J i)) (o_mul O (jf J) (jg J i)))
                                                 (o_add O' (o_mul O' (jf K) (jg K i)) (o_mul O' (jf K) (jg K i)))).
    { intros i. apply (gr_add1 _ _ _ _ _ G); apply (gr_mul01 _ _ _ _ _ G); auto. }
    split; [cbn; val|]. split; intros; cbn; auto.
    apply (gr_add2 _ _ _ _ _ G); apply (gr_add2 _ _ _ _ _ G); first [apply (gr_mul02 _ _ _ _ _ G); now auto|apply m11; now auto|apply m11'; now auto].
  Qed.
  Lemma jb_self_rel f f' da da' db db' daa daa' dab dab' dbb dbb' J K : P0 f f' -> crel da da' -> crel db db' -> crel daa daa' ->
    crel dab dab' -> crel dbb dbb' -> jrel J K ->
    jrel (jb_self O f da db daa dab dbb J) (jb_self O' f' da' db' daa' dab' dbb' K).
  Proof.
    intros F C D A2 AB B2 (_ & HG & HH).
    assert (HG' : forall i, P1 i (vset O (vadd O (cmul O da (jg J i)) (cmul O db (jg J i)))) (vset O' (vadd O' (cmul O' da' (jg K i)) (cmul O' db' (jg K i))))).
    { intros i. grd; auto. }
    split; [exact F|]. split; intros; cbn; auto.
    zeros. destruct (is_zero daa' && is_zero dab' && is_zero dbb'); grd; auto.
  Qed.
  Lemma jassign_rel o J K b b' : jrel J K ->
    match b, b' with Some X, Some Y => jrel X Y | None, None => True | _, _ => False end -> jrel (jassign O o J b) (jassign O' o K b').
  Proof.
    intros R R'. assert (F : P0 (jf J) (jf K)) by apply R.
    assert (M : forall op op' X Y, (forall a a' b b', P0 a a' -> P0 b b' -> P0 (op a b) (op' a' b')) ->
        (forall i a a' b b', P1 i a a' -> P1 i b b' -> P1 i (op a b) (op' a' b')) ->
        (forall i j a a' b b', P2 i j a a' -> P2 i j b b' -> P2 i j (op a b) (op' a' b')) -> jrel X Y -> jrel (jmap2 op J X) (jmap2 op' K Y)).
    { intros op op' X Y H0 H1 H2 (F1 & G1 & HH1). destruct R as (F2 & G2 & HH2). split; [|split]; intros; cbn; auto. }
    destruct b as [X|], b' as [Y|]; try contradiction; destruct o; cbn [jassign].
    - apply M; [apply (ar_add _ _ _ A)|apply (gr_add1 _ _ _ _ _ G)|apply (gr_add2 _ _ _ _ _ G)|exact R'].
    - apply M; [apply (ar_sub _ _ _ A)|apply (gr_sub1 _ _ _ _ _ G)|apply (gr_sub2 _ _ _ _ _ G)|exact R'].
    - now apply jmul_assign_rel.
    - assert (F' : P0 (jf X) (jf Y)) by apply R'. apply jb_rel; try assumption; cbn; val; exact I.
    - apply M; [apply (ar_add _ _ _ A)|apply (gr_add1 _ _ _ _ _ G)|apply (gr_add2 _ _ _ _ _ G)|exact R].
    - apply M; [apply (ar_sub _ _ _ A)|apply (gr_sub1 _ _ _ _ _ G)|apply (gr_sub2 _ _ _ _ _ G)|exact R].
    - now apply jmul_self_rel.
    - apply jb_self_rel; try assumption; cbn; val; exact I.
  Qed.
  Lemma jassign_s_rel o J K s s' : P0 s s' -> jrel J K -> jrel (jassign_s O o J s) (jassign_s O' o K s').
  Proof.
    intros H R. assert (F : P0 (jf J) (jf K)) by apply R.
    destruct o; cbn [jassign_s]; first [apply jsetf_rel; [val|exact R]|apply jscale_rel; [val|exact R]].
  Qed.

  (** *** expressions *)
  Lemma jev_rel env env' e e' : (forall i, jrel (env i) (env' i)) -> expr_rel P0 e e' -> jrel (jev O env e) (jev O' env' e').
  Proof.
    intros E. revert e'. induction e as [i|s|u e IH|b e1 IH1 e2 IH2|e1 IH1 e2 IH2 e3 IH3]; intros e' R; destruct e'; cbn in R; try contradiction; cbn [jev].
    - subst. apply E.
    - now apply jconst_rel.
    - apply jap_u_rel; [apply R|apply IH, R].
    - destruct R as (-> & R1 & R2). apply jap_b_rel; auto.
    - destruct R as (R1 & R2 & R3). apply jap_h_rel; auto.
  Qed.

  (** *** programs *)
  Definition jsrel (js : list (jet S)) (ks : list (jet T)) : Prop := Forall2 jrel js ks.
  Lemma jreg_rel js ks r : jsrel js ks -> jrel (jreg O js r) (jreg O' ks r).
  Proof.
    intros H. unfold jreg. destruct (Nat.lt_ge_cases r (length js)) as [L|L].
    - apply Forall2_nth; assumption.
    - rewrite (nth_overflow js) by exact L. rewrite (nth_overflow ks) by (rewrite <- (Forall2_len _ _ _ H); exact L). apply jconst_rel, (ar_Z _ _ _ A).
  Qed.
  Lemma scmp_rel o a a' b b' : P0 a a' -> P0 b b' -> scmp O o a b = scmp O' o a' b'.
  Proof.
    intros H1 H2. destruct (gr_order _ _ _ _ _ G) as [L1 L2 L3]. destruct o; cbn [scmp].
    - now apply L3. - now rewrite (L3 _ _ _ _ H1 H2). - now apply L1. - now apply L1. - now apply L2. - now apply L2.
  Qed.
  Lemma jtest_rel k k' js ks : cond_rel P0 k k' -> jsrel js ks -> jtest O k js = jtest O' k' ks.
  Proof.
    intros C H. destruct k, k'; cbn in C; try contradiction; cbn [jtest].
    - destruct C as (-> & -> & ->). apply scmp_rel; apply jreg_rel, H.
    - destruct C as (-> & -> & C). apply scmp_rel; [apply jreg_rel, H|exact C].
    - destruct C as (-> & -> & C). apply scmp_rel; [apply jreg_rel, H|exact C].
  Qed.
  Lemma jstep_rel s s' js ks : stmt_rel P0 s s' -> jsrel js ks -> jsrel (jstep O s js) (jstep O' s' ks).
  Proof.
    intros R H. pose proof (fun r => jreg_rel js ks r H) as GR.
    destruct s, s'; cbn in R; try contradiction; cbn [jstep]; try exact H.
    - destruct R as (-> & R). apply put_Forall2; [exact H|now apply jconst_rel].
    - destruct R as (-> & ->). apply put_Forall2; auto.
    - destruct R as (-> & U & ->). apply put_Forall2; [exact H|]. apply jap_u_rel; auto.
    - destruct R as (-> & -> & -> & ->). apply put_Forall2; [exact H|]. apply jap_b_rel; auto.
    - destruct R as (-> & -> & -> & ->). apply put_Forall2; [exact H|]. apply jap_h_rel; auto.
    - destruct R as (-> & -> & ->). apply put_Forall2; [exact H|]. apply jassign_rel; [apply GR|]. destruct (Nat.eqb _ _); [exact I|apply GR].
    - destruct R as (-> & -> & R). apply put_Forall2; [exact H|]. apply jassign_s_rel; auto.
  Qed.
  Lemma jexec_rel fuel : forall s s' js ks, stmt_rel P0 s s' -> jsrel js ks ->
    match jexec O fuel s js, jexec O' fuel s' ks with Some a, Some b => jsrel a b | None, None => True | _, _ => False end.
  Proof.
    induction fuel as [|k IH]; intros s s' js ks R H; [exact I|]. cbn [jexec].
    pose proof (jstep_rel s s' js ks R H) as ST.
    destruct s, s'; cbn [stmt_rel] in R; try contradiction; try exact ST; clear ST.
    - destruct R as (R1 & R2). pose proof (IH _ _ _ _ R1 H) as I1.
      destruct (jexec O k s1 js) as [a|], (jexec O' k s'1 ks) as [b|]; try contradiction; [apply IH; assumption|exact I].
    - destruct R as (C & R1 & R2). rewrite (jtest_rel _ _ _ _ C H). destruct (jtest O' k1 ks); apply IH; assumption.
    - destruct R as (C & R1). rewrite (jtest_rel _ _ _ _ C H). destruct (jtest O' k1 ks); [|exact H].
      pose proof (IH _ _ _ _ R1 H) as I1.
      destruct (jexec O k s js) as [a|], (jexec O' k s' ks) as [b|]; try contradiction; [|exact I].
      apply IH; [split; assumption|exact I1].
  Qed.
End Graded.

Section Numbers.
  Context {S T : Type} (P0 : S -> T -> Prop) (P1 : nat -> S -> T -> Prop) (P2 : nat -> nat -> S -> T -> Prop)
          (O : Ops S) (O' : Ops T) (G : graded P0 P1 P2 O O') (c : cfg) (n : nat) (Hc : cfg_ok c) (SO : size_ok c n).
  Local Notation numg := (num_graded P0 P1 P2 c n).
  Local Notation jrel := (jrel P0 P1 P2).

  (** Beyond the size, entries are taken to be zero. *)
  Lemma jets_of x y : numg x y -> exists J K, rep c n J x /\ rep c n K y /\ jrel J K.
  Proof.
    intros (f & g & h & f' & g' & h' & Hx & Hy & F & G1 & G2).
    apply (shows_rep c n x f g h Hc) in Hx. apply (shows_rep c n y f' g' h' Hc) in Hy.
    set (J := mkjet f (fun i => if Nat.ltb i n then g i else o_Z O 0) (fun i j => if (Nat.leb i j && Nat.ltb j n && (c_ord c =? 2))%bool then h i j else o_Z O 0)).
    set (K := mkjet f' (fun i => if Nat.ltb i n then g' i else o_Z O' 0) (fun i j => if (Nat.leb i j && Nat.ltb j n && (c_ord c =? 2))%bool then h' i j else o_Z O' 0)).
    assert (OC : c_ord c <> 1 -> c_ord c = 2) by (destruct Hc as [[] _]; lia).
    exists J, K. split; [|split].
    - eapply rep_jeq; [|exact Hx]. split; [reflexivity|]. split; unfold J, K; cbn [jf jg jh].
      + intros i Hi. destruct (Nat.ltb_spec i n); [reflexivity|lia].
      + intros Ho i j Hij. destruct (Nat.leb_spec i j); [|lia]. destruct (Nat.ltb_spec j n); [|lia]. rewrite (proj2 (Z.eqb_eq _ _) (OC Ho)). reflexivity.
    - eapply rep_jeq; [|exact Hy]. split; [reflexivity|]. split; unfold J, K; cbn [jf jg jh].
      + intros i Hi. destruct (Nat.ltb_spec i n); [reflexivity|lia].
      + intros Ho i j Hij. destruct (Nat.leb_spec i j); [|lia]. destruct (Nat.ltb_spec j n); [|lia]. rewrite (proj2 (Z.eqb_eq _ _) (OC Ho)). reflexivity.
    - split; [exact F|]. split; unfold J, K; cbn [jf jg jh]; intros.
      + destruct (Nat.ltb_spec i n); [auto|apply (gr_zero1 _ _ _ _ _ G)].
      + destruct (Nat.leb_spec i j); cbn [andb]; [|apply (gr_zero2 _ _ _ _ _ G)]. destruct (Nat.ltb_spec j n); cbn [andb]; [|apply (gr_zero2 _ _ _ _ _ G)].
        destruct (Z.eqb_spec (c_ord c) 2); [auto|apply (gr_zero2 _ _ _ _ _ G)].
  Qed.
  Lemma of_jets J K x y : rep c n J x -> rep c n K y -> jrel J K -> numg x y.
  Proof.
    intros HJ HK (F & G1 & G2). exists (jf J), (jg J), (hess J), (jf K), (jg K), (hess K).
    split; [now apply rep_shows|]. split; [now apply rep_shows|]. split; [exact F|]. split; [auto|].
    intros _ i j Hij _. unfold hess. rewrite (Nat.min_l i j Hij), (Nat.max_r i j Hij). apply G2.
  Qed.
  Lemma jets_list xs ys : Forall2 numg xs ys -> exists js ks, Forall2 (rep c n) js xs /\ Forall2 (rep c n) ks ys /\ Forall2 jrel js ks.
  Proof.
    induction 1 as [|x y xs ys H _ IH].
    - exists [], []. repeat constructor.
    - destruct IH as (js & ks & A & B & C). destruct (jets_of _ _ H) as (J & K & HJ & HK & R). exists (J :: js), (K :: ks). split; [|split]; constructor; assumption.
  Qed.

  Lemma graded_run e e' xs ys : vars_below (length xs) e -> expr_rel P0 e e' -> Forall2 numg xs ys ->
    exists r r', run O c n xs e = Ok r /\ run O' c n ys e' = Ok r' /\ numg r r'.
  Proof.
    intros V E H. destruct (jets_list _ _ H) as (js & ks & A & B & C).
    assert (V' : vars_below (length ys) e').
    { assert (L : length ys = length xs) by (symmetry; apply (Forall2_len _ _ _ H)). rewrite L. clear - V E. revert e' E V. induction e; intros e' E V; destruct e'; cbn in *; try contradiction; try tauto.
      - now subst.
      - apply IHe; tauto.
      - destruct E as (_ & E1 & E2), V; split; auto.
      - destruct E as (E1 & E2 & E3), V as (? & ? & ?); repeat split; auto. }
    assert (EX : forall (U : Type) (W : Ops U) (zs : list (dd U)) ls, Forall2 (rep c n) ls zs ->
      forall i z, nth_error zs i = Some z -> rep c n (jreg W ls i) z).
    { intros U W zs ls HF i z Hi. destruct (Forall2_get _ _ _ (jconst W (o_Z W 0)) i HF) as (z' & E1 & R).
      - rewrite (Forall2_len _ _ _ HF). apply nth_error_Some. congruence.
      - unfold jreg. congruence. }
    destruct (run_rep O c n xs (jreg O js) e Hc SO V (EX _ O _ _ A)) as (r & Er & Rr).
    destruct (run_rep O' c n ys (jreg O' ks) e' Hc SO V' (EX _ O' _ _ B)) as (r' & Er' & Rr').
    exists r, r'. split; [exact Er|]. split; [exact Er'|]. eapply of_jets; [exact Rr|exact Rr'|].
    apply jev_rel with (1 := G); [|exact E]. intros i. apply jreg_rel with (1 := G). exact C.
  Qed.
  Lemma regs_rel s s' k : stmt_rel P0 s s' -> regs_below k s -> regs_below k s'.
  Proof.
    revert s'. induction s; intros s' R B; destruct s'; cbn in *; try contradiction; auto;
      repeat match goal with H : _ /\ _ |- _ => destruct H end; subst; repeat split; auto;
      repeat match goal with C : cond_rel P0 ?a ?b |- _ => destruct a, b; cbn in C; try contradiction; cbn in *; repeat match goal with H : _ /\ _ |- _ => destruct H end; subst; auto end.
  Qed.
  Lemma graded_exec fuel s s' xs ys : regs_below (length xs) s -> stmt_rel P0 s s' -> Forall2 numg xs ys ->
    match exec O c n fuel s xs, exec O' c n fuel s' ys with
    | Some m, Some m' => exists st st', m = Ok st /\ m' = Ok st' /\ Forall2 numg st st'
    | None, None => True
    | _, _ => False
    end.
  Proof.
    intros B R H. destruct (jets_list _ _ H) as (js & ks & A & A' & C).
    assert (Lx := Forall2_len _ _ _ A). assert (Ly := Forall2_len _ _ _ A'). assert (Lxy := Forall2_len _ _ _ H).
    pose proof (exec_ok O c n Hc SO fuel s js xs A ltac:(rewrite Lx; exact B)) as E.
    assert (B' : regs_below (length ks) s'). { rewrite Ly, <- Lxy. eapply regs_rel; eassumption. }
    pose proof (exec_ok O' c n Hc SO fuel s' ks ys A' B') as E'.
    pose proof (jexec_rel _ _ _ _ _ G fuel s s' js ks R C) as J.
    destruct (jexec O fuel s js) as [js'|], (jexec O' fuel s' ks) as [ks'|]; try contradiction.
    - destruct E as (st & -> & HS), E' as (st' & -> & HS'). exists st, st'. split; [reflexivity|]. split; [reflexivity|].
      clear - HS HS' J. unfold okr in *. revert st st' HS HS'. induction J as [|a b js' ks' R _ IH]; intros st st' HS HS'.
      + inversion HS; inversion HS'; constructor.
      + inversion HS; inversion HS'; subst. constructor; [eapply of_jets; eassumption|apply IH; assumption].
    - rewrite E, E'. exact I.
  Qed.
End Numbers.
