(** Builds with fewer checks return the same (C78). *)
From Coq Require Import ZArith List Bool Lia.
From Verif Require Import Outcome Scalar Float64 Model ModelBuf Spec ExprSpec ProgSpec ModelObj BuildSpec Samples.
Import ListNotations.
Open Scope Z_scope.
Open Scope res_scope.

Section Keeps.
  Context (q : bool).
  Lemma keeps_refl {A} (r : res A) : keeps q r r.
  Proof. destruct r; cbn; auto. Qed.
  Lemma keeps_bind {A B} (r r' : res A) (k k' : A -> res B) :
    keeps q r r' -> (forall a, keeps q (k a) (k' a)) -> keeps q (bind r k) (bind r' k').
  Proof.
    intros H K. destruct r as [a|e| |]; cbn in *; auto.
    - subst r'. apply K.
    - intros Hq. rewrite (H Hq). reflexivity.
  Qed.
  Lemma keeps_if {A} (b : bool) (r1 r2 r1' r2' : res A) :
    keeps q r1 r1' -> keeps q r2 r2' -> keeps q (if b then r1 else r2) (if b then r1' else r2').
  Proof. destruct b; auto. Qed.
  Lemma keeps_loop {A} n : forall i (body body' : Z -> A -> res A) s,
    (forall i a, keeps q (body i a) (body' i a)) -> keeps q (loop n i body s) (loop n i body' s).
  Proof.
    induction n as [|n IH]; intros i body body' s H; [apply keeps_refl|].
    cbn. apply keeps_bind; [apply H|]. intros a. apply IH, H.
  Qed.
  Lemma keeps_for {A} lo hi (body body' : Z -> A -> res A) s :
    (forall i a, keeps q (body i a) (body' i a)) -> keeps q (for_ lo hi body s) (for_ lo hi body' s).
  Proof. intros H. apply keeps_loop, H. Qed.
End Keeps.

(** The type [c] in a build with other flags. *)
Definition rebuild (c : cfg) (e d : bool) : cfg := {| c_ord := c_ord c; c_tsize := c_tsize c; c_exc := e; c_dbg := d |}.
Lemma fewer_rebuild raise c c' : fewer raise c c' -> exists e d, c' = rebuild c e d /\ (d = true -> c_dbg c = true) /\
  (if raise then e = c_exc c else e = true -> c_exc c = true \/ c_dbg c = true).
Proof.
  intros (A & B & C & D). exists (c_exc c'), (c_dbg c'). split; [|split; assumption].
  destruct c' as [o t e d]. cbn in *. subst. reflexivity.
Qed.

(** Walks through the two runs in parallel. *)
Ltac walk1 := first
  [ exact (keeps_refl _ _) | assumption
  | apply keeps_bind; [|intro]
  | apply keeps_for; intros
  | apply keeps_if ].
Ltac walk := repeat (walk1 || match goal with |- keeps _ (let '(_, _) := ?p in _) _ => destruct p end).

Section Build.
  Context {S : Type} (O : Ops S) (raise : bool) (c : cfg) (e d : bool).
  Let c' := rebuild c e d.
  Hypothesis Hd : d = true -> c_dbg c = true.
  Hypothesis He : if raise then e = c_exc c else e = true -> c_exc c = true \/ c_dbg c = true.

  Lemma assert_k b : keeps raise (assert_ c b) (assert_ c' b).
  Proof.
    unfold assert_. subst c'. cbn. destruct d; cbn; [rewrite Hd by reflexivity; apply keeps_refl|].
    destruct (c_dbg c), b; cbn; auto.
  Qed.
  Lemma check_valid_size_k s : keeps raise (check_valid_size c s) (check_valid_size c' s).
  Proof.
    unfold check_valid_size, is_dynamic. change (c_tsize c') with (c_tsize c).
    unfold assert_. subst c'. cbn [c_exc c_dbg c_tsize c_ord rebuild].
    apply keeps_if.
    - destruct raise; [subst e|]; destruct (c_exc c), (c_dbg c), d; try (specialize (Hd eq_refl); discriminate);
        try (destruct e; [specialize (He eq_refl); destruct He; discriminate|]); try destruct e; try (destruct He; discriminate);
        destruct (s <? 0) eqn:E1, (0 <=? s) eqn:E2; cbn; auto; try lia; discriminate.
    - destruct raise; [subst e|]; destruct (c_exc c), (c_dbg c), d; try (specialize (Hd eq_refl); discriminate);
        try (destruct e; [specialize (He eq_refl); destruct He; discriminate|]); try destruct e; try (destruct He; discriminate);
        destruct (s =? c_tsize c) eqn:E1; cbn; auto; try lia; discriminate.
  Qed.
  Lemma check_equal_size_k s t : keeps raise (check_equal_size c s t) (check_equal_size c' s t).
  Proof.
    unfold check_equal_size, is_dynamic. change (c_tsize c') with (c_tsize c).
    unfold assert_. subst c'. cbn [c_exc c_dbg c_tsize c_ord rebuild].
    apply keeps_if; [|apply keeps_refl].
    destruct raise; [subst e|]; destruct (c_exc c), (c_dbg c), d; try (specialize (Hd eq_refl); discriminate);
        try (destruct e; [specialize (He eq_refl); destruct He; discriminate|]); try destruct e; try (destruct He; discriminate);
        destruct (s =? t) eqn:E1; cbn; auto; try lia; discriminate.
  Qed.

  Ltac checks := first [apply assert_k | apply check_valid_size_k | apply check_equal_size_k].
  Ltac go := repeat first
    [ exact (keeps_refl _ _) | checks | apply keeps_bind; [|intro] | apply keeps_for; intros | apply keeps_if
    | match goal with |- keeps _ (let '(_, _) := ?p in _) _ => destruct p end ].

  Lemma empty_n_k sz : keeps raise (empty_n O c sz) (empty_n O c' sz).
  Proof. unfold empty_n, is_dynamic. change (c_tsize c') with (c_tsize c). go. Qed.
  Lemma zero_n_k sz : keeps raise (zero_n O c sz) (zero_n O c' sz).
  Proof. unfold zero_n, is_dynamic. change (c_tsize c') with (c_tsize c). go. Qed.
  Lemma constant_n_k f sz : keeps raise (constant_n O c f sz) (constant_n O c' f sz).
  Proof.
    unfold constant_n, is_dynamic. change (c_tsize c') with (c_tsize c). apply keeps_if; [|go].
    apply keeps_bind; [apply zero_n_k|intro; apply keeps_refl].
  Qed.
  Lemma get_g_k (x : dd S) i : keeps raise (get_g c x i) (get_g c' x i).
  Proof. unfold get_g. go. Qed.
  Lemma set_g_k x i (v : S) : keeps raise (set_g c x i v) (set_g c' x i v).
  Proof. unfold set_g. go. Qed.
  Lemma get_g_mut_k (x : dd S) i : keeps raise (get_g_mut c x i) (get_g_mut c' x i).
  Proof. unfold get_g_mut. go. Qed.
  Lemma idx_h1_k (x : dd S) i : keeps raise (idx_h1 c x i) (idx_h1 c' x i).
  Proof.
    unfold idx_h1. change (size c' x) with (size c x). apply keeps_bind; [|intro; apply keeps_refl].
    assert (T : keeps raise (s1 <- ck (size c x + 1) ;; p <- ck (size c x * s1) ;; assert_ c ((0 <=? i) && (i <? Z.quot p 2)))
      (s1 <- ck (size c x + 1) ;; p <- ck (size c x * s1) ;; assert_ c' ((0 <=? i) && (i <? Z.quot p 2)))) by go.
    change (c_dbg c') with d. destruct (c_dbg c) eqn:Ec; [destruct d eqn:Ed|destruct d eqn:Ed; [specialize (Hd eq_refl); discriminate|apply keeps_refl]].
    - exact T.
    - clear T. unfold ck. destruct (_ && _); cbn; auto. destruct (_ && _); cbn; auto.
      unfold assert_. rewrite Ec. destruct (negb _); cbn; auto.
  Qed.

  Lemma get_h1_k (x : dd S) i : keeps raise (get_h1 c x i) (get_h1 c' x i).
  Proof. unfold get_h1. apply keeps_bind; [apply idx_h1_k|intro; apply keeps_refl]. Qed.
  Lemma set_h1_k (x : dd S) i v : keeps raise (set_h1 c x i v) (set_h1 c' x i v).
  Proof. unfold set_h1. apply keeps_bind; [apply idx_h1_k|intro; apply keeps_refl]. Qed.
  Lemma idx_h_k (x : dd S) i j : keeps raise (idx_h c x i j) (idx_h c' x i j).
  Proof. unfold idx_h. go. Qed.
  Lemma get_h_k (x : dd S) i j : keeps raise (get_h c x i j) (get_h c' x i j).
  Proof. unfold get_h. apply keeps_bind; [apply idx_h_k|intro; apply keeps_refl]. Qed.
  Lemma set_h_k (x : dd S) i j v : keeps raise (set_h c x i j v) (set_h c' x i j v).
  Proof. unfold set_h. apply keeps_bind; [apply idx_h_k|intro; apply keeps_refl]. Qed.
  Lemma variable_k i (f : S) : keeps raise (variable O c i f) (variable O c' i f).
  Proof. unfold variable. apply keeps_bind; [exact (keeps_refl _ _)|intro; apply set_g_k]. Qed.
  Lemma variable_n_k i (f : S) sz : keeps raise (variable_n O c i f sz) (variable_n O c' i f sz).
  Proof.
    unfold variable_n, is_dynamic. change (c_tsize c') with (c_tsize c). apply keeps_if.
    - apply keeps_bind; [apply zero_n_k|intro]. apply keeps_bind; [apply keeps_refl|intro; apply set_g_k].
    - apply keeps_bind; [apply check_valid_size_k|intro; apply variable_k].
  Qed.
  Lemma variables_k (vs : list S) : keeps raise (variables O c vs) (variables O c' vs).
  Proof.
    unfold variables, is_dynamic. change (c_tsize c') with (c_tsize c). apply keeps_bind; [go|intro].
    generalize (Z.of_nat (List.length vs)) as n. intros n. generalize 0. induction vs as [|v vs IH]; intros i; [apply keeps_refl|].
    apply keeps_bind; [apply variable_n_k|intro]. apply keeps_bind; [apply IH|intro; apply keeps_refl].
  Qed.
  Lemma hm_k (x : dd S) mode : keeps raise (hm O c x mode) (hm O c' x mode).
  Proof.
    unfold hm. change (size c' x) with (size c x). apply keeps_bind.
    - apply keeps_for. intros i st. apply keeps_for. intros j (it, out). apply keeps_bind; [apply get_h1_k|intro; apply keeps_refl].
    - intros (it, out). apply keeps_refl.
  Qed.
  Lemma set_hm_k (x : dd S) m : keeps raise (set_hm c x m) (set_hm c' x m).
  Proof.
    unfold set_hm. change (size c' x) with (size c x). apply keeps_bind.
    - apply keeps_for. intros i st. apply keeps_for. intros j (it, y). apply keeps_bind; [apply keeps_refl|intro].
      apply keeps_bind; [apply set_h1_k|intro; apply keeps_refl].
    - intros (it, y). apply keeps_refl.
  Qed.
  Lemma from_gradient_k (f : S) g : keeps raise (from_gradient O c f g) (from_gradient O c' f g).
  Proof. unfold from_gradient. apply keeps_bind; [apply empty_n_k|intro; exact (keeps_refl _ _)]. Qed.
  Lemma from_arrays_k (f : S) g h : keeps raise (from_arrays O c f g h) (from_arrays O c' f g h).
  Proof.
    unfold from_arrays. apply keeps_bind; [apply assert_k|intro]. apply keeps_bind; [apply empty_n_k|intro].
    apply keeps_bind; [apply keeps_refl|intro]. apply keeps_bind; [exact (keeps_refl _ _)|intro]. apply set_hm_k.
  Qed.
  Lemma eval_k (x : dd S) v : keeps raise (eval O c x v) (eval O c' x v).
  Proof.
    unfold eval. change (size c' x) with (size c x). apply keeps_bind; [apply keeps_refl|intro].
    apply keeps_bind; [|intro; exact (keeps_refl _ _)].
    apply keeps_for. intros i r. apply keeps_bind; [apply keeps_refl|intro]. apply keeps_bind; [apply get_g_k|intro; apply keeps_refl].
  Qed.
  Lemma pad_left_k (x : dd S) m : keeps raise (pad_left O c x m) (pad_left O c' x m).
  Proof. unfold pad_left. apply keeps_bind; [apply empty_n_k|intro; exact (keeps_refl _ _)]. Qed.
  Lemma pad_right_k (x : dd S) m : keeps raise (pad_right O c x m) (pad_right O c' x m).
  Proof. unfold pad_right. apply keeps_bind; [apply empty_n_k|intro; exact (keeps_refl _ _)]. Qed.
  Lemma resize_k (x : dd S) m : keeps raise (resize O c x m) (resize O c' x m).
  Proof. exact (keeps_refl _ _). Qed.
  Lemma neg_k (x : dd S) : keeps raise (neg O c x) (neg O c' x).
  Proof. unfold neg. apply keeps_bind; [apply empty_n_k|intro; exact (keeps_refl _ _)]. Qed.
  Lemma unary_op_k F (x : dd S) : keeps raise (unary_op O c F x) (unary_op O c' F x).
  Proof. unfold unary_op. apply keeps_bind; [apply empty_n_k|intro; exact (keeps_refl _ _)]. Qed.
  Lemma binary_op_k b F (x y : dd S) : keeps raise (binary_op O c b F x y) (binary_op O c' b F x y).
  Proof.
    unfold binary_op. apply keeps_bind; [destruct b; [apply check_equal_size_k|apply keeps_refl]|intro].
    apply keeps_bind; [apply empty_n_k|intro; exact (keeps_refl _ _)].
  Qed.
  Lemma div_k (x y : dd S) : keeps raise (div O c x y) (div O c' x y).
  Proof.
    unfold div. apply keeps_bind; [apply check_equal_size_k|intro]. apply keeps_bind; [apply keeps_refl|intro].
    apply keeps_bind; [apply keeps_refl|intro]. cbn [k_div]. apply keeps_bind; [apply empty_n_k|intro; exact (keeps_refl _ _)].
  Qed.
  Lemma hypot3_k (x y z : dd S) : keeps raise (hypot3 O c x y z) (hypot3 O c' x y z).
  Proof.
    unfold hypot3. apply keeps_bind; [apply check_equal_size_k|intro].
    apply keeps_bind; [apply empty_n_k|intro; exact (keeps_refl _ _)].
  Qed.
  Lemma apply_u_k u (x : dd S) : keeps raise (apply_u O c u x) (apply_u O c' u x).
  Proof.
    destruct u; cbn [apply_u]; try apply unary_op_k; try exact (keeps_refl _ _); try apply neg_k.
    - unfold abs. apply keeps_bind; [apply keeps_refl|intro]. apply keeps_if; [apply neg_k|apply keeps_refl].
    - unfold ssub. apply keeps_bind; [apply empty_n_k|intro; exact (keeps_refl _ _)].
    - unfold muls. apply keeps_bind; [apply empty_n_k|intro; exact (keeps_refl _ _)].
    - unfold smul, muls. apply keeps_bind; [apply empty_n_k|intro; exact (keeps_refl _ _)].
    - unfold divs, smul, muls. apply keeps_bind; [apply empty_n_k|intro; exact (keeps_refl _ _)].
  Qed.
  Lemma apply_b_k b (x y : dd S) : keeps raise (apply_b O c b x y) (apply_b O c' b x y).
  Proof. destruct b; try apply binary_op_k. apply div_k. Qed.
  Lemma assign_k o (x : dd S) b : keeps raise (assign O c o x b) (assign O c' o x b).
  Proof.
    destruct o; cbn [assign].
    - apply keeps_bind; [exact (check_equal_size_k _ _)|intro; exact (keeps_refl _ _)].
    - apply keeps_bind; [exact (check_equal_size_k _ _)|intro; exact (keeps_refl _ _)].
    - apply keeps_bind; [exact (check_equal_size_k _ _)|intro; exact (keeps_refl _ _)].
    - apply keeps_bind; [exact (check_equal_size_k _ _)|intro; exact (keeps_refl _ _)].
  Qed.

  Lemma size_from_data_length_k n : (e = c_exc c \/ (c_exc c = true /\ d = false)) ->
    keeps raise (size_from_data_length c n) (size_from_data_length c' n).
  Proof.
    intros L. unfold size_from_data_length. change (c_ord c') with (c_ord c). change (c_exc c') with e. change (c_dbg c') with d.
    apply keeps_bind; [apply keeps_refl|intros s]. apply keeps_bind; [|intro; apply keeps_refl].
    change (data_length_from_size c' s) with (data_length_from_size c s).
    assert (NT0 : forall x, data_length_from_size c s <> Throw x).
    { intros x. unfold data_length_from_size, ck, bind. repeat match goal with |- context [if ?b then _ else _] => destruct b end; discriminate. }
    assert (NT : forall B (k : Z -> res B), (forall v x, k v <> Throw x) -> forall x, bind (data_length_from_size c s) k <> Throw x).
    { intros B k K x. specialize (NT0 x). destruct (data_length_from_size c s); cbn; try discriminate; [apply K|congruence]. }
    assert (AO : forall r, (forall x, r <> Throw x) -> keeps raise r (Ok tt)).
    { intros [[]|x| |] K; cbn; auto. exfalso. eapply K. reflexivity. }
    destruct L as [->|(Hx & Hz)].
    - destruct (c_exc c); [apply keeps_refl|].
      destruct (c_dbg c) eqn:Ec.
      + destruct d eqn:Ed.
        * apply keeps_bind; [apply keeps_refl|intro v]. unfold assert_. rewrite Ec. subst c'. cbn. exact (keeps_refl _ _).
        * apply AO, NT. intros v x. unfold assert_. destruct (_ && _); discriminate.
      + destruct d eqn:Ed; [specialize (Hd eq_refl); discriminate|apply keeps_refl].
    - rewrite Hx, Hz. destruct e; [apply keeps_refl|].
      destruct raise; [congruence|]. destruct (data_length_from_size c s); cbn; auto; [destruct (_ =? _); cbn; auto|]; discriminate.
  Qed.
  Lemma create_k (v : data S) : (e = c_exc c \/ (c_exc c = true /\ d = false)) -> keeps raise (create c v) (create c' v).
  Proof.
    intros L. unfold create, is_dynamic. change (c_tsize c') with (c_tsize c).
    apply keeps_if; (apply keeps_bind; [apply size_from_data_length_k, L|intro]); [apply keeps_refl|].
    apply keeps_bind; [apply check_valid_size_k|intro; apply keeps_refl].
  Qed.
  Lemma ctor_list_k (vs : list S) : (e = c_exc c \/ (c_exc c = true /\ d = false)) -> keeps raise (ctor_list c vs) (ctor_list c' vs).
  Proof. intros L. unfold ctor_list. apply keeps_bind; [apply size_from_data_length_k, L|intro; exact (keeps_refl _ _)]. Qed.

  (** ** expressions, programs *)
  Lemma run_k n (env : list (dd S)) x : keeps raise (run O c n env x) (run O c' n env x).
  Proof.
    induction x; cbn [run].
    - destruct (nth_error env i); apply keeps_refl.
    - apply constant_n_k.
    - apply keeps_bind; [exact IHx|intro; apply apply_u_k].
    - apply keeps_bind; [exact IHx1|intro]. apply keeps_bind; [exact IHx2|intro; apply apply_b_k].
    - apply keeps_bind; [exact IHx1|intro]. apply keeps_bind; [exact IHx2|intro]. apply keeps_bind; [exact IHx3|intro; apply hypot3_k].
  Qed.
  Lemma write_k (st : list (dd S)) r m m' : keeps raise m m' -> keeps raise (write st r m) (write st r m').
  Proof. intros H. unfold write. apply keeps_bind; [apply keeps_refl|intro]. apply keeps_bind; [exact H|intro; apply keeps_refl]. Qed.
  Lemma step_k n s (st : list (dd S)) : keeps raise (step O c n s st) (step O c' n s st).
  Proof.
    destruct s; cbn [step]; try apply keeps_refl; apply write_k; try apply constant_n_k;
      repeat (apply keeps_bind; [apply keeps_refl|intro]); first [apply apply_u_k | apply apply_b_k | apply hypot3_k | apply assign_k | apply keeps_refl].
  Qed.
  Lemma exec_k n fuel : forall s (st : list (dd S)), keeps_o raise (exec O c n fuel s st) (exec O c' n fuel s st).
  Proof.
    assert (OK : forall r r' : res (list (dd S)), keeps raise r r' -> keeps_o raise (Some r) (Some r')).
    { intros r r' H. destruct r; cbn in *; auto; [congruence|]. intros Hr. rewrite (H Hr). reflexivity. }
    assert (BI : forall (r r' : option (res (list (dd S)))) (k k' : list (dd S) -> option (res (list (dd S)))), keeps_o raise r r' -> (forall st, keeps_o raise (k st) (k' st)) ->
      keeps_o raise (match r with Some (Ok st) => k st | Some (Throw e) => Some (Throw e) | Some Abort => Some Abort | Some UB => Some UB | None => None end)
        (match r' with Some (Ok st) => k' st | Some (Throw e) => Some (Throw e) | Some Abort => Some Abort | Some UB => Some UB | None => None end)).
    { intros [[st|x| |]|] r' k k' H K; cbn in *; auto; [subst r'; apply K|intros Hr; rewrite (H Hr); reflexivity|subst r'; reflexivity]. }
    induction fuel as [|fuel IH]; intros s st; [reflexivity|].
    destruct s; cbn [exec]; try (apply OK; apply step_k).
    - refine (BI _ _ (exec O c n fuel s2) (exec O c' n fuel s2) (IH s1 st) _). intros st'. apply IH.
    - destruct (test O k st) as [[]| | |]; try apply IH; try apply OK; apply keeps_refl.
    - destruct (test O k st) as [[]| | |]; try apply OK; try apply keeps_refl.
      refine (BI _ _ (exec O c n fuel (PWhile k s)) (exec O c' n fuel (PWhile k s)) (IH s st) _). intros st'. apply IH.
  Qed.
End Build.

(** ** sessions *)
Definition keeps_out {S} (r r' : out S) : Prop := match r with Done _ | Raised _ _ => r' = r | Aborted | Wild => True end.
Section Session.
  Context {S : Type} (O : Ops S) (c : cfg) (d : bool) (slack : nat -> nat).
  Let c' := rebuild c (c_exc c) d.
  Hypothesis Hd : d = true -> c_dbg c = true.
  Lemma ko_refl (r : out S) : keeps_out r r.
  Proof. destruct r; cbn; auto. Qed.
  Lemma ko_lift {A} (st : heap S) (r r' : res A) k k' : keeps true r r' -> (forall a, keeps_out (k a) (k' a)) -> keeps_out (lift st r k) (lift st r' k').
  Proof. intros H K. destruct r as [a|x| |]; cbn in *; auto; [subst r'; apply K|rewrite (H eq_refl); reflexivity]. Qed.
  Lemma ko_obj (st : heap S) r k k' : (forall o, keeps_out (k o) (k' o)) -> keeps_out (obj_of st r k) (obj_of st r k').
  Proof. intros K. unfold obj_of. destruct (names st r); [apply K|apply ko_refl]. Qed.
  Lemma ko_arg (st : heap S) r k k' : (forall x, keeps_out (k x) (k' x)) -> keeps_out (arg st r k) (arg st r k').
  Proof. intros K. unfold arg. apply ko_obj. intros o. apply ko_lift; [apply keeps_refl|exact K]. Qed.
  Lemma ko_make (st : heap S) r m m' : keeps true m m' -> keeps_out (make slack st r m) (make slack st r m').
  Proof. intros H. unfold make. apply ko_lift; [exact H|intro; apply ko_refl]. Qed.
  Lemma ko_inplace (st : heap S) r f f' : (forall o x, keeps true (f o x) (f' o x)) -> keeps_out (inplace st r f) (inplace st r f').
  Proof.
    intros K. unfold inplace. apply ko_obj. intros o. destruct (nth_error (objs st) o) as [[sz b]|]; [|exact I].
    destruct (nth_error (bufs st) b) as [[[v cap]|]|]; try exact I. apply ko_lift; [apply K|intro; apply ko_refl].
  Qed.
  Lemma pstep_k s (st : heap S) : keeps_out (pstep O c slack s st) (pstep O c' slack s st).
  Proof.
    assert (He : if true then c_exc c = c_exc c else c_exc c = true -> c_exc c = true \/ c_dbg c = true) by reflexivity.
    destruct s; cbn [pstep]; unfold is_dynamic; change (c_tsize c') with (c_tsize c); change (StaticDataSize c') with (StaticDataSize c);
      try exact (ko_refl _).
    - apply ko_make, constant_n_k; assumption.
    - apply ko_make, variable_n_k; assumption.
    - apply ko_make, empty_n_k; assumption.
    - destruct (_ && _); [apply ko_refl|]. apply ko_make, create_k; try assumption. left. reflexivity.
    - apply ko_arg. intros x. apply ko_make, apply_u_k; assumption.
    - apply ko_arg. intros x. apply ko_arg. intros y. apply ko_make, apply_b_k; assumption.
    - apply ko_arg. intros x. apply ko_arg. intros y. apply ko_arg. intros z. apply ko_make, hypot3_k; assumption.
    - destruct (_ =? _); [|apply ko_refl]. apply ko_arg. intros x. apply ko_make, pad_left_k; assumption.
    - destruct (_ =? _); [|apply ko_refl]. apply ko_arg. intros x. apply ko_make, pad_right_k; assumption.
    - apply ko_obj. intros oa. apply ko_inplace. intros ob x. destruct (Nat.eqb oa ob); [apply assign_k; assumption|].
      apply keeps_bind; [apply keeps_refl|intro; apply assign_k; assumption].
    - destruct o; try exact (ko_refl _); apply ko_arg; intros x; apply ko_make, apply_u_k; assumption.
    - apply ko_inplace. intros o x. apply set_h_k; assumption.
    - apply ko_obj. intros o. destruct (_ && _); [apply ko_refl|]. apply ko_inplace. intros o' x. apply set_hm_k; assumption.
  Qed.
  Lemma session_k p : forall st : heap S, keeps true (session O c slack p st) (session O c' slack p st).
  Proof.
    induction p as [|s p IH]; intros st; [apply keeps_refl|]. cbn [session].
    pose proof (pstep_k s st) as K. destruct (pstep O c slack s st); cbn in K; auto; rewrite K; apply IH.
  Qed.
End Session.

(** ** methods, in terms of [fewer] *)
Section Fewer.
  Context {S : Type} (O : Ops S) (raise : bool) (c c' : cfg).
  Hypothesis F : fewer raise c c'.
  Lemma methods_keep :
    (forall sz, keeps raise (empty_n O c sz) (empty_n O c' sz)) /\
    (forall sz, keeps raise (zero_n O c sz) (zero_n O c' sz)) /\
    (forall f sz, keeps raise (constant_n O c f sz) (constant_n O c' f sz)) /\
    (forall i f sz, keeps raise (variable_n O c i f sz) (variable_n O c' i f sz)) /\
    (forall vs, keeps raise (variables O c vs) (variables O c' vs)) /\
    (forall f g, keeps raise (from_gradient O c f g) (from_gradient O c' f g)) /\
    (forall f g h, keeps raise (from_arrays O c f g h) (from_arrays O c' f g h)) /\
    (forall (x : dd S) i, keeps raise (get_g c x i) (get_g c' x i)) /\
    (forall (x : dd S) i, keeps raise (get_g_mut c x i) (get_g_mut c' x i)) /\
    (forall (x : dd S) i v, keeps raise (set_g c x i v) (set_g c' x i v)) /\
    (forall (x : dd S) i, keeps raise (get_h1 c x i) (get_h1 c' x i)) /\
    (forall (x : dd S) i v, keeps raise (set_h1 c x i v) (set_h1 c' x i v)) /\
    (forall (x : dd S) i j, keeps raise (get_h c x i j) (get_h c' x i j)) /\
    (forall (x : dd S) i j v, keeps raise (set_h c x i j v) (set_h c' x i j v)) /\
    (forall (x : dd S) mode, keeps raise (hm O c x mode) (hm O c' x mode)) /\
    (forall (x : dd S) m, keeps raise (set_hm c x m) (set_hm c' x m)) /\
    (forall (x : dd S) v, keeps raise (eval O c x v) (eval O c' x v)) /\
    (forall (x : dd S) m, keeps raise (pad_left O c x m) (pad_left O c' x m)) /\
    (forall (x : dd S) m, keeps raise (pad_right O c x m) (pad_right O c' x m)) /\
    (forall (x : dd S) m, keeps raise (resize O c x m) (resize O c' x m)) /\
    (forall (x : dd S) u, keeps raise (apply_u O c u x) (apply_u O c' u x)) /\
    (forall (x y : dd S) b, keeps raise (apply_b O c b x y) (apply_b O c' b x y)) /\
    (forall (x y z : dd S), keeps raise (hypot3 O c x y z) (hypot3 O c' x y z)) /\
    (forall (x : dd S) o b, keeps raise (assign O c o x b) (assign O c' o x b)).
  Proof.
    destruct (fewer_rebuild _ _ _ F) as (e & d & -> & Hd & He).
    repeat split; intros;
      first [ apply empty_n_k | apply zero_n_k | apply constant_n_k | apply variable_n_k | apply variables_k | apply from_gradient_k
            | apply from_arrays_k | apply get_g_k | apply get_g_mut_k | apply set_g_k | apply get_h1_k | apply set_h1_k | apply get_h_k
            | apply set_h_k | apply hm_k | apply set_hm_k | apply eval_k | apply pad_left_k | apply pad_right_k | apply resize_k
            | apply apply_u_k | apply apply_b_k | apply hypot3_k | apply assign_k ]; assumption.
  Qed.
  Lemma programs_keep :
    (forall n (env : list (dd S)) x, keeps raise (run O c n env x) (run O c' n env x)) /\
    (forall n fuel s (st : list (dd S)), keeps_o raise (exec O c n fuel s st) (exec O c' n fuel s st)).
  Proof.
    destruct (fewer_rebuild _ _ _ F) as (e & d & -> & Hd & He).
    split; intros; [apply run_k|apply exec_k]; assumption.
  Qed.
  Lemma lengths_keep : same_validation c c' ->
    (forall v : data S, keeps raise (create c v) (create c' v)) /\ (forall vs : list S, keeps raise (ctor_list c vs) (ctor_list c' vs)).
  Proof.
    intros V. destruct (fewer_rebuild _ _ _ F) as (e & d & -> & Hd & He).
    split; intros; [apply create_k|apply ctor_list_k]; assumption.
  Qed.
End Fewer.
Lemma sessions_keep {S} (O : Ops S) c c' slack p (st : heap S) : fewer true c c' ->
  keeps true (session O c slack p st) (session O c' slack p st).
Proof. intros F. destruct (fewer_rebuild _ _ _ F) as (e & d & -> & Hd & ->). apply session_k, Hd. Qed.

Lemma lengths_differ : exists c c', cfg_ok c /\ fewer false c c' /\
  ~ (forall v : data Z, keeps false (create c v) (create c' v)).
Proof.
  exists dyn2, (noexc dyn2). split; [exact cfg_dyn2|]. split; [repeat split; cbn; auto|].
  intros H. specialize (H (full [7; 1; 2; 3; 4; 5])). cbv in H. discriminate.
Qed.
