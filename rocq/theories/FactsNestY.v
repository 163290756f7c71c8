(** C120: the values inside nested numbers. *)
From Coq Require Import ZArith List Bool Reals Lra Lia String.
From Verif Require Import Outcome Scalar Model ModelBuf ModelObj Spec Core Kernels OpsRep AccRep RealOps FactsLayout FactsOps FactsCtor ExprSpec ProgSpec NumSpec ParamSpec FactsParam ModelS NestSpec NestTSpec NestVSpec FactsNestX Samples Float64 Ops64.
From Verif Require ParSSpec FactsParS SpecS.
Import ListNotations.

Section Inner.
  Context {S : Type} (O : Ops S) (c : cfg) (n : nat) (HI : inner n c).
  Lemma carries_of (J : jet S) (x : dd S) : rep c n J x -> carries c n x (jf J).
  Proof. intros H. split; [eapply rep_wf, H|apply get_f_rep with (1 := H)]. Qed.
  Lemma carries_u u (x : dd S) v : carries c n x v -> exists J : jet S, jf J = v /\ carries c n (ap1 O c u x) (jf (jap_u O u J)).
  Proof.
    intros (W & F). destruct (wf_rep _ _ _ W) as (J & HJ). exists J. rewrite (get_f_rep _ _ _ _ HJ) in F. split; [congruence|].
    destruct (apply_u_rep O c (proj1 HI) n J x u HJ) as (r & E & HR). unfold ap1. rewrite E. apply carries_of, HR.
  Qed.
  Lemma carries_b b x v y w : carries c n x v -> carries c n y w -> exists J K : jet S, jf J = v /\ jf K = w /\ carries c n (ap2 O c b x y) (jf (jap_b O b J K)).
  Proof.
    intros (W & F) (W' & F'). destruct (wf_rep _ _ _ W) as (J & HJ). destruct (wf_rep _ _ _ W') as (K & HK). exists J, K.
    rewrite (get_f_rep _ _ _ _ HJ) in F. rewrite (get_f_rep _ _ _ _ HK) in F'. split; [congruence|]. split; [congruence|].
    destruct (apply_b_rep O c (proj1 HI) n J K x y b HJ HK) as (r & E & HR). unfold ap2. rewrite E. apply carries_of, HR.
  Qed.
  Lemma carries_h x v y w z t : carries c n x v -> carries c n y w -> carries c n z t -> carries c n (take (hypot3 O c x y z)) (o_hypot3 O v w t).
  Proof.
    intros (W & F) (W' & F') (W2 & F2). destruct (wf_rep _ _ _ W) as (J & HJ). destruct (wf_rep _ _ _ W') as (K & HK). destruct (wf_rep _ _ _ W2) as (L & HL).
    rewrite (get_f_rep _ _ _ _ HJ) in F. rewrite (get_f_rep _ _ _ _ HK) in F'. rewrite (get_f_rep _ _ _ _ HL) in F2.
    injection F as <-. injection F' as <-. injection F2 as <-.
    destruct (hypot3_rep O c (proj1 HI) n J K L x y z HJ HK HL) as (r & E & HR). rewrite E. exact (carries_of _ _ HR).
  Qed.
  Lemma carries_lit v : carries c n (lit1 O c v) v.
  Proof.
    destruct HI as (Hc & D & SO). assert (EN : default_size c = n). { unfold default_size. rewrite D, (proj1 SO D). apply Nat2Z.id. }
    destruct (ctor_scalar_static O c v Hc D) as (r & E & SH & _); [rewrite EN; exact SO|].
    rewrite EN in SH. unfold lit1. rewrite E. exact (carries_of _ _ (shows_rep _ _ _ _ _ _ Hc SH)).
  Qed.
  Lemma carries_value x v : carries c n x v -> value O x = v.
  Proof. intros (_ & F). unfold value. rewrite F. reflexivity. Qed.
  Lemma carries_arith : arith_rel (carries c n) (dops O c) (by_reciprocal O).
  Proof.
    constructor; cbn [dops by_reciprocal o_Z o_half o_add o_sub o_mul o_div o_neg o_pow o_sqrt o_cbrt o_cos o_sin o_tan o_acos o_asin
      o_atan o_atan2 o_hypot o_hypot3 o_cosh o_sinh o_tanh o_acosh o_asinh o_atanh o_exp o_log o_log2 o_log10]; intros;
      try apply carries_lit; try (apply carries_h; assumption);
      try (match goal with |- carries _ _ (ap1 _ _ (Upow _) _) _ => rewrite (carries_value _ _ H0) end);
      try (match goal with A : carries _ _ ?a _, B : carries _ _ ?b _ |- carries _ _ (ap2 _ _ ?f ?a ?b) _ => destruct (carries_b f _ _ _ _ A B) as (J & K & <- & <- & C); exact C end);
      match goal with A : carries _ _ ?a _ |- carries _ _ (ap1 _ _ ?u ?a) _ => destruct (carries_u u _ _ A) as (J & <- & C); exact C end.
  Qed.
  Lemma carries_order : order_rel (carries c n) (dops O c) (by_reciprocal O).
  Proof. constructor; cbn; intros a a' b b' (_ & A) (_ & B); unfold compare; rewrite A, B; reflexivity. Qed.
End Inner.
Lemma real_arith {T} (P : T -> R -> Prop) (O : Ops T) : arith_rel P O (by_reciprocal Rops) -> arith_rel P O Rops.
Proof.
  intros []. constructor; auto. intros a a' b b' A B. specialize (ar_div a a' b b' A B). cbn in *.
  replace (a' / b')%R with (a' * (1 / b'))%R by (unfold Rdiv; ring). exact ar_div.
Qed.
Lemma nested_values {S} (O : Ops S) c0 n0 : inner n0 c0 -> forall c n fuel s s' st st', stmt_rel (carries c0 n0) s s' -> Forall2 (num_rel (carries c0 n0)) st st' ->
  run_rel (Forall2 (num_rel (carries c0 n0))) (exec (dops O c0) c n fuel s st) (exec (by_reciprocal O) c n fuel s' st').
Proof.
  intros HI c n fuel s s' st st'. exact (exec_par (carries c0 n0) (dops O c0) (by_reciprocal O) c (carries_arith O c0 n0 HI) (carries_order O c0 n0) n fuel s s' st st').
Qed.
Lemma nested_real c0 n0 : inner n0 c0 -> forall c n fuel s s' st st', stmt_rel (carries c0 n0) s s' -> Forall2 (num_rel (carries c0 n0)) st st' ->
  run_rel (Forall2 (num_rel (carries c0 n0))) (exec (dops Rops c0) c n fuel s st) (exec Rops c n fuel s' st').
Proof.
  intros HI c n fuel s s' st st'.
  refine (exec_par (carries c0 n0) (dops Rops c0) Rops c (real_arith _ _ (carries_arith Rops c0 n0 HI)) _ n fuel s s' st st').
  destruct (carries_order Rops c0 n0). constructor; assumption.
Qed.
Lemma twice_values {S} (O : Ops S) (env : nat -> ss (ss S)) (env' : nat -> ss S) : (forall i, ParSSpec.sparse_rel sees (env i) (env' i)) ->
  forall e e', expr_rel sees e e' -> ParSSpec.sparse_rel sees (SpecS.s_run (sops O) env e) (SpecS.s_run (by_reciprocal O) env' e').
Proof. intros H e e' He. apply (FactsParS.run_par sees (sops O) (by_reciprocal O) (sees_arith O) env env' H); [left; apply sees_order|exact He]. Qed.
(** Integers: y *= x with inner numbers of size 1. *)
Definition st_n : list (dd (dd Z)) :=
  [mk 1 [Some (mk 1 [Some 2; Some 1]); Some (mk 1 [Some 1; Some 0])]; mk 1 [Some (mk 1 [Some 3; Some 7]); Some (mk 1 [Some 1; Some 0])]]%Z.
Lemma product_nested : inner 1 (sta1 1) /\ Forall2 (num_rel (carries (sta1 1) 1)) st_n st_v /\
  exec (dops Zops (sta1 1)) dyn1 1 5 (PAsg Amul 1 0) st_n =
    Some (Ok [mk 1 [Some (mk 1 [Some 2; Some 1]); Some (mk 1 [Some 1; Some 0])]; mk 1 [Some (mk 1 [Some 6; Some 17]); Some (mk 1 [Some 5; Some 8])]])%Z /\
  exec (by_reciprocal Zops) dyn1 1 5 (PAsg Amul 1 0) st_v = Some (Ok [mk 1 [Some 2; Some 1]; mk 1 [Some 6; Some 5]])%Z.
Proof.
  split. { split; [split; cbn; lia|]. split; [reflexivity|]. split; [reflexivity|vm_compute; discriminate]. }
  split; [|split; vm_compute; reflexivity].
  repeat constructor; vm_compute; try reflexivity; try congruence; repeat constructor; try discriminate;
    (intros [|[|k]] Hk; [eexists; reflexivity|eexists; reflexivity|exfalso; lia]).
Qed.
(** atan2(1, 3) with inner numbers of size 1. *)
Definition one_three_n : list (dd (dd b64)) :=
  map (fun x => mk (m_size x) (map (option_map (fun v => mk 1 [Some v; Some (b64_of_Z 0)])) (m_data x))) one_three.
Definition slopes_n (M : libm) : bool :=
  match run (dops (b64ops M) (sta1 1)) dyn1 2 one_three_n (EB Batan2 (EVar 0) (EVar 1)), run (b64ops M) dyn1 2 one_three (EB Batan2 (EVar 0) (EVar 1)) with
  | Ok x, Ok y => match get_g dyn1 x 0, get_g dyn1 y 0 with Ok s, Ok v => match get_f s with Ok w => o_eq (b64ops M) w v || negb (o_eq (b64ops M) v v) | _ => true end | _, _ => true end
  | _, _ => true
  end.
Lemma slopes_n_differ M : slopes_n M = false.
Proof. destruct M. vm_compute. reflexivity. Qed.
Lemma same_bits_n M : ~ (forall c0 n0, inner n0 c0 -> forall c n e e' env env', expr_rel (carries c0 n0) e e' -> Forall2 (num_rel (carries c0 n0)) env env' ->
  res_rel (num_rel (carries c0 n0)) (run (dops (b64ops M) c0) c n env e) (run (b64ops M) c n env' e')).
Proof.
  intros H. pose proof (slopes_n_differ M) as F. unfold slopes_n in F.
  specialize (H (sta1 1) 1%nat (proj1 product_nested) dyn1 2%nat (EB Batan2 (EVar 0) (EVar 1)) (EB Batan2 (EVar 0) (EVar 1)) one_three_n one_three).
  assert (A : expr_rel (carries (sta1 1) 1) (EB Batan2 (EVar 0) (EVar 1) : expr (dd b64)) (EB Batan2 (EVar 0) (EVar 1))) by (cbn; auto).
  assert (C : forall v : b64, carries (sta1 1) 1 (mk 1 [Some v; Some (b64_of_Z 0)]) v).
  { intros v. split; [|reflexivity]. repeat match goal with |- wf _ _ _ => unfold wf | |- _ /\ _ => split end; try reflexivity.
    - intros [|[|k]] Hk; [eexists; reflexivity|eexists; reflexivity|cbn in Hk; exfalso; lia].
    - unfold max_len. cbn. lia. }
  assert (B : Forall2 (num_rel (carries (sta1 1) 1)) one_three_n one_three).
  { unfold one_three_n, one_three. cbn [map m_size m_data option_map].
    repeat (constructor; try reflexivity; try apply C). }
  specialize (H A B).
  destruct (run (dops (b64ops M) (sta1 1)) dyn1 2 one_three_n _) as [x| | |]; try discriminate.
  destruct (run (b64ops M) dyn1 2 one_three _) as [y| | |]; try discriminate. cbn [res_rel] in H.
  pose proof (get_g_par (carries (sta1 1) 1) dyn1 x y 0 H) as G.
  destruct (get_g dyn1 x 0) as [s| | |]; try discriminate. destruct (get_g dyn1 y 0) as [v| | |]; try discriminate.
  cbn [res_rel] in G. destruct G as (_ & G). rewrite G in F. destruct (o_eq (b64ops M) v v); discriminate.
Qed.
Lemma nested_sessions {S} (O : Ops S) c0 n0 : inner n0 c0 -> forall c slack p p', Forall2 (pstmt_rel (carries c0 n0)) p p' -> forall st st', heap_rel (carries c0 n0) st st' ->
  res_rel (heap_rel (carries c0 n0)) (session (dops O c0) c slack p st) (session (by_reciprocal O) c slack p' st').
Proof. intros HI c slack p p'. exact (session_par (carries c0 n0) (dops O c0) (by_reciprocal O) c (carries_arith O c0 n0 HI) (carries_order O c0 n0) slack p p'). Qed.
Lemma twice_any_order {S} (O : Ops S) (env : nat -> ss (ss S)) (env' : nat -> ss S) : (forall i, ParSSpec.sparse_rel sees (env i) (env' i)) ->
  forall e x, SpecS.s_runs (sops O) env e x -> forall e', expr_rel sees e e' ->
  exists x', SpecS.s_runs (by_reciprocal O) env' e' x' /\ ParSSpec.sparse_rel sees x x'.
Proof. intros H e x Hx e' He. apply (FactsParS.runs_par sees (sops O) (by_reciprocal O) (sees_arith O) env env' H e x Hx); [left; apply sees_order|exact He]. Qed.
Lemma twice_real (env : nat -> ss (ss R)) (env' : nat -> ss R) : (forall i, ParSSpec.sparse_rel sees (env i) (env' i)) ->
  forall e e', expr_rel sees e e' -> ParSSpec.sparse_rel sees (SpecS.s_run (sops Rops) env e) (SpecS.s_run Rops env' e').
Proof.
  intros H e e' He. apply (FactsParS.run_par sees (sops Rops) Rops (real_arith _ _ (sees_arith Rops)) env env' H); [left|exact He].
  destruct (sees_order Rops). constructor; assumption.
Qed.
(** Integers: x * x with x a variable at both levels. *)
Definition env_t : nat -> ss (ss Z) := fun _ => mks (mks 3 [("x"%string, 1)]) [("x"%string, mks 1 [])]%Z.
Definition env_p : nat -> ss Z := fun _ => mks 3 [("x"%string, 1)]%Z.
Lemma square_nested : (forall i, ParSSpec.sparse_rel sees (env_t i) (env_p i)) /\
  SpecS.s_run (sops Zops) env_t (EB Bmul (EVar 0) (EVar 0)) = mks (mks 9 [("x"%string, 6)]) [("x"%string, mks 6 [("x"%string, 2)])]%Z /\
  SpecS.s_run (by_reciprocal Zops) env_p (EB Bmul (EVar 0) (EVar 0)) = mks 9 [("x"%string, 6)]%Z.
Proof.
  split; [|split; vm_compute; reflexivity].
  intros i. split; [reflexivity|]. repeat constructor.
Qed.
Lemma twice_programs fuel (s : stmt (ss R)) (s' : stmt R) st st' : stmt_rel sees s s' -> Forall2 (ParSSpec.sparse_rel sees) st st' ->
  run_rel (Forall2 (ParSSpec.sparse_rel sees)) (SpecS.s_exec (sops Rops) fuel s st) (SpecS.s_exec Rops fuel s' st').
Proof.
  apply (FactsParS.exec_par sees (sops Rops) Rops (real_arith _ _ (sees_arith Rops))).
  destruct (sees_order Rops). constructor; assumption.
Qed.
(** Any depth. *)
Lemma arith_comp {A B C} (P : A -> B -> Prop) (Q : B -> C -> Prop) O1 O2 O3 : arith_rel P O1 O2 -> arith_rel Q O2 O3 ->
  arith_rel (fun a c => exists b, P a b /\ Q b c) O1 O3.
Proof.
  intros [] []. constructor; intros; repeat match goal with H : exists _, _ |- _ => destruct H as (? & ? & ?) end; eexists; split; eauto.
Qed.
Lemma order_comp {A B C} (P : A -> B -> Prop) (Q : B -> C -> Prop) O1 O2 O3 : order_rel P O1 O2 -> order_rel Q O2 O3 ->
  order_rel (fun a c => exists b, P a b /\ Q b c) O1 O3.
Proof.
  intros [] []. constructor; intros a a' b b' (x & ? & ?) (y & ? & ?); etransitivity; eauto.
Qed.
Lemma recip_arith {A B} (P : A -> B -> Prop) O O' : arith_rel P O O' -> arith_rel P (by_reciprocal O) (by_reciprocal O').
Proof. intros []. constructor; cbn; auto. Qed.
Lemma recip_order {A B} (P : A -> B -> Prop) O O' : order_rel P O O' -> order_rel P (by_reciprocal O) (by_reciprocal O').
Proof. intros []. constructor; cbn; auto. Qed.
Lemma bottom_rel cs : Forall (fun c => inner (nsize c) c) cs -> arith_rel (bottom cs) (nops cs) Rops /\ order_rel (bottom cs) (nops cs) Rops.
Proof.
  induction 1 as [|c cs H _ (IA & IO)].
  - split; constructor; cbn; intros; subst; reflexivity.
  - split.
    + apply real_arith. exact (arith_comp _ _ _ _ _ (carries_arith (nops cs) c _ H) (recip_arith _ _ _ IA)).
    + pose proof (order_comp _ _ _ _ _ (carries_order (nops cs) c (nsize c)) (recip_order _ _ _ IO)) as [].
      constructor; assumption.
Qed.
Lemma deep_values cs : Forall (fun c => inner (nsize c) c) cs -> forall c n fuel s s' st st', stmt_rel (bottom cs) s s' -> Forall2 (num_rel (bottom cs)) st st' ->
  run_rel (Forall2 (num_rel (bottom cs))) (exec (nops cs) c n fuel s st) (exec Rops c n fuel s' st').
Proof.
  intros H c n fuel s s' st st'. destruct (bottom_rel cs H) as (A & B).
  exact (exec_par (bottom cs) (nops cs) Rops c A B n fuel s s' st st').
Qed.
Definition deep (a b : R) : nest [sta1 1; sta1 1] := mk 1 [Some (mk 1 [Some a; Some b]); Some (mk 1 [Some b; Some a])].
Lemma deep_pair a b : wf (sta1 1) 1 (mk 1 [Some a; Some b] : dd R).
Proof.
  repeat match goal with |- wf _ _ _ => unfold wf | |- _ /\ _ => split end; try reflexivity.
  - intros [|[|k]] Hk; [eexists; reflexivity|eexists; reflexivity|cbn in Hk; exfalso; lia].
  - unfold max_len. cbn. lia.
Qed.
Lemma deep_pair2 (a b : dd R) : wf (sta1 1) 1 (mk 1 [Some a; Some b]).
Proof.
  repeat match goal with |- wf _ _ _ => unfold wf | |- _ /\ _ => split end; try reflexivity.
  - intros [|[|k]] Hk; [eexists; reflexivity|eexists; reflexivity|cbn in Hk; exfalso; lia].
  - unfold max_len. cbn. lia.
Qed.
Lemma deep_case : Forall (fun c => inner (nsize c) c) [sta1 1; sta1 1] /\
  Forall2 (num_rel (bottom [sta1 1; sta1 1])) [mk 1 [Some (deep 3 5); Some (deep 7 2)]] [mk 1 [Some 3%R; Some 7%R]].
Proof.
  assert (B : forall a b, bottom [sta1 1; sta1 1] (deep a b) a).
  { intros a b. exists (mk 1 [Some a; Some b]). split; [split; [apply deep_pair2|reflexivity]|].
    exists a. split; [split; [apply deep_pair|reflexivity]|reflexivity]. }
  split; [repeat constructor; apply product_nested|].
  constructor; [|constructor]. split; [reflexivity|]. cbn [m_data]. repeat constructor; apply B.
Qed.
