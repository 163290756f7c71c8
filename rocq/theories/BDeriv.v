(** Derivatives of the two- and three-argument functions and agreement with the model's
    chain-rule coefficients. *)
From Coq Require Import ZArith List Bool Reals Lra Lia Psatz.
From Coquelicot Require Import Coquelicot.
From Verif Require Import Outcome Scalar Model Spec Kernels OpsRep RealOps Deriv UDeriv.
Open Scope R_scope.

Definition blike (p a b aa ab bb : R) (J K r : jet R) : Prop :=
  jf r = p /\ (forall i, jg r i = a * jg J i + b * jg K i) /\
  (forall i j, jh r i j = a * jh J i j + b * jh K i j + aa * jg J i * jg J j
     + ab * (jg J i * jg K j + jg K i * jg J j) + bb * jg K i * jg K j).

(** [F] has the given first and second partial derivatives at a point, in the form needed for
    composition. *)
Definition B2 (F : R -> R -> R) (x y a b aa ab bb : R) : Prop :=
  forall p1 p2 b1 c1 d1 b2 c2 d2, J2 p1 x b1 c1 d1 -> J2 p2 y b2 c2 d2 ->
  J2 (fun s t => F (p1 s t) (p2 s t)) (F x y) (a * b1 + b * b2) (a * c1 + b * c2)
    (a * d1 + b * d2 + aa * b1 * c1 + ab * (b1 * c2 + b2 * c1) + bb * b2 * c2).

Lemma J2_D2 (psi psi1 : R -> R) psi2 phi a b c d :
  J2 phi a b c d -> D2 psi psi1 psi2 a ->
  J2 (fun s t => psi (phi s t)) (psi a) (psi1 a * b) (psi1 a * c) (psi1 a * d + psi2 * b * c).
Proof. intros H [H1 H2]. apply J2_comp; assumption. Qed.

Lemma D2_inv x : x <> 0 -> D2 Rinv (fun y => - (/ y * / y)) (2 * / x * / x * / x) x.
Proof.
  intros H. apply (D2_open _ _ _ _ (fun y => y <> 0) open_nz H).
  - intros y Hy. auto_derive; [exact Hy|]. field. exact Hy.
  - auto_derive; [auto|]. field. exact H.
Qed.
Lemma D2_atan x : D2 atan (fun y => / (y * y + 1)) (- / (x * x + 1) * / (x * x + 1) * 2 * x) x.
Proof.
  apply D2_all.
  - intros y. eapply der_eq; [apply is_derive_atan|]. f_equal. unfold Rsqr. ring.
  - assert (0 < x * x + 1) by nra. auto_derive; [lra|]. field. lra.
Qed.

Lemma J2_opp p a b c d : J2 p a b c d -> J2 (fun s t => - p s t) (- a) (- b) (- c) (- d).
Proof.
  intros H. eapply J2_eq.
  - eapply J2_ext; [|apply (J2_mult _ _ _ _ _ _ _ _ _ _ (J2_const (-1)) H)].
    apply near2_true. intros s t. ring.
  - ring.
  - ring.
  - ring.
  - ring.
Qed.

Lemma B2_plus x y : B2 Rplus x y 1 1 0 0 0.
Proof. intros p1 p2 b1 c1 d1 b2 c2 d2 H1 H2. eapply J2_eq; [apply J2_plus; eassumption| | | |]; ring. Qed.
Lemma B2_minus x y : B2 Rminus x y 1 (-1) 0 0 0.
Proof.
  intros p1 p2 b1 c1 d1 b2 c2 d2 H1 H2.
  eapply J2_eq; [apply (J2_plus _ _ _ _ _ _ _ _ _ _ H1 (J2_opp _ _ _ _ _ H2))| | | |]; ring.
Qed.
Lemma B2_mult x y : B2 Rmult x y y x 0 1 0.
Proof. intros p1 p2 b1 c1 d1 b2 c2 d2 H1 H2. eapply J2_eq; [apply J2_mult; eassumption| | | |]; ring. Qed.
Lemma B2_div x y : y <> 0 -> B2 Rdiv x y (/ y) (- x / (y * y)) 0 (- / (y * y)) (2 * x / (y * y * y)).
Proof.
  intros Hy p1 p2 b1 c1 d1 b2 c2 d2 H1 H2.
  eapply J2_eq.
  - apply (J2_mult p1 (fun s t => / p2 s t) _ _ _ _ _ _ _ _ H1 (J2_D2 _ _ _ _ _ _ _ _ H2 (D2_inv y Hy))).
  - reflexivity.
  - field. exact Hy.
  - field. exact Hy.
  - field. exact Hy.
Qed.

Lemma sumsq2_pos x y : ~ (x = 0 /\ y = 0) -> 0 < x * x + y * y.
Proof.
  intros H. destruct (Req_EM_T x 0) as [->|Hx]; [|nra].
  assert (y <> 0) by (intros ->; apply H; split; reflexivity). nra.
Qed.
Lemma sumsq3_pos x y z : hdom x y z -> 0 < x * x + y * y + z * z.
Proof.
  intros H. unfold hdom in H. destruct (Req_EM_T z 0) as [->|Hz]; [|nra].
  pose proof (sumsq2_pos x y ltac:(intros [A B]; apply H; auto)). lra.
Qed.

Lemma B2_hypot x y : ~ (x = 0 /\ y = 0) -> let f := sqrt (x * x + y * y) in
  B2 (fun a b => sqrt (a * a + b * b)) x y (x / f) (y / f)
     (y * y / (f * f * f)) (- x * y / (f * f * f)) (x * x / (f * f * f)).
Proof.
  intros H f p1 p2 b1 c1 d1 b2 c2 d2 H1 H2.
  pose proof (sumsq2_pos x y H) as Hp. pose proof (sqrt_lt_R0 _ Hp) as Hf.
  pose proof (sqrt_sqrt _ (Rlt_le _ _ Hp)) as HS. fold f in Hf, HS.
  eapply J2_eq.
  - apply (J2_D2 sqrt _ _ _ _ _ _ _ (J2_plus _ _ _ _ _ _ _ _ _ _
      (J2_mult _ _ _ _ _ _ _ _ _ _ H1 H1) (J2_mult _ _ _ _ _ _ _ _ _ _ H2 H2)) (D2_sqrt _ Hp)).
  - reflexivity.
  - fold f. field. lra.
  - fold f. field. lra.
  - cbn beta. fold f. rewrite <- HS.
    apply (Rmult_eq_reg_r (f * f * f)); [|nra].
    transitivity ((2 * (d1 * x + c1 * b1 + d2 * y + c2 * b2)) * (f * f) / 2 - (b1 * x + b2 * y) * (c1 * x + c2 * y)).
    + field. lra.
    + rewrite HS at 1. transitivity ((x * d1 + y * d2) * (f * f) + y * y * b1 * c1
        - x * y * (b1 * c2 + b2 * c1) + x * x * b2 * c2).
      * rewrite HS. field.
      * field. lra.
Qed.

Lemma Ratan2_pos y x : 0 < x -> Ratan2 y x = atan (y / x).
Proof. intros H. unfold Ratan2. destruct (Rlt_dec 0 x); [reflexivity|lra]. Qed.

Lemma atan_inv_neg x : x < 0 -> atan (/ x) = - (PI / 2) - atan x.
Proof.
  intros H. replace x with (- - x) by ring. set (z := - x).
  assert (Hz : 0 < z) by (unfold z; lra).
  replace (/ - z) with (- / z) by (field; lra). rewrite !atan_opp.
  rewrite atan_inv by exact Hz. lra.
Qed.

Lemma Ratan2_up y x : 0 < y -> Ratan2 y x = PI / 2 - atan (x / y).
Proof.
  intros Hy. unfold Ratan2. destruct (Rlt_dec 0 x) as [Hx|Hx].
  - replace (y / x) with (/ (x / y)) by (field; lra). apply atan_inv. apply Rdiv_lt_0_compat; assumption.
  - destruct (Rlt_dec x 0) as [Hn|Hn].
    + destruct (Rle_dec 0 y); [|lra].
      replace (y / x) with (/ (x / y)) by (field; lra). rewrite atan_inv_neg; [lra|].
      unfold Rdiv. pose proof (Rinv_0_lt_compat y Hy). nra.
    + destruct (Rlt_dec 0 y); [|lra]. assert (x = 0) by lra. subst x.
      replace (0 / y) with 0 by (field; lra). rewrite atan_0. lra.
Qed.
Lemma Ratan2_down y x : y < 0 -> Ratan2 y x = - (PI / 2) - atan (x / y).
Proof.
  intros Hy. pose proof (Rinv_lt_0_compat y Hy) as Hi.
  unfold Ratan2. destruct (Rlt_dec 0 x) as [Hx|Hx].
  - replace (y / x) with (/ (x / y)) by (field; lra). apply atan_inv_neg. unfold Rdiv. nra.
  - destruct (Rlt_dec x 0) as [Hn|Hn].
    + destruct (Rle_dec 0 y); [lra|].
      replace (y / x) with (/ (x / y)) by (field; lra). rewrite atan_inv; [lra|]. unfold Rdiv. nra.
    + destruct (Rlt_dec 0 y); [lra|]. destruct (Rlt_dec y 0); [|lra]. assert (x = 0) by lra. subst x.
      replace (0 / y) with 0 by (field; lra). rewrite atan_0. lra.
Qed.

(** [a] is the first argument (y), [b] the second (x). *)
Lemma B2_atan2 a b : ~ (a = 0 /\ b <= 0) ->
  let q := a * a + b * b in
  B2 Ratan2 a b (b / q) (- a / q) (- 2 * a * b / (q * q)) ((a * a - b * b) / (q * q)) (2 * a * b / (q * q)).
Proof.
  intros H q p1 p2 b1 c1 d1 b2 c2 d2 H1 H2.
  assert (Hq : 0 < q) by (apply sumsq2_pos; intros [A B]; apply H; split; lra).
  destruct (Rlt_or_le 0 b) as [Hb|Hb].
  - (* right half plane *)
    assert (Hn : b <> 0) by lra.
    eapply J2_eq.
    + eapply J2_ext; [|apply (J2_D2 atan _ _ (fun s t => p1 s t / p2 s t) _ _ _ _
        (B2_div a b Hn _ _ _ _ _ _ _ _ H1 H2) (D2_atan _))].
      generalize (J2_near _ _ _ _ _ (fun x => 0 < x) H2 (open_pos b Hb)). apply near2_imp.
      intros s t Hst. symmetry. apply Ratan2_pos, Hst.
    + symmetry. apply Ratan2_pos, Hb.
    + unfold q. field. split; [|lra]. unfold q in Hq. lra.
    + unfold q. field. split; [|lra]. unfold q in Hq. lra.
    + unfold q. field. split; [|lra]. unfold q in Hq. lra.
  - assert (Ha : a <> 0) by (intros ->; apply H; split; lra).
    assert (Key : forall k, J2 (fun s t => k - atan (p2 s t / p1 s t)) (k - atan (b / a))
       (b / q * b1 + - a / q * b2) (b / q * c1 + - a / q * c2)
       (b / q * d1 + - a / q * d2 + - 2 * a * b / (q * q) * b1 * c1
        + (a * a - b * b) / (q * q) * (b1 * c2 + b2 * c1) + 2 * a * b / (q * q) * b2 * c2)).
    { intros k. eapply J2_eq.
      - apply (B2_minus k (atan (b / a)) (fun _ _ => k) (fun s t => atan (p2 s t / p1 s t)) 0 0 0
          _ _ _ (J2_const k) (J2_D2 atan _ _ (fun s t => p2 s t / p1 s t) _ _ _ _
        (B2_div b a Ha _ _ _ _ _ _ _ _ H2 H1) (D2_atan _))).
      - reflexivity.
      - unfold q. field. split; [|lra]. unfold q in Hq. lra.
      - unfold q. field. split; [|lra]. unfold q in Hq. lra.
      - unfold q. field. split; [|lra]. unfold q in Hq. lra. }
    destruct (Rlt_or_le 0 a) as [Hp|Hp].
    + rewrite Ratan2_up by exact Hp. eapply J2_ext; [|apply Key].
      generalize (J2_near _ _ _ _ _ (fun x => 0 < x) H1 (open_pos a Hp)). apply near2_imp.
      intros s t Hst. symmetry. apply Ratan2_up, Hst.
    + assert (Hm : a < 0) by lra.
      rewrite Ratan2_down by exact Hm. eapply J2_ext; [|apply Key].
      generalize (J2_near _ _ _ _ _ (fun x => x < 0) H1 (open_neg a Hm)). apply near2_imp.
      intros s t Hst. symmetry. apply Ratan2_down, Hst.
Qed.

Lemma jb_blike f a b aa ab bb J K :
  blike f a b aa ab bb J K (jb Rops f (CVal a) (CVal b) (CVal aa) (CVal ab) (CVal bb) J K).
Proof. split; [reflexivity|]. split; intros; rcbn; [reflexivity|ring]. Qed.
Lemma blike_eq p a b aa ab bb p' a' b' aa' ab' bb' J K r : blike p a b aa ab bb J K r ->
  p = p' -> a = a' -> b = b' -> aa = aa' -> ab = ab' -> bb = bb' -> blike p' a' b' aa' ab' bb' J K r.
Proof. intros H -> -> -> -> -> ->. exact H. Qed.

Lemma bder b x y : bdom b x y -> exists da db daa dab dbb, B2 (breal b) x y da db daa dab dbb /\
  forall J K, jf J = x -> jf K = y -> blike (breal b x y) da db daa dab dbb J K (jap_b Rops b J K).
Proof.
  intros H. destruct b; cbn [bdom] in H; cbv beta iota delta [breal jap_b k_b];
    unfold jb6, k_add, k_sub, k_mul, k_div, k_atan2, k_hypot.
  - do 5 eexists. split; [apply B2_plus|]. intros J K <- <-.
    split; [reflexivity|]. split; intros; rcbn; ring.
  - do 5 eexists. split; [apply B2_minus|]. intros J K <- <-.
    split; [reflexivity|]. split; intros; rcbn; ring.
  - do 5 eexists. split; [apply B2_mult|]. intros J K <- <-.
    split; [reflexivity|]. split; intros; rcbn; ring.
  - do 5 eexists. split; [apply B2_div; exact H|]. intros J K <- <-.
    split; [rcbn; field; exact H|]. split; intros; rcbn; rewrite Rpow_std_2, ?Rpow_std_3; field; exact H.
  - do 5 eexists. split; [apply B2_atan2; exact H|]. intros J K <- <-.
    assert (0 < jf J * jf J + jf K * jf K) by (apply sumsq2_pos; intros [A B]; apply H; split; lra).
    eapply blike_eq; [apply jb_blike|reflexivity| | | | |]; rcbn; field; lra.
  - do 5 eexists. split; [apply B2_hypot; exact H|]. intros J K <- <-.
    pose proof (sqrt_lt_R0 _ (sumsq2_pos _ _ H)).
    eapply blike_eq; [apply jb_blike|reflexivity| | | | |]; rcbn; field; lra.
Qed.

(** Three-argument hypot. *)
Lemma hder p1 p2 p3 x y z b1 c1 d1 b2 c2 d2 b3 c3 d3 : hdom x y z ->
  J2 p1 x b1 c1 d1 -> J2 p2 y b2 c2 d2 -> J2 p3 z b3 c3 d3 ->
  let f := sqrt (x * x + y * y + z * z) in let f3 := f * f * f in
  J2 (fun s t => hreal (p1 s t) (p2 s t) (p3 s t)) f
    (x / f * b1 + y / f * b2 + z / f * b3) (x / f * c1 + y / f * c2 + z / f * c3)
    (x / f * d1 + y / f * d2 + z / f * d3
     + (y * y + z * z) / f3 * b1 * c1 + (x * x + z * z) / f3 * b2 * c2 + (x * x + y * y) / f3 * b3 * c3
     - x * y / f3 * (b1 * c2 + b2 * c1) - x * z / f3 * (b1 * c3 + b3 * c1) - y * z / f3 * (b2 * c3 + b3 * c2)).
Proof.
  intros H H1 H2 H3 f f3.
  pose proof (sumsq3_pos x y z H) as Hp. pose proof (sqrt_lt_R0 _ Hp) as Hf.
  pose proof (sqrt_sqrt _ (Rlt_le _ _ Hp)) as HS. fold f in Hf, HS.
  assert (Hf3 : 0 < f3) by (unfold f3; nra).
  eapply J2_eq.
  - apply (J2_D2 sqrt _ _ _ _ _ _ _ (J2_plus _ _ _ _ _ _ _ _ _ _ (J2_plus _ _ _ _ _ _ _ _ _ _
      (J2_mult _ _ _ _ _ _ _ _ _ _ H1 H1) (J2_mult _ _ _ _ _ _ _ _ _ _ H2 H2))
      (J2_mult _ _ _ _ _ _ _ _ _ _ H3 H3)) (D2_sqrt _ Hp)).
  - reflexivity.
  - fold f. field. lra.
  - fold f. field. lra.
  - cbn beta. fold f. rewrite <- HS. unfold f3.
    apply (Rmult_eq_reg_r (f * f * f)); [|unfold f3 in Hf3; lra].
    transitivity ((d1 * x + c1 * b1 + d2 * y + c2 * b2 + d3 * z + c3 * b3) * (f * f)
                  - (b1 * x + b2 * y + b3 * z) * (c1 * x + c2 * y + c3 * z)).
    + field. lra.
    + transitivity ((x * d1 + y * d2 + z * d3) * (f * f)
         + (y * y + z * z) * b1 * c1 + (x * x + z * z) * b2 * c2 + (x * x + y * y) * b3 * c3
         - x * y * (b1 * c2 + b2 * c1) - x * z * (b1 * c3 + b3 * c1) - y * z * (b2 * c3 + b3 * c2)).
      * rewrite HS. ring.
      * field. lra.
Qed.
