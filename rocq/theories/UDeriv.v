(** First and second derivatives of every one-argument function of the library, and agreement
    with the chain-rule coefficients of the model. *)
From Coq Require Import ZArith List Bool Reals Lra Lia Psatz.
From Coquelicot Require Import Coquelicot.
From Verif Require Import Outcome Scalar Model Spec Kernels OpsRep RealOps Deriv.
Open Scope R_scope.

(** [u] has first derivative [p1] near [x] and second derivative [p2] at [x]. *)
Definition D2 (f p1 : R -> R) (p2 x : R) : Prop :=
  locally x (fun y => is_derive f y (p1 y)) /\ is_derive p1 x p2.

Lemma D2_ext_loc f g p1 p2 x : locally x (fun y => f y = g y) -> D2 f p1 p2 x -> D2 g p1 p2 x.
Proof.
  intros HE [H1 H2]. split; [|exact H2].
  assert (HE2 := locally_locally _ _ HE).
  generalize (filter_and _ _ HE2 H1). apply filter_imp. intros y [A B].
  eapply is_derive_ext_loc; [exact A|exact B].
Qed.

Lemma D2_ext f g p1 p2 x : (forall y : R, f y = g y) -> D2 f p1 p2 x -> D2 g p1 p2 x.
Proof. intros HE. apply D2_ext_loc. apply filter_forall. exact HE. Qed.

Lemma D2_open f p1 p2 x (P : R -> Prop) : open P -> P x ->
  (forall y, P y -> is_derive f y (p1 y)) -> is_derive p1 x p2 -> D2 f p1 p2 x.
Proof.
  intros HO HP H1 H2. split; [|exact H2]. generalize (HO x HP). apply filter_imp. exact H1.
Qed.

Lemma D2_all f p1 p2 x : (forall y, is_derive f y (p1 y)) -> is_derive p1 x p2 -> D2 f p1 p2 x.
Proof. intros H1 H2. split; [|exact H2]. apply filter_forall. exact H1. Qed.

Lemma der_eq (f : R -> R) (x l l' : R) : is_derive f x l -> l = l' -> is_derive f x l'.
Proof. intros H <-. exact H. Qed.

Lemma open_pos : open (fun y : R => 0 < y).
Proof. apply open_gt. Qed.
Lemma open_neg : open (fun y : R => y < 0).
Proof. apply open_lt. Qed.
Lemma open_Ioo a b : open (fun y : R => a < y < b).
Proof. apply open_and; [apply open_gt|apply open_lt]. Qed.
Lemma open_nz : open (fun y : R => y <> 0).
Proof. apply open_neq. Qed.

(** *** Powers *)
Lemma is_derive_powerRZ z x : x <> 0 ->
  is_derive (fun y => powerRZ y z) x (IZR z * powerRZ x (z - 1)).
Proof.
  intros Hx. assert (E : powerRZ x (z - 1) = powerRZ x z * / x).
  { replace (z - 1)%Z with (z + -1)%Z by lia. rewrite powerRZ_add by exact Hx. f_equal.
    change (powerRZ x (-1)) with (/ (x ^ 1)). rewrite pow_1. reflexivity. }
  rewrite E. clear E.
  destruct z as [|p|p].
  - cbn. apply (der_eq _ _ 0); [apply @is_derive_const|ring].
  - cbn [powerRZ]. set (n := Pos.to_nat p).
    assert (HI : IZR (Z.pos p) = INR n) by (unfold n; rewrite INR_IZR_INZ; f_equal; lia).
    rewrite HI. assert (Hn : (n = S (n - 1))%nat) by (unfold n; lia).
    eapply der_eq; [apply (is_derive_pow (fun y => y) n x 1); apply @is_derive_id|].
    replace (pred n) with (n - 1)%nat by lia.
    assert (HP : x ^ n = x * x ^ (n - 1)) by (rewrite Hn at 1; reflexivity).
    rewrite HP. field. exact Hx.
  - cbn [powerRZ]. set (n := Pos.to_nat p).
    assert (HI : IZR (Z.neg p) = - INR n).
    { unfold n. rewrite INR_IZR_INZ, <- opp_IZR. f_equal. lia. }
    rewrite HI. assert (Hn : (n = S (n - 1))%nat) by (unfold n; lia).
    assert (Hp : x ^ n <> 0) by (apply pow_nonzero; exact Hx).
    eapply der_eq; [apply (is_derive_inv (fun y => y ^ n) x (INR n * 1 * x ^ pred n));
                    [apply (is_derive_pow (fun y => y) n x 1); apply @is_derive_id|exact Hp]|].
    replace (pred n) with (n - 1)%nat by lia.
    assert (HP : x ^ n = x * x ^ (n - 1)) by (rewrite Hn at 1; reflexivity).
    assert (x ^ (n - 1) <> 0) by (apply pow_nonzero; exact Hx).
    rewrite HP. field. split; assumption.
Qed.

Lemma Int_part_IZR z : Int_part (IZR z) = z.
Proof.
  unfold Int_part. rewrite <- (tech_up (IZR z) (z + 1)); [lia| |].
  - apply IZR_lt. lia.
  - rewrite plus_IZR. lra.
Qed.
Lemma is_int_IZR z : is_int (IZR z) = true.
Proof. unfold is_int. rewrite Int_part_IZR. destruct (Req_EM_T (IZR z) (IZR z)); [reflexivity|lra]. Qed.

Lemma Rpow_std_pos x b : 0 < x -> Rpow_std x b = Rpower x b.
Proof. intros H. unfold Rpow_std. destruct (Rlt_dec 0 x); [reflexivity|lra]. Qed.

Lemma Rpow_std_Z x z : x <> 0 -> Rpow_std x (IZR z) = powerRZ x z.
Proof.
  intros H. unfold Rpow_std. destruct (Rlt_dec 0 x) as [Hp|Hp].
  - symmetry. apply powerRZ_Rpower. exact Hp.
  - destruct (Req_EM_T x 0); [contradiction|]. rewrite is_int_IZR, Int_part_IZR. reflexivity.
Qed.

Lemma Rpow_std_nat x k : Rpow_std x (INR k) = x ^ k.
Proof.
  destruct (Req_EM_T x 0) as [->|H].
  - unfold Rpow_std. destruct (Rlt_dec 0 0); [lra|]. destruct (Req_EM_T 0 0); [|lra].
    destruct k as [|k].
    + cbn. destruct (Req_EM_T 0 0); [reflexivity|lra].
    + assert (0 < INR (S k)) by (apply lt_0_INR; lia).
      destruct (Req_EM_T (INR (S k)) 0); [lra|]. destruct (Rlt_dec 0 (INR (S k))); [|lra].
      rewrite pow_i by lia. reflexivity.
  - rewrite INR_IZR_INZ, Rpow_std_Z by exact H. apply eq_sym, pow_powerRZ.
Qed.

Lemma Rpow_std_2 x : Rpow_std x 2 = x * x.
Proof. replace 2 with (INR 2) by (cbn; ring). rewrite Rpow_std_nat. ring. Qed.
Lemma Rpow_std_3 x : Rpow_std x 3 = x * x * x.
Proof. replace 3 with (INR 3) by (cbn; ring). rewrite Rpow_std_nat. ring. Qed.

Lemma is_derive_Rpower b x : 0 < x -> is_derive (fun y => Rpower y b) x (b * Rpower x (b - 1)).
Proof. intros H. apply is_derive_Reals. apply derivable_pt_lim_power. exact H. Qed.

Lemma D2_pow b x : udom (Upow b) x ->
  D2 (fun y => Rpow_std y b) (fun y => b * Rpow_std y (b - 1))
     ((b - 1) * b * Rpow_std x (b - 2)) x.
Proof.
  intros [H|[(H & z & ->)|(k & Hk & ->)]].
  - apply (D2_open _ _ _ _ (fun y => 0 < y) open_pos H).
    + intros y Hy. rewrite Rpow_std_pos by exact Hy.
      eapply is_derive_ext_loc; [|apply is_derive_Rpower; exact Hy].
      generalize (open_pos y Hy). apply filter_imp. intros w Hw. rewrite Rpow_std_pos by exact Hw. reflexivity.
    + rewrite Rpow_std_pos by exact H.
      apply (is_derive_ext_loc (fun y => b * Rpower y (b - 1))).
      { generalize (open_pos x H). apply filter_imp. intros w Hw.
        rewrite Rpow_std_pos by exact Hw. reflexivity. }
      eapply der_eq; [apply @is_derive_scal, is_derive_Rpower; exact H|].
      replace (b - 1 - 1) with (b - 2) by ring. ring.
  - replace (IZR z - 1) with (IZR (z - 1)) by (rewrite minus_IZR; ring).
    replace (IZR z - 2) with (IZR (z - 1 - 1)) by (rewrite !minus_IZR; ring).
    apply (D2_open _ _ _ _ (fun y => y <> 0) open_nz H).
    + intros y Hy. rewrite Rpow_std_Z by exact Hy.
      eapply is_derive_ext_loc; [|apply is_derive_powerRZ; exact Hy].
      generalize (open_nz y Hy). apply filter_imp. intros w Hw. rewrite Rpow_std_Z by exact Hw. reflexivity.
    + rewrite Rpow_std_Z by exact H.
      apply (is_derive_ext_loc (fun y => IZR z * powerRZ y (z - 1))).
      { generalize (open_nz x H). apply filter_imp. intros w Hw.
        rewrite Rpow_std_Z by exact Hw. reflexivity. }
      eapply der_eq; [apply @is_derive_scal, is_derive_powerRZ; exact H|]. ring.
  - destruct k as [|[|k]]; [lia|lia|].
    replace (INR (S (S k)) - 1) with (INR (S k)) by (rewrite (S_INR (S k)); ring).
    replace (INR (S (S k)) - 2) with (INR k) by (rewrite !S_INR; ring).
    rewrite Rpow_std_nat. apply D2_all.
    + intros y. rewrite Rpow_std_nat.
      apply (is_derive_ext (fun y => y ^ S (S k))); [intros w; rewrite Rpow_std_nat; reflexivity|].
      eapply der_eq; [apply (is_derive_pow (fun y => y) (S (S k)) y 1); apply @is_derive_id|].
      cbn [pred]. ring.
    + apply (is_derive_ext (fun y => INR (S (S k)) * y ^ S k));
        [intros w; rewrite Rpow_std_nat; reflexivity|].
      eapply der_eq; [apply @is_derive_scal, (is_derive_pow (fun y => y) (S k) x 1); apply @is_derive_id|].
      cbn [pred]. ring.
Qed.

(** *** Roots *)
Lemma Rcbrt_nz x : x <> 0 -> Rcbrt x <> 0.
Proof.
  intros H. unfold Rcbrt. destruct (Rlt_dec 0 x); [unfold Rpower; apply Rgt_not_eq, exp_pos|].
  destruct (Rlt_dec x 0); [|lra].
  unfold Rpower. pose proof (exp_pos (/ 3 * ln (- x))). lra.
Qed.

Lemma Rpower_third x : 0 < x -> Rpower x (/ 3) * Rpower x (/ 3) * Rpower x (/ 3) = x.
Proof.
  intros H. rewrite <- !Rpower_plus. replace (/ 3 + / 3 + / 3) with 1 by field. apply Rpower_1, H.
Qed.
Lemma Rcbrt_cube x : Rcbrt x * Rcbrt x * Rcbrt x = x.
Proof.
  unfold Rcbrt. destruct (Rlt_dec 0 x) as [H|H]; [apply Rpower_third, H|].
  destruct (Rlt_dec x 0) as [H'|H'].
  - pose proof (Rpower_third (- x) ltac:(lra)). lra.
  - lra.
Qed.

Lemma Rcbrt_pos x : 0 < x -> Rcbrt x = Rpower x (/ 3).
Proof. intros H. unfold Rcbrt. destruct (Rlt_dec 0 x); [reflexivity|lra]. Qed.
Lemma Rcbrt_neg x : x < 0 -> Rcbrt x = - Rpower (- x) (/ 3).
Proof.
  intros H. unfold Rcbrt. destruct (Rlt_dec 0 x); [lra|]. destruct (Rlt_dec x 0); [reflexivity|lra].
Qed.

Lemma is_derive_Rcbrt x : x <> 0 -> is_derive Rcbrt x (Rcbrt x / (3 * x)).
Proof.
  intros H. destruct (Rlt_or_le 0 x) as [Hp|Hn].
  - eapply is_derive_ext_loc.
    { generalize (open_pos x Hp). apply filter_imp. intros w Hw. symmetry. exact (Rcbrt_pos w Hw). }
    eapply der_eq; [apply is_derive_Rpower; exact Hp|].
    unfold Rcbrt. destruct (Rlt_dec 0 x); [|lra].
    unfold Rminus. rewrite Rpower_plus, Rpower_Ropp, Rpower_1 by exact Hp. field. exact H.
  - assert (Hx : x < 0) by lra.
    eapply is_derive_ext_loc.
    { generalize (open_neg x Hx). apply filter_imp. intros w Hw. symmetry. exact (Rcbrt_neg w Hw). }
    assert (Hd : is_derive (fun w => Rpower (- w) (/ 3)) x (-1 * (/ 3 * Rpower (- x) (/ 3 - 1)))).
    { apply (is_derive_comp (fun w => Rpower w (/ 3)) (fun w => - w)); [apply is_derive_Rpower; lra|].
      apply (der_eq _ _ (- 1)); [apply @is_derive_opp, @is_derive_id|reflexivity]. }
    eapply der_eq; [apply @is_derive_opp; exact Hd|].
    unfold Rcbrt. destruct (Rlt_dec 0 x); [lra|]. destruct (Rlt_dec x 0); [|lra].
    unfold Rminus. rewrite Rpower_plus, Rpower_Ropp, Rpower_1 by lra.
    unfold opp; cbn. field. exact H.
Qed.

Lemma D2_cbrt x : x <> 0 ->
  D2 Rcbrt (fun y => Rcbrt y / (3 * y)) (- 2 * Rcbrt x / (9 * x * x)) x.
Proof.
  intros H. apply (D2_open _ _ _ _ (fun y => y <> 0) open_nz H); [exact is_derive_Rcbrt|].
  eapply der_eq; [apply (is_derive_div Rcbrt (fun y => 3 * y) x (Rcbrt x / (3 * x)) 3);
                  [apply is_derive_Rcbrt; exact H| |lra]|].
  - auto_derive; [exact I|ring].
  - field. exact H.
Qed.

Lemma D2_sqrt x : 0 < x -> D2 sqrt (fun y => / (2 * sqrt y)) (- (/ (2 * sqrt x)) / (2 * x)) x.
Proof.
  intros H. apply (D2_open _ _ _ _ (fun y => 0 < y) open_pos H).
  - intros y Hy. auto_derive; [exact Hy|]. field. apply Rgt_not_eq, sqrt_lt_R0, Hy.
  - pose proof (sqrt_lt_R0 _ H) as Hs. pose proof (sqrt_sqrt x (Rlt_le _ _ H)) as HSS.
    auto_derive; [repeat split; lra|].
    clear H. set (s := sqrt x) in *. clearbody s. subst x. field. lra.
Qed.

Lemma is_derive_lim (f : R -> R) x l : derivable_pt_lim f x l -> is_derive f x l.
Proof. intros H. apply is_derive_Reals. exact H. Qed.

Lemma is_derive_asin x : -1 < x < 1 -> is_derive asin x (/ sqrt (1 - x * x)).
Proof.
  intros H. apply is_derive_lim. pose proof (derive_pt_asin x H) as E.
  unfold derive_pt in E. destruct (derivable_pt_asin x H) as (l & Hl). cbn in E. subst l.
  replace (/ sqrt (1 - x * x)) with (1 / sqrt (1 - x²)); [exact Hl|].
  unfold Rsqr, Rdiv. ring.
Qed.
Lemma is_derive_acos x : -1 < x < 1 -> is_derive acos x (- / sqrt (1 - x * x)).
Proof.
  intros H. apply is_derive_lim. pose proof (derive_pt_acos x H) as E.
  unfold derive_pt in E. destruct (derivable_pt_acos x H) as (l & Hl). cbn in E. subst l.
  replace (- / sqrt (1 - x * x)) with (-1 / sqrt (1 - x²)); [exact Hl|].
  unfold Rsqr, Rdiv. ring.
Qed.

Lemma one_minus_sq x : -1 < x < 1 -> 0 < 1 - x * x.
Proof. intros H. nra. Qed.

Lemma is_derive_invsqrt x : -1 < x < 1 ->
  is_derive (fun y => / sqrt (1 - y * y)) x (/ sqrt (1 - x * x) * x / (1 - x * x)).
Proof.
  intros H. pose proof (one_minus_sq x H) as Hp. pose proof (sqrt_lt_R0 _ Hp) as Hs.
  pose proof (sqrt_sqrt _ (Rlt_le _ _ Hp)) as HSS.
  auto_derive; [replace (1 + - (x * x)) with (1 - x * x) by ring; repeat split; lra|].
  replace (1 + - (x * x)) with (1 - x * x) by ring.
  set (q := 1 - x * x) in *. clearbody q. set (s := sqrt q) in *. clearbody s. clear Hp. subst q. field. lra.
Qed.

Lemma D2_asin x : -1 < x < 1 ->
  D2 asin (fun y => / sqrt (1 - y * y)) (/ sqrt (1 - x * x) * x / (1 - x * x)) x.
Proof.
  intros H. apply (D2_open _ _ _ _ (fun y => -1 < y < 1) (open_Ioo _ _) H);
    [exact is_derive_asin|apply is_derive_invsqrt, H].
Qed.
Lemma D2_acos x : -1 < x < 1 ->
  D2 acos (fun y => - / sqrt (1 - y * y)) (- (/ sqrt (1 - x * x) * x / (1 - x * x))) x.
Proof.
  intros H. apply (D2_open _ _ _ _ (fun y => -1 < y < 1) (open_Ioo _ _) H);
    [exact is_derive_acos|]. apply @is_derive_opp. apply is_derive_invsqrt, H.
Qed.

Lemma D2_asinh x :
  D2 arcsinh (fun y => / sqrt (1 + y * y)) (- / sqrt (1 + x * x) * x / (1 + x * x)) x.
Proof.
  apply D2_all.
  - intros y. eapply der_eq; [apply is_derive_lim, derivable_pt_lim_arcsinh|].
    do 2 f_equal. ring.
  - assert (Hp : 0 < 1 + x * x) by nra. pose proof (sqrt_lt_R0 _ Hp) as Hs.
    pose proof (sqrt_sqrt _ (Rlt_le _ _ Hp)) as HSS.
    auto_derive; [repeat split; lra|].
    set (q := 1 + x * x) in *. clearbody q. set (s := sqrt q) in *. clearbody s. clear Hp. subst q. field. lra.
Qed.

Lemma sqrt_split x : 1 < x -> sqrt (x - 1) * sqrt (x + 1) = sqrt (x * x - 1).
Proof. intros H. rewrite <- sqrt_mult by lra. f_equal. ring. Qed.

Lemma D2_acosh x : 1 < x ->
  D2 Racosh (fun y => / (sqrt (y - 1) * sqrt (y + 1)))
     (- / (sqrt (x - 1) * sqrt (x + 1)) * x / ((x - 1) * (x + 1))) x.
Proof.
  intros H. apply (D2_open _ _ _ _ (fun y => 1 < y) (open_gt 1) H).
  - intros y Hy. rewrite sqrt_split by exact Hy. unfold Racosh.
    assert (Hp : 0 < y * y - 1) by nra. pose proof (sqrt_lt_R0 _ Hp) as Hs.
    auto_derive; replace (y * y + - (1)) with (y * y - 1) by ring.
    + repeat split; lra.
    + field. split; lra.
  - assert (Hp : 0 < x * x - 1) by nra. pose proof (sqrt_lt_R0 _ Hp) as Hs.
    pose proof (sqrt_sqrt _ (Rlt_le _ _ Hp)) as HSS.
    rewrite sqrt_split by exact H. replace ((x - 1) * (x + 1)) with (x * x - 1) by ring.
    apply (is_derive_ext_loc (fun y => / sqrt (y * y - 1))).
    { generalize (open_gt 1 x H). apply filter_imp. intros w Hw. rewrite sqrt_split by exact Hw. reflexivity. }
    auto_derive; replace (x * x + - (1)) with (x * x - 1) by ring; [repeat split; lra|].
    set (q := x * x - 1) in *. clearbody q. set (s := sqrt q) in *. clearbody s. clear Hp. subst q. field. lra.
Qed.

Lemma D2_atanh x : -1 < x < 1 ->
  D2 Ratanh (fun y => / (1 - y * y)) (2 * x / ((x * x - 1) * (x * x - 1))) x.
Proof.
  intros H. apply (D2_open _ _ _ _ (fun y => -1 < y < 1) (open_Ioo _ _) H).
  - intros y Hy. unfold Ratanh. auto_derive.
    + split; [lra|]. split; [|exact I]. apply Rdiv_lt_0_compat; lra.
    + field. repeat split; nra.
  - pose proof (one_minus_sq x H). auto_derive; [lra|]. field. lra.
Qed.

Lemma cosh_pos x : 0 < cosh x.
Proof. unfold cosh. pose proof (exp_pos x). pose proof (exp_pos (- x)). lra. Qed.
Lemma cosh_sinh_sq x : cosh x * cosh x - sinh x * sinh x = 1.
Proof.
  unfold cosh, sinh. replace 1 with (exp (x + - x)) by (rewrite Rplus_opp_r, exp_0; reflexivity).
  rewrite exp_plus. field.
Qed.
Lemma is_derive_cosh x : is_derive cosh x (sinh x).
Proof. apply is_derive_lim, derivable_pt_lim_cosh. Qed.
Lemma is_derive_sinh x : is_derive sinh x (cosh x).
Proof. apply is_derive_lim, derivable_pt_lim_sinh. Qed.
Lemma is_derive_tanh x : is_derive tanh x (1 - tanh x * tanh x).
Proof.
  pose proof (cosh_pos x). pose proof (cosh_sinh_sq x).
  eapply der_eq; [apply (is_derive_div sinh cosh x (cosh x) (sinh x));
    [apply is_derive_sinh|apply is_derive_cosh|lra]|].
  unfold tanh. field. lra.
Qed.
Lemma D2_tanh x : D2 tanh (fun y => 1 - tanh y * tanh y) (- 2 * tanh x * (1 - tanh x * tanh x)) x.
Proof.
  apply D2_all; [exact is_derive_tanh|].
  eapply der_eq.
  - apply (is_derive_minus (fun _ => 1) (fun y => tanh y * tanh y) x 0); [apply @is_derive_const|].
    apply (is_derive_mult tanh tanh); [apply is_derive_tanh|apply is_derive_tanh|intros; apply Rmult_comm].
  - unfold minus, plus, opp, mult; cbn. ring.
Qed.

Lemma D2_tan x : cos x <> 0 -> D2 tan (fun y => tan y * tan y + 1) ((tan x * tan x + 1) * 2 * tan x) x.
Proof.
  intros H.
  assert (HT : forall y, cos y <> 0 -> is_derive tan y (tan y * tan y + 1)).
  { intros y Hy. eapply der_eq; [apply is_derive_tan; exact Hy|]. ring. }
  assert (HO : locally x (fun y => cos y <> 0)).
  { apply (derive_near cos x (- sin x) (fun y => y <> 0)); [apply is_derive_cos|]. apply open_nz, H. }
  split.
  - revert HO. apply filter_imp. exact HT.
  - eapply der_eq.
    + apply (is_derive_plus (fun y => tan y * tan y) (fun _ => 1) x
              ((tan x * tan x + 1) * tan x + tan x * (tan x * tan x + 1)) 0); [|apply @is_derive_const].
      apply (is_derive_mult tan tan); [apply HT, H|apply HT, H|intros; apply Rmult_comm].
    + unfold plus, mult; cbn. ring.
Qed.

Definition sgn1 (y : R) : R := if Rlt_dec y 0 then -1 else 1.
Lemma sgn1_pos y : 0 < y -> sgn1 y = 1.
Proof. intros H. unfold sgn1. destruct (Rlt_dec y 0); [lra|reflexivity]. Qed.
Lemma sgn1_neg y : y < 0 -> sgn1 y = -1.
Proof. intros H. unfold sgn1. destruct (Rlt_dec y 0); [reflexivity|lra]. Qed.
Lemma Rabs_p y : 0 < y -> Rabs y = y.
Proof. intros H. apply Rabs_pos_eq. lra. Qed.

Lemma D2_abs x : x <> 0 -> D2 Rabs sgn1 0 x.
Proof.
  intros H. destruct (Rlt_or_le 0 x) as [Hp|Hn].
  - apply (D2_open _ _ _ _ (fun y => 0 < y) open_pos Hp).
    + intros y Hy. rewrite sgn1_pos by exact Hy.
      apply (is_derive_ext_loc (fun w : R => w)); [|apply @is_derive_id].
      generalize (open_pos y Hy). apply filter_imp. intros w Hw. symmetry. exact (Rabs_p w Hw).
    + apply (is_derive_ext_loc (fun _ : R => 1)); [|apply @is_derive_const].
      generalize (open_pos x Hp). apply filter_imp. intros w Hw. symmetry. exact (sgn1_pos w Hw).
  - assert (Hx : x < 0) by lra. apply (D2_open _ _ _ _ (fun y => y < 0) open_neg Hx).
    + intros y Hy. rewrite sgn1_neg by exact Hy.
      apply (is_derive_ext_loc (fun w : R => - w)).
      * generalize (open_neg y Hy). apply filter_imp. intros w Hw. symmetry. exact (Rabs_left w Hw).
      * auto_derive; [exact I|ring].
    + apply (is_derive_ext_loc (fun _ : R => -1)); [|apply @is_derive_const].
      generalize (open_neg x Hx). apply filter_imp. intros w Hw. symmetry. exact (sgn1_neg w Hw).
Qed.

(** The model's one-operand result, in terms of a first and a second derivative. *)
Definition jlike (p0 p1 p2 : R) (J r : jet R) : Prop :=
  jf r = p0 /\ (forall i, jg r i = p1 * jg J i) /\
  (forall i j, jh r i j = p1 * jh J i j + p2 * jg J i * jg J j).

Lemma ju_jlike f da daa J : jlike f da daa J (ju Rops f (CVal da) (CVal daa) J).
Proof. split; [reflexivity|]. split; reflexivity. Qed.

Lemma jlike_eq p0 p1 p2 q0 q1 q2 J r : jlike p0 p1 p2 J r -> p0 = q0 -> p1 = q1 -> p2 = q2 -> jlike q0 q1 q2 J r.
Proof. intros H -> -> ->. exact H. Qed.

Lemma D2_affine a b x : D2 (fun y => a * y + b) (fun _ => a) 0 x.
Proof.
  apply D2_all; [|apply @is_derive_const]. intros y. auto_derive; [exact I|ring].
Qed.

Ltac rcbn := cbn [jf jg jh jmap jmap2 jsetf jb ju cmul vadd vmul vacc vset is_zero andb
  o_Z o_half o_add o_sub o_mul o_div o_neg o_lt o_le o_eq o_pow o_sqrt o_cbrt o_cos o_sin o_tan
  o_acos o_asin o_atan o_atan2 o_hypot o_hypot3 o_cosh o_sinh o_tanh o_acosh o_asinh o_atanh
  o_exp o_log o_log2 o_log10 Rops].

(** Every function: the coefficients the library uses are the derivatives. *)
Lemma uder u x : udom u x -> exists p1 p2, D2 (ureal u) p1 p2 x /\
  forall J, jf J = x -> jlike (ureal u x) (p1 x) p2 J (jap_u Rops u J).
Proof.
  intros H. destruct u; cbn [udom] in H; cbv beta iota delta [ureal]; cbn [jap_u];
    unfold ju3, k_pow, k_sqrt, k_cbrt, k_reciprocal, k_cos, k_sin, k_tan, k_acos, k_asin, k_atan,
      k_cosh, k_sinh, k_tanh, k_acosh, k_asinh, k_atanh, k_exp, k_log, k_logb, k_log2, k_log10,
      k_sdiv.
  - (* neg *) exists (fun _ => -1), 0. split.
    + apply (D2_ext (fun y => -1 * y + 0)); [intros y; cbn [ureal]; ring|apply D2_affine].
    + intros J <-. split; [reflexivity|]. split; intros; rcbn; ring.
  - (* abs *) eexists _, _. split; [apply D2_abs; exact H|].
    intros J <-. unfold jmap. cbn [o_lt Rops o_Z]. unfold Rltb.
    destruct (Rlt_dec (jf J) 0) as [Hn|Hn];
      [rewrite sgn1_neg by exact Hn|rewrite sgn1_pos by lra].
    + split; [rcbn; rewrite Rabs_left by exact Hn; reflexivity|]. split; intros; rcbn; ring.
    + split; [rcbn; rewrite Rabs_pos_eq by lra; reflexivity|]. split; intros; rcbn; ring.
  - (* pow *) eexists _, _. split; [apply D2_pow; exact H|].
    intros J <-. eapply jlike_eq; [apply ju_jlike| | |]; rcbn; ring.
  - (* sqrt *) eexists _, _. split; [apply D2_sqrt; exact H|].
    intros J <-. pose proof (sqrt_lt_R0 _ H).
    eapply jlike_eq; [apply ju_jlike|reflexivity| |]; rcbn; field; lra.
  - (* cbrt *) eexists _, _. split; [apply D2_cbrt; exact H|].
    intros J <-. pose proof (Rcbrt_nz _ H) as Hc. pose proof (Rcbrt_cube (jf J)) as HC.
    eapply jlike_eq; [apply ju_jlike|reflexivity| |]; rcbn; set (f := Rcbrt (jf J)) in *.
    + rewrite <- HC. field. exact Hc.
    + rewrite <- HC. field. exact Hc.
  - (* reciprocal *) exists (fun y => - (/ y * / y)), (2 * / x * / x * / x). split.
    + apply (D2_open _ _ _ _ (fun y => y <> 0) open_nz H).
      * intros y Hy. auto_derive; [exact Hy|]. field. exact Hy.
      * auto_derive; [auto|]. field. exact H.
    + intros J <-. eapply jlike_eq; [apply ju_jlike| | |]; rcbn; field; exact H.
  - (* cos *) exists (fun y => - sin y), (- cos x). split.
    + apply D2_all; [intros y; apply is_derive_cos|apply @is_derive_opp, is_derive_sin].
    + intros J <-. eapply jlike_eq; [apply ju_jlike| | |]; rcbn; try reflexivity; ring.
  - (* sin *) exists cos, (- sin x). split.
    + apply D2_all; [intros y; apply is_derive_sin|apply is_derive_cos].
    + intros J <-. eapply jlike_eq; [apply ju_jlike| | |]; rcbn; try reflexivity; ring.
  - (* tan *) eexists _, _. split; [apply D2_tan; exact H|].
    intros J <-. eapply jlike_eq; [apply ju_jlike| | |]; rcbn; try reflexivity; ring.
  - (* acos *) eexists _, _. split; [apply D2_acos; exact H|].
    intros J <-. pose proof (one_minus_sq _ H) as Hp. pose proof (sqrt_lt_R0 _ Hp).
    eapply jlike_eq; [apply ju_jlike|reflexivity| |]; rcbn; field; repeat split; lra.
  - (* asin *) eexists _, _. split; [apply D2_asin; exact H|].
    intros J <-. pose proof (one_minus_sq _ H) as Hp. pose proof (sqrt_lt_R0 _ Hp).
    eapply jlike_eq; [apply ju_jlike|reflexivity| |]; rcbn; field; repeat split; lra.
  - (* atan *) exists (fun y => / (y * y + 1)), (- / (x * x + 1) * / (x * x + 1) * 2 * x). split.
    + apply D2_all.
      * intros y. eapply der_eq; [apply is_derive_atan|]. f_equal. unfold Rsqr. ring.
      * assert (0 < x * x + 1) by nra. auto_derive; [lra|]. field. lra.
    + intros J <-. assert (0 < jf J * jf J + 1) by nra.
      eapply jlike_eq; [apply ju_jlike|reflexivity| |]; rcbn; field; lra.
  - (* cosh *) exists sinh, (cosh x). split.
    + apply D2_all; [exact is_derive_cosh|apply is_derive_sinh].
    + intros J <-. eapply jlike_eq; [apply ju_jlike| | |]; rcbn; try reflexivity; ring.
  - (* sinh *) exists cosh, (sinh x). split.
    + apply D2_all; [exact is_derive_sinh|apply is_derive_cosh].
    + intros J <-. eapply jlike_eq; [apply ju_jlike| | |]; rcbn; try reflexivity; ring.
  - (* tanh *) eexists _, _. split; [apply D2_tanh|].
    intros J <-. eapply jlike_eq; [apply ju_jlike| | |]; rcbn; try reflexivity; ring.
  - (* acosh *) eexists _, _. split; [apply D2_acosh; exact H|].
    intros J <-. assert (0 < sqrt (jf J - 1)) by (apply sqrt_lt_R0; lra).
    assert (0 < sqrt (jf J + 1)) by (apply sqrt_lt_R0; lra).
    eapply jlike_eq; [apply ju_jlike|reflexivity| |]; rcbn; field; repeat split; lra.
  - (* asinh *) eexists _, _. split; [apply D2_asinh|].
    intros J <-. assert (Hp : 0 < 1 + jf J * jf J) by nra. pose proof (sqrt_lt_R0 _ Hp).
    eapply jlike_eq; [apply ju_jlike|reflexivity| |]; rcbn; field; repeat split; lra.
  - (* atanh *) eexists _, _. split; [apply D2_atanh; exact H|].
    intros J <-. pose proof (one_minus_sq _ H) as Hp.
    eapply jlike_eq; [apply ju_jlike|reflexivity| |]; rcbn; rewrite ?Rpow_std_2; field; repeat split; lra.
  - (* exp *) exists exp, (exp x). split.
    + apply D2_all; [exact is_derive_exp|apply is_derive_exp].
    + intros J <-. eapply jlike_eq; [apply ju_jlike| | |]; rcbn; try reflexivity; ring.
  - (* log *) exists (fun y => / y), (- / x * / x). split.
    + apply (D2_open _ _ _ _ (fun y => 0 < y) open_pos H).
      * intros y Hy. apply is_derive_ln, Hy.
      * auto_derive; [lra|]. field. lra.
    + intros J <-. eapply jlike_eq; [apply ju_jlike|reflexivity| |]; rcbn; field; lra.
  - (* log base *) destruct H as (H & Hb & Hb1).
    assert (HL : ln base <> 0).
    { intros E. destruct (Rlt_or_le base 1).
      - pose proof (ln_increasing base 1 Hb H0). rewrite ln_1 in *. lra.
      - pose proof (ln_increasing 1 base ltac:(lra) ltac:(lra)). rewrite ln_1 in *. lra. }
    exists (fun y => / (y * ln base)), (- / (x * ln base) / x). split.
    + apply (D2_open _ _ _ _ (fun y => 0 < y) open_pos H).
      * intros y Hy. auto_derive; [exact Hy|]. field. split; lra.
      * auto_derive; [apply Rmult_integral_contrapositive; split; lra|]. field. split; lra.
    + intros J <-. eapply jlike_eq; [apply ju_jlike|reflexivity| |]; rcbn; field; split; lra.
  - (* log2 *) assert (HL : 0 < ln 2) by (rewrite <- ln_1; apply ln_increasing; lra).
    exists (fun y => / (y * ln 2)), (- / (x * ln 2) / x). split.
    + apply (D2_open _ _ _ _ (fun y => 0 < y) open_pos H).
      * intros y Hy. auto_derive; [exact Hy|]. field. split; lra.
      * auto_derive; [apply Rmult_integral_contrapositive; split; lra|]. field. split; lra.
    + intros J <-. eapply jlike_eq; [apply ju_jlike|reflexivity| |]; rcbn; field; split; lra.
  - (* log10 *) assert (HL : 0 < ln 10) by (rewrite <- ln_1; apply ln_increasing; lra).
    exists (fun y => / (y * ln 10)), (- / (x * ln 10) / x). split.
    + apply (D2_open _ _ _ _ (fun y => 0 < y) open_pos H).
      * intros y Hy. auto_derive; [exact Hy|]. field. split; lra.
      * auto_derive; [apply Rmult_integral_contrapositive; split; lra|]. field. split; lra.
    + intros J <-. eapply jlike_eq; [apply ju_jlike|reflexivity| |]; rcbn; field; split; lra.
  - (* x + b *) exists (fun _ => 1), 0. split.
    + apply (D2_ext (fun y => 1 * y + b)); [intros y; cbn [ureal]; ring|apply D2_affine].
    + intros J <-. split; [reflexivity|]. split; intros; rcbn; ring.
  - (* a + x *) exists (fun _ => 1), 0. split.
    + apply (D2_ext (fun y => 1 * y + a)); [intros y; cbn [ureal]; ring|apply D2_affine].
    + intros J <-. split; [rcbn; ring|]. split; intros; rcbn; ring.
  - (* x - b *) exists (fun _ => 1), 0. split.
    + apply (D2_ext (fun y => 1 * y + - b)); [intros y; cbn [ureal]; ring|apply D2_affine].
    + intros J <-. split; [reflexivity|]. split; intros; rcbn; ring.
  - (* a - x *) exists (fun _ => -1), 0. split.
    + apply (D2_ext (fun y => -1 * y + a)); [intros y; cbn [ureal]; ring|apply D2_affine].
    + intros J <-. split; [rcbn; ring|]. split; intros; rcbn; ring.
  - (* x * b *) exists (fun _ => b), 0. split.
    + apply (D2_ext (fun y => b * y + 0)); [intros y; cbn [ureal]; ring|apply D2_affine].
    + intros J <-. split; [reflexivity|]. split; intros; rcbn; ring.
  - (* a * x *) exists (fun _ => a), 0. split.
    + apply (D2_ext (fun y => a * y + 0)); [intros y; cbn [ureal]; ring|apply D2_affine].
    + intros J <-. split; [rcbn; ring|]. split; intros; rcbn; ring.
  - (* x / b *) exists (fun _ => / b), 0. split.
    + apply (D2_ext (fun y => / b * y + 0)); [intros y; cbn [ureal]; unfold Rdiv; ring|apply D2_affine].
    + intros J <-. split; [rcbn; field; exact H|]. split; intros; rcbn; field; exact H.
  - (* a / x *) exists (fun y => - a / (y * y)), (2 * a / (x * x * x)). split.
    + apply (D2_open _ _ _ _ (fun y => y <> 0) open_nz H).
      * intros y Hy. auto_derive; [exact Hy|]. field. exact Hy.
      * auto_derive; [apply Rmult_integral_contrapositive; split; exact H|]. field. exact H.
    + intros J <-. eapply jlike_eq; [apply ju_jlike| | |]; rcbn; rewrite ?Rpow_std_2, ?Rpow_std_3; rcbn; try reflexivity; ring.
Qed.
