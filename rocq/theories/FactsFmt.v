(** Proofs about the texts of doubles. *)
From Coq Require Import ZArith List Bool String Ascii Lia Reals Lra Psatz.
From Flocq Require Import Core BinarySingleNaN.
From Verif Require Import Outcome Float64 ModelFmt FmtSpec.
Import ListNotations.
Open Scope string_scope.
Open Scope Z_scope.

(** ** rounding *)
Lemma rne_nearest a b : 0 < b -> rne a b = ZnearestE (IZR a / IZR b).
Proof.
  intros Hb. unfold rne, Znearest.
  assert (HF : Zfloor (IZR a / IZR b) = a / b) by (apply Zfloor_div; lia).
  rewrite HF.
  assert (Hb' : (0 < IZR b)%R) by (apply IZR_lt; lia).
  assert (E : (IZR a / IZR b - IZR (a / b) = IZR (a mod b) / IZR b)%R).
  { pose proof (Z.div_mod a b ltac:(lia)) as D.
    assert (IZR a = IZR b * IZR (a / b) + IZR (a mod b))%R by (rewrite <- mult_IZR, <- plus_IZR; f_equal; exact D).
    rewrite H. field. lra. }
  pose proof (Z.mod_pos_bound a b Hb) as B.
  assert (CE : a mod b <> 0 -> Zceil (IZR a / IZR b) = a / b + 1).
  { intros N. rewrite Zceil_floor_neq; rewrite HF; [lia|]. intros E2. apply N. apply eq_IZR.
    assert (IZR (a mod b) / IZR b = 0)%R by lra. apply (Rmult_eq_reg_r (/ IZR b)); [|apply Rinv_neq_0_compat; lra].
    unfold Rdiv in H. rewrite H. ring. }
  rewrite E.
  assert (TW : (IZR (2 * (a mod b)) = 2 * IZR (a mod b))%R) by (rewrite mult_IZR; reflexivity).
  destruct (Z.compare_spec (2 * (a mod b)) b) as [Q|Q|Q].
  - rewrite Rcompare_Eq.
    + destruct (Z.even (a / b)); cbn [negb]; [reflexivity|]. rewrite CE by lia. reflexivity.
    + apply (f_equal IZR) in Q. rewrite TW in Q. apply (Rmult_eq_reg_r (2 * IZR b)); [|lra]. field_simplify; lra.
  - rewrite Rcompare_Lt; [reflexivity|]. apply IZR_lt in Q. rewrite TW in Q.
    apply (Rmult_lt_reg_r (2 * IZR b)); [lra|]. field_simplify; lra.
  - rewrite Rcompare_Gt; [rewrite CE by lia; reflexivity|]. apply IZR_lt in Q. rewrite TW in Q.
    apply (Rmult_lt_reg_r (2 * IZR b)); [lra|]. field_simplify; lra.
Qed.

Notation bp := (bpow radix10).
Lemma bp_Z p : 0 <= p -> bp p = IZR (10 ^ p).
Proof. intros H. rewrite <- (IZR_Zpower radix10) by exact H. reflexivity. Qed.
Lemma bp_neg p : bp (- p) = (/ bp p)%R.
Proof. apply bpow_opp. Qed.
Lemma bp_pos p : (0 < bp p)%R. Proof. apply bpow_gt_0. Qed.
Lemma pow10_pos p : 0 <= p -> 0 < 10 ^ p. Proof. intros H. apply Z.pow_pos_nonneg; lia. Qed.

Section Ratio.
  Context (num den : Z) (Hn : 0 < num) (Hd : 0 < den).
  Local Notation r := (IZR num / IZR den)%R.
  Lemma den_pos : (0 < IZR den)%R. Proof. apply IZR_lt. exact Hd. Qed.
  Lemma num_pos : (0 < IZR num)%R. Proof. apply IZR_lt. exact Hn. Qed.
  Lemma r_pos : (0 < r)%R. Proof. apply Rdiv_lt_0_compat; [apply num_pos|apply den_pos]. Qed.
  Lemma scaled_nearest p : scaled p num den = ZnearestE (r * bp p).
  Proof.
    pose proof den_pos. unfold scaled. destruct (Z.leb_spec 0 p) as [Hp|Hp].
    - rewrite rne_nearest by exact Hd. f_equal. rewrite mult_IZR, bp_Z by exact Hp. field. lra.
    - pose proof (pow10_pos (- p) ltac:(lia)) as PP. rewrite rne_nearest by nia. f_equal.
      rewrite mult_IZR, <- (bp_Z (- p)) by lia. rewrite (bp_neg p). pose proof (bp_pos p). field. lra.
  Qed.
  Lemma pow10_le_spec X : pow10_le X num den = true <-> (bp X <= r)%R.
  Proof.
    pose proof den_pos as DP. unfold pow10_le. destruct (Z.leb_spec 0 X) as [Hp|Hp]; rewrite Z.leb_le.
    - rewrite bp_Z by exact Hp. split; intros H.
      + apply IZR_le in H. rewrite mult_IZR in H. apply (Rmult_le_reg_r (IZR den)); [exact DP|]. field_simplify; lra.
      + apply le_IZR. rewrite mult_IZR. apply (Rmult_le_compat_r (IZR den)) in H; [|lra]. field_simplify in H; lra.
    - assert (EX : bp X = (/ IZR (10 ^ (- X)))%R) by (rewrite <- bp_Z by lia; rewrite <- bp_neg; f_equal; lia). rewrite EX. clear EX. pose proof (IZR_lt _ _ (pow10_pos (- X) ltac:(lia))) as PP.
      set (t := IZR (10 ^ (- X))) in *. split; intros H.
      + apply IZR_le in H. rewrite mult_IZR in H. fold t in H. apply (Rmult_le_reg_r (IZR den * t)); [nra|]. field_simplify; lra.
      + apply le_IZR. rewrite mult_IZR. fold t. apply (Rmult_le_compat_r (IZR den * t)) in H; [|nra]. field_simplify in H; lra.
  Qed.
  Lemma exp10_spec fuel : forall X, (r < bp (X + 1))%R -> (bp (X - Z.of_nat fuel) <= r)%R ->
    let Y := exp10 fuel X num den in (bp Y <= r < bp (Y + 1))%R.
  Proof.
    induction fuel as [|k IH]; intros X H1 H2; cbn [exp10].
    - cbn in H2. rewrite Z.sub_0_r in H2. cbn. lra.
    - destruct (pow10_le X num den) eqn:E.
      + apply pow10_le_spec in E. cbn. lra.
      + apply IH.
        * replace (X - 1 + 1) with X by lia. apply Rnot_le_lt. intros L. apply pow10_le_spec in L. congruence.
        * replace (X - 1 - Z.of_nat k) with (X - Z.of_nat (Datatypes.S k)) by lia. exact H2.
  Qed.

  (** ** digits and exponent of style e *)
  Context (Hlo : (bp (-324) <= r)%R) (Hhi : (r < bp 309)%R).
  Lemma sci_spec : let (D, X) := sci 6 num den in
    10 ^ 5 <= D < 10 ^ 6 /\ (IZR D * bp (X - 5))%R = six_digits r /\ scaled (5 - X) num den = D.
  Proof.
    unfold sci. pose proof (exp10_spec 632 308 Hhi Hlo) as HX. cbv zeta in HX.
    set (X := exp10 632 308 num den) in *. clearbody X.
    replace (6 - 1 - X) with (5 - X) by lia. rewrite scaled_nearest.
    assert (HM : mag radix10 r = (X + 1) :> Z) by (apply mag_unique_pos; replace (X + 1 - 1) with X by lia; exact HX).
    assert (RD : six_digits r = (IZR (ZnearestE (r * bp (5 - X))) * bp (X - 5))%R).
    { unfold six_digits, round, scaled_mantissa, cexp, F2R, FLX_exp. cbn [Fnum Fexp]. rewrite HM.
      replace (X + 1 - 6) with (X - 5) by lia. replace (- (X - 5)) with (5 - X) by lia. reflexivity. }
    assert (SB : (IZR (10 ^ 5) <= r * bp (5 - X) < IZR (10 ^ 6))%R).
    { rewrite <- !bp_Z by lia. destruct HX as (H1 & H2).
      apply (Rmult_le_compat_r (bp (5 - X))) in H1; [|left; apply bp_pos].
      apply (Rmult_lt_compat_r (bp (5 - X))) in H2; [|apply bp_pos].
      rewrite <- bpow_plus in H1, H2. replace (X + (5 - X)) with 5 in H1 by lia. replace (X + 1 + (5 - X)) with 6 in H2 by lia. lra. }
    remember (ZnearestE (r * bp (5 - X))) as D eqn:DE.
    assert (DB : 10 ^ 5 <= D <= 10 ^ 6).
    { rewrite DE. split.
      - rewrite <- (Zrnd_IZR ZnearestE (10 ^ 5)). apply Zrnd_le; [apply valid_rnd_N|]. lra.
      - rewrite <- (Zrnd_IZR ZnearestE (10 ^ 6)). apply Zrnd_le; [apply valid_rnd_N|]. lra. }
    assert (HH : (Rabs (r * bp (5 - X) - IZR D) <= / 2)%R) by (rewrite DE; apply Znearest_half).
    destruct (Z.eqb_spec D (10 ^ 6)) as [E|E].
    - replace (5 - (X + 1)) with (4 - X) by lia. rewrite scaled_nearest. split; [cbn; lia|]. split.
      + rewrite RD, E. rewrite <- !bp_Z by lia. rewrite <- !bpow_plus. f_equal. lia.
      + apply Znearest_imp. replace (6 - 1) with 5 by lia. rewrite E in HH.
        replace (bp (5 - X)) with (10 * bp (4 - X))%R in HH.
        2:{ replace (5 - X) with (1 + (4 - X)) by lia. rewrite bpow_plus. reflexivity. }
        set (t := (r * bp (4 - X))%R) in *.
        replace (r * (10 * bp (4 - X)))%R with (10 * t)%R in HH by (unfold t; ring).
        change (IZR (10 ^ 6)) with 1000000%R in HH. change (IZR (10 ^ 5)) with 100000%R.
        apply Rabs_le_inv in HH. apply Rabs_lt. lra.
    - split; [lia|]. split; [symmetry; exact RD|]. rewrite scaled_nearest. symmetry. exact DE.
  Qed.
End Ratio.

(** ** strings of digits *)
Lemma app_assoc_s (a b c : string) : (a ++ b) ++ c = a ++ (b ++ c).
Proof. induction a as [|x a IH]; cbn; [reflexivity|]. f_equal. exact IH. Qed.
Lemma app_nil_s (a : string) : a ++ "" = a.
Proof. induction a as [|x a IH]; cbn; [reflexivity|]. f_equal. exact IH. Qed.
Lemma digit_cases d : 0 <= d < 10 -> d = 0 \/ d = 1 \/ d = 2 \/ d = 3 \/ d = 4 \/ d = 5 \/ d = 6 \/ d = 7 \/ d = 8 \/ d = 9.
Proof. lia. Qed.
Lemma digit_value_digit d : 0 <= d < 10 -> digit_value (digit d) = Some d.
Proof. intros H. destruct (digit_cases d H) as [E|[E|[E|[E|[E|[E|[E|[E|[E|E]]]]]]]]]; subst d; reflexivity. Qed.
Lemma digit_zero d : 0 <= d < 10 -> Ascii.eqb (digit d) "0" = (d =? 0).
Proof. intros H. destruct (digit_cases d H) as [E|[E|[E|[E|[E|[E|[E|[E|[E|E]]]]]]]]]; subst d; reflexivity. Qed.
Lemma pow10_S k : 10 ^ Z.of_nat (Datatypes.S k) = 10 * 10 ^ Z.of_nat k.
Proof. rewrite Nat2Z.inj_succ, Z.pow_succ_r by lia. reflexivity. Qed.
Lemma mod10_S n k : n mod 10 ^ Z.of_nat (Datatypes.S k) = 10 * ((n / 10) mod 10 ^ Z.of_nat k) + n mod 10.
Proof. rewrite pow10_S, Z.rem_mul_r; [lia|lia|apply pow10_pos; lia]. Qed.
Lemma read_digits_digits k : forall n acc cnt s,
  read_digits acc cnt (digits k n ++ s) = read_digits (acc * 10 ^ Z.of_nat k + n mod 10 ^ Z.of_nat k) (cnt + Z.of_nat k) s.
Proof.
  induction k as [|k IH]; intros n acc cnt s.
  - cbn [digits append]. f_equal; rewrite ?Z.mod_1_r; lia.
  - cbn [digits]. rewrite app_assoc_s, IH. cbn [append read_digits].
    rewrite digit_value_digit by (apply Z.mod_pos_bound; lia). f_equal; [|lia]. rewrite mod10_S, pow10_S. lia.
Qed.
Lemma strip0_snoc s a : strip0 (s ++ String a "") = if Ascii.eqb a "0" then strip0 s else s ++ String a "".
Proof.
  induction s as [|b s IH]; [reflexivity|]. cbn [append strip0]. rewrite IH.
  destruct (Ascii.eqb a "0"); [reflexivity|]. destruct s; reflexivity.
Qed.
Lemma strip0_digits k : forall n, exists j, (j <= k)%nat /\ strip0 (digits k n) = digits (k - j) (n / 10 ^ Z.of_nat j) /\
  n mod 10 ^ Z.of_nat k = 10 ^ Z.of_nat j * ((n / 10 ^ Z.of_nat j) mod 10 ^ Z.of_nat (k - j)).
Proof.
  induction k as [|k IH]; intros n.
  - exists 0%nat. cbn. split; [lia|]. rewrite Z.div_1_r. split; [reflexivity|]. rewrite Z.mod_1_r. reflexivity.
  - cbn [digits]. rewrite strip0_snoc, digit_zero by (apply Z.mod_pos_bound; lia).
    destruct (Z.eqb_spec (n mod 10) 0) as [Z0|Z0].
    + destruct (IH (n / 10)) as (j & Hj & E & V). exists (Datatypes.S j). split; [lia|].
      assert (Q : n / 10 / 10 ^ Z.of_nat j = n / 10 ^ Z.of_nat (Datatypes.S j)).
      { rewrite pow10_S, Z.div_div; [reflexivity|lia|apply pow10_pos; lia]. }
      rewrite Q in E, V. change (Datatypes.S k - Datatypes.S j)%nat with (k - j)%nat. split; [exact E|].
      rewrite mod10_S, Z0, V, pow10_S. lia.
    + exists 0%nat. split; [lia|]. change (10 ^ Z.of_nat 0) with 1. rewrite Z.div_1_r, Nat.sub_0_r.
      split; [reflexivity|]. lia.
Qed.
Lemma width_spec fuel : forall n, 0 <= n < 2 ^ (Z.of_nat fuel + 1) -> n < 10 ^ Z.of_nat (width fuel n).
Proof.
  induction fuel as [|k IH]; intros n H; cbn [width].
  - cbn in *. lia.
  - destruct (Z.ltb_spec n 10) as [L|L]; [cbn; lia|].
    assert (B : 0 <= n / 10 < 2 ^ (Z.of_nat k + 1)).
    { split; [apply Z.div_pos; lia|]. apply Z.div_lt_upper_bound; [lia|].
      replace (Z.of_nat (Datatypes.S k) + 1) with (Z.succ (Z.of_nat k + 1)) in H by lia.
      rewrite Z.pow_succ_r in H by lia. lia. }
    specialize (IH _ B). rewrite pow10_S. pose proof (Z.div_mod n 10 ltac:(lia)). pose proof (Z.mod_pos_bound n 10 ltac:(lia)). lia.
Qed.
Lemma width_pos fuel n : (1 <= width fuel n)%nat.
Proof. destruct fuel; cbn; [lia|]. destruct (n <? 10); lia. Qed.
Lemma int_text_width n : 0 <= n -> exists w, (1 <= w)%nat /\ int_text n = digits w n /\ n mod 10 ^ Z.of_nat w = n.
Proof.
  intros H. exists (width (Z.to_nat (Z.log2 n)) n). split; [apply width_pos|]. split; [reflexivity|].
  apply Z.mod_small. split; [exact H|]. apply width_spec. split; [exact H|].
  rewrite Z2Nat.id by apply Z.log2_nonneg. destruct (Z.eq_dec n 0) as [->|N]; [cbn; lia|]. apply Z.log2_spec. lia.
Qed.
Lemma digits_S_cons k n : exists a r, digits (Datatypes.S k) n = String a r.
Proof.
  revert n. induction k as [|k IH]; intros n; [eexists; eexists; reflexivity|].
  cbn [digits]. destruct (IH (n / 10)) as (a & r & E). cbn [digits] in E. rewrite E. cbn [append]. eexists; eexists; reflexivity.
Qed.

(** ** reading *)
Definition tail_ok (s : string) : Prop := s = "" \/ exists r, s = String "e" r.
Lemma read_mantissa I F p E : 0 <= I -> 0 <= F < 10 ^ Z.of_nat p -> tail_ok E ->
  exists m k, read_unsigned (int_text I ++ frac (digits p F) ++ E) = read_exp m k E /\
    dec_value (m, k) = (IZR I + IZR F * bp (- Z.of_nat p))%R.
Proof.
  intros HI HF TE. destruct (int_text_width I HI) as (w & Hw & EI & VI).
  destruct (strip0_digits p F) as (j & Hj & ES & VS).
  unfold read_unsigned. rewrite EI, read_digits_digits, VI.
  replace (0 * 10 ^ Z.of_nat w + I) with I by lia.
  set (q := (p - j)%nat) in *.
  assert (FV : IZR F = (bp (Z.of_nat j) * IZR ((F / 10 ^ Z.of_nat j) mod 10 ^ Z.of_nat q))%R).
  { rewrite bp_Z by lia. rewrite <- mult_IZR. f_equal. rewrite <- VS. symmetry. apply Z.mod_small. exact HF. }
  assert (NW : (0 + Z.of_nat w =? 0) = false) by (apply Z.eqb_neq; lia).
  unfold frac. rewrite ES. destruct q as [|q'] eqn:EQ.
  - cbn [digits append].
    assert (R0 : read_digits I (0 + Z.of_nat w) E = (I, 0 + Z.of_nat w, E)).
    { destruct TE as [->|(t & ->)]; reflexivity. }
    rewrite R0, NW. exists I, 0. split.
    + destruct TE as [->|(t & ->)]; reflexivity.
    + unfold dec_value. cbn [fst snd]. rewrite FV. cbn [Z.of_nat]. rewrite Z.pow_0_r, Z.mod_1_r. cbn [bpow]. lra.
  - destruct (digits_S_cons q' (F / 10 ^ Z.of_nat j)) as (a & r & ED).
    assert (DS : match digits (Datatypes.S q') (F / 10 ^ Z.of_nat j) with "" => "" | String a0 s => "." ++ String a0 s end =
       "." ++ digits (Datatypes.S q') (F / 10 ^ Z.of_nat j)) by (rewrite ED; reflexivity).
    rewrite DS. clear DS ED a r. set (T := digits (Datatypes.S q') (F / 10 ^ Z.of_nat j)) in *.
    change (("." ++ T) ++ E) with (String "." (T ++ E)).
    cbn [read_digits]. change (digit_value ".") with (@None Z). cbv iota. rewrite NW.
    unfold T. rewrite read_digits_digits.
    assert (R0 : forall m c, read_digits m c E = (m, c, E)).
    { intros m c. destruct TE as [->|(t & ->)]; reflexivity. }
    rewrite R0. destruct (Z.eqb_spec (0 + Z.of_nat (Datatypes.S q')) 0) as [C|C]; [lia|].
    eexists; eexists. split; [reflexivity|]. unfold dec_value. cbn [fst snd]. rewrite FV, plus_IZR, mult_IZR, <- bp_Z by lia.
    rewrite Rmult_plus_distr_r. f_equal.
    + rewrite Rmult_assoc, <- bpow_plus. replace (Z.of_nat (Datatypes.S q') + - (0 + Z.of_nat (Datatypes.S q'))) with 0 by lia. cbn. ring.
    + rewrite (Rmult_comm (bp (Z.of_nat j))), Rmult_assoc, <- bpow_plus. f_equal. f_equal. lia.
Qed.
Lemma read_exp_text m k X : read_exp m k (exp_text X) = Some (m, k + X).
Proof.
  unfold exp_text.
  assert (RD : let t := (if Z.abs X <? 10 then "0" else "") ++ int_text (Z.abs X) in
    exists c, c <> 0 /\ read_digits 0 0 t = (Z.abs X, c, "")).
  { intros t. destruct (int_text_width (Z.abs X) ltac:(lia)) as (w & Hw & EI & VI). unfold t. rewrite EI.
    rewrite <- (app_nil_s (digits w (Z.abs X))).
    destruct (Z.abs X <? 10); cbn [append].
    - cbn [read_digits]. change (digit_value "0") with (Some 0). cbv iota. rewrite read_digits_digits, VI. eexists. split; [|cbn [read_digits]; f_equal; f_equal; lia]. lia.
    - rewrite read_digits_digits, VI. eexists. split; [|cbn [read_digits]; f_equal; f_equal; lia]. lia. }
  destruct RD as (c & Hc & ER).
  set (t := (if Z.abs X <? 10 then "0" else "") ++ int_text (Z.abs X)) in *. clearbody t.
  apply Z.eqb_neq in Hc.
  destruct (Z.ltb_spec X 0) as [L|L]; cbn [append read_exp]; rewrite ER, Hc; cbn [orb negb String.eqb Ascii.eqb Bool.eqb]; f_equal; f_equal; lia.
Qed.
Lemma read_unsigned_decimal s d : read_unsigned s = Some d -> decimal s = Some d.
Proof.
  intros H. destruct s as [|a s]; [discriminate|]. destruct (ascii_dec a "-") as [->|N]; [discriminate|].
  unfold decimal. destruct a as [[] [] [] [] [] [] [] []]; try exact H; exfalso; apply N; reflexivity.
Qed.

Section Style.
  Context (num den : Z) (Hn : 0 < num) (Hd : 0 < den).
  Local Notation r := (IZR num / IZR den)%R.
  Context (Hlo : (bp (-324) <= r)%R) (Hhi : (r < bp 309)%R).
  Lemma style_g_reads : exists d, read_unsigned (style_g 6 num den) = Some d /\ dec_value d = six_digits r.
  Proof.
    pose proof (sci_spec num den Hd Hlo Hhi) as SP. unfold style_g. destruct (sci 6 num den) as [D X] eqn:ES. cbn [snd].
    destruct SP as (DB & V & SC).
    destruct (Z.leb_spec (-4) X) as [L1|L1]; [destruct (Z.ltb_spec X 6) as [L2|L2]|]; cbn [andb].
    1:{ unfold style_f. replace (6 - 1 - X) with (5 - X) by lia. rewrite SC.
      pose proof (pow10_pos (5 - X) ltac:(lia)) as PP.
      pose proof (read_mantissa (D / 10 ^ (5 - X)) (D mod 10 ^ (5 - X)) (Z.to_nat (5 - X)) "") as RM.
      rewrite Z2Nat.id in RM by lia. rewrite app_nil_s in RM. destruct RM as (m & k & RM & EV).
      - apply Z.div_pos; lia. - apply Z.mod_pos_bound; lia. - left; reflexivity.
      - exists (m, k). split; [exact RM|]. rewrite EV, <- V. replace (X - 5) with (- (5 - X)) by lia.
        pose proof (f_equal IZR (Z.div_mod D (10 ^ (5 - X)) ltac:(lia))) as DM. rewrite plus_IZR, mult_IZR, <- bp_Z in DM by lia. rewrite DM.
        rewrite bp_neg. pose proof (bp_pos (5 - X)). field. lra. }
    all: unfold style_e; rewrite ES; change (6 - 1) with 5;
      pose proof (read_mantissa (D / 10 ^ 5) (D mod 10 ^ 5) 5 (exp_text X)) as RM;
      destruct RM as (m & k & RM & EV);
      [apply Z.div_pos; lia|apply Z.mod_pos_bound; lia|right; unfold exp_text; cbn [append]; eexists; reflexivity|];
      change (Z.to_nat 5) with 5%nat; rewrite RM, read_exp_text; eexists; (split; [reflexivity|]); rewrite <- V;
      unfold dec_value in *; cbn [fst snd] in *; rewrite bpow_plus, <- Rmult_assoc, EV;
      pose proof (f_equal IZR (Z.div_mod D (10 ^ 5) ltac:(lia))) as DM; rewrite plus_IZR, mult_IZR, <- bp_Z in DM by lia; rewrite DM;
      change (Z.of_nat 5) with 5; replace (X - 5) with (X + - 5) by lia; rewrite bpow_plus; change (bp (-5)) with (bp (Z.opp 5)); rewrite !bp_neg; pose proof (bp_pos 5); field; lra.
  Qed.
End Style.

(** ** the text depends on digits and exponent only *)
Lemma sci_mag D X : 10 ^ 5 <= D < 10 ^ 6 -> mag radix10 (IZR D * bp (X - 5)) = (X + 1) :> Z.
Proof.
  intros (H1 & H2). apply mag_unique_pos. apply IZR_le in H1. apply IZR_lt in H2. rewrite <- bp_Z in H1, H2 by lia.
  split.
  - replace (X + 1 - 1) with (5 + (X - 5)) by lia. rewrite bpow_plus. apply Rmult_le_compat_r; [left; apply bp_pos|exact H1].
  - replace (X + 1) with (6 + (X - 5)) by lia. rewrite bpow_plus. apply Rmult_lt_compat_r; [apply bp_pos|exact H2].
Qed.
Lemma style_g_same num den num' den' : 0 < den -> 0 < den' ->
  (bp (-324) <= IZR num / IZR den < bp 309)%R -> (bp (-324) <= IZR num' / IZR den' < bp 309)%R ->
  six_digits (IZR num / IZR den) = six_digits (IZR num' / IZR den') -> style_g 6 num den = style_g 6 num' den'.
Proof.
  intros Hd Hd' (L & U) (L' & U') E.
  pose proof (sci_spec num den Hd L U) as SP. pose proof (sci_spec num' den' Hd' L' U') as SP'.
  unfold style_g, style_e, style_f. destruct (sci 6 num den) as [D X], (sci 6 num' den') as [D' X'].
  destruct SP as (B & V & SC), SP' as (B' & V' & SC'). cbn [snd].
  rewrite <- V, <- V' in E.
  assert (X = X') by (pose proof (sci_mag D X B) as M; pose proof (sci_mag D' X' B') as M'; rewrite E in M; lia). subst X'.
  assert (ED : D = D') by (apply eq_IZR; apply (Rmult_eq_reg_r (bp (X - 5))); [exact E|apply Rgt_not_eq, bp_pos]).
  replace (6 - 1 - X) with (5 - X) by lia. rewrite SC, SC', ED. reflexivity.
Qed.
