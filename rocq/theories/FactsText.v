(** Proofs about the texts of doubles, continued. *)
From Coq Require Import ZArith List Bool String Ascii Lia Reals Lra Psatz.
From Flocq Require Import Core BinarySingleNaN Relative.
From Verif Require Import Outcome Scalar Float64 Ops64 B64 ModelS ModelDisp FactsDisp ModelFmt FmtSpec FactsFmt.
Import ListNotations.
Open Scope string_scope.
Open Scope Z_scope.

(** ** doubles *)
Lemma finite_ratio s m e (H : SpecFloat.bounded prec64 emax64 m e = true) :
  (Rabs (val64 (B754_finite s m e H)) = IZR (Zpos m * 2 ^ Z.max e 0) / IZR (2 ^ Z.max (- e) 0))%R /\
  val64 (B754_finite s m e H) = (if s then - Rabs (val64 (B754_finite s m e H)) else Rabs (val64 (B754_finite s m e H)))%R.
Proof.
  assert (E2 : forall k, 0 <= k -> IZR (2 ^ k) = bpow radix2 k) by (intros k Hk; rewrite <- (IZR_Zpower radix2) by exact Hk; reflexivity).
  assert (P : (0 < F2R (Float radix2 (Zpos m) e))%R) by (apply F2R_gt_0; reflexivity).
  assert (V : val64 (B754_finite s m e H) = (if s then - F2R (Float radix2 (Zpos m) e) else F2R (Float radix2 (Zpos m) e))%R).
  { unfold val64, B2R. destruct s; cbn [cond_Zopp]; [|reflexivity]. rewrite <- F2R_Zopp. reflexivity. }
  rewrite V. clear V.
  assert (A : Rabs (if s then - F2R (Float radix2 (Zpos m) e) else F2R (Float radix2 (Zpos m) e)) = F2R (Float radix2 (Zpos m) e)).
  { destruct s; rewrite ?Rabs_Ropp; apply Rabs_pos_eq; lra. }
  rewrite A. split; [|reflexivity].
  unfold F2R. cbn [Fnum Fexp]. rewrite mult_IZR, !E2 by lia.
  destruct (Z.le_gt_cases 0 e) as [L|L].
  - rewrite (Z.max_l e 0), (Z.max_r (- e) 0) by lia. cbn [bpow]. field.
  - rewrite (Z.max_r e 0), (Z.max_l (- e) 0) by lia. cbn [bpow]. rewrite bpow_opp. pose proof (bpow_gt_0 radix2 e). field. lra.
Qed.
Lemma bp_small : (bp (-324) <= bpow radix2 (-1074))%R.
Proof.
  change (bp (-324)) with (bp (Z.opp 324)). change (bpow radix2 (-1074)) with (bpow radix2 (Z.opp 1074)). rewrite !bpow_opp.
  apply Rinv_le; [apply bpow_gt_0|]. rewrite <- !IZR_Zpower by lia. apply IZR_le. vm_compute. discriminate.
Qed.
Lemma bp_large : (bpow radix2 1024 <= bp 309)%R.
Proof. rewrite <- !IZR_Zpower by lia. apply IZR_le. vm_compute. discriminate. Qed.
Lemma finite_min s m e (H : SpecFloat.bounded prec64 emax64 m e = true) : (bpow radix2 (-1074) <= Rabs (val64 (B754_finite s m e H)))%R.
Proof.
  apply (abs_B2R_ge_emin prec64 emax64 (B754_finite s m e H)). reflexivity.
Qed.
Lemma six_opp v : six_digits (- v) = (- six_digits v)%R.
Proof. apply round_NE_opp. Qed.
Lemma six_0 : six_digits 0 = 0%R. Proof. apply round_0. apply valid_rnd_N. Qed.

Lemma text_rounded nn (x : b64) : finite64 x -> denotes (text64 nn x) (six_digits (val64 x)).
Proof.
  destruct x as [s|s| |s m e H]; try discriminate; intros _.
  - change (val64 (B754_zero s)) with 0%R. rewrite six_0. exists (0, 0). split; [destruct s; reflexivity|]. unfold dec_value. cbn. ring.
  - destruct (finite_ratio s m e H) as (A & V). pose proof (finite_min s m e H) as LO.
    pose proof (abs_B2R_lt_emax _ _ (B754_finite s m e H)) as HI. fold (val64 (B754_finite s m e H)) in HI.
    set (v := val64 (B754_finite s m e H)) in *. cbn [text64].
    set (num := Zpos m * 2 ^ Z.max e 0) in *. set (den := 2 ^ Z.max (- e) 0) in *.
    assert (Hd : 0 < den) by (apply Z.pow_pos_nonneg; lia).
    assert (Hn : 0 < num) by (unfold num; pose proof (Z.pow_pos_nonneg 2 (Z.max e 0) ltac:(lia) ltac:(lia)); lia).
    destruct (style_g_reads num den Hd) as ((m' & k) & RD & EV).
    { rewrite <- A. eapply Rle_trans; [apply bp_small|exact LO]. }
    { rewrite <- A. eapply Rlt_le_trans; [exact HI|exact bp_large]. }
    rewrite <- A in EV. destruct s; cbn [sign_text append].
    + exists (- m', k). split; [unfold decimal; rewrite RD; reflexivity|].
      rewrite V, six_opp, <- EV. unfold dec_value. cbn [fst snd]. rewrite opp_IZR. ring.
    + exists (m', k). split; [apply read_unsigned_decimal, RD|]. rewrite V. exact EV.
Qed.
Lemma text_not_finite nn (x : b64) : ~ finite64 x -> decimal (text64 nn x) = None.
Proof.
  destruct x as [s|s| |s m e H]; intros N; try (exfalso; apply N; reflexivity).
  - destruct s; reflexivity.
  - destruct nn; reflexivity.
Qed.

Lemma six_rel v : (Rabs (six_digits v - v) <= 5 / 1000000 * Rabs v)%R.
Proof.
  pose proof (relative_error_N_FLX radix10 6 ltac:(reflexivity) (fun z => negb (Z.even z)) v) as H.
  eapply Rle_trans; [exact H|]. apply Rmult_le_compat_r; [apply Rabs_pos|]. change (bp (Z.opp 6 + 1)) with (/ 100000)%R. lra.
Qed.
Lemma six_exact m k : Z.abs m < 10 ^ 6 -> six_digits (IZR m * bp k) = (IZR m * bp k)%R.
Proof.
  intros H. apply round_generic; [apply valid_rnd_N|]. apply generic_format_FLX. exists (Float radix10 m k); [reflexivity|exact H].
Qed.
Lemma six_mono v w : (v <= w)%R -> (six_digits v <= six_digits w)%R.
Proof. intros H. apply round_le; [apply FLX_exp_valid; reflexivity|apply valid_rnd_N|exact H]. Qed.

#[local] Instance flx6 : Valid_exp (FLX_exp 6) := FLX_exp_valid 6 (prec_gt_0_ := eq_refl).
Lemma six_close v x : (0 < v)%R -> generic_format radix10 (FLX_exp 6) v -> (Rabs (x - v) < / 20000000 * v)%R -> six_digits x = v.
Proof.
  intros P F C. apply Rabs_def2 in C.
  assert (MG : (v < bp (mag radix10 v))%R) by (apply bpow_mag_gt_pos || (destruct (mag radix10 v) as (ev & B); cbn; specialize (B ltac:(lra)); rewrite Rabs_pos_eq in B; lra)).
  assert (U : (v * / 10000000 <= bp (mag radix10 v - 7))%R).
  { replace (mag radix10 v - 7) with (mag radix10 v + - 7) by lia. rewrite bpow_plus. change (bp (-7)) with (/ 10000000)%R.
    apply Rmult_le_compat_r; lra. }
  assert (U6 : (bp (mag radix10 v - 7) <= bp (mag radix10 v - 6))%R) by (apply bpow_le; lia).
  apply Rle_antisym.
  - apply round_N_le_midp; [exact _|exact F|]. rewrite succ_eq_pos by lra.
    rewrite ulp_neq_0 by lra. unfold cexp, FLX_exp. lra.
  - apply round_N_ge_midp; [exact _|exact F|]. rewrite pred_eq_pos by lra. unfold pred_pos.
    destruct (Req_bool v (bp (mag radix10 v - 1))).
    + unfold FLX_exp. replace (mag radix10 v - 1 - 6) with (mag radix10 v - 7) by lia. lra.
    + rewrite ulp_neq_0 by lra. unfold cexp, FLX_exp. lra.
Qed.
Lemma u64_small : (u64 < / 20000000)%R.
Proof. unfold u64. change (bpow radix2 (-53)) with (/ IZR (2 ^ 53))%R. apply Rinv_lt_contravar; [|]; change (2 ^ 53) with 9007199254740992; lra. Qed.
Lemma text_as_written nn (x : b64) m k : finite64 x -> Z.abs m < 10 ^ 6 -> (bpow radix2 (-1022) <= Rabs (IZR m * bp k))%R ->
  val64 x = near64 (IZR m * bp k) -> denotes (text64 nn x) (IZR m * bp k).
Proof.
  intros F HM LO E. pose proof (text_rounded nn x F) as T. replace (IZR m * bp k)%R with (six_digits (val64 x)); [exact T|].
  rewrite E. destruct (near64_rel _ LO) as (d & B & ->). set (v := (IZR m * bp k)%R) in *.
  assert (FV : generic_format radix10 (FLX_exp 6) v) by (apply generic_format_FLX; exists (Float radix10 m k); [reflexivity|exact HM]).
  pose proof u64_small as US. pose proof (bpow_gt_0 radix2 (-1022)) as PP.
  destruct (Rle_or_lt v 0) as [N|N].
  - rewrite Rabs_left1 in LO by exact N.
    replace (v * (1 + d))%R with (- (- v * (1 + d)))%R by ring. rewrite six_opp. rewrite (six_close (- v)); [ring|lra|apply generic_format_opp, FV|].
    replace (- v * (1 + d) - - v)%R with (- v * d)%R by ring. rewrite Rabs_mult, (Rabs_pos_eq (- v)) by lra. nra.
  - apply six_close; [exact N|exact FV|]. replace (v * (1 + d) - v)%R with (v * d)%R by ring.
    rewrite Rabs_mult, (Rabs_pos_eq v) by lra. nra.
Qed.
Lemma six_sign v : (0 < v)%R -> (0 < six_digits v)%R.
Proof.
  intros P. unfold six_digits. pose proof (round_ge_generic radix10 (FLX_exp 6) ZnearestE (bp (mag radix10 v - 1)) v) as H.
  eapply Rlt_le_trans; [apply bp_pos|]. apply H.
  - apply generic_format_bpow. unfold FLX_exp. lia.
  - pose proof (bpow_mag_le radix10 v ltac:(lra)) as M. rewrite Rabs_pos_eq in M by lra. exact M.
Qed.
Lemma ratio_bounds (s : bool) m e (H : SpecFloat.bounded prec64 emax64 m e = true) :
  (bp (-324) <= IZR (Zpos m * 2 ^ Z.max e 0) / IZR (2 ^ Z.max (- e) 0) < bp 309)%R.
Proof.
  destruct (finite_ratio s m e H) as (A & _). rewrite <- A. split.
  - eapply Rle_trans; [apply bp_small|apply finite_min].
  - eapply Rlt_le_trans; [apply abs_B2R_lt_emax|exact bp_large].
Qed.
Lemma denotes_unique s v w : denotes s v -> denotes s w -> v = w.
Proof. intros (d & E & <-) (d' & E' & <-). congruence. Qed.
Lemma text_same nn (x y : b64) : finite64 x -> finite64 y -> val64 x <> 0%R ->
  (text64 nn x = text64 nn y <-> six_digits (val64 x) = six_digits (val64 y)).
Proof.
  intros Fx Fy N. split.
  { intros E. pose proof (text_rounded nn x Fx) as T. rewrite E in T. exact (denotes_unique _ _ _ T (text_rounded nn y Fy)). }
  destruct x as [s|s| |s m e H]; try discriminate; [exfalso; apply N; reflexivity|].
  destruct (finite_ratio s m e H) as (A & V). pose proof (ratio_bounds s m e H) as B. rewrite V, A. clear V.
  set (num := Zpos m * 2 ^ Z.max e 0) in *. set (den := 2 ^ Z.max (- e) 0) in *.
  assert (Hd : 0 < den) by (apply Z.pow_pos_nonneg; lia).
  assert (P : (0 < IZR num / IZR den)%R) by (eapply Rlt_le_trans; [apply bp_pos|apply B]).
  assert (N6 := six_sign _ P).
  destruct y as [s'|s'| |s' m' e' H']; try discriminate.
  - change (val64 (B754_zero s')) with 0%R. rewrite six_0. destruct s; rewrite ?six_opp; lra.
  - destruct (finite_ratio s' m' e' H') as (A' & V'). pose proof (ratio_bounds s' m' e' H') as B'. rewrite V', A'. clear V'. cbn [text64].
    fold num den.
    set (num' := Zpos m' * 2 ^ Z.max e' 0) in *. set (den' := 2 ^ Z.max (- e') 0) in *.
    assert (Hd' : 0 < den') by (apply Z.pow_pos_nonneg; lia).
    assert (P' : (0 < IZR num' / IZR den')%R) by (eapply Rlt_le_trans; [apply bp_pos|apply B']).
    assert (N6' := six_sign _ P').
    intros E. destruct s, s'; rewrite ?six_opp in E; try lra; f_equal; apply style_g_same; try assumption; lra.
Qed.

(** ** the characters of the texts *)
Fixpoint all_chars (P : ascii -> Prop) (s : string) : Prop := match s with "" => True | String a r => P a /\ all_chars P r end.
Lemma all_app P a b : all_chars P (a ++ b) <-> all_chars P a /\ all_chars P b.
Proof. induction a as [|x a IH]; cbn; [tauto|]. rewrite IH. tauto. Qed.
Definition plain (a : ascii) : Prop := a <> " "%char /\ a <> "*"%char.
Lemma plain_digit d : plain (digit (d mod 10)).
Proof.
  pose proof (Z.mod_pos_bound d 10 ltac:(lia)) as B. destruct (digit_cases _ B) as [E|[E|[E|[E|[E|[E|[E|[E|[E|E]]]]]]]]]; rewrite E; split; discriminate.
Qed.
Lemma plain_digits k : forall n, all_chars plain (digits k n).
Proof. induction k as [|k IH]; intros n; cbn [digits]; [exact I|]. apply all_app. split; [apply IH|]. split; [apply plain_digit|exact I]. Qed.
Lemma plain_strip0 s : all_chars plain s -> all_chars plain (strip0 s).
Proof.
  induction s as [|a s IH]; [trivial|]. intros (H & T). cbn [strip0]. specialize (IH T). destruct (strip0 s) as [|b r].
  - destruct (Ascii.eqb a "0"); [exact I|]. split; [exact H|exact I].
  - split; [exact H|exact IH].
Qed.
Lemma plain_frac s : all_chars plain s -> all_chars plain (frac s).
Proof.
  intros H. apply plain_strip0 in H. unfold frac. destruct (strip0 s) as [|b r]; [exact I|].
  change (all_chars plain (String "." (String b r))). split; [split; discriminate|exact H].
Qed.
Lemma plain_exp X : all_chars plain (exp_text X).
Proof.
  unfold exp_text. change (all_chars plain (String "e" ((if X <? 0 then "-" else "+") ++ (if Z.abs X <? 10 then "0" else "") ++ int_text (Z.abs X)))).
  split; [split; discriminate|]. apply all_app. split; [destruct (X <? 0); split; [split; discriminate|exact I|split; discriminate|exact I]|].
  apply all_app. split; [destruct (Z.abs X <? 10); [split; [split; discriminate|exact I]|exact I]|]. apply plain_digits.
Qed.
Lemma plain_style P num den : all_chars plain (style_g P num den).
Proof.
  unfold style_g, style_e, style_f. destruct (sci P num den) as [D X]. cbn [snd]. destruct ((-4 <=? X) && (X <? P)).
  - apply all_app. split; [apply plain_digits|apply plain_frac, plain_digits].
  - apply all_app. split; [apply plain_digits|]. apply all_app. split; [apply plain_frac, plain_digits|apply plain_exp].
Qed.
Lemma plain_text nn x : all_chars plain (text64 nn x).
Proof.
  assert (SG : forall s, all_chars plain (sign_text s)) by (intros []; [split; [split; discriminate|exact I]|exact I]).
  destruct x as [s|s| |s m e H]; cbn [text64].
  - apply all_app. split; [apply SG|repeat split; discriminate].
  - apply all_app. split; [apply SG|repeat split; discriminate].
  - destruct nn; repeat split; discriminate.
  - apply all_app. split; [apply SG|apply plain_style].
Qed.

(** ** texts of sparse numbers *)
Lemma free_all c s : free_of c s <-> all_chars (fun a => a <> c) s.
Proof. induction s as [|a s IH]; cbn; [tauto|]. rewrite IH. tauto. Qed.
Lemma all_weaken (P Q : ascii -> Prop) s : (forall a, P a -> Q a) -> all_chars P s -> all_chars Q s.
Proof. intros H. induction s as [|a s IH]; cbn; [trivial|]. intros (H1 & H2). split; [apply H, H1|apply IH, H2]. Qed.
Lemma cut_found c s t : all_chars (fun a => a <> c) s -> cut c (s ++ String c t) = (s, Some t).
Proof.
  induction s as [|a s IH]; cbn.
  - intros _. rewrite Ascii.eqb_refl. reflexivity.
  - intros (N & H). rewrite IH by exact H. apply Ascii.eqb_neq in N. rewrite N. reflexivity.
Qed.
Lemma cut_none c s : all_chars (fun a => a <> c) s -> cut c s = (s, None).
Proof.
  induction s as [|a s IH]; cbn; [reflexivity|]. intros (N & H). rewrite IH by exact H. apply Ascii.eqb_neq in N. rewrite N. reflexivity.
Qed.
Definition joined (v : string) (ws : list string) : string := v ++ String.concat "" (map (fun w => " " ++ w) ws).
Lemma concat_cons (a : string) l : String.concat "" (a :: l) = a ++ String.concat "" l.
Proof. destruct l as [|b l]; cbn; [symmetry; apply app_nil_s|reflexivity]. Qed.
Lemma words_joined ws : forall v k, (List.length ws < k)%nat -> Forall (all_chars (fun a => a <> " "%char)) (v :: ws) ->
  words k (joined v ws) = v :: ws.
Proof.
  induction ws as [|w ws IH]; intros v k Hk F; (destruct k as [|k]; [cbn in Hk; lia|]); inversion F as [|? ? Fv Fw]; subst; cbn [words].
  - unfold joined. cbn [map String.concat]. rewrite app_nil_s, cut_none by exact Fv. reflexivity.
  - unfold joined. cbn [map]. rewrite concat_cons.
    change (v ++ (" " ++ w) ++ String.concat "" (map (fun w0 => " " ++ w0) ws)) with (v ++ String " " (joined w ws)).
    rewrite cut_found by exact Fv. f_equal. apply IH; [cbn in Hk; lia|exact Fw].
Qed.
Lemma length_app_s a b : String.length (a ++ b) = (String.length a + String.length b)%nat.
Proof. induction a; cbn; congruence. Qed.
Lemma joined_length ws : forall v, (List.length ws <= String.length (joined v ws))%nat.
Proof.
  induction ws as [|w ws IH]; intros v; [cbn; lia|]. unfold joined. cbn [map]. rewrite concat_cons, length_app_s.
  change ((" " ++ w) ++ String.concat "" (map (fun w0 => " " ++ w0) ws)) with (String " " (joined w ws)).
  specialize (IH w). cbn [String.length List.length]. lia.
Qed.
Lemma negative_text M nn (x : b64) : o_lt (b64ops M) x (o_Z (b64ops M) 0) = true -> exists r, text64 nn x = String "-" r.
Proof.
  destruct x as [[]|[]| |[] m e H]; cbn [text64 sign_text append]; intros E; try (vm_compute in E; discriminate E); eexists; reflexivity.
Qed.
Lemma read_entry_ok t name (neg : bool) : all_chars plain t -> (neg = true -> exists r, t = String "-" r) ->
  read_entry ((if neg then "" else "+") ++ t ++ "*d" ++ name) = Some (name, t).
Proof.
  intros P N. unfold read_entry.
  assert (E : (match (if neg then "" else "+") ++ t ++ "*d" ++ name with String "+" r => r | _ => (if neg then "" else "+") ++ t ++ "*d" ++ name end)
     = t ++ String "*" ("d" ++ name)).
  { destruct neg; [|reflexivity]. destruct (N eq_refl) as (r & ->). reflexivity. }
  rewrite E, cut_found; [reflexivity|]. eapply all_weaken; [|exact P]. intros a (_ & H). exact H.
Qed.
Lemma sparse_text_reads M nn (y : ss b64) : Forall (fun e => free_of " " (fst e)) (s_d y) ->
  read_sparse (ss_repr (b64ops M) (text64 nn) y) = Some (text64 nn (s_f y), map (fun e => (fst e, text64 nn (snd e))) (s_d y)).
Proof.
  intros F. rewrite sparse_repr.
  set (w := fun e : string * b64 => (if o_lt (b64ops M) (snd e) (o_Z (b64ops M) 0) then "" else "+") ++ text64 nn (snd e) ++ "*d" ++ fst e).
  assert (E : map (fun e : string * b64 => " " ++ (if o_lt (b64ops M) (snd e) (o_Z (b64ops M) 0) then "" else "+") ++ text64 nn (snd e) ++ "*d" ++ fst e) (s_d y)
     = map (fun v => " " ++ v) (map w (s_d y))) by (rewrite map_map; reflexivity).
  rewrite E. change (text64 nn (s_f y) ++ String.concat "" (map (fun v => " " ++ v) (map w (s_d y)))) with (joined (text64 nn (s_f y)) (map w (s_d y))).
  unfold read_sparse. rewrite words_joined.
  - assert (RE : read_entries (map w (s_d y)) = Some (map (fun e => (fst e, text64 nn (snd e))) (s_d y))).
    { clear E. revert F. induction (s_d y) as [|e t IH]; intros F; [reflexivity|]. inversion F; subst. cbn [map read_entries]. unfold w at 1.
      rewrite read_entry_ok; [rewrite IH by assumption; reflexivity|apply plain_text|apply negative_text]. }
    rewrite RE. reflexivity.
  - pose proof (joined_length (map w (s_d y)) (text64 nn (s_f y))). lia.
  - constructor.
    + eapply all_weaken; [|apply plain_text]. intros a (H & _). exact H.
    + clear E. revert F. induction (s_d y) as [|e t IH]; intros F; [constructor|]. inversion F; subst. cbn [map]. constructor; [|apply IH; assumption].
      unfold w. apply all_app. split; [destruct (o_lt _ _ _); repeat split; discriminate|]. apply all_app. split.
      * eapply all_weaken; [|apply plain_text]. intros a (Ha & _). exact Ha.
      * apply all_app. split; [repeat split; discriminate|]. apply free_all. assumption.
Qed.
Lemma text_accuracy nn (x : b64) : finite64 x -> exists v, denotes (text64 nn x) v /\ (Rabs (v - val64 x) <= 5 / 1000000 * Rabs (val64 x))%R.
Proof. intros F. exists (six_digits (val64 x)). split; [apply text_rounded, F|apply six_rel]. Qed.
Lemma text_monotone nn (x y : b64) : finite64 x -> finite64 y -> (val64 x <= val64 y)%R ->
  exists v w, denotes (text64 nn x) v /\ denotes (text64 nn y) w /\ (v <= w)%R.
Proof. intros Fx Fy L. eexists; eexists. split; [apply text_rounded, Fx|]. split; [apply text_rounded, Fy|apply six_mono, L]. Qed.
Lemma text_determines_witness : ~ (forall nn (x y : b64), finite64 x -> finite64 y -> text64 nn x = text64 nn y -> val64 x = val64 y).
Proof.
  intros H. specialize (H false (b64_of_Z 1000000) (b64_of_Z 1000001)).
  destruct (of_Z_exact 1000000 ltac:(lia)) as (F & V). destruct (of_Z_exact 1000001 ltac:(lia)) as (F' & V').
  rewrite V, V' in H. specialize (H F F' ltac:(vm_compute; reflexivity)). apply eq_IZR in H. discriminate H.
Qed.
Lemma dense_text nn c n (x : Model.dd b64) f g h : Spec.shows c n x f g h -> finite64 f ->
  exists t, dd_repr (text64 nn) x = Ok (t ++ "hj") /\ denotes t (six_digits (val64 f)).
Proof. intros SH F. exists (text64 nn f). split; [exact (dense_repr (text64 nn) c n x f g h SH)|apply text_rounded, F]. Qed.
Lemma sparse_text_same M nn (y y' : ss b64) :
  Forall (fun e => free_of " " (fst e)) (s_d y) -> Forall (fun e => free_of " " (fst e)) (s_d y') ->
  ss_repr (b64ops M) (text64 nn) y = ss_repr (b64ops M) (text64 nn) y' ->
  text64 nn (s_f y) = text64 nn (s_f y') /\ map fst (s_d y) = map fst (s_d y') /\
  map (fun e => text64 nn (snd e)) (s_d y) = map (fun e => text64 nn (snd e)) (s_d y').
Proof.
  intros F F' E. pose proof (sparse_text_reads M nn y F) as R. rewrite E, (sparse_text_reads M nn y' F') in R.
  inversion R as [[E1 E2]]. split; [reflexivity|].
  pose proof (f_equal (map fst) E2) as A. pose proof (f_equal (map snd) E2) as B. rewrite !map_map in A, B. cbn in A, B. split; symmetry; [exact A|exact B].
Qed.
Lemma sparse_text_ambiguous : ~ (forall M nn (y y' : ss b64), ss_repr (b64ops M) (text64 nn) y = ss_repr (b64ops M) (text64 nn) y' ->
  map fst (s_d y) = map fst (s_d y')).
Proof.
  intros H.
  set (M := {| m_pow := fun x _ => x; m_cbrt := fun x => x; m_cos := fun x => x; m_sin := fun x => x; m_tan := fun x => x;
    m_acos := fun x => x; m_asin := fun x => x; m_atan := fun x => x; m_atan2 := fun x _ => x; m_hypot := fun x _ => x; m_hypot3 := fun x _ _ => x;
    m_cosh := fun x => x; m_sinh := fun x => x; m_tanh := fun x => x; m_acosh := fun x => x; m_asinh := fun x => x; m_atanh := fun x => x;
    m_exp := fun x => x; m_log := fun x => x; m_log2 := fun x => x; m_log10 := fun x => x |}).
  specialize (H M false (mks (b64_of_Z 3) [("x", b64_of_Z 1); ("y", b64_of_Z 2)]) (mks (b64_of_Z 3) [("x +2*dy", b64_of_Z 1)])).
  specialize (H ltac:(vm_compute; reflexivity)). discriminate H.
Qed.
