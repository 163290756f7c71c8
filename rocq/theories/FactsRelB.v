(** C83: roundings in the derivatives of functions of two variables. *)
From Coq Require Import ZArith List Bool Reals Lra Lia Psatz.
From Coquelicot Require Import Coquelicot.
From Flocq Require Import Core BinarySingleNaN.
From Verif Require Import Outcome Scalar Float64 Model Spec RealOps UDeriv ExprSpec ProgSpec Ops64 B64 Facts64 NumSpec FactsNum
  ParamSpec FactsParam FactsEncl FactsExpr CreateRep OpsRep Kernels AccRep FactsLayout Expr Samples RangeSpec FactsRange ErrSpec FactsErr
  FmaSpec FactsFma RelSpec FactsRel FactsRelU.
Import ListNotations.
Open Scope R_scope.

Section Two.
  Context (p : nat) (P : (p <= 100)%nat).
  Let N := Nops p.
  (** Known, and at most [K] roundings. *)
  Definition kb (K : nat) (t : counted) : Prop := exists y k, t = Some (y, k) /\ (k <= K)%nat.
  Definition zero_ (t : counted) : Prop := exists z, t = Some (z, 0%nat) /\ z = 0.
  Lemma z_mul t K a y : cb K a t y -> zero_ (o_mul N t (o_Z N 0)).
  Proof.
    intros (k & -> & _ & _). exists (y * 0). split; [|ring]. cbn [N Nops o_mul o_Z]. cbn. unfold after, Reqb.
    destruct (Req_EM_T (y * 0) 0); [reflexivity|]. exfalso. apply n. ring.
  Qed.
  Lemma z_mul_z t : zero_ t -> zero_ (o_mul N t (o_Z N 0)) /\ zero_ (o_mul N t (o_Z N 1)).
  Proof.
    intros (z & -> & E). subst z. split; eexists (_ * _); (split; [|apply Rmult_0_l]); cbn [N Nops o_mul o_Z]; cbn; unfold after, Reqb;
      (destruct (Req_EM_T _ 0); [reflexivity|exfalso; apply n; ring]).
  Qed.
  Lemma z_add_l t t' : zero_ t -> t' <> None -> o_add N t t' = t'.
  Proof.
    intros (z & -> & ->) H. destruct t' as [(y & k)|]; [|contradiction]. cbn [N Nops o_add add_counted].
    unfold Reqb. destruct (Req_EM_T 0 0); [reflexivity|contradiction].
  Qed.
  Lemma z_add_r t t' K a y : cb K a t y -> zero_ t' -> o_add N t t' = t.
  Proof.
    intros (k & -> & _ & S) (z & -> & ->). cbn [N Nops o_add add_counted]. unfold Reqb.
    destruct (Req_EM_T y 0); [exfalso; exact (sz_nz _ _ S e)|]. destruct (Req_EM_T 0 0); [reflexivity|contradiction].
  Qed.
  Lemma cb_some K a t y : cb K a t y -> t <> None. Proof. intros (k & -> & _). discriminate. Qed.
  Lemma z_some t : zero_ t -> t <> None. Proof. intros (z & -> & _). discriminate. Qed.
  Lemma z_zz t t' : zero_ t -> zero_ t' -> zero_ (o_add N t t').
  Proof. intros H H'. rewrite (z_add_l _ _ H (z_some _ H')). exact H'. Qed.
  Lemma cb_kb K a t y : cb K a t y -> kb K t. Proof. intros (k & -> & L & _). exists y, k. auto. Qed.
  Lemma z_kb K t : zero_ t -> kb K t. Proof. intros (z & -> & ->). exists 0, 0%nat. split; [reflexivity|lia]. Qed.

  (** Three second derivatives; the first is 0 for a quotient. *)
  Definition good2 (K K' : nat) (t : counted * coef counted * coef counted * coef counted * coef counted * coef counted) : Prop :=
    match t with
    | (_, CVal da, CVal db, daa, CVal dab, CVal dbb) =>
      exists a ya yb yab ybb, (a <= 1000)%Z /\ cb K a da ya /\ cb K a db yb /\
        match daa with CZero => True | CVal daa => exists yaa, cb K' a daa yaa | _ => False end /\ cb K' a dab yab /\ cb K' a dbb ybb
    | _ => False
    end.
  Lemma good2_jet K K' t X Y : good2 K K' t -> (K <= 4000)%nat -> (K' <= 4000)%nat ->
    let J := jb6 N t (jvar N 0 X) (jvar N 1 Y) in
    (forall i, (i < 2)%nat -> kb K (jg J i)) /\ (forall i j, (i < 2)%nat -> (j < 2)%nat -> kb K' (hess J i j)).
  Proof.
    destruct t as (((((f & da) & db) & daa) & dab) & dbb). destruct da as [| | |da], db as [| | |db], dab as [| | |dab], dbb as [| | |dbb]; try contradiction.
    intros (a & ya & yb & yab & ybb & A & Ha & Hb & Haa & Hab & Hbb) HK HK'.
    assert (M1 : forall K t y, (K <= 4000)%nat -> cb K a t y -> cb K (a + 1) (o_mul N t (o_Z N 1)) (y * 1)).
    { intros. apply (cb_grad p); [assumption|lia|assumption]. }
    assert (M2 : forall K t y, (K <= 4000)%nat -> cb K a t y -> cb K (a + 2) (o_mul N (o_mul N t (o_Z N 1)) (o_Z N 1)) (y * 1 * 1)).
    { intros K0 t y L B. replace (a + 2)%Z with (a + 1 + 1)%Z by ring. apply (cb_grad p); [apply M1; assumption|lia|assumption]. }
    pose proof (z_mul _ _ _ _ Ha) as Za. pose proof (z_mul _ _ _ _ Hb) as Zb.
    pose proof (z_mul _ _ _ _ Hab) as Zab. pose proof (z_mul _ _ _ _ Hbb) as Zbb.
    assert (G : (forall i, (i < 2)%nat -> kb K (jg (jb6 N (f, CVal da, CVal db, daa, CVal dab, CVal dbb) (jvar N 0 X) (jvar N 1 Y)) i))).
    { intros i Hi. destruct i as [|[|i]]; [| |lia]; cbn [jb6 jb jg jvar Nat.eqb cmul vadd vset].
      - rewrite (z_add_r _ _ _ _ _ (M1 _ _ _ HK Ha) Zb). apply (cb_kb _ _ _ _ (M1 _ _ _ HK Ha)).
      - rewrite (z_add_l _ _ Za (cb_some _ _ _ _ (M1 _ _ _ HK Hb))). apply (cb_kb _ _ _ _ (M1 _ _ _ HK Hb)). }
    split; [exact G|]. pose proof (z_zz _ _ Za Zb) as ZB. pose proof (M1 _ _ _ HK' Hab) as Hab1. pose proof (M2 _ _ _ HK' Hab) as Hab2.
    pose proof (M1 _ _ _ HK' Hbb) as Hbb1. pose proof (M2 _ _ _ HK' Hbb) as Hbb2.
    assert (H10 : kb K' (hess (jb6 N (f, CVal da, CVal db, daa, CVal dab, CVal dbb) (jvar N 0 X) (jvar N 1 Y)) 0 0)).
    { unfold hess. cbn [Nat.min Nat.max]. destruct daa as [| | |daa]; try contradiction;
      cbn [jb6 jb jh jg jvar Nat.eqb cmul vadd vmul vset vacc is_zero andb].
      - rewrite (z_add_r _ _ _ _ _ Hab1 Zbb). apply z_kb, z_zz; [exact ZB|]. apply z_zz; [apply z_mul_z, Zab|apply (z_mul _ _ _ _ Hab1)].
      - destruct Haa as (yaa & Haa). pose proof (M1 _ _ _ HK' Haa) as Haa1. pose proof (M2 _ _ _ HK' Haa) as Haa2.
        rewrite (z_add_r _ _ _ _ _ Haa1 Zab), (z_add_r _ _ _ _ _ Hab1 Zbb), (z_add_r _ _ _ _ _ Haa2 (z_mul _ _ _ _ Hab1)).
        rewrite (z_add_l _ _ ZB (cb_some _ _ _ _ Haa2)). apply (cb_kb _ _ _ _ Haa2). }
    assert (H01 : kb K' (jh (jb6 N (f, CVal da, CVal db, daa, CVal dab, CVal dbb) (jvar N 0 X) (jvar N 1 Y)) 0 1)).
    { destruct daa as [| | |daa]; try contradiction; cbn [jb6 jb jh jg jvar Nat.eqb cmul vadd vmul vset vacc is_zero andb].
      - rewrite (z_add_r _ _ _ _ _ Hab1 Zbb), (z_add_l _ _ (proj1 (z_mul_z _ Zab)) (cb_some _ _ _ _ Hab2)).
        rewrite (z_add_l _ _ ZB (cb_some _ _ _ _ Hab2)). apply (cb_kb _ _ _ _ Hab2).
      - destruct Haa as (yaa & Haa). pose proof (M1 _ _ _ HK' Haa) as Haa1.
        rewrite (z_add_r _ _ _ _ _ Haa1 Zab), (z_add_r _ _ _ _ _ Hab1 Zbb), (z_add_l _ _ (z_mul _ _ _ _ Haa1) (cb_some _ _ _ _ Hab2)).
        rewrite (z_add_l _ _ ZB (cb_some _ _ _ _ Hab2)). apply (cb_kb _ _ _ _ Hab2). }
    assert (H11 : kb K' (jh (jb6 N (f, CVal da, CVal db, daa, CVal dab, CVal dbb) (jvar N 0 X) (jvar N 1 Y)) 1 1)).
    { destruct daa as [| | |daa]; try contradiction; cbn [jb6 jb jh jg jvar Nat.eqb cmul vadd vmul vset vacc is_zero andb].
      - rewrite (z_add_l _ _ Zab (cb_some _ _ _ _ Hbb1)), (z_add_l _ _ (z_mul _ _ _ _ Hab1) (cb_some _ _ _ _ Hbb2)).
        rewrite (z_add_l _ _ ZB (cb_some _ _ _ _ Hbb2)). apply (cb_kb _ _ _ _ Hbb2).
      - destruct Haa as (yaa & Haa). pose proof (z_mul _ _ _ _ Haa) as Zaa.
        rewrite (z_add_l _ _ Zaa (cb_some _ _ _ _ Hab1)), (z_add_l _ _ Zab (cb_some _ _ _ _ Hbb1)).
        rewrite (z_add_l _ _ (z_mul _ _ _ _ Hab1) (cb_some _ _ _ _ Hbb2)).
        rewrite (z_add_l _ _ ZB (cb_some _ _ _ _ Hbb2)). apply (cb_kb _ _ _ _ Hbb2). }
    intros i j Hi Hj. destruct i as [|[|i]], j as [|[|j]]; try lia; assumption.
  Qed.

  Tactic Notation "mul" constr(A) constr(B) ident(C) := pose proof (cb_mul p _ _ _ _ _ _ _ _ A B ltac:(lia) ltac:(lia)) as C.
  Tactic Notation "mull" constr(z) constr(A) ident(C) := pose proof (cb_mul_l p z _ _ _ _ ltac:(auto) A ltac:(lia) ltac:(lia)) as C.
  Tactic Notation "mulr" constr(z) constr(A) ident(C) := pose proof (cb_mul_r p z _ _ _ _ ltac:(auto) A ltac:(lia) ltac:(lia)) as C.
  Tactic Notation "div" constr(A) constr(B) ident(C) := pose proof (cb_div p _ _ _ _ _ _ _ _ A B ltac:(lia) ltac:(lia)) as C.
  Tactic Notation "neg" constr(A) ident(C) := pose proof (cb_neg p _ _ _ _ A) as C.
  Ltac up A := refine (cb_le _ _ _ _ _ _ A _ _); lia.

  Context (v w : b64).
  Let x := val64 v.
  Let y := val64 w.
  Let X : counted := Some (x, 0%nat).
  Let Y : counted := Some (y, 0%nat).
  Context (Sx : sz 100 x) (Sy : sz 100 y).
  Lemma cX : cb 0 100 X x. Proof. exists 0%nat. auto. Qed.
  Lemma cY : cb 0 100 Y y. Proof. exists 0%nat. auto. Qed.
  Lemma g_div : good2 (p + 1) (p + 1) (k_div N X Y).
  Proof.
    pose proof cX as A. pose proof cY as B. pose proof (cb_Z1 p P) as O1. pose proof (cb_Zm1 p P) as Om. pose proof (sz_mul _ _ _ _ Sy Sy) as S2.
    pose proof (sz_mul _ _ _ _ S2 Sy) as S3.
    pose proof (cb_pow p _ _ 200 _ _ _ _ _ B (cb_Z2 p P) (is_int_IZR 2)) as P2. rewrite Rpow_std_2 in P2. specialize (P2 S2 ltac:(lia) ltac:(lia)).
    pose proof (cb_pow p _ _ 300 _ _ _ _ _ B (cb_Z3 p P) (is_int_IZR 3)) as P3. rewrite Rpow_std_3 in P3. specialize (P3 S3 ltac:(lia) ltac:(lia)).
    div O1 B D. neg A A'. div A' P2 D2. div Om P2 DD. mull 2%Z A A2. div A2 P3 DDD.
    exists 500%Z. do 4 eexists. split; [lia|]. split; [up D|]. split; [up D2|]. split; [exact I|]. split; [up DD|up DDD].
  Qed.
  Lemma g_hypot : good2 (p + 1) (3 * p + 4) (k_hypot N X Y).
  Proof.
    pose proof cX as A. pose proof cY as B. pose proof (square_size v Sx) as Qx. pose proof (square_size w Sy) as Qy. fold x in Qx. fold y in Qy.
    assert (S2 : sz 201 (x * x + y * y)).
    { apply (sz_add 200); [apply (sz_mul 100 100); exact Sx|apply (sz_mul 100 100); exact Sy|apply Rmult_lt_0_compat; assumption]. }
    pose proof (sz_sqrt 201 (x * x + y * y) ltac:(lra) S2) as S.
    assert (F : cb p 201 (o_hypot N X Y) (sqrt (x * x + y * y))) by (apply cb_after; [exact S|lia|cbn; lia|cbn; lia]).
    mul F F F2. mul F2 F F3. div A F D1. div B F D2. mul B B BB. mul A A AA. neg A A'. mul A' B AB. div BB F3 DA. div AB F3 DB. div AA F3 DC.
    exists 900%Z. do 4 eexists. split; [lia|]. split; [up D1|]. split; [up D2|]. split; [eexists; up DA|]. split; [up DB|up DC].
  Qed.
  Lemma g_atan2 : 2 * (x * x) <= y * y \/ 2 * (y * y) <= x * x -> good2 3 29 (k_atan2 N X Y).
  Proof.
    intros H. pose proof cX as A. pose proof cY as B. pose proof (square_size v Sx) as Qx. pose proof (square_size w Sy) as Qy. fold x in Qx. fold y in Qy.
    mul A A AA. mul B B BB.
    pose proof (cb_add p _ _ _ _ _ _ _ _ AA BB ltac:(apply Rmult_lt_0_compat; assumption) ltac:(lia) ltac:(lia)) as T.
    div B T D1. neg A A'. div A' T D2. cbn [Nat.max Nat.add] in D1, D2, T. mul D2 D1 E. mulr 2%Z E E2. neg E2 E3. mul D2 D2 F2. mul D1 D1 F1.
    assert (Tp : 0 < x * x + y * y) by lra.
    assert (M : exists yab, cb 29 700 (o_sub N (o_mul N (o_div N (o_neg N X) (o_add N (o_mul N X X) (o_mul N Y Y))) (o_div N (o_neg N X) (o_add N (o_mul N X X) (o_mul N Y Y))))
      (o_mul N (o_div N Y (o_add N (o_mul N X X) (o_mul N Y Y))) (o_div N Y (o_add N (o_mul N X X) (o_mul N Y Y))))) yab).
    { assert (R1 : - x / (x * x + y * y) * (- x / (x * x + y * y)) = x * x * / ((x * x + y * y) * (x * x + y * y))) by (field; lra).
      assert (R2 : y / (x * x + y * y) * (y / (x * x + y * y)) = y * y * / ((x * x + y * y) * (x * x + y * y))) by (field; lra).
      assert (I : 0 < / ((x * x + y * y) * (x * x + y * y))) by (apply Rinv_0_lt_compat, Rmult_lt_0_compat; assumption).
      destruct H as [H|H].
      - destruct (cb_sub_dom p _ _ _ _ _ _ _ _ F1 F2) as (_ & C).
        + rewrite R1. apply Rmult_lt_0_compat; assumption.
        + rewrite R1, R2, <- Rmult_assoc. apply Rmult_le_compat_r; [lra|exact H].
        + lia.
        + cbn. lia.
        + eexists. up C.
      - destruct (cb_sub_dom p _ _ _ _ _ _ _ _ F2 F1) as (C & _).
        + rewrite R2. apply Rmult_lt_0_compat; assumption.
        + rewrite R1, R2, <- Rmult_assoc. apply Rmult_le_compat_r; [lra|exact H].
        + lia.
        + cbn. lia.
        + eexists. up C. }
    destruct M as (yab & M). exists 900%Z. do 4 eexists. split; [lia|]. split; [up D1|]. split; [up D2|]. split; [eexists; up E2|]. split; [up M|up E3].
  Qed.
End Two.

Lemma function2_accuracy M p c v w b : libm_good M p -> (p <= 100)%nat -> cfg_ok c -> c_ord c = 2%Z -> size_ok c 2 ->
  calm2 b (val64 v) (val64 w) ->
  exists r f g h G H, evaluate (b64ops M) c [v; w] (EB b (EVar 0) (EVar 1)) = Ok r /\ shows c 2 r f g h /\
    let F := fun q => breal b (q 0%nat) (q 1%nat) in
    (forall i, (i < 2)%nat -> partial F i (at64 [v; w]) (G i) /\ accurate_to (fst (roundings2 p b)) (g i) (G i)) /\
    (forall i j, (i < 2)%nat -> (j < 2)%nat -> partial2 F i j (at64 [v; w]) (H i j) /\ accurate_to (snd (roundings2 p b)) (h i j) (H i j)).
Proof.
  intros LG P Hc O2 SO (Cx & Cy & C).
  assert (NZ : forall y, moderate y -> y <> 0) by (intros y Hy; apply (sz_nz 100), Hy).
  destruct (relative_accuracy M p c [v; w] (EB b (EVar 0) (EVar 1)) Hc SO) as
    (r & f & g & h & rN & fN & gN & hN & G & H & E & Sh & EN & SN & _ & A1 & A2).
  { cbn. lia. }
  { cbn. tauto. }
  { cbn [emap dom rev]. split; [exact I|]. split; [exact I|]. change (at64 [v; w] 0%nat) with (val64 v). change (at64 [v; w] 1%nat) with (val64 w).
    pose proof (NZ _ Cx). pose proof (NZ _ Cy). destruct b; try contradiction C; cbn [bdom]; tauto. }
  { exact LG. }
  assert (GJ : let J := jap_b (Nops p) b (jvar (Nops p) 0 (exactly64 v)) (jvar (Nops p) 1 (exactly64 w)) in
    (forall i, (i < 2)%nat -> kb (fst (roundings2 p b)) (jg J i)) /\ (forall i j, (i < 2)%nat -> (j < 2)%nat -> kb (snd (roundings2 p b)) (hess J i j))).
  { rewrite (exactly64_some _ _ eq_refl (NZ _ Cx)), (exactly64_some _ _ eq_refl (NZ _ Cy)).
    destruct b; try contradiction C; cbn [jap_b roundings2 fst snd jf jvar]; apply good2_jet; try lia.
    - apply g_div; assumption.
    - apply g_atan2; assumption.
    - apply g_hypot; assumption. }
  destruct GJ as (GJ & HJ).
  destruct (evaluate_rep (Nops p) c (map exactly64 [v; w]) None (emap exactly64 (EB b (EVar 0) (EVar 1))) Hc SO) as (rN' & EN' & RN); [cbn; lia|].
  rewrite EN in EN'. injection EN' as <-. pose proof (rep_shows _ _ _ _ RN) as SN'.
  cbn [emap jev map nth length] in SN', RN, SN, Sh. cbn [length] in A1, A2.
  destruct SN as (_ & _ & SG & SH), SN' as (_ & _ & SG' & SH').
  exists r, f, g, h, G, H. split; [exact E|]. split; [exact Sh|]. cbv zeta. split.
  - intros i Hi. destruct (A1 i Hi) as (D & Cf). split; [exact D|]. specialize (SG i Hi). specialize (SG' i Hi). rewrite SG in SG'. injection SG' as SG'.
    destruct (GJ i Hi) as (y & k & J1 & L). rewrite SG', J1 in Cf. apply (accurate_mono k); [exact L|apply Cf].
  - intros i j Hi Hj. destruct (A2 O2 i j Hi Hj) as (D & Cf). split; [exact D|]. specialize (SH O2 i j Hi Hj). specialize (SH' O2 i j Hi Hj).
    rewrite SH in SH'. injection SH' as SH'. destruct (HJ i j Hi Hj) as (y & k & J1 & L). rewrite SH', J1 in Cf.
    apply (accurate_mono k); [exact L|apply Cf].
Qed.
