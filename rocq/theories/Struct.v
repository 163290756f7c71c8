(** Over the reals every operation acts on gradients and Hessians through coefficients that depend
    on the values only (no domain condition). *)
From Coq Require Import ZArith List Bool Reals Lra Lia.
From Coquelicot Require Import Coquelicot.
From Verif Require Import Outcome Scalar Model Spec Core Kernels OpsRep AccRep RealOps Deriv UDeriv BDeriv FactsLayout ExprSpec Expr.
Import ListNotations.
Open Scope R_scope.

Definition cv (k : coef R) : R := match k with CZero => 0 | COne => 1 | CMinusOne => -1 | CVal s => s end.
Definition rv (v : val R) : R := match v with VZero => 0 | V x => x end.
Lemma vset_rv v : vset Rops v = rv v. Proof. destruct v; reflexivity. Qed.
Lemma rv_cmul k x : rv (cmul Rops k x) = cv k * x.
Proof. destruct k; cbn [cmul rv cv]; rcbn; ring. Qed.
Lemma rv_vadd a b : rv (vadd Rops a b) = rv a + rv b.
Proof. destruct a, b; cbn [rv]; rcbn; cbn [rv]; ring. Qed.
Lemma rv_vmul a x : rv (vmul Rops a x) = rv a * x.
Proof. destruct a; cbn [rv]; rcbn; cbn [rv]; ring. Qed.
Lemma vacc_rv x v : vacc Rops x v = x + rv v.
Proof. destruct v; cbn [rv]; rcbn; ring. Qed.
Lemma is_zero_cv k : is_zero k = true -> cv k = 0.
Proof. destruct k; cbn; congruence. Qed.

Lemma ju_struct f da daa J : jlike f (cv da) (cv daa) J (ju Rops f da daa J).
Proof.
  split; [reflexivity|]. unfold ju. cbn [jg jh]. split; intros.
  - rewrite vset_rv, rv_cmul. reflexivity.
  - rewrite vset_rv, rv_cmul. destruct (is_zero daa) eqn:E.
    + rewrite (is_zero_cv _ E). ring.
    + rewrite vacc_rv, rv_vmul, rv_cmul. ring.
Qed.
Lemma jb_struct f da db daa dab dbb J K :
  blike f (cv da) (cv db) (cv daa) (cv dab) (cv dbb) J K (jb Rops f da db daa dab dbb J K).
Proof.
  split; [reflexivity|]. unfold jb. cbn [jg jh]. split; intros.
  - rewrite vset_rv, rv_vadd, !rv_cmul. reflexivity.
  - rewrite vset_rv, rv_vadd, !rv_cmul. destruct (is_zero daa && is_zero dab && is_zero dbb) eqn:E.
    + apply andb_prop in E as [E E3]. apply andb_prop in E as [E1 E2].
      rewrite (is_zero_cv _ E1), (is_zero_cv _ E2), (is_zero_cv _ E3). ring.
    + rewrite vacc_rv, rv_vadd, !rv_vmul, !rv_vadd, !rv_cmul. ring.
Qed.

(** Coefficients of every one-operand function. *)
Definition ucoef (u : ufun R) (x : R) : R * R * R :=
  let k t := let '(f, da, daa) := t in (f, cv da, cv daa) in
  match u with
  | Uneg => (- x, -1, 0)
  | Uabs => if Rltb x 0 then (- x, -1, 0) else (x, 1, 0)
  | Upow b => k (k_pow Rops b x)
  | Usqrt => k (k_sqrt Rops x)
  | Ucbrt => k (k_cbrt Rops x)
  | Ureciprocal => k (k_reciprocal Rops x)
  | Ucos => k (k_cos Rops x)
  | Usin => k (k_sin Rops x)
  | Utan => k (k_tan Rops x)
  | Uacos => k (k_acos Rops x)
  | Uasin => k (k_asin Rops x)
  | Uatan => k (k_atan Rops x)
  | Ucosh => k (k_cosh Rops x)
  | Usinh => k (k_sinh Rops x)
  | Utanh => k (k_tanh Rops x)
  | Uacosh => k (k_acosh Rops x)
  | Uasinh => k (k_asinh Rops x)
  | Uatanh => k (k_atanh Rops x)
  | Uexp => k (k_exp Rops x)
  | Ulog => k (k_log Rops x)
  | Ulogb b => k (k_logb Rops b x)
  | Ulog2 => k (k_log2 Rops x)
  | Ulog10 => k (k_log10 Rops x)
  | Uadds b => (x + b, 1, 0)
  | Usadd a => (x + a, 1, 0)
  | Usubs b => (x + - b, 1, 0)
  | Ussub a => (- x + a, -1, 0)
  | Umuls b => (x * b, b, 0)
  | Usmul a => (x * a, a, 0)
  | Udivs b => (x * (1 / b), 1 / b, 0)
  | Usdiv a => k (k_sdiv Rops a x)
  end.
Definition jlk (t : R * R * R) (J r : jet R) : Prop := let '(f, a, aa) := t in jlike f a aa J r.
Lemma ju3_struct t J :
  jlk (let '(f, da, daa) := t in (f, cv da, cv daa)) J (ju3 Rops t J).
Proof. destruct t as [[f da] daa]. apply ju_struct. Qed.
Lemma ustruct u J : jlk (ucoef u (jf J)) J (jap_u Rops u J).
Proof.
  destruct u; cbn [ucoef jap_u]; try apply ju3_struct; cbn [jlk].
  2:{ cbn [o_lt Rops o_Z]. destruct (Rltb (jf J) 0); split; try reflexivity; split; intros; rcbn; ring. }
  all: split; [reflexivity|]; split; intros; rcbn; ring.
Qed.
Definition bcoef (b : bfun) (x y : R) : R * R * R * R * R * R :=
  let '(f, da, db, daa, dab, dbb) := k_b Rops b x y in (f, cv da, cv db, cv daa, cv dab, cv dbb).
Definition blk (t : R * R * R * R * R * R) (J K r : jet R) : Prop :=
  let '(f, a, b, aa, ab, bb) := t in blike f a b aa ab bb J K r.
Lemma jb6_struct t J K :
  blk (let '(f, da, db, daa, dab, dbb) := t in (f, cv da, cv db, cv daa, cv dab, cv dbb)) J K (jb6 Rops t J K).
Proof. destruct t as [[[[[f da] db] daa] dab] dbb]. apply jb_struct. Qed.
Lemma bstruct b J K : blk (bcoef b (jf J) (jf K)) J K (jap_b Rops b J K).
Proof. apply jb6_struct. Qed.
Lemma tstruct J K L : exists a b e aa ab ae bb be ee, forall J' K' L',
  jf J' = jf J -> jf K' = jf K -> jf L' = jf L ->
  tlike (sqrt (jf J * jf J + jf K * jf K + jf L * jf L)) a b e aa ab ae bb be ee J' K' L' (jap_hypot3 Rops J' K' L').
Proof.
  do 9 eexists. intros J' K' L' E1 E2 E3. unfold jap_hypot3. rewrite E1, E2, E3. apply jt_tlike.
Qed.

(** ** Re-indexing of the variables: variable [i] of the new number is variable [rho i] of the old
    one, or unused. *)
Definition reindexed (m : nat) (rho : nat -> option nat) (J J' : jet R) : Prop :=
  jf J' = jf J /\ (forall i, (i < m)%nat -> jg J' i = pick (jg J) (rho i)) /\
  (forall i j, (i < m)%nat -> (j < m)%nat -> hess J' i j = pick2 (hess J) (rho i) (rho j)).

Lemma re_u m rho u J J' : reindexed m rho J J' -> reindexed m rho (jap_u Rops u J) (jap_u Rops u J').
Proof.
  intros (Ef & Eg & Eh). pose proof (ustruct u J) as H. pose proof (ustruct u J') as H'. rewrite Ef in H'.
  destruct (ucoef u (jf J)) as [[f a] aa]. cbn [jlk] in *. split; [|split].
  - destruct H as (-> & _), H' as (-> & _). reflexivity.
  - intros i Hi. destruct H as (_ & G & _), H' as (_ & G' & _). rewrite G', Eg by exact Hi.
    destruct (rho i); cbn [pick]; rewrite ?G; ring.
  - intros i j Hi Hj. rewrite (hess_jlike _ _ _ _ _ _ _ H'), Eh, !Eg by assumption.
    destruct (rho i), (rho j); cbn [pick pick2]; rewrite ?(hess_jlike _ _ _ _ _ _ _ H); ring.
Qed.
Lemma re_b m rho b J J' K K' : reindexed m rho J J' -> reindexed m rho K K' ->
  reindexed m rho (jap_b Rops b J K) (jap_b Rops b J' K').
Proof.
  intros (Ef & Eg & Eh) (Ef2 & Eg2 & Eh2). pose proof (bstruct b J K) as H. pose proof (bstruct b J' K') as H'. rewrite Ef, Ef2 in H'.
  destruct (bcoef b (jf J) (jf K)) as [[[[[f a] b'] aa] ab] bb]. cbn [blk] in *. split; [|split].
  - destruct H as (-> & _), H' as (-> & _). reflexivity.
  - intros i Hi. destruct H as (_ & G & _), H' as (_ & G' & _). rewrite G', Eg, Eg2 by exact Hi.
    destruct (rho i); cbn [pick]; rewrite ?G; ring.
  - intros i j Hi Hj. rewrite (hess_blike _ _ _ _ _ _ _ _ _ _ _ H'), Eh, Eh2, !Eg, !Eg2 by assumption.
    destruct (rho i), (rho j); cbn [pick pick2]; rewrite ?(hess_blike _ _ _ _ _ _ _ _ _ _ _ H); ring.
Qed.
Lemma re_h m rho J J' K K' L L' : reindexed m rho J J' -> reindexed m rho K K' -> reindexed m rho L L' ->
  reindexed m rho (jap_hypot3 Rops J K L) (jap_hypot3 Rops J' K' L').
Proof.
  intros (Ef & Eg & Eh) (Ef2 & Eg2 & Eh2) (Ef3 & Eg3 & Eh3).
  destruct (tstruct J K L) as (a & b & e & aa & ab & ae & bb & be & ee & HT).
  pose proof (HT J K L eq_refl eq_refl eq_refl) as H. pose proof (HT J' K' L' Ef Ef2 Ef3) as H'. clear HT.
  split; [|split].
  - destruct H as (-> & _), H' as (-> & _). reflexivity.
  - intros i Hi. destruct H as (_ & G & _), H' as (_ & G' & _). rewrite G', Eg, Eg2, Eg3 by exact Hi.
    destruct (rho i); cbn [pick]; rewrite ?G; ring.
  - intros i j Hi Hj. rewrite (hess_tlike _ _ _ _ _ _ _ _ _ _ _ _ _ _ _ _ H'), Eh, Eh2, Eh3, !Eg, !Eg2, !Eg3 by assumption.
    destruct (rho i), (rho j); cbn [pick pick2]; rewrite ?(hess_tlike _ _ _ _ _ _ _ _ _ _ _ _ _ _ _ _ H); ring.
Qed.
Lemma re_const m rho k : reindexed m rho (jconst Rops k) (jconst Rops k).
Proof.
  split; [reflexivity|]. split; intros; unfold hess, jconst; cbn [jg jh]; [destruct (rho i)|destruct (rho i), (rho j)]; reflexivity.
Qed.
Lemma re_ev m rho n env env' e : vars_below n e -> (forall i, (i < n)%nat -> reindexed m rho (env i) (env' i)) ->
  reindexed m rho (jev Rops env e) (jev Rops env' e).
Proof.
  intros HV HE. induction e as [i|s|f e IH|b e1 IH1 e2 IH2|e1 IH1 e2 IH2 e3 IH3]; cbn [jev vars_below] in *.
  - apply HE, HV.
  - apply re_const.
  - apply re_u, IH, HV.
  - apply re_b; [apply IH1, HV|apply IH2, HV].
  - apply re_h; [apply IH1, HV|apply IH2, HV|apply IH3, HV].
Qed.
