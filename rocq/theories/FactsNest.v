(** C76: numbers of numbers hold higher derivatives. *)
From Coq Require Import ZArith List Bool Reals Lra Lia Psatz.
From Coquelicot Require Import Coquelicot.
From Verif Require Import Outcome Scalar Model Spec Core Kernels OpsRep AccRep RealOps Deriv UDeriv BDeriv
  FactsLayout FactsOps FactsCtor ExprSpec Expr Struct FactsExpr Chain FactsReal Cont NumSpec FactsNum ParamSpec FactsErr FactsSessS Samples NestSpec.
Import ListNotations.
Open Scope R_scope.

(** ** Expressions as scalars *)
Fixpoint cst (e : expr R) : R :=
  match e with EConst s => s | EB Bsub a b => cst a - cst b | _ => 0 end.
Definition Xops : Ops (expr R) := {|
  o_Z := fun z => EConst (IZR z); o_half := EConst (/ 2);
  o_add := EB Badd; o_sub := EB Bsub; o_mul := EB Bmul; o_div := EB Bdiv; o_neg := EU Uneg;
  o_lt := fun _ _ => false; o_le := fun _ _ => false; o_eq := fun _ _ => false;
  o_pow := fun x y => EU (Upow (cst y)) x; o_sqrt := EU Usqrt; o_cbrt := EU Ucbrt;
  o_cos := EU Ucos; o_sin := EU Usin; o_tan := EU Utan;
  o_acos := EU Uacos; o_asin := EU Uasin; o_atan := EU Uatan;
  o_atan2 := EB Batan2; o_hypot := EB Bhypot; o_hypot3 := EH;
  o_cosh := EU Ucosh; o_sinh := EU Usinh; o_tanh := EU Utanh;
  o_acosh := EU Uacosh; o_asinh := EU Uasinh; o_atanh := EU Uatanh;
  o_exp := EU Uexp; o_log := EU Ulog; o_log2 := EU Ulog2; o_log10 := EU Ulog10
|}.
(** The jet of an expression, with expressions as components. *)
Definition xjet (X : expr R) : jet (expr R) := jev Xops (fun i => jvar Xops i (EVar i)) (emap EConst X).

(** A relation between expressions and scalars respected by all operations; powers only with literal exponents. *)
Record simu {S} (P : expr R -> S -> Prop) (O : Ops S) : Prop := {
  m_Z : forall z, P (EConst (IZR z)) (o_Z O z);
  m_half : P (EConst (/ 2)) (o_half O);
  m_neg : forall A a, P A a -> P (EU Uneg A) (o_neg O a);
  m_add : forall A a B b, P A a -> P B b -> P (EB Badd A B) (o_add O a b);
  m_sub : forall A a B b, P A a -> P B b -> P (EB Bsub A B) (o_sub O a b);
  m_mul : forall A a B b, P A a -> P B b -> P (EB Bmul A B) (o_mul O a b);
  m_div : forall A a B b, P A a -> P B b -> P (EB Bdiv A B) (o_div O a b);
  m_pow : forall A a s y, P A a -> P (EConst s) y -> P (EU (Upow s) A) (o_pow O a y);
  m_sqrt : forall A a, P A a -> P (EU Usqrt A) (o_sqrt O a);
  m_cbrt : forall A a, P A a -> P (EU Ucbrt A) (o_cbrt O a);
  m_cos : forall A a, P A a -> P (EU Ucos A) (o_cos O a);
  m_sin : forall A a, P A a -> P (EU Usin A) (o_sin O a);
  m_tan : forall A a, P A a -> P (EU Utan A) (o_tan O a);
  m_acos : forall A a, P A a -> P (EU Uacos A) (o_acos O a);
  m_asin : forall A a, P A a -> P (EU Uasin A) (o_asin O a);
  m_atan : forall A a, P A a -> P (EU Uatan A) (o_atan O a);
  m_cosh : forall A a, P A a -> P (EU Ucosh A) (o_cosh O a);
  m_sinh : forall A a, P A a -> P (EU Usinh A) (o_sinh O a);
  m_tanh : forall A a, P A a -> P (EU Utanh A) (o_tanh O a);
  m_acosh : forall A a, P A a -> P (EU Uacosh A) (o_acosh O a);
  m_asinh : forall A a, P A a -> P (EU Uasinh A) (o_asinh O a);
  m_atanh : forall A a, P A a -> P (EU Uatanh A) (o_atanh O a);
  m_exp : forall A a, P A a -> P (EU Uexp A) (o_exp O a);
  m_log : forall A a, P A a -> P (EU Ulog A) (o_log O a);
  m_log2 : forall A a, P A a -> P (EU Ulog2 A) (o_log2 O a);
  m_log10 : forall A a, P A a -> P (EU Ulog10 A) (o_log10 O a);
  m_atan2 : forall A a B b, P A a -> P B b -> P (EB Batan2 A B) (o_atan2 O a b);
  m_hypot : forall A a B b, P A a -> P B b -> P (EB Bhypot A B) (o_hypot O a b);
  m_hypot3 : forall A a B b C d, P A a -> P B b -> P C d -> P (EH A B C) (o_hypot3 O a b d);
  m_lit_add : forall s t a b, P (EConst s) a -> P (EConst t) b -> P (EConst (s + t)) (o_add O a b);
  m_lit_sub : forall s t a b, P (EConst s) a -> P (EConst t) b -> P (EConst (s - t)) (o_sub O a b);
  m_lit_neg : forall s a, P (EConst s) a -> P (EConst (- s)) (o_neg O a)
}.

(** Literals of a one-operand function. *)
Definition urel {S} (P : expr R -> S -> Prop) (u : ufun R) (u' : ufun S) : Prop := ufun_rel (fun s v => P (EConst s) v) u u'.
Definition erel {S} (P : expr R -> S -> Prop) (e : expr R) (e' : expr S) : Prop := expr_rel (fun s v => P (EConst s) v) e e'.

Section Jets.
  Context {S : Type} (P : expr R -> S -> Prop) (O : Ops S) (M : simu P O).
  Context (ord : Z) (n : nat).
  Definition jrel (J : jet (expr R)) (K : jet S) : Prop :=
    P (jf J) (jf K) /\ (forall i, (i < n)%nat -> P (jg J i) (jg K i)) /\
    (ord <> 1%Z -> forall i j, (i <= j < n)%nat -> P (jh J i j) (jh K i j)).

  Lemma m_pow_x A a y B : P A a -> P (EConst (cst B)) y -> P (o_pow Xops A B) (o_pow O a y).
  Proof. apply (m_pow P O M). Qed.

  Ltac go :=
    match goal with
    | |- P (EConst (IZR _ - IZR _)) _ => apply (m_lit_sub P O M)
    | |- P (EConst (_ - _)) _ => apply (m_lit_sub P O M)
    | |- P (EConst (IZR _)) (o_Z O _) => apply (m_Z P O M)
    | |- P (EConst _) _ => assumption
    | |- P (EU (Upow _) _) _ => apply (m_pow P O M)
    | |- P (EB Badd _ _) _ => apply (m_add P O M)
    | |- P (EB Bsub _ _) _ => apply (m_sub P O M)
    | |- P (EB Bmul _ _) _ => apply (m_mul P O M)
    | |- P (EB Bdiv _ _) _ => apply (m_div P O M)
    | |- P (EB Batan2 _ _) _ => apply (m_atan2 P O M)
    | |- P (EB Bhypot _ _) _ => apply (m_hypot P O M)
    | |- P (EH _ _ _) _ => apply (m_hypot3 P O M)
    | |- P (EU _ _) _ => first [apply (m_neg P O M)|apply (m_sqrt P O M)|apply (m_cbrt P O M)|apply (m_cos P O M)|apply (m_sin P O M)
        |apply (m_tan P O M)|apply (m_acos P O M)|apply (m_asin P O M)|apply (m_atan P O M)|apply (m_cosh P O M)|apply (m_sinh P O M)
        |apply (m_tanh P O M)|apply (m_acosh P O M)|apply (m_asinh P O M)|apply (m_atanh P O M)|apply (m_exp P O M)|apply (m_log P O M)
        |apply (m_log2 P O M)|apply (m_log10 P O M)]
    | |- P _ _ => first [assumption | match goal with H : _ |- _ => apply H; (assumption || lia) end]
    end.
  Ltac three :=
    split; [cbn; repeat go | split; [intros i Hi; cbn; repeat go | intros Ho i j Hij; cbn; repeat go]].

  Lemma jrel_u u u' J K : u <> Uabs -> urel P u u' -> jrel J K -> jrel (jap_u Xops (umap EConst u) J) (jap_u O u' K).
  Proof.
    intros Hu Hr (H0 & H1 & H2). unfold urel in Hr.
    destruct u, u'; cbn [ufun_rel] in Hr; try contradiction; cbn [umap jap_u]; unfold jmap, jsetf; three.
  Qed.
  Lemma jrel_b b J K J' K' : jrel J K -> jrel J' K' -> jrel (jap_b Xops b J J') (jap_b O b K K').
  Proof. intros (H0 & H1 & H2) (H0' & H1' & H2'). destruct b; three. Qed.
  Lemma jrel_h J K J' K' J'' K'' : jrel J K -> jrel J' K' -> jrel J'' K'' -> jrel (jap_hypot3 Xops J J' J'') (jap_hypot3 O K K' K'').
  Proof. intros (H0 & H1 & H2) (H0' & H1' & H2') (H0'' & H1'' & H2''). three. Qed.
  Lemma jrel_const s v : P (EConst s) v -> jrel (jconst Xops (EConst s)) (jconst O v).
  Proof. intros H. three. Qed.
  Lemma jrel_var i v : P (EVar i) v -> jrel (jvar Xops i (EVar i)) (jvar O i v).
  Proof.
    intros H. split; [exact H|]. split; [intros k Hk|intros _ k l Hk]; cbn; [destruct (Nat.eqb k i)|]; apply (m_Z P O M).
  Qed.
  Lemma jrel_ev N e e' env : vars_below N e -> no_abs e -> erel P e e' -> (forall i, (i < N)%nat -> P (EVar i) (env i)) ->
    jrel (xjet e) (jev O (fun i => jvar O i (env i)) e').
  Proof.
    unfold xjet, erel. intros HV NA Hr HE. revert e' HV NA Hr.
    induction e as [i|s|u e IH|b e1 IH1 e2 IH2|e1 IH1 e2 IH2 e3 IH3]; intros e'; destruct e'; cbn [vars_below expr_rel no_abs emap jev]; intros HV NA Hr; try contradiction.
    - subst. apply jrel_var, HE, HV.
    - apply jrel_const, Hr.
    - apply jrel_u; [intros ->; exact NA|apply Hr|apply IH; [exact HV|destruct u; tauto|apply Hr]].
    - destruct Hr as (-> & H1 & H2), NA, HV. apply jrel_b; [apply IH1|apply IH2]; assumption.
    - destruct Hr as (H0 & H1 & H2), NA as (? & ? & ?), HV as (? & ? & ?). apply jrel_h; [apply IH1|apply IH2|apply IH3]; assumption.
  Qed.
End Jets.

(** ** Instances *)
Lemma simu_real q : simu (fun X x => rev X q = x) Rops.
Proof. constructor; cbn; intros; subst; reflexivity. Qed.
Definition plain (n : nat) (X : expr R) : Prop := vars_below n X /\ no_abs X.
Lemma simu_plain n : simu (fun X _ => plain n X) Xops.
Proof. unfold plain. constructor; cbn; intros; tauto. Qed.

Section Level.
  Context {S : Type} (P : expr R -> S -> Prop) (O : Ops S) (M : simu P O).
  Context (n : nat) (c : cfg) (Hc : cfg_ok c).
  Definition nrel (X : expr R) (x : dd S) : Prop := exists K, rep c n K x /\ jrel P (c_ord c) n (xjet X) K.

  Lemma nrel_u u u' X x : u <> Uabs -> urel P u u' -> nrel X x -> nrel (EU u X) (ap1 O c u' x).
  Proof.
    intros Hu Hr (K & HR & HJ). destruct (apply_u_rep O c Hc n K x u' HR) as (r & E & HR').
    unfold ap1. rewrite E. exists (jap_u O u' K). split; [exact HR'|]. apply (jrel_u P O M _ _ u u' (xjet X) K Hu Hr HJ).
  Qed.
  Lemma nrel_b b X x Y y : nrel X x -> nrel Y y -> nrel (EB b X Y) (ap2 O c b x y).
  Proof.
    intros (K & HR & HJ) (K' & HR' & HJ'). destruct (apply_b_rep O c Hc n K K' x y b HR HR') as (r & E & HR2).
    unfold ap2. rewrite E. exists (jap_b O b K K'). split; [exact HR2|]. apply (jrel_b P O M _ _ b (xjet X) K (xjet Y) K' HJ HJ').
  Qed.
  Lemma nrel_h X x Y y Z z : nrel X x -> nrel Y y -> nrel Z z -> nrel (EH X Y Z) (take (hypot3 O c x y z)).
  Proof.
    intros (K & HR & HJ) (K' & HR' & HJ') (K2 & HR2 & HJ2). destruct (hypot3_rep O c Hc n K K' K2 x y z HR HR' HR2) as (r & E & HR3).
    rewrite E. exists (jap_hypot3 O K K' K2). split; [exact HR3|]. apply (jrel_h P O M _ _ (xjet X) K (xjet Y) K' (xjet Z) K2 HJ HJ' HJ2).
  Qed.
  Lemma nrel_lit s v : is_dynamic c = false -> size_ok c n -> P (EConst s) v -> nrel (EConst s) (lit1 O c v).
  Proof.
    intros D SO H. assert (EN : default_size c = n). { unfold default_size. rewrite D, (proj1 SO D). apply Nat2Z.id. }
    destruct (ctor_scalar_static O c v Hc D) as (r & E & SH & _); [rewrite EN; exact SO|].
    rewrite EN in SH. unfold lit1. rewrite E. exists (mkjet v (fun _ => o_Z O 0) (fun _ _ => o_Z O 0)).
    split; [exact (shows_rep _ _ _ _ _ _ Hc SH)|]. apply (jrel_const P O M), H.
  Qed.
  Lemma nrel_value s y : nrel (EConst s) y -> P (EConst s) (value O y).
  Proof. intros (K & HR & HJ & _). unfold value. rewrite (get_f_rep c n K y HR). exact HJ. Qed.
  Lemma nrel_var i v : (i < n)%nat -> size_ok c n -> P (EVar i) v -> nrel (EVar i) (take (variable_n O c (Z.of_nat i) v (Z.of_nat n))).
  Proof.
    intros Hi SO H. destruct (variable_n_rep O c n i v SO Hi) as (r & E & HR). rewrite E. exists (jvar O i v).
    split; [exact HR|]. apply (jrel_var P O M), H.
  Qed.
  Lemma nrel_lit_b b s t a a' : b = Badd \/ b = Bsub -> nrel (EConst s) a -> nrel (EConst t) a' ->
    nrel (EConst (breal b s t)) (ap2 O c b a a').
  Proof.
    intros Hb (K & HR & HJ) (K' & HR' & HJ'). destruct (apply_b_rep O c Hc n K K' a a' b HR HR') as (r & E & HR2).
    unfold ap2. rewrite E. exists (jap_b O b K K'). split; [exact HR2|].
    destruct HJ as (H0 & H1 & H2), HJ' as (H0' & H1' & H2'). cbn in H0, H1, H2, H0', H1', H2'.
    destruct Hb as [-> | ->]; (split; [cbn|split; [intros i Hi; cbn; specialize (H1 i Hi); specialize (H1' i Hi)
      |intros Ho i j Hij; cbn; specialize (H2 Ho i j Hij); specialize (H2' Ho i j Hij)]]).
    - apply (m_lit_add P O M); assumption.
    - replace 0 with (0 + 0) by ring. apply (m_lit_add P O M); assumption.
    - replace 0 with (0 + 0) by ring. apply (m_lit_add P O M); assumption.
    - apply (m_lit_sub P O M); assumption.
    - replace 0 with (0 + - 0) by ring. apply (m_lit_add P O M); [assumption|]. apply (m_lit_neg P O M); assumption.
    - replace 0 with (0 + - 0) by ring. apply (m_lit_add P O M); [assumption|]. apply (m_lit_neg P O M); assumption.
  Qed.
  Lemma nrel_lit_neg s a : nrel (EConst s) a -> nrel (EConst (- s)) (ap1 O c Uneg a).
  Proof.
    intros (K & HR & HJ). destruct (apply_u_rep O c Hc n K a Uneg HR) as (r & E & HR2).
    unfold ap1. rewrite E. exists (jap_u O Uneg K). split; [exact HR2|].
    destruct HJ as (H0 & H1 & H2). cbn in H0, H1, H2.
    split; [cbn|split; [intros i Hi; cbn; specialize (H1 i Hi)|intros Ho i j Hij; cbn; specialize (H2 Ho i j Hij)]].
    - apply (m_lit_neg P O M), H0.
    - replace 0 with (- 0) by ring. apply (m_lit_neg P O M), H1.
    - replace 0 with (- 0) by ring. apply (m_lit_neg P O M), H2.
  Qed.
  Lemma simu_level : is_dynamic c = false -> size_ok c n -> simu nrel (dops O c).
  Proof.
    intros D SO. constructor; cbn [dops o_Z o_half o_add o_sub o_mul o_div o_neg o_pow o_sqrt o_cbrt o_cos o_sin o_tan o_acos o_asin
      o_atan o_atan2 o_hypot o_hypot3 o_cosh o_sinh o_tanh o_acosh o_asinh o_atanh o_exp o_log o_log2 o_log10]; intros;
      try (apply nrel_u; [discriminate|exact I|assumption]); try (apply nrel_b; assumption).
    - apply nrel_lit; [exact D|exact SO|apply (m_Z P O M)].
    - apply nrel_lit; [exact D|exact SO|apply (m_half P O M)].
    - apply nrel_u; [discriminate|apply nrel_value; assumption|assumption].
    - apply nrel_h; assumption.
    - apply (nrel_lit_b Badd); auto.
    - apply (nrel_lit_b Bsub); auto.
    - apply nrel_lit_neg; assumption.
  Qed.
End Level.

(** ** The whole tower *)
Fixpoint trel (n : nat) (p : nat -> R) (cs : list cfg) : expr R -> nest cs -> Prop :=
  match cs return expr R -> nest cs -> Prop with
  | [] => fun X x => rev X p = x
  | c :: cs => nrel (trel n p cs) n c
  end.
Lemma simu_tower n p cs : List.Forall (inner n) cs -> simu (trel n p cs) (nops cs).
Proof.
  induction cs as [|c cs IH]; intros H; cbn [trel nops]; [apply simu_real|].
  inversion H as [|? ? (Hc & D & SO) H']; subst. apply simu_level; auto.
Qed.
Lemma trel_lit n p cs s : List.Forall (inner n) cs -> trel n p cs (EConst s) (nlit cs s).
Proof.
  induction cs as [|c cs IH]; intros H; cbn [trel nlit]; [reflexivity|].
  inversion H as [|? ? (Hc & D & SO) H']; subst. apply (nrel_lit _ _ (simu_tower n p cs H')); auto.
Qed.
Lemma trel_var n p cs i : (i < n)%nat -> List.Forall (inner n) cs -> trel n p cs (EVar i) (nvar n cs i (p i)).
Proof.
  intros Hi. induction cs as [|c cs IH]; intros H; cbn [trel nvar]; [reflexivity|].
  inversion H as [|? ? (Hc & D & SO) H']; subst. apply (nrel_var _ _ (simu_tower n p cs H')); auto.
Qed.
Lemma evaluate_tower n p c cs e : cfg_ok c -> size_ok c n -> List.Forall (inner n) cs -> vars_below n e -> no_abs e ->
  exists r, evaluate_nested n c cs p e = Ok r /\ trel n p (c :: cs) e r.
Proof.
  intros Hc SO H HV NA. unfold evaluate_nested.
  set (vs := map (fun i => nvar n cs i (p i)) (seq 0 n)).
  assert (L : length vs = n) by (unfold vs; rewrite map_length, seq_length; reflexivity).
  destruct (evaluate_rep (nops cs) c vs (nvar n cs 0 (p 0%nat)) (emap (nlit cs) e) Hc) as (r & E & R); rewrite ?L; auto.
  { apply emap_below, HV. }
  exists r. split; [exact E|]. rewrite L in R. cbn [trel]. eexists. split; [exact R|].
  apply (jrel_ev _ _ (simu_tower n p cs H) _ _ n); [exact HV|exact NA| |].
  - unfold erel. clear -H. induction e as [| |u e IH| |]; cbn; auto using trel_lit. split; [|exact IH]. destruct u; cbn; auto using trel_lit.
  - intros i Hi. unfold vs. rewrite (map_nth (fun i => nvar n cs i (p i)) (seq 0 n) 0%nat i), seq_nth by exact Hi. apply trel_var; assumption.
Qed.

(** ** Derivatives stay in the domain *)
Lemma usmooth_mono k k' u x : (k' <= k)%nat -> usmooth k u x -> usmooth k' u x.
Proof.
  intros H. destruct u; cbn [usmooth]; try (intros H'; exact H'). intros [H'|[H'|(m & Hm & E)]]; auto.
  right. right. exists m. split; [lia|exact E].
Qed.
Lemma smooth_mono k k' e p : (k' <= k)%nat -> smooth k e p -> smooth k' e p.
Proof.
  intros H. induction e as [i|s|u e IH|b e1 IH1 e2 IH2|e1 IH1 e2 IH2 e3 IH3]; cbn [smooth]; try tauto.
  intros (H1 & H2). split; [auto|]. eapply usmooth_mono; eassumption.
Qed.
Lemma smooth_dom k e p : smooth (S k) e p -> dom e p.
Proof.
  induction e as [i|s|u e IH|b e1 IH1 e2 IH2|e1 IH1 e2 IH2 e3 IH3]; cbn [smooth dom]; try tauto.
  intros (H1 & H2). split; [auto|]. destruct u; cbn [usmooth udom] in *; try exact H2.
  destruct H2 as [H'|[H'|(m & Hm & E)]]; auto. right. right. exists m. split; [lia|exact E].
Qed.

Definition jsm (k : nat) (q : nat -> R) (J : jet (expr R)) : Prop :=
  smooth k (jf J) q /\ (forall i, smooth k (jg J i) q) /\ forall i j, smooth k (jh J i j) q.
Lemma jsm_ju k q f a aa J : smooth k f q -> smooth k a q -> smooth k aa q -> jsm k q J -> jsm k q (ju Xops f (CVal a) (CVal aa) J).
Proof. intros H1 H2 H3 (H4 & H5 & H6). repeat split; cbn; auto. Qed.
Lemma jsm_jb k q f a b aa ab bb J K : smooth k f q -> smooth k a q -> smooth k b q -> smooth k aa q -> smooth k ab q -> smooth k bb q ->
  jsm k q J -> jsm k q K -> jsm k q (jb Xops f (CVal a) (CVal b) (CVal aa) (CVal ab) (CVal bb) J K).
Proof. intros H1 H2 H3 H4 H5 H6 (H7 & H8 & H9) (H7' & H8' & H9'). repeat split; cbn; auto. Qed.

Ltac rv := cbn [Xops o_Z o_half o_add o_sub o_mul o_div o_neg o_pow o_sqrt o_cbrt o_cos o_sin o_tan o_acos o_asin
      o_atan o_atan2 o_hypot o_hypot3 o_cosh o_sinh o_tanh o_acosh o_asinh o_atanh o_exp o_log o_log2 o_log10
      smooth usmooth udom bdom hdom rev ureal breal hreal cst].
Lemma sqrt_nz t : 0 < t -> sqrt t <> 0.
Proof. intros H. apply Rgt_not_eq, sqrt_lt_R0, H. Qed.
Lemma ln_nz b : 0 < b -> b <> 1 -> ln b <> 0.
Proof.
  intros H H1 E. rewrite <- ln_1 in E. apply ln_inv in E; lra.
Qed.
Lemma mul_nz a b : a <> 0 -> b <> 0 -> a * b <> 0.
Proof. intros. apply Rmult_integral_contrapositive_currified; assumption. Qed.
Lemma pow2_room k x : x <> 0 -> 0 < x \/ x <> 0 /\ (exists z : Z, 2 = IZR z) \/ (exists m : nat, (2 * k <= m)%nat /\ 2 = INR m).
Proof. intros H. right. left. split; [exact H|exists 2%Z; reflexivity]. Qed.
Lemma pow3_room k x : x <> 0 -> 0 < x \/ x <> 0 /\ (exists z : Z, 3 = IZR z) \/ (exists m : nat, (2 * k <= m)%nat /\ 3 = INR m).
Proof. intros H. right. left. split; [exact H|exists 3%Z; reflexivity]. Qed.
Lemma pow_room k x b j : (j <= 2)%nat ->
  0 < x \/ x <> 0 /\ (exists z : Z, b = IZR z) \/ (exists m : nat, (2 * S k <= m)%nat /\ b = INR m) ->
  0 < x \/ x <> 0 /\ (exists z : Z, b - INR j = IZR z) \/ (exists m : nat, (2 * k <= m)%nat /\ b - INR j = INR m).
Proof.
  intros Hj [H|[(H & z & ->)|(m & Hm & ->)]]; [left; exact H|right; left; split; [exact H|]|right; right].
  - exists (z - Z.of_nat j)%Z. rewrite minus_IZR, INR_IZR_INZ. reflexivity.
  - exists (m - j)%nat. split; [lia|]. rewrite minus_INR by lia. reflexivity.
Qed.
Ltac nz :=
  match goal with
  | |- sqrt _ <> 0 => apply sqrt_nz; nz
  | |- Rcbrt _ <> 0 => apply Rcbrt_nz; nz
  | |- ln _ <> 0 => apply ln_nz; lra
  | |- Rpow_std _ 2 <> 0 => rewrite Rpow_std_2; apply mul_nz; nz
  | |- Rpow_std _ 3 <> 0 => rewrite Rpow_std_3; repeat apply mul_nz; nz
  | |- 0 < _ \/ _ <> 0 /\ (exists z : Z, 2 = IZR z) \/ _ => apply pow2_room; nz
  | |- 0 < _ \/ _ <> 0 /\ (exists z : Z, 3 = IZR z) \/ _ => apply pow3_room; nz
  | |- _ => first [assumption | lra | nra | apply mul_nz; nz]
  end.
Lemma jsm_u k q u J : u <> Uabs -> usmooth (S k) u (rev (jf J) q) -> jsm k q J -> jsm k q (jap_u Xops (umap EConst u) J).
Proof.
  intros Hu HD HJ. pose proof HJ as (H0 & H1 & H2).
  destruct u; cbn [umap jap_u]; try contradiction;
   try (unfold ju3, k_pow, k_sqrt, k_cbrt, k_reciprocal, k_cos, k_sin, k_tan, k_acos, k_asin, k_atan, k_cosh, k_sinh, k_tanh,
     k_acosh, k_asinh, k_atanh, k_exp, k_log, k_logb, k_log2, k_log10, k_sdiv; apply jsm_ju; [| | |exact HJ]);
   try (unfold jmap, jsetf; split; [|split; [intros i|intros i j]]; cbn [jf jg jh]);
   rv; cbn [usmooth udom] in HD; set (x := rev (jf J) q) in *; repeat split; auto;
   try (pose proof (pow_room k x b 0 ltac:(lia) HD) as HR; cbn [INR] in HR; rewrite Rminus_0_r in HR; exact HR);
   try exact (pow_room k x b 1 ltac:(lia) HD);
   try exact (pow_room k x b 2 ltac:(lia) HD);
   nz.
Qed.
Lemma jsm_b k q b J K : bdom b (rev (jf J) q) (rev (jf K) q) -> jsm k q J -> jsm k q K -> jsm k q (jap_b Xops b J K).
Proof.
  intros HD HJ HK. pose proof HJ as (H0 & H1 & H2). pose proof HK as (H0' & H1' & H2').
  destruct b; unfold jap_b, jb6, k_b, k_add, k_sub, k_mul, k_div, k_atan2, k_hypot.
  - repeat split; cbn; auto.
  - repeat split; cbn; auto.
  - repeat split; cbn; auto.
  - cbn [bdom] in HD. set (x := rev (jf J) q) in *. set (y := rev (jf K) q) in *.
    repeat split; cbn [jf jg jh jb]; intros; repeat match goal with |- context [CVal] => cbn end; rv; fold x y; repeat split; auto; nz.
  - cbn [bdom] in HD. assert (HP : rev (jf J) q * rev (jf J) q + rev (jf K) q * rev (jf K) q <> 0).
    { apply Rgt_not_eq, sumsq2_pos. intros [E E']. apply HD. rewrite E'. lra. }
    apply jsm_jb; auto; rv; repeat split; auto.
  - cbn [bdom] in HD. pose proof (sumsq2_pos _ _ HD) as HP. apply jsm_jb; auto; rv; repeat split; auto; try nz.
Qed.
Lemma jsm_h k q J K L : hdom (rev (jf J) q) (rev (jf K) q) (rev (jf L) q) -> jsm k q J -> jsm k q K -> jsm k q L ->
  jsm k q (jap_hypot3 Xops J K L).
Proof.
  intros HD (H0 & H1 & H2) (H0' & H1' & H2') (H0'' & H1'' & H2''). pose proof (sumsq3_pos _ _ _ HD) as HP. apply sqrt_nz in HP.
  unfold jap_hypot3. repeat split; cbn; auto; repeat split; auto; repeat apply mul_nz; auto.
Qed.
Lemma vars_below_mono {S} n m (e : expr S) : (n <= m)%nat -> vars_below n e -> vars_below m e.
Proof. intros H. induction e; cbn [vars_below]; intuition lia. Qed.
Lemma xjet_rev X q : no_abs X ->
  (rev (jf (xjet X)) q = jf (jev Rops (fun i => jvar Rops i (q i)) X)) /\
  (forall i, rev (jg (xjet X) i) q = jg (jev Rops (fun i => jvar Rops i (q i)) X) i) /\
  (forall i j, rev (hess (xjet X) i j) q = hess (jev Rops (fun i => jvar Rops i (q i)) X) i j).
Proof.
  intros NA. assert (exists N, vars_below N X) as (N & HV).
  { clear. induction X as [i|s|u e IH|b e1 (N1 & H1) e2 (N2 & H2)|e1 (N1 & H1) e2 (N2 & H2) e3 (N3 & H3)]; cbn.
    - exists (S i). lia.
    - exists 0%nat. exact I.
    - exact IH.
    - exists (N1 + N2)%nat. split; [revert H1|revert H2]; apply vars_below_mono; lia.
    - exists (N1 + N2 + N3)%nat. repeat split; [revert H1|revert H2|revert H3]; apply vars_below_mono; lia. }
  assert (HE : erel (fun A x => rev A q = x) X X).
  { unfold erel. clear. induction X as [| |u e IH| |]; cbn; auto. split; [|exact IH]. destruct u; cbn; auto. }
  split; [|split].
  - exact (proj1 (jrel_ev _ _ (simu_real q) 2 0 N X X q HV NA HE ltac:(reflexivity))).
  - intros i. exact (proj1 (proj2 (jrel_ev _ _ (simu_real q) 2 (S i) N X X q HV NA HE ltac:(reflexivity))) i ltac:(lia)).
  - intros i j. refine (proj2 (proj2 (jrel_ev _ _ (simu_real q) 2 (S (i + j)) N X X q HV NA HE ltac:(reflexivity))) _ (Nat.min i j) (Nat.max i j) _); lia.
Qed.
Lemma xjet_smooth k q X : no_abs X -> smooth (S k) X q -> jsm k q (xjet X).
Proof.
  intros NA D.
  assert (EV : forall Y, no_abs Y -> smooth (S k) Y q -> rev (jf (xjet Y)) q = rev Y q).
  { intros Y NY DY. rewrite (proj1 (xjet_rev Y q NY)). apply jev_f; [reflexivity|]. eapply smooth_dom, DY. }
  induction X as [i|s|u e IH|b e1 IH1 e2 IH2|e1 IH1 e2 IH2 e3 IH3]; cbn [no_abs smooth] in NA, D.
  - repeat split; cbn; auto. intros j. destruct (Nat.eqb j i); exact I.
  - repeat split.
  - assert (NE : no_abs e) by (destruct u; tauto). destruct D as (D & DU). rewrite <- (EV e NE D) in DU.
    exact (jsm_u k q u (xjet e) ltac:(intros ->; exact NA) DU (IH NE D)).
  - destruct NA as (N1 & N2), D as (D1 & D2 & DB). rewrite <- (EV e1 N1 D1), <- (EV e2 N2 D2) in DB.
    exact (jsm_b k q b (xjet e1) (xjet e2) DB (IH1 N1 D1) (IH2 N2 D2)).
  - destruct NA as (N1 & N2 & N3), D as (D1 & D2 & D3 & DB). rewrite <- (EV e1 N1 D1), <- (EV e2 N2 D2), <- (EV e3 N3 D3) in DB.
    exact (jsm_h k q (xjet e1) (xjet e2) (xjet e3) DB (IH1 N1 D1) (IH2 N2 D2) (IH3 N3 D3)).
Qed.
Lemma xjet_plain n X : plain n X -> plain n (jf (xjet X)) /\ (forall i, plain n (jg (xjet X) i)) /\ (forall i j, plain n (hess (xjet X) i j)).
Proof.
  intros (HV & NA).
  assert (HE : erel (fun A (_ : expr R) => plain n A) X (emap EConst X)).
  { unfold erel, plain. clear. induction X as [| |u e IH| |]; cbn; auto. split; [|exact IH]. destruct u; cbn; auto. }
  assert (HX : forall m, jrel (fun A (_ : expr R) => plain n A) 2 m (xjet X) (jev Xops (fun i => jvar Xops i (EVar i)) (emap EConst X))).
  { intros m. apply (jrel_ev _ _ (simu_plain n) 2 m n X _ (fun i => EVar i) HV NA HE). intros i Hi. split; [exact Hi|exact I]. }
  split; [|split].
  - exact (proj1 (HX 0%nat)).
  - intros i. exact (proj1 (proj2 (HX (S i))) i ltac:(lia)).
  - intros i j. refine (proj2 (proj2 (HX (S (i + j)))) _ (Nat.min i j) (Nat.max i j) _); lia.
Qed.

(** ** The domain is open *)
Lemma cont_both N p F G (P Q : R -> Prop) : cont N p F -> cont N p G -> open P -> open Q -> P (F p) -> Q (G p) ->
  near N p (fun q => P (F q) /\ Q (G q)).
Proof. intros. apply near_and; apply cont_near; assumption. Qed.
Lemma near_usmooth N p k u F : cont N p F -> usmooth k u (F p) -> near N p (fun q => usmooth k u (F q)).
Proof.
  intros HF. destruct u; cbn [usmooth udom]; intros D; try (apply near_true; auto; fail);
    try exact (cont_near N p F _ HF open_pos D); try exact (cont_near N p F _ HF open_nz D); try exact (cont_near N p F _ HF open_cos D);
    try exact (cont_near N p F _ HF (open_Ioo (-1) 1) D); try exact (cont_near N p F _ HF open_gt1 D).
  - destruct D as [D|[(D & z & E)|D]].
    + generalize (cont_near N p F _ HF open_pos D). apply near_imp. intros q Hq. left. exact Hq.
    + generalize (cont_near N p F _ HF open_nz D). apply near_imp. intros q Hq. right. left. split; [exact Hq|exists z; exact E].
    + apply near_true. intros q. right. right. exact D.
  - destruct D as (D & E). generalize (cont_near N p F _ HF open_pos D). apply near_imp. intros q Hq. split; [exact Hq|exact E].
Qed.
Lemma near_nz2 N p F G : cont N p F -> cont N p G -> 0 < F p * F p + G p * G p -> near N p (fun q => 0 < F q * F q + G q * G q).
Proof. intros HF HG H. apply (cont_near N p (fun q => F q * F q + G q * G q) (fun t => 0 < t)); [|apply open_pos|exact H]. apply cont_plus; apply cont_mult; assumption. Qed.
Lemma near_bdom N p b F G : cont N p F -> cont N p G -> bdom b (F p) (G p) -> near N p (fun q => bdom b (F q) (G q)).
Proof.
  intros HF HG. destruct b; cbn [bdom]; intros D; try (apply near_true; auto; fail).
  - apply (cont_near N p G _ HG open_nz D).
  - destruct (Rlt_dec 0 (G p)) as [Hp|Hp].
    + generalize (cont_near N p G _ HG open_pos Hp). apply near_imp. intros q Hq. lra.
    + assert (Hn : F p <> 0) by (intros E; apply D; split; [exact E|lra]).
      generalize (cont_near N p F _ HF open_nz Hn). apply near_imp. intros q Hq. tauto.
  - generalize (near_nz2 N p F G HF HG (sumsq2_pos _ _ D)). apply near_imp. intros q Hq (E1 & E2). rewrite E1, E2 in Hq. lra.
Qed.
Lemma near_smooth N k e p : vars_below N e -> smooth (S k) e p -> near N p (smooth (S k) e).
Proof.
  induction e as [i|s|u e IH|b e1 IH1 e2 IH2|e1 IH1 e2 IH2 e3 IH3]; cbn [vars_below smooth]; intros V D.
  - apply near_true. auto.
  - apply near_true. auto.
  - destruct D as (D & DU). apply near_and; [apply IH; assumption|]. apply near_usmooth; [|exact DU].
    apply rev_cont; [exact V|eapply smooth_dom, D].
  - destruct V as (V1 & V2), D as (D1 & D2 & DB). repeat apply near_and; [apply IH1; assumption|apply IH2; assumption|].
    apply near_bdom; [| |exact DB]; apply rev_cont; try assumption; eapply smooth_dom; eassumption.
  - destruct V as (V1 & V2 & V3), D as (D1 & D2 & D3 & DB).
    repeat apply near_and; [apply IH1; assumption|apply IH2; assumption|apply IH3; assumption|].
    assert (C1 : cont N p (rev e1)) by (apply rev_cont; [assumption|eapply smooth_dom; eassumption]).
    assert (C2 : cont N p (rev e2)) by (apply rev_cont; [assumption|eapply smooth_dom; eassumption]).
    assert (C3 : cont N p (rev e3)) by (apply rev_cont; [assumption|eapply smooth_dom; eassumption]).
    assert (HN : near N p (fun q => 0 < rev e1 q * rev e1 q + rev e2 q * rev e2 q + rev e3 q * rev e3 q)).
    { apply (cont_near N p (fun q => rev e1 q * rev e1 q + rev e2 q * rev e2 q + rev e3 q * rev e3 q) (fun t => 0 < t));
        [|apply open_pos|apply sumsq3_pos, DB]. repeat apply cont_plus; apply cont_mult; assumption. }
    revert HN. apply near_imp. intros q Hq (E1 & E2 & E3). rewrite E1, E2, E3 in Hq. lra.
Qed.

(** ** Derivatives *)
Lemma near_near N p P : near N p P -> near N p (fun q => near N q P).
Proof.
  intros (d & Hd & H). exists (d / 2). split; [lra|]. intros q Hq. exists (d / 2). split; [lra|]. intros r Hr. apply H.
  intros k Hk. specialize (Hq k Hk). specialize (Hr k Hk).
  replace (r k - p k) with ((r k - q k) + (q k - p k)) by ring. eapply Rle_lt_trans; [apply Rabs_triang|]. lra.
Qed.
Lemma near_line N q i P : near N q P -> locally (q i) (fun t => P (set_at q i t)).
Proof.
  intros (d & Hd & H). exists (mkposreal d Hd). intros t Ht. apply Chain.ball_abs in Ht. cbn in Ht. apply H.
  intros k Hk. unfold set_at. destruct (Nat.eqb_spec k i) as [->|]; [exact Ht|].
  replace (q k - q k) with 0 by ring. rewrite Rabs_R0. exact Hd.
Qed.
Lemma partial_ext N F G i q l : near N q (fun r => F r = G r) -> partial F i q l -> partial G i q l.
Proof. intros H. unfold partial. apply is_derive_ext_loc. apply (near_line N q i _ H). Qed.
Lemma derivs_ext n p cs : forall F G (x : nest cs), near n p (fun q => F q = G q) -> derivs n p cs F x -> derivs n p cs G x.
Proof.
  induction cs as [|c cs IH]; intros F G x HN; cbn [derivs].
  - intros ->. exact (near_here _ _ _ HN).
  - intros (f & g & h & D & D2 & HS & H0 & H1 & H2). exists f, g, h, D, D2. split; [exact HS|]. split; [exact (IH F G f HN H0)|].
    split; [|exact H2]. intros i Hi. destruct (H1 i Hi) as (HP & HD). split; [|exact HD].
    generalize (near_and _ _ _ _ (near_near _ _ _ HN) HP). apply near_imp. intros q (HE & HQ). exact (partial_ext n F G i q _ HE HQ).
Qed.
Lemma set_at_at p i : forall k, set_at p i (p i) k = p k.
Proof. intros k. unfold set_at. destruct (Nat.eqb_spec k i) as [->|]; reflexivity. Qed.

Lemma tower_derivs n p cs : List.Forall cfg_ok cs -> forall X x, plain n X -> smooth (length cs) X p -> trel n p cs X x -> derivs n p cs (rev X) x.
Proof.
  induction cs as [|c cs IH]; intros HC X x (HV & NA) D; cbn [trel derivs length] in *.
  - intros E. symmetry. exact E.
  - intros (K & HR & HJ). inversion HC as [|? ? Hc HC']; subst.
    set (k := length cs) in *.
    destruct (xjet_plain n X (conj HV NA)) as (PL0 & PL1 & PL2).
    pose proof (xjet_smooth k p X NA D) as (S0 & S1 & S2).
    pose proof (near_smooth n k X p HV D) as HN.
    assert (HP : near n p (fun q => (forall i, (i < n)%nat -> partial (rev X) i q (rev (jg (xjet X) i) q)))).
    { revert HN. apply near_imp. intros q Dq i Hi. destruct (point_derivs n X q HV (smooth_dom _ _ _ Dq)) as (_ & P1 & _).
      rewrite (proj1 (proj2 (xjet_rev X q NA))). apply P1, Hi. }
    exists (jf K), (jg K), (hess K), (fun i => rev (jg (xjet X) i)), (fun i j => rev (hess (xjet X) i j)).
    destruct HJ as (J0 & J1 & J2).
    split; [apply rep_shows; assumption|]. split; [|split].
    + apply (derivs_ext n p cs (rev (jf (xjet X)))); [|apply IH; assumption].
      revert HN. apply near_imp. intros q Dq. rewrite (proj1 (xjet_rev X q NA)). apply jev_f; [reflexivity|]. eapply smooth_dom, Dq.
    + intros i Hi. split; [revert HP; apply near_imp; auto|]. apply IH; auto.
    + intros Ho i j Hi Hj. split.
      * generalize (near_and _ _ _ _ (near_near _ _ _ HP) HN). apply near_imp. intros q (HQ & Dq).
        destruct (point_derivs n X q HV (smooth_dom _ _ _ Dq)) as (_ & _ & P2).
        destruct (P2 i j Hi Hj) as (D' & HL & HD). rewrite (proj2 (proj2 (xjet_rev X q NA))).
        unfold partial. eapply is_derive_ext_loc; [|exact HD].
        generalize (filter_and _ _ HL (near_line n q i _ HQ)). apply filter_imp. intros s (A & B).
        specialize (B j Hj). unfold partial in A, B. apply is_derive_unique in A. apply is_derive_unique in B. congruence.
      * apply IH; auto. { apply S2. } unfold hess. apply J2; [rewrite Ho; discriminate|]. lia.
Qed.

Lemma nested n c cs p e : cfg_ok c -> size_ok c n -> List.Forall (inner n) cs -> vars_below n e -> no_abs e ->
  smooth (1 + length cs) e p ->
  exists r, evaluate_nested n c cs p e = Ok r /\ derivs n p (c :: cs) (rev e) r.
Proof.
  intros Hc SO H HV NA D. destruct (evaluate_tower n p c cs e Hc SO H HV NA) as (r & E & HR).
  exists r. split; [exact E|]. apply tower_derivs; [|split; assumption|exact D|exact HR].
  constructor; [exact Hc|]. revert H. apply Forall_impl. intros d (Hd & _). exact Hd.
Qed.

(** ** One variable: the n-th derivative *)
Lemma is_derive_n_S f g k x l : locally x (fun t => is_derive f t (g t)) -> is_derive_n g k x l -> is_derive_n f (S k) x l.
Proof.
  intros HL H. destruct k as [|k].
  - cbn in *. subst l. exact (locally_singleton _ _ HL).
  - assert (H' : is_derive_n (Derive f) (S k) x l).
    { eapply is_derive_n_ext_loc; [|exact H]. revert HL. apply filter_imp. intros t Ht. symmetry. apply is_derive_unique, Ht. }
    cbn [is_derive_n] in *. eapply is_derive_ext; [|exact H'].
    intros t. cbn beta. change (Derive f) with (Derive_n f 1). rewrite Derive_n_comp. f_equal. lia.
Qed.
Lemma set_at_idem q i s t k : set_at (set_at q i s) i t k = set_at q i t k.
Proof. unfold set_at. destruct (Nat.eqb k i); reflexivity. Qed.
Definition pointwise (F : (nat -> R) -> R) : Prop := forall p q, (forall k, p k = q k) -> F p = F q.
Lemma tower_nth p cs : List.Forall cfg_ok cs -> forall X x, plain 1 X -> smooth (length cs) X p -> trel 1 p cs X x ->
  exists v, deepest cs v x /\ is_derive_n (fun t => rev X (set_at p 0 t)) (length cs) (p 0%nat) v.
Proof.
  induction cs as [|c cs IH]; intros HC X x (HV & NA) D; cbn [trel deepest length] in *.
  - intros E. exists x. split; [reflexivity|]. cbn. rewrite <- E. apply rev_ext, set_at_at.
  - intros (K & HR & HJ). inversion HC as [|? ? Hc HC']; subst.
    set (k := length cs) in *.
    destruct (xjet_plain 1 X (conj HV NA)) as (PL0 & PL1 & PL2).
    pose proof (xjet_smooth k p X NA D) as (S0 & S1 & S2).
    pose proof (near_smooth 1 k X p HV D) as HN.
    destruct HJ as (J0 & J1 & J2).
    destruct (IH HC' (jg (xjet X) 0%nat) (jg K 0%nat) (PL1 0%nat) (S1 0%nat) (J1 0%nat ltac:(lia))) as (v & HD & HV').
    exists v. split.
    + exists (jg K 0%nat). split; [|exact HD]. destruct (rep_shows _ _ _ _ HR) as (_ & _ & G & _). exact (G 0%nat ltac:(lia)).
    + eapply is_derive_n_S; [|exact HV']. generalize (near_line 1 p 0 _ HN). apply filter_imp. intros t Dt.
      destruct (point_derivs 1 X (set_at p 0 t) HV (smooth_dom _ _ _ Dt)) as (_ & P1 & _).
      specialize (P1 0%nat ltac:(lia)). rewrite <- (proj1 (proj2 (xjet_rev X (set_at p 0 t) NA))) in P1.
      unfold partial in P1. unfold set_at in P1 at 3. cbn in P1. eapply is_derive_ext; [|exact P1].
      intros s. apply rev_ext. intros i. apply set_at_idem.
Qed.
Lemma nested_nth c cs x e : cfg_ok c -> size_ok c 1 -> List.Forall (inner 1) cs -> vars_below 1 e -> no_abs e ->
  smooth (1 + length cs) e (fun _ => x) ->
  exists r v, evaluate_nested 1 c cs (fun _ => x) e = Ok r /\ deepest (c :: cs) v r /\
    is_derive_n (fun t => rev e (fun _ => t)) (1 + length cs) x v.
Proof.
  intros Hc SO H HV NA D. destruct (evaluate_tower 1 (fun _ => x) c cs e Hc SO H HV NA) as (r & E & HR).
  destruct (tower_nth (fun _ => x) (c :: cs)) with (X := e) (x := r) as (v & HD & HN); try assumption.
  - constructor; [exact Hc|]. revert H. apply Forall_impl. intros d (Hd & _). exact Hd.
  - split; assumption.
  - exists r, v. split; [exact E|]. split; [exact HD|]. eapply is_derive_n_ext; [|exact HN].
    intros t. apply (rev_below 1 e); [exact HV|]. intros i Hi. replace i with 0%nat by lia. reflexivity.
Qed.

(** ** Dynamic inner numbers *)
Lemma dynamic_literals {S} (O : Ops S) c n x : is_dynamic c = true -> c_exc c = true -> wf c n x -> n <> 1%nat -> forall s,
  exists z, ctor_scalar O c s = Ok z /\ add O c z x = Throw IncompatibleSize /\ sub O c z x = Throw IncompatibleSize /\ mul O c z x = Throw IncompatibleSize.
Proof.
  intros D E (HS & _) Hn s. exists {| m_size := 1; m_data := [Some s] |}. split; [unfold ctor_scalar; rewrite D; reflexivity|].
  assert (K : check_equal_size c (size c {| m_size := 1; m_data := [Some s] |}) (size c x) = Throw IncompatibleSize).
  { unfold check_equal_size. rewrite D, E, HS. unfold size. rewrite D. cbn [m_size].
    destruct (Z.eqb_spec 1 (Z.of_nat n)); [lia|reflexivity]. }
  repeat split; unfold add, sub, mul, binary_op; rewrite K; reflexivity.
Qed.
Lemma cube_case : evaluate_nested 1 (sta2 1) [sta1 1] (fun _ => 2) (X * X * X)%E =
  Ok (mk 1 [Some (mk 1 [Some 8; Some 12]); Some (mk 1 [Some 12; Some 12]); Some (mk 1 [Some 12; Some 6])]).
Proof. lazy -[Rplus Rmult Rminus Ropp Rinv Rdiv IZR]. repeat f_equal; ring. Qed.
Lemma cube_nested : inner 1 (sta1 1) /\ smooth 2 (X * X * X)%E (fun _ => 2) /\
  evaluate_nested 1 (sta2 1) [sta1 1] (fun _ => 2) (X * X * X)%E =
  Ok (mk 1 [Some (mk 1 [Some 8; Some 12]); Some (mk 1 [Some 12; Some 12]); Some (mk 1 [Some 12; Some 6])]).
Proof.
  split; [|split; [cbn; tauto|exact cube_case]]. split; [|split; [reflexivity|]].
  - split; cbn; lia.
  - split; [reflexivity|vm_compute; discriminate].
Qed.
