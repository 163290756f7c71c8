(** C115: sparse numbers whose scalars are dense numbers. *)
From Coq Require Import ZArith List Bool Reals Lra Lia String.
From Coquelicot Require Import Coquelicot.
From Verif Require Import Outcome Scalar Model Spec ModelS ModelNS SpecS NestSSpec Core OpsRep AccRep FactsOps FactsLayout FactsVar RealOps Deriv UDeriv BDeriv FactsS ExprSpec Expr Struct FactsExpr Chain FactsCtor FactsNum Samples NestSpec FactsNest.
Import ListNotations.

Section Missing.
  Context {S : Type} (O : Ops S) (c : cfg) (Hc : cfg_ok c) (n : nat).
  Definition wfs (t : table (dd S)) : Prop := List.Forall (fun kv => wf c n (snd kv)) t.
  Definition safe (f : dd S -> res (dd S)) : Prop := forall v, wf c n v -> exists r, f v = Ok r /\ wf c n r.

  Lemma map_safe f t : safe f -> wfs t -> exists t', ns_map f t = Ok t' /\ wfs t' /\ map fst t' = map fst t.
  Proof.
    intros Hf H. induction t as [|(k, v) t IH]; cbn [ns_map].
    - exists []. repeat split; constructor.
    - inversion H as [|? ? Hv Ht]; subst. destruct (Hf v Hv) as (r & -> & Wr). destruct (IH Ht) as (t' & -> & Wt & E). cbn [bind].
      eexists. split; [reflexivity|]. split; [constructor; assumption|]. cbn. f_equal. exact E.
  Qed.
  Lemma update_safe f t k : safe f -> wfs t -> In k (map fst t) ->
    exists t', ns_update O c t k f = Ok t' /\ wfs t' /\ map fst t' = map fst t.
  Proof.
    intros Hf H. induction t as [|(k', v) t IH]; cbn [ns_update map fst In]; [tauto|]. inversion H as [|? ? Hv Ht]; subst.
    destruct (String.eqb_spec k' k) as [->|Ne]; intros HI.
    - destruct (Hf v Hv) as (r & -> & Wr). cbn [bind]. eexists. split; [reflexivity|]. split; [constructor; assumption|reflexivity].
    - destruct HI as [HI|HI]; [contradiction|]. destruct (IH Ht HI) as (t' & -> & Wt & E). cbn [bind].
      eexists. split; [reflexivity|]. split; [constructor; assumption|]. cbn. f_equal. exact E.
  Qed.
  Lemma update_missing f t k : ~ In k (map fst t) -> forall e, f (ctor_default O c) = e -> (forall v, e <> Ok v) ->
    ns_update O c t k f = (_ <- e ;; Ok []).
  Proof.
    intros HN e He N. induction t as [|(k', v) t IH]; cbn [ns_update map fst In] in *.
    - rewrite He. destruct e; cbn; try reflexivity. destruct (N a eq_refl).
    - destruct (String.eqb_spec k' k) as [->|Ne]; [tauto|]. rewrite IH by tauto. destruct e; cbn; try reflexivity. destruct (N a eq_refl).
  Qed.
  Lemma merge_missing g t b e : (forall w, wf c n w -> safe (fun o => g o w)) -> (forall w, wf c n w -> g (ctor_default O c) w = e) -> (forall v, e <> Ok v) ->
    wfs t -> wfs b -> (exists k, In k (map fst b) /\ ~ In k (map fst t)) -> ns_merge O c g t b = (_ <- e ;; Ok []).
  Proof.
    intros Hg He N. revert t. induction b as [|(k, v) b IH]; intros t Wt Wb (k0 & HI & HN); cbn [ns_merge map fst In] in *; [tauto|].
    inversion Wb as [|? ? Hv Hb]; subst. cbn in Hv. destruct (in_dec string_dec k (map fst t)) as [Hk|Hk].
    - destruct (update_safe (fun o => g o v) t k (Hg v Hv) Wt Hk) as (t' & -> & Wt' & E). cbn [bind]. apply IH; [exact Wt'|exact Hb|].
      exists k0. split; [|rewrite E; exact HN]. destruct HI as [<-|HI]; [contradiction|exact HI].
    - rewrite (update_missing (fun o => g o v) t k Hk e (He v Hv) N). destruct e; cbn; try reflexivity. destruct (N a eq_refl).
  Qed.

  Lemma safe_of (f : dd S -> res (dd S)) : (forall J v, rep c n J v -> exists r K, f v = Ok r /\ rep c n K r) -> safe f.
  Proof.
    intros H v W. destruct (wf_rep _ _ _ W) as (J & R). destruct (H J v R) as (r & K & E & R'). exists r. split; [exact E|eapply rep_wf, R'].
  Qed.
  Definition fac_ok (a : fac (S := S)) : Prop := match a with FInt _ => True | FNum x => wf c n x end.
  Lemma times_assign_safe a : fac_ok a -> safe (fun v => times_assign O c v a).
  Proof.
    intros Ha. apply safe_of. intros J v R. destruct a as [z|x]; cbn [times_assign fac_ok] in *.
    - destruct (muls_assign_rep O c n J v (o_Z O z) R) as (r & E & R'). eauto.
    - destruct (wf_rep _ _ _ Ha) as (K & RK). destruct (mul_assign_rep O c n J K v x R RK) as (r & E & R'). eauto.
  Qed.
  Lemma times_safe a : fac_ok a -> safe (times O c a).
  Proof.
    intros Ha. apply safe_of. intros J v R. destruct a as [z|x]; cbn [times fac_ok] in *.
    - unfold smul. destruct (muls_rep O c n J v (o_Z O z) R) as (r & E & R'). eauto.
    - destruct (wf_rep _ _ _ Ha) as (K & RK). destruct (apply_b_rep O c Hc n K J x v Bmul RK R) as (r & E & R'). exists r. eauto.
  Qed.
  Lemma add_assign_safe w : wf c n w -> safe (fun o => add_assign O c o (Some w)).
  Proof. intros W. destruct (wf_rep _ _ _ W) as (K & RK). apply safe_of. intros J v R. destruct (add_assign_rep O c n J K v w R RK) as (r & E & R'). eauto. Qed.
  Lemma sub_assign_safe w : wf c n w -> safe (fun o => sub_assign O c o (Some w)).
  Proof. intros W. destruct (wf_rep _ _ _ W) as (K & RK). apply safe_of. intros J v R. destruct (sub_assign_rep O c n J K v w R RK) as (r & E & R'). eauto. Qed.

  (** [e]: what adding to or subtracting from a number made by [DDScalar()] ends in. *)
  Context (e : res (dd S)) (N : forall v, e <> Ok v).
  Hypothesis (add_e : forall w, wf c n w -> add_assign O c (ctor_default O c) (Some w) = e).
  Hypothesis (sub_e : forall w, wf c n w -> sub_assign O c (ctor_default O c) (Some w) = e).
  Lemma binary_missing a b da db : fac_ok da -> fac_ok db -> wfs a -> wfs b -> (exists k, In k (map fst b) /\ ~ In k (map fst a)) ->
    ns_binary O c a b da db = (_ <- e ;; Ok []).
  Proof.
    intros Fa Fb Wa Wb HK. unfold ns_binary. destruct (map_safe _ a (times_assign_safe da Fa) Wa) as (r & -> & Wr & E). cbn [bind].
    apply merge_missing; [| |exact N|exact Wr|exact Wb|rewrite E; exact HK].
    - intros w W v Wv. destruct (times_safe db Fb w W) as (u & -> & Wu). cbn [bind]. apply (add_assign_safe u Wu v Wv).
    - intros w W. destruct (times_safe db Fb w W) as (u & -> & Wu). cbn [bind]. apply add_e, Wu.
  Qed.
  Lemma err_any {A B : Type} (f : A -> res B) (d : res A) (g : dd S -> res A) : (r <- e ;; g r) = d -> (t <- d ;; f t) = match e with Ok _ => UB | Throw x => Throw x | Abort => Abort | UB => UB end.
  Proof. intros <-. destruct e; cbn; try reflexivity. destruct (N a eq_refl). Qed.
  Definition fails : res (ss (dd S)) := match e with Ok _ => UB | Throw x => Throw x | Abort => Abort | UB => UB end.
  Lemma all_missing a b : sized c n a -> sized c n b -> new_name a b ->
    ns_add O c a b = fails /\ ns_sub O c a b = fails /\ ns_mul O c a b = fails /\
    ns_add_assign O c a b = fails /\ ns_sub_assign O c a b = fails /\ ns_mul_assign O c a b = fails.
  Proof.
    intros (Wa & Ha) (Wb & Hb) HK.
    destruct (wf_rep _ _ _ Wa) as (J & RJ), (wf_rep _ _ _ Wb) as (K & RK).
    destruct (apply_b_rep O c Hc n J K _ _ Badd RJ RK) as (r1 & E1 & _).
    destruct (apply_b_rep O c Hc n J K _ _ Bsub RJ RK) as (r2 & E2 & _).
    destruct (apply_b_rep O c Hc n J K _ _ Bmul RJ RK) as (r3 & E3 & _).
    destruct (add_assign_rep O c n J K _ _ RJ RK) as (r4 & E4 & _).
    destruct (sub_assign_rep O c n J K _ _ RJ RK) as (r5 & E5 & _).
    destruct (mul_assign_rep O c n J K _ _ RJ RK) as (r6 & E6 & _).
    cbn [apply_b] in E1, E2, E3.
    unfold ns_add, ns_sub, ns_mul, ns_add_assign, ns_sub_assign, ns_mul_assign.
    rewrite E1, E2, E3, E4, E5, E6. cbn [bind].
    repeat match goal with |- _ /\ _ => split end; (eapply err_any; symmetry);
      try (apply binary_missing; cbn; auto; fail).
    - apply merge_missing; auto. intros w W. apply add_assign_safe, W.
    - apply merge_missing; auto. intros w W. apply sub_assign_safe, W.
  Qed.
End Missing.

Lemma fresh_static {S} (O : Ops S) c n w : cfg_ok c -> is_dynamic c = false -> size_ok c n -> wf c n w ->
  add_assign O c (ctor_default O c) (Some w) = UB /\ sub_assign O c (ctor_default O c) (Some w) = UB.
Proof.
  intros Hc D SO W. unfold add_assign, sub_assign, ctor_default, check_equal_size. rewrite D. cbn [bind m_data].
  assert (L : exists m, array_uninit (S := S) c = None :: m).
  { unfold array_uninit. assert (0 < StaticDataSize c)%Z.
    { destruct Hc as (Ho & Hs). destruct SO as (A & B). specialize (A D). unfold StaticDataSize. rewrite A.
      destruct (Z.eqb_spec (c_ord c) 1); [lia|]. apply Z.quot_str_pos. nia. }
    destruct (Z.to_nat (StaticDataSize c)) eqn:E; [lia|]. cbn. eexists. reflexivity. }
  destruct L as (m & ->). unfold for_, len. cbn [List.length].
  replace (Z.to_nat (Z.of_nat (Datatypes.S (List.length m)) - 0)) with (Datatypes.S (List.length m)) by lia. split; reflexivity.
Qed.
Lemma fresh_dynamic {S} (O : Ops S) c n w : is_dynamic c = true -> c_exc c = true -> n <> 1%nat -> wf c n w ->
  add_assign O c (ctor_default O c) (Some w) = Throw IncompatibleSize /\ sub_assign O c (ctor_default O c) (Some w) = Throw IncompatibleSize.
Proof.
  intros D X Hn (W & _). unfold add_assign, sub_assign, ctor_default, check_equal_size. rewrite D, X.
  assert (E : ref_size c (mk 1 [Some (o_Z O 0)]) (Some w) = Z.of_nat n) by exact W. rewrite E.
  assert (E' : size c (mk (S := S) 1 [Some (o_Z O 0)]) = 1%Z) by (unfold size; rewrite D; reflexivity). rewrite E'.
  destruct (Z.eqb_spec 1 (Z.of_nat n)); [lia|]. split; reflexivity.
Qed.
Lemma new_name_static {S} (O : Ops S) c n (a b : ss (dd S)) : cfg_ok c -> is_dynamic c = false -> size_ok c n -> sized c n a -> sized c n b -> new_name a b ->
  ns_add O c a b = UB /\ ns_sub O c a b = UB /\ ns_mul O c a b = UB /\ ns_add_assign O c a b = UB /\ ns_sub_assign O c a b = UB /\ ns_mul_assign O c a b = UB.
Proof.
  intros Hc D SO. apply (all_missing O c Hc n UB); [discriminate| |]; intros w W; apply (fresh_static O c n w); assumption.
Qed.
Lemma new_name_dynamic {S} (O : Ops S) c n (a b : ss (dd S)) : cfg_ok c -> is_dynamic c = true -> c_exc c = true -> n <> 1%nat -> sized c n a -> sized c n b -> new_name a b ->
  let t := Throw IncompatibleSize in
  ns_add O c a b = t /\ ns_sub O c a b = t /\ ns_mul O c a b = t /\ ns_add_assign O c a b = t /\ ns_sub_assign O c a b = t /\ ns_mul_assign O c a b = t.
Proof.
  intros Hc D X Hn. apply (all_missing O c Hc n (Throw IncompatibleSize)); [discriminate| |]; intros w W; apply (fresh_dynamic O c n w); assumption.
Qed.

(** ** One name *)
Open Scope R_scope.
Fixpoint tex (e : uexpr) : expr R :=
  match e with
  | UX => EVar 0
  | UAdd a b => EB Badd (tex a) (tex b) | USub a b => EB Bsub (tex a) (tex b) | UMul a b => EB Bmul (tex a) (tex b)
  | UCos a => EU Ucos (tex a) | USin a => EU Usin (tex a) | UExp a => EU Uexp (tex a)
  end.
Fixpoint dex (e : uexpr) : expr R :=
  match e with
  | UX => EConst 1
  | UAdd a b => EB Badd (dex a) (dex b) | USub a b => EB Bsub (dex a) (dex b)
  | UMul a b => EB Badd (EB Bmul (dex a) (tex b)) (EB Bmul (tex a) (dex b))
  | UCos a => EB Bmul (dex a) (EU Uneg (EU Usin (tex a))) | USin a => EB Bmul (dex a) (EU Ucos (tex a))
  | UExp a => EB Bmul (dex a) (EU Uexp (tex a))
  end.
Definition line (t : R) : nat -> R := fun _ => t.
Lemma tex_fn e q : rev (tex e) q = ufn e (q 0%nat).
Proof. induction e; cbn; rewrite ?IHe1, ?IHe2, ?IHe; reflexivity. Qed.
Definition dfn (e : uexpr) (t : R) : R := rev (dex e) (line t).
Lemma dex_fn e q : rev (dex e) q = dfn e (q 0%nat).
Proof. unfold dfn. induction e; cbn; rewrite ?tex_fn, ?IHe1, ?IHe2, ?IHe; reflexivity. Qed.
Lemma tex_ok e q : vars_below 1 (tex e) /\ dom (tex e) q.
Proof. induction e; cbn; intuition lia. Qed.
Lemma dex_ok e q : vars_below 1 (dex e) /\ dom (dex e) q.
Proof. induction e; cbn; repeat match goal with |- context [tex ?x] => match goal with H : vars_below 1 (tex x) /\ _ |- _ => fail 1 | _ => pose proof (tex_ok x q) end end; intuition lia. Qed.
Lemma ufn_derive e t : is_derive (ufn e) t (dfn e t).
Proof.
  induction e; unfold dfn in *; cbn [ufn dex rev breal ureal]; rewrite ?tex_fn; unfold line in *.
  - exact (is_derive_id (K := R_AbsRing) t).
  - apply (is_derive_plus (K := R_AbsRing) (V := R_NormedModule) (ufn e1) (ufn e2)); assumption.
  - apply (is_derive_minus (K := R_AbsRing) (V := R_NormedModule) (ufn e1) (ufn e2)); assumption.
  - apply (is_derive_mult (K := R_AbsRing) (ufn e1) (ufn e2)); [assumption..|]. intros; apply Rmult_comm.
  - apply (is_derive_comp (V := R_NormedModule) cos (ufn e)); [apply is_derive_cos|assumption].
  - apply (is_derive_comp (V := R_NormedModule) sin (ufn e)); [apply is_derive_sin|assumption].
  - apply (is_derive_comp (V := R_NormedModule) exp (ufn e)); [apply is_derive_exp|assumption].
Qed.
(** Derivatives of an expression in one variable that is defined everywhere. *)
Definition J1 (X : expr R) (t : R) : jet R := jev Rops (fun i => jvar Rops i (line t i)) X.
Lemma jets_line X (F : R -> R) : (forall q, vars_below 1 X /\ dom X q) -> (forall q, rev X q = F (q 0%nat)) ->
  forall t, jf (J1 X t) = F t /\ is_derive F t (jg (J1 X t) 0%nat) /\ is_derive (fun s => jg (J1 X s) 0%nat) t (jh (J1 X t) 0%nat 0%nat).
Proof.
  intros HX HF.
  assert (HD : forall t, jf (J1 X t) = F t /\ is_derive F t (jg (J1 X t) 0%nat)).
  { intros t. destruct (HX (line t)) as (V & D). destruct (point_derivs 1 X (line t) V D) as (A & B & _). fold (J1 X t) in A, B.
    split; [rewrite A; apply HF|]. specialize (B 0%nat ltac:(lia)). unfold partial in B. change (line t 0%nat) with t in B.
    eapply is_derive_ext; [|exact B]. intros s. cbn beta. rewrite HF. reflexivity. }
  intros t. split; [apply HD|]. split; [apply HD|].
  destruct (HX (line t)) as (V & D). destruct (point_derivs 1 X (line t) V D) as (_ & _ & C). fold (J1 X t) in C.
  destruct (C 0%nat 0%nat ltac:(lia) ltac:(lia)) as (D' & HL & HD'). change (line t 0%nat) with t in HD'. change (hess (J1 X t) 0 0) with (jh (J1 X t) 0%nat 0%nat) in HD'.
  eapply is_derive_ext_loc; [|exact HD']. change (line t 0%nat) with t in HL. revert HL. apply filter_imp. intros s A. unfold partial in A.
  pose proof (proj2 (HD s)) as B. apply is_derive_unique in B. rewrite <- B. symmetry. apply is_derive_unique.
  eapply is_derive_ext; [|exact A]. intros u. cbn beta. rewrite HF. reflexivity.
Qed.

Section One.
  Context (c : cfg) (Hc : cfg_ok c) (D : is_dynamic c = false) (SO : size_ok c 1) (k : string) (s : R).
  Definition at1 (X : expr R) (v : dd R) : Prop := rep c 1 (J1 X s) v.
  Definition single (X Y : expr R) (r : ss (dd R)) : Prop := at1 X (s_f r) /\ exists d, s_d r = [(k, d)] /\ at1 Y d.
  Lemma at1_u u X v : at1 X v -> exists r, apply_u Rops c u v = Ok r /\ at1 (EU u X) r.
  Proof. intros H. exact (apply_u_rep Rops c Hc 1 _ v u H). Qed.
  Lemma at1_b b X Y v w : at1 X v -> at1 Y w -> exists r, apply_b Rops c b v w = Ok r /\ at1 (EB b X Y) r.
  Proof. intros H H'. exact (apply_b_rep Rops c Hc 1 _ _ v w b H H'). Qed.
  Ltac jets := unfold J1; cbn [jev]; repeat match goal with |- context [jev Rops ?f ?e] => let J := fresh in set (J := jev Rops f e); clearbody J end;
    split; [|split; [intros i Hi|intros Ho i j Hi]]; cbn; try ring.
  Lemma at1_mul_assign X Y v w : at1 X v -> at1 Y w -> exists r, mul_assign Rops c v (Some w) = Ok r /\ at1 (EB Bmul X Y) r.
  Proof.
    intros H H'. destruct (mul_assign_rep Rops c 1 _ _ v w H H') as (r & E & R). exists r. split; [exact E|].
    eapply rep_jeq; [|exact R]. jets.
  Qed.
  Lemma at1_add_assign X Y v w : at1 X v -> at1 Y w -> exists r, add_assign Rops c v (Some w) = Ok r /\ at1 (EB Badd X Y) r.
  Proof.
    intros H H'. destruct (add_assign_rep Rops c 1 _ _ v w H H') as (r & E & R). exists r. split; [exact E|].
    eapply rep_jeq; [|exact R]. jets.
  Qed.
  Lemma at1_one X v : at1 X v -> exists r, times_assign Rops c v (FInt 1) = Ok r /\ at1 X r.
  Proof.
    intros H. destruct (muls_assign_rep Rops c 1 _ v (IZR 1) H) as (r & E & R). exists r. split; [exact E|].
    eapply rep_jeq; [|exact R]. jets.
  Qed.
  Lemma at1_plus X Y v w : at1 X v -> at1 Y w -> exists u r, times Rops c (FInt 1) w = Ok u /\ add_assign Rops c v (Some u) = Ok r /\ at1 (EB Badd X Y) r.
  Proof.
    intros H H'. destruct (muls_rep Rops c 1 _ w (IZR 1) H') as (u & E & R). 
    destruct (add_assign_rep Rops c 1 _ _ v u H R) as (r & E' & R'). exists u, r. split; [exact E|]. split; [exact E'|].
    eapply rep_jeq; [|exact R']. jets.
  Qed.
  Lemma at1_minus X Y v w : at1 X v -> at1 Y w -> exists u r, times Rops c (FInt (-1)) w = Ok u /\ add_assign Rops c v (Some u) = Ok r /\ at1 (EB Bsub X Y) r.
  Proof.
    intros H H'. destruct (muls_rep Rops c 1 _ w (IZR (-1)) H') as (u & E & R). 
    destruct (add_assign_rep Rops c 1 _ _ v u H R) as (r & E' & R'). exists u, r. split; [exact E|]. split; [exact E'|].
    eapply rep_jeq; [|exact R']. jets.
  Qed.
  Lemma single_run x e : single (EVar 0) (EConst 1) x -> exists r, urun Rops c x e = Ok r /\ single (tex e) (dex e) r.
  Proof.
    intros HX. induction e as [|a (u & EU1 & FA & da & EA & GA) b (v & EV1 & FB & db & EB1 & GB)|a (u & EU1 & FA & da & EA & GA) b (v & EV1 & FB & db & EB1 & GB)
      |a (u & EU1 & FA & da & EA & GA) b (v & EV1 & FB & db & EB1 & GB)|a (u & EU1 & FA & da & EA & GA)|a (u & EU1 & FA & da & EA & GA)|a (u & EU1 & FA & da & EA & GA)];
      cbn [urun tex dex].
    - exists x. split; [reflexivity|exact HX].
    - rewrite EU1, EV1. cbn [bind]. unfold ns_add, ns_binary. destruct (at1_b Badd _ _ _ _ FA FB) as (f & E & H). cbn [apply_b] in E. rewrite E.
      cbn [bind]. rewrite EA, EB1. cbn [ns_map ns_merge ns_update]. destruct (at1_one _ _ GA) as (d1 & E1 & H1). rewrite E1. cbn [bind ns_update].
      rewrite String.eqb_refl. destruct (at1_plus _ _ _ _ H1 GB) as (w & d2 & E2 & E3 & H2). rewrite E2. cbn [bind]. rewrite E3. cbn [bind].
      eexists. split; [reflexivity|]. split; [exact H|]. exists d2. split; [reflexivity|exact H2].
    - rewrite EU1, EV1. cbn [bind]. unfold ns_sub, ns_binary. destruct (at1_b Bsub _ _ _ _ FA FB) as (f & E & H). cbn [apply_b] in E. rewrite E.
      cbn [bind]. rewrite EA, EB1. cbn [ns_map ns_merge ns_update]. destruct (at1_one _ _ GA) as (d1 & E1 & H1). rewrite E1. cbn [bind ns_update].
      rewrite String.eqb_refl. destruct (at1_minus _ _ _ _ H1 GB) as (w & d2 & E2 & E3 & H2). rewrite E2. cbn [bind]. rewrite E3. cbn [bind].
      eexists. split; [reflexivity|]. split; [exact H|]. exists d2. split; [reflexivity|exact H2].
    - rewrite EU1, EV1. cbn [bind]. unfold ns_mul, ns_binary. destruct (at1_b Bmul _ _ _ _ FA FB) as (f & E & H). cbn [apply_b] in E. rewrite E.
      cbn [bind]. rewrite EA, EB1. cbn [ns_map ns_merge ns_update times_assign times]. destruct (at1_mul_assign _ _ _ _ GA FB) as (d1 & E1 & H1). rewrite E1. cbn [bind ns_update].
      rewrite String.eqb_refl. destruct (at1_b Bmul _ _ _ _ FA GB) as (w & E2 & H2). cbn [apply_b] in E2. rewrite E2. cbn [bind].
      destruct (at1_add_assign _ _ _ _ H1 H2) as (d3 & E3 & H3). rewrite E3. cbn [bind].
      eexists. split; [reflexivity|]. split; [exact H|]. exists d3. split; [reflexivity|exact H3].
    - rewrite EU1. cbn [bind]. unfold ns_cos, ns_unary. destruct (at1_u Ucos _ _ FA) as (f & -> & H). destruct (at1_u Usin _ _ FA) as (g & -> & H').
      cbn [bind]. destruct (at1_u Uneg _ _ H') as (g' & E & H2). cbn [apply_u] in E. rewrite E, EA. cbn [bind ns_map times_assign].
      destruct (at1_mul_assign _ _ _ _ GA H2) as (d1 & -> & H1). cbn [bind]. eexists. split; [reflexivity|]. split; [exact H|]. exists d1. split; [reflexivity|exact H1].
    - rewrite EU1. cbn [bind]. unfold ns_sin, ns_unary. destruct (at1_u Usin _ _ FA) as (f & -> & H). destruct (at1_u Ucos _ _ FA) as (g & -> & H').
      rewrite EA. cbn [bind ns_map times_assign].
      destruct (at1_mul_assign _ _ _ _ GA H') as (d1 & -> & H1). cbn [bind]. eexists. split; [reflexivity|]. split; [exact H|]. exists d1. split; [reflexivity|exact H1].
    - rewrite EU1. cbn [bind]. unfold ns_exp, ns_unary. destruct (at1_u Uexp _ _ FA) as (f & -> & H).
      rewrite EA. cbn [bind ns_map times_assign].
      destruct (at1_mul_assign _ _ _ _ GA H) as (d1 & -> & H1). cbn [bind]. eexists. split; [reflexivity|]. split; [exact H|]. exists d1. split; [reflexivity|exact H1].
  Qed.
  Lemma single_variable : exists x, uvariable Rops c k s = Ok x /\ single (EVar 0) (EConst 1) x.
  Proof.
    assert (EN : default_size c = 1%nat). { unfold default_size. rewrite D, (proj1 SO D). apply Nat2Z.id. }
    unfold uvariable, ns_variable.
    destruct (variable_rep Rops c 0 s) as (v & E & R); [rewrite EN; exact SO|rewrite EN; lia|]. rewrite EN in R. change (Z.of_nat 0) with 0%Z in E. rewrite E. cbn [bind].
    destruct (ctor_scalar_static Rops c 1 Hc D) as (r & E' & SH & _); [rewrite EN; exact SO|]. rewrite EN in SH.
    change (o_Z Rops 1) with 1. rewrite E'. cbn [bind]. eexists. split; [reflexivity|]. split; [exact R|]. exists r. split; [reflexivity|].
    exact (shows_rep _ _ _ _ _ _ Hc SH).
  Qed.
End One.

Lemma one_name c k s e : inner 1 c -> exists (r : ss (dd R)) (d : dd R) (D1 D2 D3 : R -> R),
  uevaluate Rops c k s e = Ok r /\ s_d r = [(k, d)] /\
  (forall t, is_derive (ufn e) t (D1 t)) /\ (forall t, is_derive D1 t (D2 t)) /\ (forall t, is_derive D2 t (D3 t)) /\
  shows c 1 (s_f r) (ufn e s) (fun _ => D1 s) (fun _ _ => D2 s) /\ shows c 1 d (D1 s) (fun _ => D2 s) (fun _ _ => D3 s).
Proof.
  intros (Hc & D & SO). destruct (single_variable c Hc D SO k s) as (x & E & HX).
  destruct (single_run c Hc k s x e HX) as (r & E' & HF & d & Ed & Hd).
  pose proof (jets_line (tex e) (ufn e) (tex_ok e) (tex_fn e)) as HT.
  pose proof (jets_line (dex e) (dfn e) (dex_ok e) (dex_fn e)) as HD.
  exists r, d, (dfn e), (fun t => jg (J1 (dex e) t) 0%nat), (fun t => jh (J1 (dex e) t) 0%nat 0%nat).
  assert (A1 : forall t, jg (J1 (tex e) t) 0%nat = dfn e t).
  { intros t. destruct (HT t) as (_ & A & _). apply is_derive_unique in A. pose proof (ufn_derive e t) as B. apply is_derive_unique in B. congruence. }
  assert (A2 : jh (J1 (tex e) s) 0%nat 0%nat = jg (J1 (dex e) s) 0%nat).
  { destruct (HT s) as (_ & _ & A). destruct (HD s) as (_ & B & _). apply is_derive_unique in A, B. rewrite <- A, <- B. apply Derive_ext, A1. }
  split; [unfold uevaluate; rewrite E; exact E'|]. split; [exact Ed|]. split; [intros t; apply ufn_derive|]. split; [intros t; apply HD|]. split; [intros t; apply HD|].
  unfold at1 in HF, Hd. apply rep_shows in HF, Hd. split.
  - destruct HF as (W & F0 & F1 & F2). split; [exact W|]. rewrite (proj1 (HT s)) in F0. split; [exact F0|]. split.
    + intros i Hi. rewrite (F1 i Hi). assert (i = 0%nat) by lia. subst i. rewrite A1. reflexivity.
    + intros Ho i j Hi Hj. rewrite (F2 Ho i j Hi Hj). assert (i = 0%nat) by lia. assert (j = 0%nat) by lia. subst i j. rewrite <- A2. reflexivity.
  - destruct Hd as (W & F0 & F1 & F2). split; [exact W|]. rewrite (proj1 (HD s)) in F0. split; [exact F0|]. split.
    + intros i Hi. rewrite (F1 i Hi). assert (i = 0%nat) by lia. subst i. reflexivity.
    + intros Ho i j Hi Hj. rewrite (F2 Ho i j Hi Hj). assert (i = 0%nat) by lia. assert (j = 0%nat) by lia. subst i j. reflexivity.
Qed.

Lemma merge_safe {S} (O : Ops S) c n g t b : (forall w, wf c n w -> safe c n (fun o => g o w)) -> wfs c n t -> wfs c n b ->
  (forall k, In k (map fst b) -> In k (map fst t)) -> exists t', ns_merge O c g t b = Ok t' /\ wfs c n t' /\ map fst t' = map fst t.
Proof.
  intros Hg. revert t. induction b as [|(k, v) b IH]; intros t Wt Wb HI; cbn [ns_merge map fst In] in *.
  - exists t. auto.
  - inversion Wb as [|? ? Hv Hb]; subst. cbn in Hv.
    destruct (update_safe O c n (fun o => g o v) t k (Hg v Hv) Wt (HI k (or_introl eq_refl))) as (t' & -> & Wt' & E). cbn [bind].
    destruct (IH t' Wt' Hb) as (t2 & -> & W2 & E2); [intros k' H'; rewrite E; apply HI; auto|]. exists t2. split; [reflexivity|]. split; [exact W2|congruence].
Qed.
Lemma binary_safe {S} (O : Ops S) c n a b da db : cfg_ok c -> fac_ok c n da -> fac_ok c n db -> wfs c n a -> wfs c n b ->
  (forall k, In k (map fst b) -> In k (map fst a)) -> exists t, ns_binary O c a b da db = Ok t /\ wfs c n t /\ map fst t = map fst a.
Proof.
  intros Hc Fa Fb Wa Wb HK. unfold ns_binary. destruct (map_safe c n _ a (times_assign_safe O c n da Fa) Wa) as (r & -> & Wr & E). cbn [bind].
  destruct (merge_safe O c n (fun o v => w <- times O c db v ;; add_assign O c o (Some w)) r b) as (t & Et & Wt & E2); [|exact Wr|exact Wb|rewrite E; exact HK|].
  - intros w W v Wv. destruct (times_safe O c Hc n db Fb w W) as (u & -> & Wu). cbn [bind]. apply (add_assign_safe O c n u Wu v Wv).
  - exists t. split; [exact Et|]. split; [exact Wt|congruence].
Qed.
Lemma known_names {S} (O : Ops S) c n (a b : ss (dd S)) : cfg_ok c -> sized c n a -> sized c n b -> ~ new_name a b ->
  goes c n a (ns_add O c a b) /\ goes c n a (ns_sub O c a b) /\ goes c n a (ns_mul O c a b) /\
  goes c n a (ns_add_assign O c a b) /\ goes c n a (ns_sub_assign O c a b) /\ goes c n a (ns_mul_assign O c a b).
Proof.
  intros Hc (Wa & Ha) (Wb & Hb) HN.
  assert (HK : forall k, In k (map fst (s_d b)) -> In k (map fst (s_d a))).
  { intros k Hk. destruct (in_dec string_dec k (map fst (s_d a))) as [H|H]; [exact H|]. destruct HN. exists k. auto. }
  destruct (wf_rep _ _ _ Wa) as (J & RJ), (wf_rep _ _ _ Wb) as (K & RK).
  destruct (apply_b_rep O c Hc n J K _ _ Badd RJ RK) as (r1 & E1 & R1).
  destruct (apply_b_rep O c Hc n J K _ _ Bsub RJ RK) as (r2 & E2 & R2).
  destruct (apply_b_rep O c Hc n J K _ _ Bmul RJ RK) as (r3 & E3 & R3).
  destruct (add_assign_rep O c n J K _ _ RJ RK) as (r4 & E4 & R4).
  destruct (sub_assign_rep O c n J K _ _ RJ RK) as (r5 & E5 & R5).
  destruct (mul_assign_rep O c n J K _ _ RJ RK) as (r6 & E6 & R6).
  cbn [apply_b] in E1, E2, E3.
  unfold ns_add, ns_sub, ns_mul, ns_add_assign, ns_sub_assign, ns_mul_assign.
  rewrite E1, E2, E3, E4, E5, E6. cbn [bind].
  assert (F : forall f d, rep c n f d -> forall m : res (table (dd S)), (exists t, m = Ok t /\ wfs c n t /\ map fst t = map fst (s_d a)) -> goes c n a (t <- m ;; Ok (mks d t))).
  { intros f d R m (t & -> & Wt & E). exists (mks d t). cbn [bind]. split; [reflexivity|]. split; [split; [eapply rep_wf, R|exact Wt]|exact E]. }
  repeat match goal with |- _ /\ _ => split end; (eapply F; [eassumption|]); try (apply binary_safe; cbn; auto; fail).
  - apply merge_safe; auto. intros w W. apply add_assign_safe, W.
  - apply merge_safe; auto. intros w W. apply sub_assign_safe, W.
Qed.

(** x and y with inner first-order numbers of static size 2 hold different names. *)
Lemma two_variables {S} (O : Ops S) (a b : S) : exists x y, ns_variable O (sta1 2) "x" (mk 2 [Some a; Some (o_Z O 1); Some (o_Z O 0)]) = Ok x /\
  ns_variable O (sta1 2) "y" (mk 2 [Some b; Some (o_Z O 0); Some (o_Z O 1)]) = Ok y /\ sized (sta1 2) 2 x /\ sized (sta1 2) 2 y /\ new_name x y /\
  ns_add O (sta1 2) x y = UB /\ ns_mul O (sta1 2) y x = UB.
Proof.
  do 2 eexists. split; [reflexivity|]. split; [reflexivity|].
  assert (W : forall u v w : S, wf (sta1 2) 2 (mk 2 [Some u; Some v; Some w])).
  { intros. repeat split; try (vm_compute; congruence). intros [|[|[|k]]] Hk; cbn in *; eauto; lia. }
  split; [split; [apply W|repeat constructor; apply W]|]. split; [split; [apply W|repeat constructor; apply W]|].
  split; [exists "y"%string; cbn; intuition discriminate|]. split; reflexivity.
Qed.
