(** Facts about programs: truncation to first order, static against dynamic, frames, derivatives. *)
From Coq Require Import ZArith List Bool Reals Lra Lia.
From Coquelicot Require Import Coquelicot.
From Verif Require Import Outcome Scalar Model Spec Core Kernels OpsRep AccRep PadRep RealOps Deriv UDeriv BDeriv
  FactsLayout FactsCtor FactsOps ExprSpec Expr Struct FactsExpr Chain FactsReal Cont ProgSpec Prog.
Import ListNotations.

(** ** truncation and storage kinds *)
Lemma Forall2_imp {A B} (P Q : A -> B -> Prop) l l' : (forall x y, P x y -> Q x y) -> Forall2 P l l' -> Forall2 Q l l'.
Proof. intros H F. induction F; constructor; auto. Qed.

Section TwoConfigs.
  Context {S : Type} (O : Ops S) (c c' : cfg) (n : nat) (ord : Z).
  Hypotheses (Hc : cfg_ok c) (Hc' : cfg_ok c') (SO : size_ok c n) (SO' : size_ok c' n).
  Definition linked (x y : dd S) : Prop := exists J K, rep c n J x /\ rep c' n K y /\ jeq ord n J K.
  Lemma linked_jets xs ys : Forall2 linked xs ys ->
    exists js ks, Forall2 (rep c n) js xs /\ Forall2 (rep c' n) ks ys /\ Forall2 (jeq ord n) js ks.
  Proof.
    intros H. induction H as [|x y xs ys (J & K & R & R' & E) H IH].
    - exists [], []. repeat split; constructor.
    - destruct IH as (js & ks & A & B & D). exists (J :: js), (K :: ks). repeat split; constructor; assumption.
  Qed.
  Lemma jets_linked js ks xs ys : Forall2 (rep c n) js xs -> Forall2 (rep c' n) ks ys -> Forall2 (jeq ord n) js ks ->
    Forall2 linked xs ys.
  Proof.
    intros H. revert ks ys. induction H as [|J x js xs R H IH]; intros ks ys H' E; inversion E; subst; inversion H'; subst; constructor.
    - exists J, y. auto.
    - eapply IH; eassumption.
  Qed.
  Lemma exec_linked fuel s xs ys : regs_below (length xs) s -> Forall2 linked xs ys ->
    both linked (exec O c n fuel s xs) (exec O c' n fuel s ys).
  Proof.
    intros B H. destruct (linked_jets xs ys H) as (js & ks & A & A' & E).
    pose proof (exec_ok O c n Hc SO fuel s js xs A ltac:(rewrite (Forall2_len _ _ _ A); exact B)) as M.
    pose proof (exec_ok O c' n Hc' SO' fuel s ks ys A'
      ltac:(rewrite <- (Forall2_len _ _ _ E), (Forall2_len _ _ _ A); exact B)) as M'.
    pose proof (jexec_cong O ord n fuel s js ks E) as C.
    destruct (jexec O fuel s js) as [js1|], (jexec O fuel s ks) as [ks1|]; try contradiction.
    - destruct M as (st & -> & R). destruct M' as (st' & -> & R'). cbn [both]. eapply jets_linked; eassumption.
    - rewrite M, M'. exact I.
  Qed.
End TwoConfigs.

Lemma both_imp {S} (P Q : dd S -> dd S -> Prop) m m' : (forall x y, P x y -> Q x y) -> both P m m' -> both Q m m'.
Proof.
  intros H. destruct m as [[st|e| |]|], m' as [[st'|e'| |]|]; cbn [both]; auto. apply Forall2_imp, H.
Qed.

Lemma truncation {S} (O : Ops S) c c' n fuel s xs ys : cfg_ok c -> cfg_ok c' -> c_ord c = 1%Z -> c_ord c' = 2%Z ->
  size_ok c n -> size_ok c' n -> regs_below (length xs) s -> Forall2 (truncates c c' n) xs ys ->
  both (truncates c c' n) (exec O c n fuel s xs) (exec O c' n fuel s ys).
Proof.
  intros Hc Hc' Ho Ho' SO SO' B H.
  apply (both_imp (linked c c' n 1)).
  - intros x y (J & K & R & R' & E & G & _).
    exists (jf J), (jg J), (hess K), (hess J). split; [apply rep_shows, R|].
    eapply shows_ext; [apply rep_shows, R'|auto| |auto]. intros i Hi. symmetry. apply G, Hi.
  - apply exec_linked; [assumption..|]. eapply Forall2_imp; [|exact H]. intros x y (f & g & h & h' & A & A').
    exists (mkjet f g h'), (mkjet f g h). split; [apply shows_rep; assumption|]. split; [apply shows_rep; assumption|].
    split; [reflexivity|]. split; [reflexivity|]. congruence.
Qed.

Lemma static_dynamic {S} (O : Ops S) c c' n fuel s xs ys : cfg_ok c -> cfg_ok c' -> c_ord c = c_ord c' ->
  size_ok c n -> size_ok c' n -> regs_below (length xs) s -> Forall2 (same_data c c' n) xs ys ->
  both (same_data c c' n) (exec O c n fuel s xs) (exec O c' n fuel s ys).
Proof.
  intros Hc Hc' Ho SO SO' B H.
  apply (both_imp (linked c c' n (c_ord c))).
  - intros x y (J & K & R & R' & E). split; [eapply rep_wf, R|]. split; [eapply rep_wf, R'|].
    destruct R as (_ & -> & _). destruct R' as (_ & -> & _). rewrite <- Ho. f_equal. apply enc_ext, E.
  - apply exec_linked; [assumption..|]. eapply Forall2_imp; [|exact H]. intros x y (W & W' & E).
    destruct (wf_rep _ _ _ W) as (J & R). exists J, J. split; [exact R|]. split; [|apply jeq_refl].
    destruct W' as (SZ & _ & _ & L). split; [exact SZ|]. split; [|exact L]. rewrite <- E, <- Ho. apply R.
Qed.

(** ** frames: what is not assigned is not changed *)
Lemma bind_ok_inv {A B} (m : res A) (f : A -> res B) r : bind m f = Ok r -> exists a, m = Ok a /\ f a = Ok r.
Proof. destruct m; cbn; intros H; try discriminate. eauto. Qed.
Lemma write_frame {S} (st st' : list (dd S)) q m r : write st q m = Ok st' -> q <> r -> nth_error st' r = nth_error st r.
Proof.
  unfold write. intros H N. apply bind_ok_inv in H as (x & _ & H). apply bind_ok_inv in H as (y & _ & H).
  injection H as <-. apply put_other. congruence.
Qed.
Lemma exec_frame {S} (O : Ops S) c n r fuel : forall s st st', no_write r s ->
  exec O c n fuel s st = Some (Ok st') -> nth_error st' r = nth_error st r.
Proof.
  induction fuel as [|k IH]; intros s st st' N H; [discriminate|]. cbn [exec] in H.
  destruct s; cbn [no_write step] in *;
    try (injection H as H; apply (write_frame _ _ _ _ _ H); assumption); try (injection H as <-; reflexivity).
  - destruct N as (N1 & N2). destruct (exec O c n k s1 st) as [[st1| | |]|] eqn:E; try discriminate.
    rewrite (IH _ _ _ N2 H). apply (IH _ _ _ N1 E).
  - destruct N as (N1 & N2). destruct (test O k0 st) as [[|]| | |]; try discriminate; eapply IH; [|exact H| |exact H]; assumption.
  - destruct (test O k0 st) as [[|]| | |]; try discriminate; [|injection H as <-; reflexivity].
    destruct (exec O c n k s st) as [[st1| | |]|] eqn:E; try discriminate.
    rewrite (IH (PWhile k0 s) _ _ N H). apply (IH _ _ _ N E).
Qed.
Lemma copies_independent {S} (O : Ops S) c n fuel s (st st' : list (dd S)) r a x :
  nth_error st a = Some x -> r <> a -> exec O c n fuel (PSeq (PMov r a) s) st = Some (Ok st') ->
  (no_write r s -> nth_error st' r = Some x) /\ (no_write a s -> nth_error st' a = Some x).
Proof.
  intros E N H. destruct fuel as [|k]; [discriminate|]. cbn [exec] in H.
  destruct (exec O c n k (PMov r a) st) as [[st1| | |]|] eqn:E1; try discriminate.
  assert (W : write st r (get st a) = Ok st1) by (destruct k; [discriminate|]; cbn [exec step] in E1; congruence).
  unfold write in W. apply bind_ok_inv in W as (y & Gy & W). unfold get in W at 1. rewrite E in W. cbn [bind] in W.
  injection W as <-.
  assert (Hr : (r < length st)%nat).
  { apply nth_error_Some. unfold get in Gy. destruct (nth_error st r); congruence. }
  split; intros NW; rewrite (exec_frame O c n _ k s _ _ NW H).
  - apply put_same, Hr.
  - rewrite put_other by congruence. exact E.
Qed.

(** ** derivatives of programs *)
Open Scope R_scope.
Lemma reg_map (f : expr R -> R) es a : (a < length es)%nat -> reg (map f es) a = f (nth a es (EConst 0)).
Proof.
  intros H. unfold reg. rewrite (nth_indep _ 0 (f (EConst 0))) by (rewrite map_length; exact H). apply map_nth.
Qed.
Definition ereg (es : list (expr R)) a : expr R := nth a es (EConst 0).

(** The expression assigned by a basic statement. *)
Definition assigned (es : list (expr R)) (s : stmt R) : option (nat * expr R) :=
  match s with
  | PConst r k => Some (r, EConst k)
  | PMov r a => Some (r, ereg es a)
  | PU r u a => Some (r, EU u (ereg es a))
  | PB r b a1 a2 => Some (r, EB b (ereg es a1) (ereg es a2))
  | PH r a1 a2 a3 => Some (r, EH (ereg es a1) (ereg es a2) (ereg es a3))
  | PAsg o r a => Some (r, EB (match o with Aadd => Badd | Asub => Bsub | Amul => Bmul | Adiv => Bdiv end) (ereg es r) (ereg es a))
  | PAsgS o r k => Some (r, EU (match o with Aadd => Uadds k | Asub => Usubs k | Amul => Umuls k | Adiv => Udivs k end) (ereg es r))
  | _ => None
  end.
Definition sstep (s : stmt R) (es : list (expr R)) : list (expr R) :=
  match assigned es s with Some (r, e) => put es r e | None => es end.

Section Sym.
  Context (n : nat) (p : nat -> R).
  Definition good (es : list (expr R)) : Prop := List.Forall (vars_below n) es /\ List.Forall (fun e => dom e p) es.
  Definition vals (es : list (expr R)) (q : nat -> R) : list R := map (fun e => rev e q) es.

  Lemma good_reg es a : good es -> (a < length es)%nat -> vars_below n (ereg es a) /\ dom (ereg es a) p.
  Proof. intros (A & B) Ha. split; [apply (Forall_nth _ _ _ _ A Ha)|apply (Forall_nth _ _ _ _ B Ha)]. Qed.

  Lemma sstep_vals s es q : regs_below (length es) s -> rstep s (vals es q) = vals (sstep s es) q.
  Proof.
    intros B. unfold sstep, vals. destruct s; cbn [rstep assigned regs_below] in *; try reflexivity;
      rewrite put_map; f_equal; rewrite ?reg_map by tauto; try reflexivity; destruct o; reflexivity.
  Qed.
  Lemma sstep_good s es : good es -> regs_below (length es) s -> safe_step s (vals es p) -> good (sstep s es).
  Proof.
    intros G B SF. unfold sstep.
    assert (GR : forall a, (a < length es)%nat -> vars_below n (ereg es a) /\ dom (ereg es a) p) by (intros a; apply good_reg, G).
    assert (RV : forall a, (a < length es)%nat -> reg (vals es p) a = rev (ereg es a) p) by (intros a; apply reg_map).
    destruct (assigned es s) as [[r e]|] eqn:A; [|exact G].
    assert (HE : vars_below n e /\ dom e p).
    { destruct s; cbn [assigned regs_below safe_step] in *; try discriminate; injection A as <- <-; cbn [vars_below dom];
        rewrite ?RV in SF by tauto.
      - tauto.
      - apply GR; tauto.
      - pose proof (GR a). tauto.
      - pose proof (GR a1). pose proof (GR a2). tauto.
      - pose proof (GR a1). pose proof (GR a2). pose proof (GR a3). tauto.
      - pose proof (GR r0). pose proof (GR a). destruct o; cbn [bdom]; rewrite ?RV in SF by tauto; tauto.
      - pose proof (GR r0). destruct o; cbn [udom]; tauto. }
    destruct G as (G1 & G2). split; apply put_Forall; tauto.
  Qed.

  (** Jets holding the expressions' results. *)
  Definition holds (env : nat -> jet R) (es : list (expr R)) (js : list (jet R)) : Prop :=
    Forall2 (fun e J => jeq 2 n (jev Rops env e) J) es js.
  Lemma holds_reg env es js a : holds env es js -> (a < length es)%nat -> jeq 2 n (jev Rops env (ereg es a)) (jreg Rops js a).
  Proof. intros H Ha. apply (Forall2_nth _ _ _ _ _ _ H Ha). Qed.

  Lemma sstep_holds env s es js : (forall i, jf (env i) = p i) -> good es -> regs_below (length es) s ->
    safe_step s (vals es p) -> holds env es js -> holds env (sstep s es) (jstep Rops s js).
  Proof.
    intros HE G B SF H. unfold sstep.
    assert (GR : forall a, (a < length es)%nat -> jeq 2 n (jev Rops env (ereg es a)) (jreg Rops js a)) by (intros a; apply holds_reg, H).
    assert (RV : forall a, (a < length es)%nat -> reg (vals es p) a = rev (ereg es a) p) by (intros a; apply reg_map).
    destruct s; cbn [assigned jstep regs_below safe_step] in *; try exact H; apply put_Forall2; try exact H; cbn [jev].
    - apply jeq_refl.
    - apply GR; tauto.
    - apply jap_u_cong, GR; tauto.
    - apply jap_b_cong; apply GR; tauto.
    - apply jap_h_cong; apply GR; tauto.
    - destruct B as (Br & Ba). pose proof (GR r Br) as Jr. pose proof (GR a Ba) as Ja.
      eapply jeq_trans; [apply jap_b_cong; [exact Jr|exact Ja]|].
      destruct (Nat.eqb_spec a r) as [->|Nr].
      + destruct o; cbn [jassign].
        * split; [reflexivity|]. split; reflexivity.
        * split; [reflexivity|]. split; intros; cbn; unfold Rminus; reflexivity.
        * congruence.
        * rewrite RV in SF by exact Br. assert (NZ : jf (jreg Rops js r) <> 0).
          { rewrite <- (jeq_f 2 n _ _ Jr), (jev_f env p (ereg es r) HE (proj2 (good_reg es r G Br))). exact SF. }
          unfold k_div_assign, jb_self, jap_b, k_b, k_div, jb6.
          split; [rcbn; unfold Rdiv; ring|]. split; intros; rcbn; rewrite !Rpow_std_2, ?Rpow_std_3; field; exact NZ.
      + destruct o; cbn [jassign].
        * split; [reflexivity|]. split; reflexivity.
        * split; [reflexivity|]. split; intros; cbn; unfold Rminus; reflexivity.
        * unfold jap_b, k_b, k_mul, jmul_assign, jb6. split; [reflexivity|]. split; intros; rcbn; ring.
        * unfold jap_b, k_b, k_div, k_div_assign, jb6. split; [rcbn; unfold Rdiv; ring|]. split; intros; rcbn; reflexivity.
    - pose proof (GR r B) as Jr. eapply jeq_trans; [apply jap_u_cong, Jr|]. destruct o; cbn [jap_u jassign_s]; apply jeq_refl.
  Qed.

  Lemma rcmp_scmp o x y : rcmp o x y = scmp Rops o x y.
  Proof.
    destruct o; cbn [rcmp scmp o_eq o_lt o_le Rops]; unfold Reqb, Rltb, Rleb; try reflexivity.
    - destruct (Req_EM_T x y); reflexivity.
    - destruct (Rgt_dec x y), (Rlt_dec y x); try reflexivity; lra.
    - destruct (Rge_dec x y), (Rle_dec y x); try reflexivity; lra.
  Qed.
  Lemma rcmp_mirror o x y : rcmp o x y = scmp Rops (mirror o) y x.
  Proof.
    rewrite rcmp_scmp. destruct o; cbn [scmp mirror o_eq o_lt o_le Rops]; try reflexivity; unfold Reqb;
      destruct (Req_EM_T x y), (Req_EM_T y x); try reflexivity; congruence.
  Qed.
  Lemma rtest_jtest env k es js : (forall i, jf (env i) = p i) -> good es -> cond_below (length es) k -> holds env es js ->
    rtest k (vals es p) = jtest Rops k js.
  Proof.
    intros HE G B H.
    assert (RJ : forall a, (a < length es)%nat -> reg (vals es p) a = jf (jreg Rops js a)).
    { intros a Ha. unfold vals. rewrite reg_map by exact Ha. rewrite <- (jeq_f 2 n _ _ (holds_reg env es js a H Ha)).
      symmetry. apply jev_f; [exact HE|]. apply (good_reg es a G Ha). }
    unfold rtest. destruct k; cbn [cond_op sides fst snd jtest cond_below] in *; rewrite ?RJ by tauto.
    - apply rcmp_scmp.
    - apply rcmp_scmp.
    - apply rcmp_mirror.
  Qed.

  Lemma rcmp_near (F G : (nat -> R) -> R) o : cont n p F -> cont n p G -> F p <> G p ->
    near n p (fun q => rcmp o (F q) (G q) = rcmp o (F p) (G p)).
  Proof.
    intros HF HG N. destruct (Rlt_dec (F p) (G p)) as [L|L].
    - pose proof (cont_near n p _ (fun t => t < 0) (cont_minus n p F G HF HG) open_neg ltac:(cbn; lra)) as H.
      revert H. apply near_imp. intros q Hq. cbn in Hq.
      destruct o; cbn [rcmp];
        repeat match goal with |- context [if ?d then _ else _] => destruct d; try lra; try reflexivity end.
    - assert (L' : F p > G p) by (destruct (Rtotal_order (F p) (G p)) as [?|[?|?]]; [contradiction|contradiction|assumption]).
      pose proof (cont_near n p _ (fun t => 0 < t) (cont_minus n p F G HF HG) open_pos ltac:(cbn; lra)) as H.
      revert H. apply near_imp. intros q Hq. cbn in Hq.
      destruct o; cbn [rcmp];
        repeat match goal with |- context [if ?d then _ else _] => destruct d; try lra; try reflexivity end.
  Qed.
  Lemma rtest_near k es : good es -> cond_below (length es) k ->
    fst (sides k (vals es p)) <> snd (sides k (vals es p)) ->
    near n p (fun q => rtest k (vals es q) = rtest k (vals es p)).
  Proof.
    intros G B N.
    assert (C : forall a, (a < length es)%nat -> cont n p (fun q => reg (vals es q) a)).
    { intros a Ha. destruct (good_reg es a G Ha) as (V & D).
      apply (cont_ext_near n p (rev (ereg es a))); [|apply rev_cont; assumption].
      apply near_true. intros q. unfold vals. rewrite reg_map by exact Ha. reflexivity. }
    unfold rtest. destruct k; cbn [cond_op sides fst snd cond_below] in *.
    - apply (rcmp_near (fun q => reg (vals es q) a) (fun q => reg (vals es q) b)); [apply C; tauto..|exact N].
    - apply (rcmp_near (fun q => reg (vals es q) a) (fun q => s)); [apply C; tauto|apply cont_const|exact N].
    - apply (rcmp_near (fun q => s) (fun q => reg (vals es q) a)); [apply cont_const|apply C; tauto|exact N].
  Qed.

  (** The state after the run: the same expressions for the values here, for the values nearby and for
      the jets. *)
  Definition follows fuel s es es' : Prop :=
    length es' = length es /\ good es' /\
    near n p (fun q => rexec fuel s (vals es q) = Some (vals es' q)) /\
    (forall env js, (forall i, jf (env i) = p i) -> holds env es js ->
       exists js', jexec Rops fuel s js = Some js' /\ holds env es' js').

  Lemma sym fuel : forall s es v, good es -> regs_below (length es) s -> safe fuel s (vals es p) ->
    rexec fuel s (vals es p) = Some v -> exists es', v = vals es' p /\ follows fuel s es es'.
  Proof.
    induction fuel as [|k IH]; intros s es v G B SF E; [discriminate|].
    assert (BASIC : forall s, rexec (Datatypes.S k) s (vals es p) = Some v -> regs_below (length es) s ->
      safe_step s (vals es p) -> (forall v, rexec (Datatypes.S k) s v = Some (rstep s v)) ->
      (forall js, jexec Rops (Datatypes.S k) s js = Some (jstep Rops s js)) ->
      exists es', v = vals es' p /\ follows (Datatypes.S k) s es es').
    { intros s0 E0 B0 S0 R0 J0. exists (sstep s0 es). rewrite R0 in E0. rewrite sstep_vals in E0 by exact B0.
      split; [congruence|]. split; [unfold sstep; destruct (assigned es s0) as [[? ?]|]; [apply put_length|reflexivity]|].
      split; [apply sstep_good; assumption|]. split.
      - apply near_true. intros q. rewrite R0, sstep_vals by exact B0. reflexivity.
      - intros env js HE H. exists (jstep Rops s0 js). split; [apply J0|]. apply sstep_holds; assumption. }
    destruct s; try (apply BASIC; [exact E|exact B|exact SF|reflexivity|reflexivity]).
    - (* PSeq *) cbn [rexec safe regs_below] in E, SF, B. destruct SF as (S1 & S2), B as (B1 & B2).
      destruct (rexec k s1 (vals es p)) as [v1|] eqn:E1; [|discriminate].
      destruct (IH s1 es v1 G B1 S1 E1) as (es1 & -> & L1 & G1 & N1 & H1).
      destruct (IH s2 es1 v G1 ltac:(rewrite L1; exact B2) S2 E) as (es2 & -> & L2 & G2 & N2 & H2).
      exists es2. split; [reflexivity|]. split; [congruence|]. split; [exact G2|]. split.
      + generalize (near_and _ _ _ _ N1 N2). apply near_imp. intros q (Q1 & Q2). cbn [rexec]. rewrite Q1. exact Q2.
      + intros env js HE H. destruct (H1 env js HE H) as (j1 & J1 & K1). destruct (H2 env j1 HE K1) as (j2 & J2 & K2).
        exists j2. cbn [jexec]. rewrite J1. auto.
    - (* PIf *) cbn [rexec safe regs_below] in E, SF, B. destruct SF as (ND & SF), B as (Bk & B1 & B2).
      pose proof (rtest_near k0 es G Bk ND) as NT.
      destruct (rtest k0 (vals es p)) eqn:T.
      + destruct (IH s1 es v G B1 SF E) as (es1 & -> & L1 & G1 & N1 & H1).
        exists es1. split; [reflexivity|]. split; [exact L1|]. split; [exact G1|]. split.
        * generalize (near_and _ _ _ _ NT N1). apply near_imp. intros q (Q1 & Q2). cbn [rexec]. rewrite Q1. exact Q2.
        * intros env js HE H. cbn [jexec]. rewrite <- (rtest_jtest env k0 es js HE G Bk H), T. apply H1; assumption.
      + destruct (IH s2 es v G B2 SF E) as (es1 & -> & L1 & G1 & N1 & H1).
        exists es1. split; [reflexivity|]. split; [exact L1|]. split; [exact G1|]. split.
        * generalize (near_and _ _ _ _ NT N1). apply near_imp. intros q (Q1 & Q2). cbn [rexec]. rewrite Q1. exact Q2.
        * intros env js HE H. cbn [jexec]. rewrite <- (rtest_jtest env k0 es js HE G Bk H), T. apply H1; assumption.
    - (* PWhile *) cbn [rexec safe regs_below] in E, SF, B. destruct SF as (ND & SF), B as (Bk & B1).
      pose proof (rtest_near k0 es G Bk ND) as NT.
      destruct (rtest k0 (vals es p)) eqn:T.
      + destruct SF as (S1 & S2).
        destruct (rexec k s (vals es p)) as [v1|] eqn:E1; [|discriminate].
        destruct (IH s es v1 G B1 S1 E1) as (es1 & -> & L1 & G1 & N1 & H1).
        destruct (IH (PWhile k0 s) es1 v G1 ltac:(rewrite L1; split; assumption) S2 E) as (es2 & -> & L2 & G2 & N2 & H2).
        exists es2. split; [reflexivity|]. split; [congruence|]. split; [exact G2|]. split.
        * generalize (near_and _ _ _ _ NT (near_and _ _ _ _ N1 N2)). apply near_imp. intros q (Q0 & Q1 & Q2).
          cbn [rexec]. rewrite Q0, Q1. exact Q2.
        * intros env js HE H. cbn [jexec]. rewrite <- (rtest_jtest env k0 es js HE G Bk H), T.
          destruct (H1 env js HE H) as (j1 & -> & K1). apply H2; assumption.
      + exists es. split; [congruence|]. split; [reflexivity|]. split; [exact G|]. split.
        * revert NT. apply near_imp. intros q Q. cbn [rexec]. rewrite Q. reflexivity.
        * intros env js HE H. cbn [jexec]. rewrite <- (rtest_jtest env k0 es js HE G Bk H), T. eauto.
  Qed.
End Sym.

(** Initial expressions: the variables, then the constants. *)
Definition inits (n : nat) (ks : list R) : list (expr R) := map EVar (seq 0 n) ++ map EConst ks.
Lemma inits_vals n ks q : vals (inits n ks) q = map q (seq 0 n) ++ ks.
Proof.
  unfold vals, inits. rewrite map_app, !map_map. f_equal. cbn [rev]. apply map_id.
Qed.
Lemma inits_length n ks : length (inits n ks) = (n + length ks)%nat.
Proof. unfold inits. rewrite app_length, !map_length, seq_length. reflexivity. Qed.
Lemma inits_good n p ks : good n p (inits n ks).
Proof.
  split; apply List.Forall_forall; intros e He; unfold inits in He; apply in_app_or in He as [He|He];
    apply in_map_iff in He as (i & <- & Hi); cbn; auto. apply in_seq in Hi. lia.
Qed.

Lemma partial_ext_near n F1 F2 p i l : (i < n)%nat -> near n p (fun q => F1 q = F2 q) -> partial F1 i p l -> partial F2 i p l.
Proof.
  intros Hi (d & Hd & HE) H. unfold partial in *. eapply is_derive_ext_loc; [|exact H].
  exists (mkposreal d Hd). intros t Ht. apply ball_abs in Ht. cbn in Ht. apply HE. intros k Hk. unfold set_at.
  destruct (Nat.eqb_spec k i) as [->|]; [exact Ht|]. rewrite Rminus_eq_0, Rabs_R0. exact Hd.
Qed.
Lemma near_near n p (P : (nat -> R) -> Prop) : near n p P -> near n p (fun q => near n q P).
Proof.
  intros (d & Hd & H). exists (d / 2). split; [lra|]. intros q Hq. exists (d / 2). split; [lra|]. intros w Hw.
  apply H. intros k Hk. specialize (Hq k Hk). specialize (Hw k Hk).
  replace (w k - p k) with ((w k - q k) + (q k - p k)) by ring. eapply Rle_lt_trans; [apply Rabs_triang|]. lra.
Qed.
Lemma partial2_ext_near n F1 F2 p i j l : (i < n)%nat -> (j < n)%nat -> near n p (fun q => F1 q = F2 q) ->
  partial2 F1 i j p l -> partial2 F2 i j p l.
Proof.
  intros Hi Hj HN (D & HD & H). exists D. split; [|exact H].
  destruct (near_near _ _ _ HN) as (d & Hd & HE).
  assert (HB : locally (p i) (fun s => Rabs (s - p i) < d)).
  { exists (mkposreal d Hd). intros s Hs. apply ball_abs in Hs. exact Hs. }
  generalize (filter_and _ _ HB HD). apply filter_imp. intros s (Hs & P1).
  apply (partial_ext_near n F1); [exact Hj| |exact P1]. apply HE. intros k Hk. unfold set_at.
  destruct (Nat.eqb_spec k i) as [->|]; [exact Hs|]. rewrite Rminus_eq_0, Rabs_R0. exact Hd.
Qed.

Lemma constants_ok c n ks : size_ok c n -> exists cs, Forall2 (fun k x => constant_n Rops c k (Z.of_nat n) = Ok x) ks cs /\
  Forall2 (rep c n) (map (jconst Rops) ks) cs.
Proof.
  intros SO. induction ks as [|k ks (cs & A & B)].
  - exists []. split; constructor.
  - destruct (constant_n_rep Rops c n k SO) as (x & E & R). exists (x :: cs). split; constructor; assumption.
Qed.

Lemma variables_jets c n p : size_ok c n -> exists xs, variables Rops c (coords n p) = Ok xs /\
  Forall2 (rep c n) (map (fun i => jvar Rops i (p i)) (seq 0 n)) xs.
Proof.
  intros SO. destruct (variables_rep Rops c (coords n p)) as (xs & E & HL & HX); rewrite coords_length in *; [exact SO|].
  exists xs. split; [exact E|].
  assert (G : forall k l, (k + length l = n)%nat -> (forall i, (i < length l)%nat -> nth_error xs (k + i) = nth_error l i) ->
    Forall2 (rep c n) (map (fun i => jvar Rops i (p i)) (seq k (length l))) l).
  { intros k l. revert k. induction l as [|x l IH]; intros k HK HN; cbn; constructor.
    - destruct (HX k (p k) (coords_nth n p k ltac:(cbn in HK; lia))) as (x' & E' & R').
      specialize (HN 0%nat ltac:(cbn; lia)). rewrite Nat.add_0_r in HN. cbn in HN. congruence.
    - apply IH; [cbn in HK; lia|]. intros i Hi. specialize (HN (Datatypes.S i) ltac:(cbn; lia)). cbn in HN.
      rewrite <- HN. f_equal. lia. }
  specialize (G 0%nat xs ltac:(lia) ltac:(reflexivity)). rewrite HL in G. exact G.
Qed.

Lemma program_derivatives c n s fuel ks p v : cfg_ok c -> size_ok c n -> regs_below (n + length ks) s ->
  rexec fuel s (coords n p ++ ks) = Some v -> safe fuel s (coords n p ++ ks) ->
  exists xs cs st,
    variables Rops c (coords n p) = Ok xs /\
    Forall2 (fun k x => constant_n Rops c k (Z.of_nat n) = Ok x) ks cs /\
    exec Rops c n fuel s (xs ++ cs) = Some (Ok st) /\ length st = (n + length ks)%nat /\
    near n p (fun q => exists w, rexec fuel s (coords n q ++ ks) = Some w) /\
    forall r x, nth_error st r = Some x ->
      let F := computes fuel s n ks r in
      exists g h, shows c n x (F p) g h /\
        (forall i, (i < n)%nat -> partial F i p (g i)) /\
        (forall i j, (i < n)%nat -> (j < n)%nat -> partial2 F i j p (h i j)).
Proof.
  intros Hc SO B E SF. unfold coords in *. rewrite <- (inits_vals n ks p) in E, SF.
  destruct (sym n p fuel s (inits n ks) v (inits_good n p ks) ltac:(rewrite inits_length; exact B) SF E)
    as (es' & -> & L & G & NE & HJ).
  destruct (variables_jets c n p SO) as (xs & Ex & Rx). destruct (constants_ok c n ks SO) as (cs & Ec & Rc).
  set (env := fun i => jvar Rops i (p i)). set (js := map env (seq 0 n) ++ map (jconst Rops) ks).
  assert (H0 : holds n env (inits n ks) js).
  { unfold holds, inits, js. apply Forall2_app.
    - clear. generalize (seq 0 n). intros l. induction l as [|i l IH]; cbn; constructor; [apply jeq_refl|exact IH].
    - clear. induction ks as [|k l IH]; cbn; constructor; [apply jeq_refl|exact IH]. }
  destruct (HJ env js ltac:(reflexivity) H0) as (js' & EJ & HJ').
  assert (R0 : okr c n js (xs ++ cs)) by (apply Forall2_app; assumption).
  pose proof (exec_ok Rops c n Hc SO fuel s js (xs ++ cs) R0
    ltac:(unfold js; rewrite app_length, !map_length, seq_length; exact B)) as X. rewrite EJ in X.
  destruct X as (st & EX & RS).
  exists xs, cs, st. split; [exact Ex|]. split; [exact Ec|]. split; [exact EX|].
  assert (LS : length st = length es') by (rewrite (Forall2_len _ _ _ HJ'), (Forall2_len _ _ _ RS); reflexivity).
  split; [rewrite LS, L; apply inits_length|]. split.
  { revert NE. apply near_imp. intros q Q. rewrite inits_vals in Q. eauto. }
  intros r x Hx. cbv zeta. set (F := computes fuel s n ks r). assert (Hr : (r < length es')%nat) by (rewrite <- LS; apply nth_error_Some; congruence).
  set (e := ereg es' r). destruct (good_reg n p es' r G Hr) as (V & D). fold e in V, D.
  assert (NF : near n p (fun q => rev e q = F q)).
  { revert NE. apply near_imp. intros q Q. unfold F, computes. rewrite inits_vals in Q. rewrite Q.
    unfold vals. rewrite reg_map by exact Hr. reflexivity. }
  assert (RX : rep c n (jev Rops env e) x).
  { assert (Hj : (r < length js')%nat) by (rewrite <- (Forall2_len _ _ _ HJ'); exact Hr).
    destruct (Forall2_get _ _ _ (jconst Rops 0) r RS Hj) as (x' & Ex' & R'). assert (x' = x) by congruence. subst x'.
    eapply rep_jeq; [|exact R']. pose proof (holds_reg n env es' js' r HJ' Hr) as Q. apply jeq_sym.
    destruct Q as (Q0 & Q1 & Q2). split; [exact Q0|]. split; [exact Q1|]. intros _. apply Q2. lia. }
  destruct (point_derivs n e p V D) as (P0 & P1 & P2). fold env in P0, P1, P2.
  exists (jg (jev Rops env e)), (hess (jev Rops env e)). split; [|split].
  - eapply shows_ext; [apply rep_shows, RX| | |]; auto. rewrite P0. apply (near_here _ _ _ NF).
  - intros i Hi. apply (partial_ext_near n (rev e)); auto.
  - intros i j Hi Hj. apply (partial2_ext_near n (rev e)); auto.
Qed.
