(** Facts about the variables a number carries: selections of variables, unused variables. *)
From Coq Require Import ZArith List Bool Reals Lra Lia.
From Coquelicot Require Import Coquelicot.
From Flocq Require Import Core BinarySingleNaN.
From Verif Require Import Outcome Scalar Float64 Ops64 Model Spec Core Kernels OpsRep AccRep RealOps
  FactsLayout FactsCtor ExprSpec Expr FactsExpr ProgSpec Prog FactsProg RangeSpec VarSpec Samples.
Import ListNotations.

(** ** Selections: operations act on each entry of gradient and Hessian alone *)
Definition jpull {S} (sigma : nat -> nat) (K : jet S) : jet S :=
  mkjet (jf K) (fun i => jg K (sigma i)) (fun i j => jh K (sigma i) (sigma j)).

Section Pull.
  Context {S : Type} (O : Ops S) (sigma : nat -> nat).
  Notation pull := (jpull (S:=S) sigma).

  Lemma pull_ju t K : ju3 O t (pull K) = pull (ju3 O t K).
  Proof. destruct t as [[f da] daa]. reflexivity. Qed.
  Lemma pull_u u K : jap_u O u (pull K) = pull (jap_u O u K).
  Proof.
    destruct u; cbn [jap_u]; try apply (pull_ju _ K); try reflexivity. cbn [jpull jf].
    destruct (o_lt O (jf K) (o_Z O 0)); reflexivity.
  Qed.
  Lemma pull_b b K L : jap_b O b (pull K) (pull L) = pull (jap_b O b K L).
  Proof. unfold jap_b, jb6. cbn [jpull jf]. destruct (k_b O b (jf K) (jf L)) as [[[[[f da] db] daa] dab] dbb]. reflexivity. Qed.
  Lemma pull_h K L P : jap_hypot3 O (pull K) (pull L) (pull P) = pull (jap_hypot3 O K L P).
  Proof. reflexivity. Qed.
  Lemma pull_assign o K b : jassign O o (pull K) (option_map pull b) = pull (jassign O o K b).
  Proof. destruct o, b; reflexivity. Qed.
  Lemma pull_assign_s o K s : jassign_s O o (pull K) s = pull (jassign_s O o K s).
  Proof. destruct o; reflexivity. Qed.
  Lemma pull_reg ks r : jreg O (map pull ks) r = pull (jreg O ks r).
  Proof. unfold jreg. change (jconst O (o_Z O 0)) with (pull (jconst O (o_Z O 0))) at 1. apply map_nth. Qed.
  Lemma pull_test k ks : jtest O k (map pull ks) = jtest O k ks.
  Proof. destruct k; cbn [jtest]; rewrite !pull_reg; reflexivity. Qed.
  Lemma pull_step s ks : jstep O s (map pull ks) = map pull (jstep O s ks).
  Proof.
    destruct s; cbn [jstep]; try reflexivity; rewrite put_map; f_equal; rewrite ?pull_reg; try reflexivity.
    - apply pull_u.
    - apply pull_b.
    - rewrite <- pull_assign. f_equal. destruct (Nat.eqb a r); reflexivity.
    - apply pull_assign_s.
  Qed.
  Lemma pull_exec fuel : forall s ks, jexec O fuel s (map pull ks) = option_map (map pull) (jexec O fuel s ks).
  Proof.
    induction fuel as [|k IH]; intros s ks; [reflexivity|]. cbn [jexec].
    destruct s; cbn [option_map]; try (f_equal; apply pull_step).
    - rewrite IH. destruct (jexec O k s1 ks); cbn [option_map]; [apply IH|reflexivity].
    - rewrite pull_test. destruct (jtest O k0 ks); apply IH.
    - rewrite pull_test. destruct (jtest O k0 ks); [|reflexivity].
      rewrite IH. destruct (jexec O k s ks); cbn [option_map]; [apply IH|reflexivity].
  Qed.
End Pull.

Lemma pull_hess {S} sigma n (K : jet S) i j : ordered n sigma -> (i < n)%nat -> (j < n)%nat ->
  hess (jpull sigma K) i j = hess K (sigma i) (sigma j).
Proof.
  intros H Hi Hj. unfold hess, jpull. cbn [jh].
  destruct (Nat.le_ge_cases i j) as [L|L].
  - pose proof (H i j L Hj). rewrite !Nat.min_l, !Nat.max_r by assumption. reflexivity.
  - pose proof (H j i L Hi). rewrite !Nat.min_r, !Nat.max_l by assumption. reflexivity.
Qed.

Section Selections.
  Context {S : Type} (O : Ops S) (c c' : cfg) (n m : nat) (sigma : nat -> nat) (ord : Z).
  Hypotheses (Hc : cfg_ok c) (Hc' : cfg_ok c') (SO : size_ok c n) (SO' : size_ok c' m).
  (** [x] holds, up to order [ord], what [y] holds at the selected positions. *)
  Definition pulled (x y : dd S) : Prop :=
    exists J K, rep c n J x /\ rep c' m K y /\ jeq ord n J (jpull sigma K).
  Lemma pulled_jets xs ys : Forall2 pulled xs ys ->
    exists js ks, Forall2 (rep c n) js xs /\ Forall2 (rep c' m) ks ys /\ Forall2 (jeq ord n) js (map (jpull sigma) ks).
  Proof.
    intros H. induction H as [|x y xs ys (J & K & R & R' & E) H IH].
    - exists [], []. repeat split; constructor.
    - destruct IH as (js & ks & A & B & D). exists (J :: js), (K :: ks). repeat split; constructor; assumption.
  Qed.
  Lemma jets_pulled js ks xs ys : Forall2 (rep c n) js xs -> Forall2 (rep c' m) ks ys ->
    Forall2 (jeq ord n) js (map (jpull sigma) ks) -> Forall2 pulled xs ys.
  Proof.
    intros H. revert ks ys. induction H as [|J x js xs R H IH]; intros ks ys H' E; destruct ks as [|K ks]; inversion E; subst;
      inversion H'; subst; constructor.
    - exists J, K. auto.
    - eapply IH; eassumption.
  Qed.
  Lemma exec_pulled fuel s xs ys : regs_below (length xs) s -> Forall2 pulled xs ys ->
    both pulled (exec O c n fuel s xs) (exec O c' m fuel s ys).
  Proof.
    intros B H. destruct (pulled_jets xs ys H) as (js & ks & A & A' & E).
    assert (LE : length ks = length xs).
    { rewrite <- (Forall2_len _ _ _ A), (Forall2_len _ _ _ E), map_length. reflexivity. }
    pose proof (exec_ok O c n Hc SO fuel s js xs A ltac:(rewrite (Forall2_len _ _ _ A); exact B)) as M.
    pose proof (exec_ok O c' m Hc' SO' fuel s ks ys A' ltac:(rewrite LE; exact B)) as M'.
    pose proof (jexec_cong O ord n fuel s js _ E) as C. rewrite pull_exec in C.
    destruct (jexec O fuel s js) as [js1|], (jexec O fuel s ks) as [ks1|]; cbn [option_map] in C; try contradiction.
    - destruct M as (st & -> & R). destruct M' as (st' & -> & R'). cbn [both]. eapply jets_pulled; eassumption.
    - rewrite M, M'. exact I.
  Qed.
End Selections.

Lemma selection {S} (O : Ops S) c c' n m sigma fuel s xs ys :
  cfg_ok c -> cfg_ok c' -> c_ord c = c_ord c' -> size_ok c n -> size_ok c' m ->
  picks n m sigma -> ordered n sigma -> regs_below (length xs) s -> Forall2 (selects c c' n m sigma) xs ys ->
  both (selects c c' n m sigma) (exec O c n fuel s xs) (exec O c' m fuel s ys).
Proof.
  intros Hc Hc' Ho SO SO' HP HM B H.
  apply (both_imp (pulled c c' n m sigma (c_ord c))).
  - intros x y (J & K & R & R' & E). exists (jf K), (jg K), (hess K). split; [apply rep_shows, R'|].
    pose proof (rep_jeq _ _ _ _ _ E R) as R2. eapply shows_ext; [apply rep_shows, R2|reflexivity|reflexivity|].
    intros _ i j Hi Hj. exact (pull_hess sigma n K i j HM Hi Hj).
  - apply exec_pulled; [assumption..|]. eapply Forall2_imp; [|exact H]. intros x y (f & g & h & A & A').
    exists (mkjet f (fun i => g (sigma i)) (fun i j => h (sigma i) (sigma j))), (mkjet f g h).
    split; [apply shows_rep; assumption|]. split; [apply shows_rep; assumption|]. apply jeq_refl.
Qed.
Lemma selection1 {S} (O : Ops S) c c' n m sigma fuel s xs ys :
  cfg_ok c -> cfg_ok c' -> size_ok c n -> size_ok c' m ->
  picks n m sigma -> regs_below (length xs) s -> Forall2 (selects1 c c' n m sigma) xs ys ->
  both (selects1 c c' n m sigma) (exec O c n fuel s xs) (exec O c' m fuel s ys).
Proof.
  intros Hc Hc' SO SO' HP B H.
  apply (both_imp (pulled c c' n m sigma 1)).
  - intros x y (J & K & R & R' & E & G & _). exists (jf K), (jg K), (hess K), (hess J). split; [apply rep_shows, R'|].
    eapply shows_ext; [apply rep_shows, R|exact E| |auto]. intros i Hi. apply G, Hi.
  - apply exec_pulled; [assumption..|]. eapply Forall2_imp; [|exact H]. intros x y (f & g & h & h' & A & A').
    exists (mkjet f (fun i => g (sigma i)) h'), (mkjet f g h).
    split; [apply shows_rep; assumption|]. split; [apply shows_rep; assumption|].
    split; [reflexivity|]. split; [reflexivity|]. congruence.
Qed.

(** ** Unused variables *)
Section Unused.
  Context {S : Type} (O : Ops S) (P : S -> Prop) (HP : absorbing O P) (n i : nat).
  Definition dead (J : jet S) : Prop := P (jg J i) /\ forall j, (j < n)%nat -> P (jh J i j) /\ P (jh J j i).
  Definition vdead (v : val S) : Prop := match v with VZero => True | V s => P s end.

  Lemma vd_cmul k x : P x -> vdead (cmul O k x).
  Proof. intros H. destruct k; cbn; auto; [apply (ab_neg _ _ HP), H|apply (ab_mul_r _ _ HP), H]. Qed.
  Lemma vd_add a b : vdead a -> vdead b -> vdead (vadd O a b).
  Proof. destruct a, b; cbn; auto. intros. apply (ab_add _ _ HP); assumption. Qed.
  Lemma vd_mul_l a x : vdead a -> vdead (vmul O a x).
  Proof. destruct a; cbn; auto. intros. apply (ab_mul_l _ _ HP); assumption. Qed.
  Lemma vd_mul_r a x : P x -> vdead (vmul O a x).
  Proof. destruct a; cbn; auto. intros. apply (ab_mul_r _ _ HP); assumption. Qed.
  Lemma vd_acc x v : P x -> vdead v -> P (vacc O x v).
  Proof. destruct v; cbn; auto. intros. apply (ab_add _ _ HP); assumption. Qed.
  Lemma vd_set v : vdead v -> P (vset O v).
  Proof. destruct v; cbn; auto. intros. apply (ab_zero _ _ HP). Qed.
  Ltac dd := repeat first [progress dd1 | apply (ab_mul_l _ _ HP); solve [dd] | apply (ab_mul_r _ _ HP); solve [dd]]
  with dd1 := first
    [ assumption
    | match goal with |- P (if ?b then _ else _) => destruct b end
    | apply vd_acc | apply vd_set | apply vd_add
    | apply vd_cmul; assumption | (apply vd_mul_r; assumption) | apply vd_mul_l
    | apply (ab_add _ _ HP) | apply (ab_sub _ _ HP) | apply (ab_neg _ _ HP)
    | (apply (ab_mul_r _ _ HP); assumption) | (apply (ab_mul_l _ _ HP); assumption) | apply vd_cmul ].
  Ltac open_dead := repeat match goal with
    | H : dead ?J |- _ => let G := fresh "G" in let Q := fresh "Q" in destruct H as (G & Q)
    end.
  Ltac solve_dead :=
    cbv zeta; open_dead; split; cbn [jg jh];
    [dd|let j := fresh "j" in let Hj := fresh "Hj" in intros j Hj;
        repeat match goal with Q : forall j, (j < n)%nat -> _ |- _ => pose proof (Q j Hj); clear Q end;
        repeat match goal with Q : _ /\ _ |- _ => destruct Q end; split; dd].

  Lemma dead_const s : dead (jconst O s).
  Proof. split; cbn; [|intros; split]; apply (ab_zero _ _ HP). Qed.
  Lemma dead_map op J : (forall v, P v -> P (op v)) -> dead J -> dead (jmap op J).
  Proof. intros Ho (G & Q). split; cbn [jmap jg jh]; [auto|]. intros j Hj. destruct (Q j Hj). auto. Qed.
  Lemma dead_map2 op J K : (forall v w, P v -> P w -> P (op v w)) -> dead J -> dead K -> dead (jmap2 op J K).
  Proof. intros Ho (G & Q) (G' & Q'). split; cbn [jmap2 jg jh]; [auto|]. intros j Hj. destruct (Q j Hj), (Q' j Hj). auto. Qed.
  Lemma dead_ju f da daa J : dead J -> dead (ju O f da daa J).
  Proof. intros H. unfold ju. solve_dead. Qed.
  Lemma dead_ju3 t J : dead J -> dead (ju3 O t J).
  Proof. destruct t as [[f da] daa]. apply dead_ju. Qed.
  Lemma dead_jb f da db daa dab dbb J K : dead J -> dead K -> dead (jb O f da db daa dab dbb J K).
  Proof. intros H H'. unfold jb. solve_dead. Qed.
  Lemma dead_jt f da db dc daa dab dac dbb dbc dcc J K L : dead J -> dead K -> dead L ->
    dead (jt O f da db dc daa dab dac dbb dbc dcc J K L).
  Proof. intros H H' H''. unfold jt. solve_dead. Qed.
  Lemma dead_u u J : dead J -> dead (jap_u O u J).
  Proof.
    intros H. destruct u; cbn [jap_u]; try (apply dead_ju3, H); try exact H;
      try (apply dead_map; [|exact H]; intros v Hv; dd).
    destruct (o_lt O (jf J) (o_Z O 0)); [|exact H]. apply dead_map; [|exact H]. intros v Hv; dd.
  Qed.
  Lemma dead_b b J K : dead J -> dead K -> dead (jap_b O b J K).
  Proof. unfold jap_b, jb6. destruct (k_b O b (jf J) (jf K)) as [[[[[f da] db] daa] dab] dbb]. apply dead_jb. Qed.
  Lemma dead_h J K L : dead J -> dead K -> dead L -> dead (jap_hypot3 O J K L).
  Proof. apply dead_jt. Qed.
  Lemma dead_assign o J b : dead J -> match b with Some K => dead K | None => True end -> dead (jassign O o J b).
  Proof.
    intros H H'. destruct b as [K|]; destruct o; cbn [jassign].
    - apply dead_map2; try assumption. intros. dd.
    - apply dead_map2; try assumption. intros. dd.
    - unfold jmul_assign. solve_dead.
    - unfold jb6. destruct (k_div_assign O (jf J) (jf K)) as [[[[[f da] db] daa] dab] dbb]. apply dead_jb; assumption.
    - apply dead_map2; try assumption. intros. dd.
    - apply dead_map2; try assumption. intros. dd.
    - unfold jmul_self. solve_dead.
    - destruct (k_div_assign O (jf J) (jf J)) as [[[[[f da] db] daa] dab] dbb]. 
      assert (G' : P (vset O (vadd O (cmul O da (jg J i)) (cmul O db (jg J i))))) by (destruct H; dd).
      unfold jb_self. solve_dead.
  Qed.
  Lemma dead_assign_s o J s : dead J -> dead (jassign_s O o J s).
  Proof. intros H. destruct o; cbn [jassign_s]; try exact H; (apply dead_map; [|exact H]; intros v Hv; dd). Qed.

  Section Regs.
    Context (A : nat -> Prop).
    Definition deads (js : list (jet S)) : Prop := forall r, A r -> dead (jreg O js r).
    Lemma deads_put js r J : deads js -> (A r -> dead J) -> deads (put js r J).
    Proof.
      intros H HJ q Hq. unfold jreg. destruct (Nat.eq_dec q r) as [->|Nq].
      - destruct (Nat.lt_ge_cases r (length js)) as [L|L].
        + rewrite (nth_error_nth _ _ _ (put_same js r J L)). apply HJ, Hq.
        + rewrite nth_overflow by (rewrite put_length; exact L). apply dead_const.
      - specialize (H q Hq). unfold jreg in H. destruct (nth_error js q) as [K|] eqn:E.
        + rewrite (nth_error_nth _ _ _ E) in H. rewrite (nth_error_nth (put js r J) q _ (x:=K)); [exact H|].
          rewrite put_other by exact Nq. exact E.
        + rewrite nth_overflow by (rewrite put_length; apply nth_error_None, E). apply dead_const.
    Qed.
    Lemma deads_step s js : kept A s -> deads js -> deads (jstep O s js).
    Proof.
      intros K H. destruct s; cbn [jstep kept] in *; try exact H; apply deads_put; try exact H; intros Hr.
      - apply dead_const.
      - apply H, K, Hr.
      - apply dead_u, H, K, Hr.
      - destruct (K Hr). apply dead_b; apply H; assumption.
      - destruct (K Hr) as (? & ? & ?). apply dead_h; apply H; assumption.
      - apply dead_assign; [apply H, Hr|]. destruct (Nat.eqb a r); [exact I|]. apply H, K, Hr.
      - apply dead_assign_s, H, Hr.
    Qed.
    Lemma deads_exec fuel : forall s js js', kept A s -> deads js -> jexec O fuel s js = Some js' -> deads js'.
    Proof.
      induction fuel as [|k IH]; intros s js js' K H E; [discriminate|]. cbn [jexec] in E.
      pose proof (deads_step s js K H) as HS.
      destruct s; cbn [kept] in K; try (injection E as <-; first [exact H|exact HS]).
      - destruct K as (K1 & K2). destruct (jexec O k s1 js) as [j1|] eqn:E1; [|discriminate].
        apply (IH _ _ _ K2 (IH _ _ _ K1 H E1) E).
      - destruct K as (K1 & K2). destruct (jtest O k0 js); [apply (IH _ _ _ K1 H E)|apply (IH _ _ _ K2 H E)].
      - destruct (jtest O k0 js); [|injection E as <-; exact H].
        destruct (jexec O k s js) as [j1|] eqn:E1; [|discriminate].
        apply (IH (PWhile k0 s) _ _ K (IH _ _ _ K H E1) E).
    Qed.
  End Regs.

  Lemma dead_ev env e : (forall k, occurs k e -> dead (env k)) -> dead (jev O env e).
  Proof.
    intros H. induction e as [k|s|f e IH|b e1 IH1 e2 IH2|e1 IH1 e2 IH2 e3 IH3]; cbn [jev occurs] in *.
    - apply H. reflexivity.
    - apply dead_const.
    - apply dead_u, IH, H.
    - apply dead_b; [apply IH1|apply IH2]; intros k Hk; apply H; tauto.
    - apply dead_h; [apply IH1|apply IH2|apply IH3]; intros k Hk; apply H; tauto.
  Qed.
End Unused.

Section UnusedModel.
  Context {S : Type} (O : Ops S) (P : S -> Prop) (HP : absorbing O P) (c : cfg) (n i : nat).
  Hypotheses (Hc : cfg_ok c) (SO : size_ok c n) (Hi : (i < n)%nat).

  (** The content of a number with the meaningless entries made definite. *)
  Definition canon (J : jet S) : jet S :=
    mkjet (jf J) (jg J) (if Z.eqb (c_ord c) 1 then fun _ _ => o_Z O 0 else hess J).
  Lemma canon_rep J x : rep c n J x -> rep c n (canon J) x.
  Proof.
    apply rep_jeq. split; [reflexivity|]. split; [reflexivity|]. intros No a b (L & _). cbn [canon jh].
    rewrite (proj2 (Z.eqb_neq _ _) No). unfold hess. rewrite Nat.min_l, Nat.max_r by exact L. reflexivity.
  Qed.
  Lemma canon_dead J x : rep c n J x -> free_of P c n i x -> dead P n i (canon J).
  Proof.
    intros R (f & g & h & SH & G & Q). destruct (rep_shows _ _ _ _ R) as (_ & _ & Sg & Shh).
    destruct SH as (_ & _ & Sg' & Sh').
    assert (EG : jg J i = g i) by (specialize (Sg i Hi); rewrite Sg' in Sg by exact Hi; congruence).
    split; cbn [canon jg jh].
    - rewrite EG. exact G.
    - intros j Hj. destruct (Z.eqb_spec (c_ord c) 1) as [E|No]; [split; apply (ab_zero _ _ HP)|].
      assert (O2 : c_ord c = 2%Z) by (destruct Hc as [[?|?] _]; congruence).
      destruct (Q O2 j Hj) as (Q1 & Q2).
      pose proof (Shh O2 i j Hi Hj) as E1. rewrite Sh' in E1 by assumption.
      pose proof (Shh O2 j i Hj Hi) as E2. rewrite Sh' in E2 by assumption.
      split; congruence.
  Qed.
  Lemma dead_free J x : rep c n J x -> dead P n i J -> free_of P c n i x.
  Proof.
    intros R (G & Q). exists (jf J), (jg J), (hess J). split; [apply rep_shows, R|]. split; [exact G|].
    intros _ j Hj. destruct (Q j Hj) as (Q1 & Q2). unfold hess.
    destruct (Nat.le_ge_cases i j) as [L|L].
    - rewrite Nat.min_l, Nat.max_r, Nat.min_r, Nat.max_l by exact L. auto.
    - rewrite Nat.min_r, Nat.max_l, Nat.min_l, Nat.max_r by exact L. auto.
  Qed.
  Lemma wf_jets xs : List.Forall (wf c n) xs -> exists js, Forall2 (rep c n) js xs /\
    forall r J x, nth_error js r = Some J -> nth_error xs r = Some x -> free_of P c n i x -> dead P n i J.
  Proof.
    intros H. induction H as [|x xs W H (js & F & D)].
    - exists []. split; [constructor|]. intros [|r] J x E; discriminate.
    - destruct (wf_rep _ _ _ W) as (J & R). exists (canon J :: js). split; [constructor; [apply canon_rep, R|exact F]|].
      intros [|r] K y E E' FR; cbn in E, E'.
      + injection E as <-. injection E' as <-. apply (canon_dead J x R FR).
      + apply (D r K y E E' FR).
  Qed.
  Lemma free_program (A : nat -> Prop) fuel s xs m : regs_below (length xs) s -> kept A s -> List.Forall (wf c n) xs ->
    (forall r x, A r -> nth_error xs r = Some x -> free_of P c n i x) ->
    exec O c n fuel s xs = Some m -> exists st, m = Ok st /\
      forall r x, A r -> nth_error st r = Some x -> free_of P c n i x.
  Proof.
    intros B K W F E. destruct (wf_jets xs W) as (js & R & D).
    pose proof (Forall2_len _ _ _ R) as L.
    assert (DS : deads O P n i A js).
    { intros r Hr. unfold jreg. destruct (nth_error js r) as [J|] eqn:EJ.
      - rewrite (nth_error_nth _ _ _ EJ). destruct (nth_error xs r) as [x|] eqn:EX.
        + apply (D r J x EJ EX (F r x Hr EX)).
        + apply nth_error_None in EX. assert (r < length js)%nat by (apply nth_error_Some; congruence). lia.
      - rewrite nth_overflow by (apply nth_error_None, EJ). apply dead_const, HP. }
    pose proof (exec_ok O c n Hc SO fuel s js xs R ltac:(rewrite L; exact B)) as M.
    destruct (jexec O fuel s js) as [js'|] eqn:EJ; [|congruence].
    destruct M as (st & E' & R'). rewrite E in E'. injection E' as ->. exists st. split; [reflexivity|].
    intros r x Hr EX. pose proof (deads_exec O P HP n i A fuel s js js' K DS EJ r Hr) as DJ.
    assert (Lr : (r < length js')%nat).
    { rewrite (Forall2_len _ _ _ R'). apply nth_error_Some. congruence. }
    destruct (Forall2_get _ _ _ (jconst O (o_Z O 0%Z)) r R' Lr) as (y & EY & RY).
    assert (y = x) by congruence. subst y. apply (dead_free _ _ RY DJ).
  Qed.
  Lemma free_expression e xs : vars_below (length xs) e -> List.Forall (wf c n) xs ->
    (forall k x, occurs k e -> nth_error xs k = Some x -> free_of P c n i x) ->
    exists r, run O c n xs e = Ok r /\ free_of P c n i r.
  Proof.
    intros V W F. destruct (wf_jets xs W) as (js & R & D). pose proof (Forall2_len _ _ _ R) as L.
    destruct (run_rep O c n xs (jreg O js) e Hc SO V) as (r & E & RR).
    - intros k x EX. assert (Lk : (k < length js)%nat) by (rewrite L; apply nth_error_Some; congruence).
      destruct (Forall2_get _ _ _ (jconst O (o_Z O 0%Z)) k R Lk) as (y & EY & RY).
      assert (y = x) by congruence. subst y. exact RY.
    - exists r. split; [exact E|]. apply (dead_free _ _ RR). apply (dead_ev O P HP). intros k Hk.
      unfold jreg. destruct (nth_error js k) as [J|] eqn:EJ.
      + rewrite (nth_error_nth _ _ _ EJ). destruct (nth_error xs k) as [x|] eqn:EX.
        * apply (D k J x EJ EX (F k x Hk EX)).
        * apply nth_error_None in EX. assert (k < length js)%nat by (apply nth_error_Some; congruence). lia.
      + rewrite nth_overflow by (apply nth_error_None, EJ). apply dead_const, HP.
  Qed.
End UnusedModel.

(** ** The two scalar types *)
Lemma absorbing_R : absorbing Rops (fun v => v = 0%R).
Proof. split; cbn [o_Z o_add o_sub o_neg o_mul Rops]; intros; subst; try ring. Qed.
Lemma absorbing_b64 M : absorbing (b64ops M) zero_or_nan.
Proof.
  split; cbn [o_Z o_add o_sub o_neg o_mul b64ops].
  - left. exists false. vm_compute. reflexivity.
  - intros a b [[s ->]|N] [[s' ->]|N'].
    + left. destruct s, s'; eexists; reflexivity.
    + right. destruct b; try discriminate. reflexivity.
    + right. destruct a; try discriminate. reflexivity.
    + right. destruct a; try discriminate. reflexivity.
  - intros a b [[s ->]|N] [[s' ->]|N'].
    + left. destruct s, s'; eexists; reflexivity.
    + right. destruct b; try discriminate. reflexivity.
    + right. destruct a; try discriminate. reflexivity.
    + right. destruct a; try discriminate. reflexivity.
  - intros a [[s ->]|N]; [left; eexists; reflexivity|right; destruct a; try discriminate; reflexivity].
  - intros a b [[s ->]|N].
    + destruct b as [s'|s'| |s' m e Hb].
      * left. eexists. reflexivity.
      * right. reflexivity.
      * right. reflexivity.
      * left. eexists. reflexivity.
    + right. destruct a; try discriminate. reflexivity.
  - intros a b [[s ->]|N].
    + destruct a as [s'|s'| |s' m e Hb].
      * left. eexists. reflexivity.
      * right. reflexivity.
      * right. reflexivity.
      * left. eexists. reflexivity.
    + right. destruct b; try discriminate. destruct a; reflexivity.
Qed.

Lemma free_variables {S} (O : Ops S) P c i e vs : absorbing O P -> cfg_ok c -> size_ok c (length vs) ->
  vars_below (length vs) e -> (i < length vs)%nat -> ~ occurs i e ->
  exists xs r, variables O c vs = Ok xs /\ run O c (length vs) xs e = Ok r /\ free_of P c (length vs) i r.
Proof.
  intros HP Hc SO V Hi N. destruct (variables_show O c vs SO) as (xs & E & L & HX).
  assert (HG : forall k x, nth_error xs k = Some x -> exists v, shows c (length vs) x v
      (fun j => if Nat.eqb j k then o_Z O 1 else o_Z O 0) (fun _ _ => o_Z O 0)).
  { intros k x EX. destruct (nth_error vs k) as [v|] eqn:EV.
    - destruct (HX k v EV) as (y & EY & SH). exists v. congruence.
    - apply nth_error_None in EV. assert (k < length xs)%nat by (apply nth_error_Some; congruence). lia. }
  destruct (free_expression O P HP c (length vs) i Hc SO Hi e xs) as (r & ER & FR).
  - rewrite L. exact V.
  - apply List.Forall_forall. intros x HI. apply In_nth_error in HI as (k & EX). destruct (HG k x EX) as (v & SH). apply SH.
  - intros k x Hk EX. destruct (HG k x EX) as (v & SH). do 3 eexists. split; [exact SH|].
    assert (k <> i) by (intros ->; contradiction). cbn beta. rewrite (proj2 (Nat.eqb_neq i k)) by congruence.
    split; [apply (ab_zero _ _ HP)|]. intros. split; apply (ab_zero _ _ HP).
  - exists xs, r. auto.
Qed.
Lemma free_of_reals c i e vs : cfg_ok c -> size_ok c (length vs) ->
  vars_below (length vs) e -> (i < length vs)%nat -> ~ occurs i e ->
  exists xs r, variables Rops c vs = Ok xs /\ run Rops c (length vs) xs e = Ok r /\
    free_of (fun v => v = 0%R) c (length vs) i r.
Proof. intros. apply free_variables; try assumption. exact absorbing_R. Qed.
Lemma free_of_doubles M c i e vs : cfg_ok c -> size_ok c (length vs) ->
  vars_below (length vs) e -> (i < length vs)%nat -> ~ occurs i e ->
  exists xs r, variables (b64ops M) c vs = Ok xs /\ run (b64ops M) c (length vs) xs e = Ok r /\
    free_of zero_or_nan c (length vs) i r.
Proof. intros. apply free_variables; try assumption. apply absorbing_b64. Qed.

(** Square root of the first of two variables at 0. *)
Lemma sqrt_nan M :
  match variables (b64ops M) dyn1 [b64_of_Z 0; b64_of_Z 7] with
  | Ok xs => match run (b64ops M) dyn1 2 xs (EU Usqrt (EVar 0)) with
             | Ok r => match get_g dyn1 r 1 with Ok v => is_nan v | _ => false end
             | _ => false end
  | _ => false end = true.
Proof. vm_compute. reflexivity. Qed.
Lemma not_zero_doubles M : ~ (forall c i e vs xs r, cfg_ok c -> size_ok c (length vs) ->
  vars_below (length vs) e -> (i < length vs)%nat -> ~ occurs i e ->
  variables (b64ops M) c vs = Ok xs -> run (b64ops M) c (length vs) xs e = Ok r ->
  free_of zero64 c (length vs) i r).
Proof.
  intros H. pose proof (sqrt_nan M) as E.
  destruct (variables (b64ops M) dyn1 [b64_of_Z 0; b64_of_Z 7]) as [xs| | |] eqn:E1; try discriminate E.
  destruct (run (b64ops M) dyn1 2 xs (EU Usqrt (EVar 0))) as [r| | |] eqn:E2; try discriminate E.
  destruct (H dyn1 1%nat (EU Usqrt (EVar 0)) [b64_of_Z 0; b64_of_Z 7] xs r) with (6 := E1) (7 := E2) as (f & g & h & (_ & _ & Sg & _) & (s & G) & _).
  - exact cfg_dyn1.
  - split; [discriminate|vm_compute; discriminate].
  - cbn. lia.
  - cbn. lia.
  - cbn. lia.
  - specialize (Sg 1%nat ltac:(cbn; lia)). rewrite G in Sg. change (Z.of_nat 1) with 1%Z in Sg. rewrite Sg in E. discriminate.
Qed.

(** Exchanging the two variables of a number of value 5 with gradient (3, 5). *)
Definition rec_a : dd b64 := mk 2 (full (map b64_of_Z [5; 3; 5; 0; 0; 0]%Z)).
Definition rec_b : dd b64 := mk 2 (full (map b64_of_Z [5; 5; 3; 0; 0; 0]%Z)).
Definition swap2 (i : nat) : nat := match i with O => 1 | S O => 0 | _ => i end%nat.
Definition ga (i : nat) : b64 := b64_of_Z (match i with O => 3 | _ => 5 end).
Lemma rec_selects : selects dyn2 dyn2 2 2 swap2 rec_b rec_a.
Proof.
  exists (b64_of_Z 5), ga, (fun _ _ => b64_of_Z 0). split; (split; [apply wf_list; [reflexivity|reflexivity|vm_compute; discriminate]|]).
  - split; [reflexivity|]. split.
    + intros [|[|i]] Hi; [reflexivity|reflexivity|lia].
    + intros _ [|[|i]] [|[|j]] Hi Hj; try lia; reflexivity.
  - split; [reflexivity|]. split.
    + intros [|[|i]] Hi; [reflexivity|reflexivity|lia].
    + intros _ [|[|i]] [|[|j]] Hi Hj; try lia; reflexivity.
Qed.
Lemma renumbering_rounds M : ~ (forall c c' n m sigma e xs ys r r', cfg_ok c -> cfg_ok c' -> c_ord c = c_ord c' ->
  size_ok c n -> size_ok c' m -> picks n m sigma -> (forall i j, (i < n)%nat -> (j < n)%nat -> sigma i = sigma j -> i = j) ->
  Forall2 (selects c c' n m sigma) xs ys ->
  run (b64ops M) c n xs e = Ok r -> run (b64ops M) c' m ys e = Ok r' -> selects c c' n m sigma r r').
Proof.
  intros H.
  assert (E : match run (b64ops M) dyn2 2 [rec_b] (EU Ureciprocal (EVar 0)), run (b64ops M) dyn2 2 [rec_a] (EU Ureciprocal (EVar 0)) with
    | Ok r, Ok r' => match get_h dyn2 r 0 1, get_h dyn2 r' 1 0 with Ok a, Ok b => Beqb a b || is_nan a | _, _ => true end
    | _, _ => true end = false) by (vm_compute; reflexivity).
  destruct (run (b64ops M) dyn2 2 [rec_b] (EU Ureciprocal (EVar 0))) as [r| | |] eqn:E1; try discriminate E.
  destruct (run (b64ops M) dyn2 2 [rec_a] (EU Ureciprocal (EVar 0))) as [r'| | |] eqn:E2; try discriminate E.
  rename E into E3.
  assert (SZ : size_ok dyn2 2) by (split; [discriminate|vm_compute; discriminate]).
  destruct (H dyn2 dyn2 2%nat 2%nat swap2 (EU Ureciprocal (EVar 0)) [rec_b] [rec_a] r r') as (f & g & h & (_ & _ & _ & A) & (_ & _ & _ & B)).
  - exact cfg_dyn2.
  - exact cfg_dyn2.
  - reflexivity.
  - exact SZ.
  - exact SZ.
  - intros [|[|i]] Hi; cbn; lia.
  - intros [|[|i]] [|[|j]] Hi Hj; cbn; lia.
  - constructor; [exact rec_selects|constructor].
  - exact E1.
  - exact E2.
  - specialize (A eq_refl 1%nat 0%nat ltac:(lia) ltac:(lia)). specialize (B eq_refl 0%nat 1%nat ltac:(lia) ltac:(lia)).
    change (Z.of_nat 1) with 1%Z in *. change (Z.of_nat 0) with 0%Z in *. cbn [swap2] in B. rewrite A, B in E3.
    cbn [swap2] in E3.
    apply orb_false_elim in E3 as (E3 & E4). rewrite Beqb_refl, E4 in E3. discriminate.
Qed.
