(** Facts about memory exhaustion. *)
From Coq Require Import ZArith String List Bool Lia.
From Verif Require Import Outcome Scalar Model Spec Core OpsRep FactsLayout FactsCtor Samples FactsExpr ProgSpec Prog ModelS SpecS FactsS ModelMem MemSpec.
Import ListNotations.

Definition granted (w : mem) : Prop := List.Forall (fun b => b = true) w.
Definition no_full {St} (m : mres St) : Prop := match m with MRan _ w => granted w | MFull _ _ => False end.

Lemma request_granted w : granted w -> exists w', request w = (true, w') /\ granted w'.
Proof. intros [|b w' -> H]; [exists []|exists w']; split; try reflexivity; [constructor|exact H]. Qed.
Lemma requests_granted k : forall w, granted w -> exists w', requests k w = (true, w') /\ granted w'.
Proof.
  induction k as [|k IH]; intros w H; [exists w; auto|]. cbn [requests].
  destruct (request_granted w H) as (w' & -> & H'). apply IH, H'.
Qed.

(** ** Programs *)
Section Programs.
  Context {S St : Type} (test : cond S -> St -> res bool) (step : stmt S -> St -> res St)
    (mstep : stmt S -> St -> mem -> mres St) (exec : nat -> stmt S -> St -> option (res St))
    (half : stmt S -> St -> St -> Prop).
  Hypothesis exec_eq : forall fuel s st, exec fuel s st =
    match fuel with
    | Datatypes.O => None
    | Datatypes.S k =>
      match s with
      | PSeq s1 s2 => match exec k s1 st with Some (Ok st) => exec k s2 st | other => other end
      | PIf b s1 s2 => match test b st with
                       | Ok true => exec k s1 st | Ok false => exec k s2 st
                       | Throw e => Some (Throw e) | Abort => Some Abort | UB => Some UB end
      | PWhile b s1 => match test b st with
                       | Ok true => match exec k s1 st with Some (Ok st) => exec k s st | other => other end
                       | Ok false => Some (Ok st)
                       | Throw e => Some (Throw e) | Abort => Some Abort | UB => Some UB end
      | _ => Some (step s st)
      end
    end.
  Hypothesis step_eq : forall s st w, basic s ->
    match mstep s st w with MRan m _ => m = step s st | MFull st' _ => half s st st' end.

  Lemma run_m_spec fuel : forall s st w,
    match run_m test mstep fuel s st w with
    | None => exec fuel s st = None
    | Some (MRan m _) => exec fuel s st = Some m
    | Some (MFull st' _) => exists s0 st0, reaches test exec s st s0 st0 /\ half s0 st0 st'
    end.
  Proof.
    induction fuel as [|k IH]; intros s st w; [apply exec_eq|].
    assert (HB : forall s, basic s -> match s with PSeq _ _ | PIf _ _ _ | PWhile _ _ => False | _ => True end ->
      match mstep s st w with
      | MRan m _ => exec (Datatypes.S k) s st = Some m
      | MFull st' _ => exists s0 st0, reaches test exec s st s0 st0 /\ half s0 st0 st'
      end).
    { intros s' Hb _. pose proof (step_eq s' st w Hb) as E. destruct (mstep s' st w) as [m w'|st' w'].
      - rewrite exec_eq. destruct s'; try contradiction; now rewrite E.
      - exists s', st. split; [constructor; exact Hb|exact E]. }
    cbn [run_m].
    destruct s as [|s1 s2| | | | | | | |b s1 s2|b s1]; try (apply HB; exact I).
    - rewrite exec_eq. specialize (IH s1 st w) as I1. destruct (run_m test mstep k s1 st w) as [[m w'|st' w']|].
      + rewrite I1. destruct m as [st1| | |]; try reflexivity.
        specialize (IH s2 st1 w') as I2. destruct (run_m test mstep k s2 st1 w') as [[m w''|st' w'']|]; try exact I2.
        destruct I2 as (s0 & st0 & R & Hh). exists s0, st0. split; [|exact Hh]. eapply RSecond; eassumption.
      + destruct I1 as (s0 & st0 & R & Hh). exists s0, st0. split; [|exact Hh]. apply RFirst, R.
      + rewrite I1. reflexivity.
    - rewrite exec_eq. destruct (test b st) as [[|]| | |] eqn:T; try reflexivity.
      + specialize (IH s1 st w) as I1. destruct (run_m test mstep k s1 st w) as [[m w'|st' w']|]; try exact I1.
        destruct I1 as (s0 & st0 & R & Hh). exists s0, st0. split; [|exact Hh]. apply RThen; assumption.
      + specialize (IH s2 st w) as I1. destruct (run_m test mstep k s2 st w) as [[m w'|st' w']|]; try exact I1.
        destruct I1 as (s0 & st0 & R & Hh). exists s0, st0. split; [|exact Hh]. apply RElse; assumption.
    - rewrite exec_eq. destruct (test b st) as [[|]| | |] eqn:T; try reflexivity.
      specialize (IH s1 st w) as I1. destruct (run_m test mstep k s1 st w) as [[m w'|st' w']|].
      + rewrite I1. destruct m as [st1| | |]; try reflexivity.
        specialize (IH (PWhile b s1) st1 w') as I2.
        destruct (run_m test mstep k (PWhile b s1) st1 w') as [[m w''|st' w'']|]; try exact I2.
        destruct I2 as (s0 & st0 & R & Hh). exists s0, st0. split; [|exact Hh]. eapply RNext; eassumption.
      + destruct I1 as (s0 & st0 & R & Hh). exists s0, st0. split; [|exact Hh]. apply RBody; assumption.
      + rewrite I1. reflexivity.
  Qed.

  Lemma run_m_inv (P : St -> Prop) fuel :
    (forall s st w, basic s -> P st -> match mstep s st w with MRan (Ok st') _ | MFull st' _ => P st' | _ => True end) ->
    forall s st w, P st ->
    match run_m test mstep fuel s st w with
    | Some (MRan (Ok st') _) | Some (MFull st' _) => P st' | _ => True
    end.
  Proof.
    intros HS. induction fuel as [|k IH]; intros s st w Hp; [exact I|]. cbn [run_m].
    destruct s as [|s1 s2|r v|r a|r u a|r b a1 a2|r a1 a2 a3|o r a|o r v|b s1 s2|b s1];
      try (match goal with |- context [mstep ?q st w] => exact (HS q st w I Hp) end).
    - specialize (IH s1 st w Hp) as I1. destruct (run_m test mstep k s1 st w) as [[[st1| | |] w'|st' w']|]; try exact I1. apply IH, I1.
    - destruct (test b st) as [[|]| | |]; try exact I; apply IH, Hp.
    - destruct (test b st) as [[|]| | |]; try exact I; [|exact Hp].
      specialize (IH s1 st w Hp) as I1. destruct (run_m test mstep k s1 st w) as [[[st1| | |] w'|st' w']|]; try exact I1. apply IH, I1.
  Qed.

  Lemma run_m_granted fuel : (forall s st w, basic s -> granted w -> no_full (mstep s st w)) ->
    forall s st w, granted w -> match run_m test mstep fuel s st w with Some m => no_full m | None => True end.
  Proof.
    intros HS. induction fuel as [|k IH]; intros s st w Hw; [exact I|]. cbn [run_m].
    destruct s as [|s1 s2|r v|r a|r u a|r b a1 a2|r a1 a2 a3|o r a|o r v|b s1 s2|b s1];
      try (match goal with |- context [mstep ?q st w] => exact (HS q st w I Hw) end).
    - specialize (IH s1 st w Hw) as I1. destruct (run_m test mstep k s1 st w) as [[[st1| | |] w'|st' w']|]; try exact I1.
      apply IH, I1.
    - destruct (test b st) as [[|]| | |]; try exact Hw; apply IH, Hw.
    - destruct (test b st) as [[|]| | |]; try exact Hw.
      specialize (IH s1 st w Hw) as I1. destruct (run_m test mstep k s1 st w) as [[[st1| | |] w'|st' w']|]; try exact I1.
      apply IH, I1.
  Qed.

  (** Registers a program never assigns. *)
  Lemma reaches_no_write r s st s0 st0 : reaches test exec s st s0 st0 -> no_write r s -> no_write r s0.
  Proof. intros H. induction H; cbn [no_write]; tauto. Qed.
End Programs.

(** ** Sparse numbers *)
Section Sparse.
  Context {S : Type} (O : Ops S).
  Implicit Types (t b : table S) (x y : ss S) (w : mem).

  (** A computation that, if it is granted its memory, gives [x]; and is granted it if all requests are. *)
  Definition gives {A} (m : mm A) (x : A) : Prop :=
    (forall w, fst (m w) = Some x \/ fst (m w) = None) /\ (forall w, granted w -> exists w', m w = (Some x, w') /\ granted w').

  Lemma gives_ret {A} (x : A) : gives (mret x) x.
  Proof. split; intros w; [left; reflexivity|]. intros H. exists w. split; [reflexivity|exact H]. Qed.
  Lemma gives_bind {A B} (m : mm A) (k : A -> mm B) (x : A) (y : B) : gives m x -> gives (k x) y -> gives (mbind m k) y.
  Proof.
    intros (H1 & H2) (K1 & K2). split; intros w.
    - unfold mbind. specialize (H1 w). destruct (m w) as [[a|] w']; cbn in *; [|right; reflexivity].
      destruct H1 as [E|E]; [|discriminate]. injection E as ->. apply K1.
    - intros Hw. unfold mbind. destruct (H2 w Hw) as (w' & -> & Hw'). apply K2, Hw'.
  Qed.
  Lemma gives_copy t : gives (copy_m t) t.
  Proof.
    split; intros w; unfold copy_m.
    - destruct (request w) as [[|] w']; [left|right]; reflexivity.
    - intros Hw. destruct (request_granted w Hw) as (w' & -> & Hw'). exists w'. auto.
  Qed.
  Lemma merge_m_spec g b : forall t w,
    match merge_m O g t b w with
    | (t', true, _) => t' = t_merge O g t b
    | (t', false, _) => exists pre k v post, b = pre ++ (k, v) :: post /\ t' = t_merge O g t pre /\ ~ In k (map fst t')
    end.
  Proof.
    induction b as [|(k, v) b IH]; intros t w; [reflexivity|]. cbn [merge_m].
    assert (HC : forall w, match merge_m O g (t_update O t k (fun o => g o v)) b w with
      | (t', true, _) => t' = t_merge O g t ((k, v) :: b)
      | (t', false, _) => exists pre k0 v0 post, (k, v) :: b = pre ++ (k0, v0) :: post /\ t' = t_merge O g t pre /\ ~ In k0 (map fst t')
      end).
    { intros w1. specialize (IH (t_update O t k (fun o => g o v)) w1).
      destruct (merge_m O g (t_update O t k (fun o => g o v)) b w1) as [[t' [|]] w']; [exact IH|].
      destruct IH as (pre & k0 & v0 & post & -> & Ht & Hn). exists ((k, v) :: pre), k0, v0, post. auto. }
    destruct (t_find t k) as [u|] eqn:F; [apply HC|].
    destruct (request w) as [[|] w']; [apply HC|].
    exists [], k, v, b. split; [reflexivity|]. split; [reflexivity|]. apply find_none in F. exact F.
  Qed.
  Lemma merge_m_granted g b : forall t w, granted w -> exists w', merge_m O g t b w = (t_merge O g t b, true, w') /\ granted w'.
  Proof.
    induction b as [|(k, v) b IH]; intros t w Hw; [exists w; auto|]. cbn [merge_m].
    destruct (t_find t k) as [u|]; [apply IH, Hw|]. destruct (request_granted w Hw) as (w' & -> & Hw'). apply IH, Hw'.
  Qed.
  Lemma merge_m_known g b : forall t w, incl (map fst b) (map fst t) -> merge_m O g t b w = (t_merge O g t b, true, w).
  Proof.
    induction b as [|(k, v) b IH]; intros t w Hi; [reflexivity|]. cbn [merge_m].
    destruct (t_find t k) as [u|] eqn:F.
    - apply IH. intros k' Hk'. specialize (Hi k' (or_intror Hk')). apply (in_keys (S := S)). rewrite find_update.
      destruct (String.eqb k k'); [eexists; reflexivity|]. apply (in_keys (S := S)), Hi.
    - exfalso. apply find_none in F. apply F, Hi. left. reflexivity.
  Qed.
  Lemma gives_merged g t b : gives (merged O g t b) (t_merge O g t b).
  Proof.
    split; intros w; unfold merged.
    - pose proof (merge_m_spec g b t w) as H. destruct (merge_m O g t b w) as [[t' [|]] w']; cbn; [left; congruence|right; reflexivity].
    - intros Hw. destruct (merge_m_granted g b t w Hw) as (w' & -> & Hw'). exists w'. auto.
  Qed.
  Lemma gives_result f d t : gives d t -> gives (s_result_m f d) (mks f t).
  Proof. intros H. eapply gives_bind; [exact H|]. eapply gives_bind; [apply gives_copy|apply gives_ret]. Qed.
  Lemma gives_unary a da : gives (s_unary_m O a da) (s_unary O a da).
  Proof. eapply gives_bind; [apply gives_copy|apply gives_ret]. Qed.
  Lemma gives_binary a b da db : gives (s_binary_m O a b da db) (s_binary O a b da db).
  Proof. eapply gives_bind; [apply gives_copy|apply gives_merged]. Qed.
  Lemma gives_ternary a b c da db dc : gives (s_ternary_m O a b c da db dc) (s_ternary O a b c da db dc).
  Proof. eapply gives_bind; [apply gives_copy|]. eapply gives_bind; [apply gives_merged|apply gives_merged]. Qed.
  Lemma gives_on_copy F x : gives (on_copy_m F x) (F x).
  Proof. eapply gives_bind; [apply gives_copy|]. destruct x as [f d]. apply gives_ret. Qed.
  Lemma gives_unary_op F x : gives (s_unary_op_m O F x) (s_unary_op O F x).
  Proof. unfold s_unary_op_m, s_unary_op. destruct (F (s_f x)) as [f da]. apply gives_result, gives_unary. Qed.
  Lemma gives_u u x : gives (s_apply_u_m O u x) (s_apply_u O u x).
  Proof.
    destruct u; cbn [s_apply_u_m s_apply_u]; try apply gives_unary_op;
      try match goal with |- gives (on_copy_m ?F x) _ => exact (gives_on_copy F x) end.
    apply gives_result, gives_unary.
  Qed.
  Lemma gives_b (b : bfun) x y : gives (s_apply_b_m O b x y) (s_apply_b O b x y).
  Proof. destruct b; cbn [s_apply_b_m s_apply_b]; apply gives_result, gives_binary. Qed.
  Lemma gives_h x y z : gives (s_hypot3_m O x y z) (s_hypot3 O x y z).
  Proof. apply gives_result, gives_ternary. Qed.

  Lemma assign_m_spec o x y w :
    match s_assign_m O o x y w with
    | (z, true, _) => z = s_assign O o x (Some y)
    | (z, false, _) => exists pre k v post, s_d y = pre ++ (k, v) :: post /\
        z = s_assign O o x (Some (mks (s_f y) pre)) /\ ~ In k (names z)
    end.
  Proof.
    destruct o; cbn [s_assign_m]; cbv zeta;
      match goal with |- context [merge_m O ?g ?t ?b w] => pose proof (merge_m_spec g b t w) as H;
        destruct (merge_m O g t b w) as [[t' [|]] w'] end;
      try (rewrite H; reflexivity);
      destruct H as (pre & k & v & post & Hb & -> & Hn); exists pre, k, v, post; repeat split; assumption.
  Qed.
  Lemma assign_m_granted o x y w : granted w ->
    exists w', s_assign_m O o x y w = (s_assign O o x (Some y), true, w') /\ granted w'.
  Proof.
    intros Hw. destruct o; cbn [s_assign_m]; cbv zeta;
      match goal with |- context [merge_m O ?g ?t ?b w] => destruct (merge_m_granted g b t w Hw) as (w' & -> & Hw') end;
      exists w'; auto.
  Qed.
  Lemma assign_m_known o x y w : incl (names y) (names x) -> s_assign_m O o x y w = (s_assign O o x (Some y), true, w).
  Proof.
    intros Hi. assert (Hm : forall f, incl (names y) (map fst (t_map f (s_d x)))).
    { intros f. pose proof (keys_map (S := S) f (s_d x)) as E. unfold keys in E. rewrite E. exact Hi. }
    destruct o; cbn [s_assign_m]; cbv zeta; rewrite merge_m_known by first [exact Hi|apply Hm]; reflexivity.
  Qed.

  Context (lost : table S -> table S -> table S).
  Lemma fresh_spec (st : list (ss S)) r m k w : match m with Ok k' => exists v, k = Ok v /\ gives k' v | Throw e => k = Throw e | Abort => k = Abort | UB => k = UB end ->
    match fresh_m st r m w with MRan m' _ => m' = s_write st r k | MFull st' _ => st' = st end.
  Proof.
    intros H. unfold fresh_m, s_write. destruct (get st r) as [x0| | |]; try reflexivity. cbn [bind].
    destruct m as [k'| | |]; try (rewrite H; reflexivity). destruct H as (v & -> & H1 & _). cbn [bind].
    specialize (H1 w). destruct (k' w) as [[z|] w']; cbn in H1; [|reflexivity].
    destruct H1 as [E|E]; [|discriminate]. injection E as ->. reflexivity.
  Qed.
  Lemma fresh_granted (st : list (ss S)) r m w : granted w -> match m with Ok k' => exists v, gives k' v | _ => True end -> no_full (fresh_m st r m w).
  Proof.
    intros Hw H. unfold fresh_m. destruct (get st r) as [x0| | |]; try exact Hw. cbn [bind].
    destruct m as [k'| | |]; try exact Hw. destruct H as (v & _ & H). destruct (H w Hw) as (w' & -> & Hw'). exact Hw'.
  Qed.
  Lemma get_res {A} (st : list A) r : (exists x : A, get st r = Ok x) \/ get st r = UB.
  Proof. unfold get. destruct (nth_error st r); [left; eexists; reflexivity|right; reflexivity]. Qed.

  Lemma s_step_m_spec s st w : basic s ->
    match s_step_m O lost s st w with MRan m _ => m = s_step O s st | MFull st' _ => s_half O lost s st st' end.
  Proof.
    intros Hb. destruct s as [|s1 s2|r v|r a|r u a|r b a1 a2|r a1 a2 a3|o r a|o r v|k s1 s2|k s1]; try contradiction;
      cbn [s_step_m s_half s_step]; try reflexivity.
    - apply fresh_spec. eexists. split; [reflexivity|]. eapply gives_bind; [apply gives_copy|apply gives_ret].
    - unfold s_write. destruct (get_res st r) as [(x & E)|E]; destruct (get_res st a) as [(y & E')|E']; rewrite ?E, ?E'; cbn [bind]; try reflexivity.
      destruct (Nat.eqb_spec a r) as [->|Hne]; [reflexivity|].
      destruct (request w) as [[|] w']; [reflexivity|]. split; [congruence|]. exists x, y. auto.
    - apply fresh_spec. destruct (get_res st a) as [(y & ->) | ->]; cbn [bind]; [|reflexivity].
      eexists. split; [reflexivity|apply gives_u].
    - apply fresh_spec. destruct (get_res st a1) as [(y & ->) | ->]; cbn [bind]; [|reflexivity].
      destruct (get_res st a2) as [(z & ->) | ->]; cbn [bind]; [|reflexivity].
      eexists. split; [reflexivity|apply gives_b].
    - apply fresh_spec. destruct (get_res st a1) as [(y & ->) | ->]; cbn [bind]; [|reflexivity].
      destruct (get_res st a2) as [(z & ->) | ->]; cbn [bind]; [|reflexivity].
      destruct (get_res st a3) as [(z' & ->) | ->]; cbn [bind]; [|reflexivity].
      eexists. split; [reflexivity|apply gives_h].
    - unfold s_write. destruct (get_res st r) as [(x & E)|E]; destruct (get_res st a) as [(y & E')|E']; rewrite ?E, ?E'; cbn [bind]; try reflexivity.
      destruct (Nat.eqb_spec a r) as [->|Hne]; [reflexivity|].
      pose proof (assign_m_spec o x y w) as H. destruct (s_assign_m O o x y w) as [[z [|]] w']; [rewrite H; reflexivity|].
      destruct H as (pre & k & v & post & Hd & Hz & Hn). split; [congruence|].
      exists x, y, pre, k, v, post. cbv zeta. rewrite <- Hz. auto.
  Qed.
  Lemma s_step_m_granted s st w : basic s -> granted w -> no_full (s_step_m O lost s st w).
  Proof.
    intros Hb Hw. destruct s as [|s1 s2|r v|r a|r u a|r b a1 a2|r a1 a2 a3|o r a|o r v|k s1 s2|k s1]; try contradiction;
      cbn [s_step_m]; try exact Hw.
    - apply fresh_granted; [exact Hw|]. eexists. eapply gives_bind; [apply gives_copy|apply gives_ret].
    - destruct (get_res st r) as [(x & E)|E]; destruct (get_res st a) as [(y & E')|E']; rewrite ?E, ?E'; try exact Hw.
      destruct (Nat.eqb a r); [exact Hw|]. destruct (request_granted w Hw) as (w' & -> & Hw'). exact Hw'.
    - apply fresh_granted; [exact Hw|]. destruct (get_res st a) as [(y & ->) | ->]; cbn [bind]; [|exact I]. eexists. apply gives_u.
    - apply fresh_granted; [exact Hw|]. destruct (get_res st a1) as [(y & ->) | ->]; cbn [bind]; [|exact I].
      destruct (get_res st a2) as [(z & ->) | ->]; cbn [bind]; [|exact I]. eexists. apply gives_b.
    - apply fresh_granted; [exact Hw|]. destruct (get_res st a1) as [(y & ->) | ->]; cbn [bind]; [|exact I].
      destruct (get_res st a2) as [(z & ->) | ->]; cbn [bind]; [|exact I].
      destruct (get_res st a3) as [(z' & ->) | ->]; cbn [bind]; [|exact I]. eexists. apply gives_h.
    - destruct (get_res st r) as [(x & E)|E]; destruct (get_res st a) as [(y & E')|E']; rewrite ?E, ?E'; try exact Hw.
      destruct (Nat.eqb a r); [exact Hw|]. destruct (assign_m_granted o x y w Hw) as (w' & -> & Hw'). exact Hw'.
  Qed.

  Lemma s_exec_eq fuel s st : s_exec O fuel s st =
    match fuel with
    | Datatypes.O => None
    | Datatypes.S k =>
      match s with
      | PSeq s1 s2 => match s_exec O k s1 st with Some (Ok st) => s_exec O k s2 st | other => other end
      | PIf b s1 s2 => match s_test O b st with
                       | Ok true => s_exec O k s1 st | Ok false => s_exec O k s2 st
                       | Throw e => Some (Throw e) | Abort => Some Abort | UB => Some UB end
      | PWhile b s1 => match s_test O b st with
                       | Ok true => match s_exec O k s1 st with Some (Ok st) => s_exec O k s st | other => other end
                       | Ok false => Some (Ok st)
                       | Throw e => Some (Throw e) | Abort => Some Abort | UB => Some UB end
      | _ => Some (s_step O s st)
      end
    end.
  Proof. destruct fuel; [reflexivity|]. destruct s; reflexivity. Qed.

  Lemma mem_sparse fuel s st w :
    match s_exec_m O lost fuel s st w with
    | None => s_exec O fuel s st = None
    | Some (MRan m _) => s_exec O fuel s st = Some m
    | Some (MFull st' _) => exists s0 st0, reaches (s_test O) (s_exec O) s st s0 st0 /\ s_half O lost s0 st0 st'
    end.
  Proof. apply run_m_spec with (step := s_step O); [apply s_exec_eq|apply s_step_m_spec]. Qed.
  Lemma mem_sparse_granted fuel s st w : granted w ->
    match s_exec_m O lost fuel s st w with
    | None => s_exec O fuel s st = None
    | Some (MRan m _) => s_exec O fuel s st = Some m
    | Some (MFull _ _) => False
    end.
  Proof.
    intros Hw. pose proof (mem_sparse fuel s st w) as H.
    pose proof (run_m_granted (s_test O) (s_step_m O lost) fuel s_step_m_granted s st w Hw) as G.
    unfold s_exec_m in *. destruct (run_m _ _ fuel s st w) as [[m w'|st' w']|]; try exact H. exact G.
  Qed.

  Lemma keys_ok_assign o x y : keys_ok x -> keys_ok (s_assign O o x (Some y)).
  Proof.
    intros H. destruct o; unfold keys_ok, names; cbn [s_assign s_add_assign s_sub_assign s_mul_assign s_div_assign s_d];
      apply keys_merge; try exact H; rewrite keys_map; exact H.
  Qed.
  Lemma get_Forall {A} (P : A -> Prop) st r (x : A) : List.Forall P st -> get st r = Ok x -> P x.
  Proof.
    intros H E. unfold get in E. destruct (nth_error st r) as [y|] eqn:N; [|discriminate]. injection E as <-.
    rewrite List.Forall_forall in H. apply H. eapply nth_error_In, N.
  Qed.
  Lemma s_half_keys s st st' : (forall t t', NoDup (map fst t') -> NoDup (map fst (lost t t'))) ->
    s_half O lost s st st' -> List.Forall keys_ok st -> List.Forall keys_ok st'.
  Proof.
    intros HL H K. destruct s; cbn [s_half] in H; try (subst; exact K).
    - destruct H as (_ & x & y & Hx & Hy & ->). apply put_Forall; [exact K|]. apply HL. apply (get_Forall keys_ok st a y K Hy).
    - destruct H as (_ & x & y & pre & k & v & post & Hx & Hy & Hd & Hn & ->). apply put_Forall; [exact K|].
      apply keys_ok_assign. apply (get_Forall keys_ok st r x K Hx).
  Qed.
  Lemma mem_sparse_keys fuel s st w : (forall t t', NoDup (map fst t') -> NoDup (map fst (lost t t'))) ->
    List.Forall keys_ok st ->
    match s_exec_m O lost fuel s st w with
    | Some (MRan (Ok st') _) | Some (MFull st' _) => List.Forall keys_ok st' | _ => True
    end.
  Proof.
    intros HL. apply run_m_inv. intros s' st1 w1 Hb K. pose proof (s_step_m_spec s' st1 w1 Hb) as E.
    destruct (s_step_m O lost s' st1 w1) as [[st2| | |] w2|st2 w2]; try exact I.
    - eapply step_keys; [exact K|symmetry; exact E].
    - eapply s_half_keys; eassumption.
  Qed.
  Lemma s_half_others s st st' r : no_write r s -> s_half O lost s st st' -> nth_error st' r = nth_error st r.
  Proof.
    intros N H. destruct s; cbn [s_half no_write] in *; try (subst; reflexivity).
    - destruct H as (_ & x & y & Hx & Hy & ->). apply put_other. congruence.
    - destruct H as (_ & x & y & pre & k & v & post & Hx & Hy & Hd & Hn & ->). apply put_other. congruence.
  Qed.
  Lemma s_write_others (st : list (ss S)) r q m st' : s_write st q m = Ok st' -> q <> r -> nth_error st' r = nth_error st r.
  Proof.
    unfold s_write. destruct (get st q); try discriminate. cbn [bind]. destruct m; try discriminate. cbn [bind].
    intros E N. injection E as <-. apply put_other. congruence.
  Qed.
  Lemma s_step_others s st st' r : no_write r s -> s_step O s st = Ok st' -> nth_error st' r = nth_error st r.
  Proof.
    intros N H. destruct s; cbn [s_step no_write] in *; try (injection H as ->; reflexivity); eapply s_write_others; eassumption.
  Qed.
  Lemma mem_sparse_others fuel r : forall s st w, no_write r s ->
    match s_exec_m O lost fuel s st w with
    | Some (MRan (Ok st') _) | Some (MFull st' _) => nth_error st' r = nth_error st r | _ => True
    end.
  Proof.
    unfold s_exec_m. induction fuel as [|k IH]; intros s st w N; [exact I|]. cbn [run_m].
    assert (HB : forall s, basic s -> no_write r s ->
      match Some (s_step_m O lost s st w) with
      | Some (MRan (Ok st') _) | Some (MFull st' _) => nth_error st' r = nth_error st r | _ => True end).
    { intros s' Hb N'. pose proof (s_step_m_spec s' st w Hb) as E.
      destruct (s_step_m O lost s' st w) as [[st2| | |] w2|st2 w2]; try exact I.
      - eapply s_step_others; [exact N'|symmetry; exact E].
      - eapply s_half_others; eassumption. }
    destruct s as [|s1 s2| | | | | | | |b s1 s2|b s1]; try (apply HB; [exact I|exact N]).
    - destruct N as (N1 & N2). specialize (IH s1 st w N1) as I1.
      destruct (run_m _ _ k s1 st w) as [[[st1| | |] w'|st' w']|]; auto.
      specialize (IH s2 st1 w' N2) as I2. rewrite I1 in I2. exact I2.
    - destruct N as (N1 & N2). destruct (s_test O b st) as [[|]| | |]; auto; apply IH; assumption.
    - destruct (s_test O b st) as [[|]| | |]; auto.
      specialize (IH s1 st w N) as I1. destruct (run_m _ _ k s1 st w) as [[[st1| | |] w'|st' w']|]; auto.
      specialize (IH (PWhile b s1) st1 w' N) as I2. rewrite I1 in I2. exact I2.
  Qed.
  Lemma mem_sparse_known o r a st x y w : get st r = Ok x -> get st a = Ok y -> incl (names y) (names x) ->
    s_step_m O lost (PAsg o r a) st w = MRan (s_step O (PAsg o r a) st) w.
  Proof.
    intros Ex Ey Hi. cbn [s_step_m s_step]. unfold s_write. rewrite Ex, Ey. cbn [bind]. destruct (Nat.eqb a r); [reflexivity|].
    rewrite (assign_m_known o x y w Hi). reflexivity.
  Qed.
End Sparse.

(** ** Dense numbers *)
Section Dense.
  Context {S : Type} (O : Ops S) (c : cfg) (n : nat) (lost : data S -> data S -> data S).

  Lemma asks_static s (st : list (dd S)) : is_dynamic c = false -> asks O c s st = Datatypes.O.
  Proof. intros E. unfold asks. rewrite E. reflexivity. Qed.
  Lemma step_m_spec s st w : basic s ->
    match step_m O c n lost s st w with MRan m _ => m = step O c n s st | MFull st' _ => d_half lost s st st' end.
  Proof.
    intros Hb. unfold step_m. destruct (step O c n s st) as [st1| | |] eqn:E; try reflexivity.
    destruct (requests (asks O c s st) w) as [[|] w'] eqn:R; [reflexivity|].
    destruct s; try reflexivity. unfold d_half.
    unfold asks in R. destruct (is_dynamic c); [|discriminate].
    destruct (get st r) as [x| | |]; try discriminate. destruct (get st a) as [y| | |]; try discriminate.
    destruct (Nat.leb_spec (List.length (m_data y)) (List.length (m_data x))) as [L|L]; [discriminate|].
    exists x, y. auto.
  Qed.
  Lemma step_m_granted s st w : basic s -> granted w -> no_full (step_m O c n lost s st w).
  Proof.
    intros _ Hw. unfold step_m. destruct (step O c n s st) as [st1| | |]; try exact Hw.
    destruct (requests_granted (asks O c s st) w Hw) as (w' & -> & Hw'). exact Hw'.
  Qed.
  Lemma exec_eq fuel s st : exec O c n fuel s st =
    match fuel with
    | Datatypes.O => None
    | Datatypes.S k =>
      match s with
      | PSeq s1 s2 => match exec O c n k s1 st with Some (Ok st) => exec O c n k s2 st | other => other end
      | PIf b s1 s2 => match test O b st with
                       | Ok true => exec O c n k s1 st | Ok false => exec O c n k s2 st
                       | Throw e => Some (Throw e) | Abort => Some Abort | UB => Some UB end
      | PWhile b s1 => match test O b st with
                       | Ok true => match exec O c n k s1 st with Some (Ok st) => exec O c n k s st | other => other end
                       | Ok false => Some (Ok st)
                       | Throw e => Some (Throw e) | Abort => Some Abort | UB => Some UB end
      | _ => Some (step O c n s st)
      end
    end.
  Proof. destruct fuel; [reflexivity|]. destruct s; reflexivity. Qed.
  Lemma mem_dense fuel s st w :
    match exec_m O c n lost fuel s st w with
    | None => exec O c n fuel s st = None
    | Some (MRan m _) => exec O c n fuel s st = Some m
    | Some (MFull st' _) => exists s0 st0, reaches (test O) (exec O c n) s st s0 st0 /\ d_half lost s0 st0 st'
    end.
  Proof. apply run_m_spec with (step := step O c n); [apply exec_eq|apply step_m_spec]. Qed.
  Lemma mem_dense_granted fuel s st w : granted w ->
    match exec_m O c n lost fuel s st w with
    | None => exec O c n fuel s st = None
    | Some (MRan m _) => exec O c n fuel s st = Some m
    | Some (MFull _ _) => False
    end.
  Proof.
    intros Hw. pose proof (mem_dense fuel s st w) as H.
    pose proof (run_m_granted (test O) (step_m O c n lost) fuel step_m_granted s st w Hw) as G.
    unfold exec_m in *. destruct (run_m _ _ fuel s st w) as [[m w'|st' w']|]; try exact H. exact G.
  Qed.
  (** Static numbers request nothing. *)
  Lemma mem_static fuel : is_dynamic c = false -> forall s st w,
    exec_m O c n lost fuel s st w = match exec O c n fuel s st with Some m => Some (MRan m w) | None => None end.
  Proof.
    intros Hs. unfold exec_m. induction fuel as [|k IH]; intros s st w; [reflexivity|]. rewrite exec_eq. cbn [run_m].
    assert (HB : forall s, Some (step_m O c n lost s st w) = Some (MRan (step O c n s st) w)).
    { intros s'. unfold step_m. rewrite (asks_static s' st Hs). cbn [requests]. destruct (step O c n s' st); reflexivity. }
    destruct s as [|s1 s2| | | | | | | |b s1 s2|b s1]; try apply HB.
    - rewrite IH. destruct (exec O c n k s1 st) as [[st1| | |]|]; try reflexivity. apply IH.
    - destruct (test O b st) as [[|]| | |]; try reflexivity; apply IH.
    - destruct (test O b st) as [[|]| | |]; try reflexivity.
      rewrite IH. destruct (exec O c n k s1 st) as [[st1| | |]|]; try reflexivity. apply IH.
  Qed.

  Lemma reps (st : list (dd S)) : List.Forall (wf c n) st -> exists js : list (jet S), Forall2 (rep c n) js st.
  Proof.
    induction 1 as [|x st W _ (js & H)]; [exists []; constructor|].
    destruct (wf_rep c n x W) as (J & HJ). exists (J :: js). constructor; assumption.
  Qed.
  Lemma reps_wf (js : list (jet S)) (st : list (dd S)) : Forall2 (rep c n) js st -> List.Forall (wf c n) st.
  Proof. induction 1; constructor; [eapply rep_wf; eassumption|assumption]. Qed.
  Lemma exec_wf fuel s st st' : cfg_ok c -> size_ok c n -> List.Forall (wf c n) st -> regs_below (List.length st) s ->
    exec O c n fuel s st = Some (Ok st') -> List.Forall (wf c n) st' /\ List.length st' = List.length st.
  Proof.
    intros Hc SO W B E. destruct (reps st W) as (js & H). rewrite <- (Forall2_len _ _ _ H) in B.
    pose proof (exec_ok O c n Hc SO fuel s js st H B) as X. destruct (jexec O fuel s js) as [js'|] eqn:EJ; [|congruence].
    destruct X as (st1 & E1 & H1). assert (st1 = st') by congruence. subst st1.
    split; [eapply reps_wf, H1|]. rewrite <- (Forall2_len _ _ _ H1), <- (Forall2_len _ _ _ H). eapply jexec_length, EJ.
  Qed.
  Lemma reaches_wf s st s0 st0 : cfg_ok c -> size_ok c n -> reaches (test O) (exec O c n) s st s0 st0 ->
    List.Forall (wf c n) st -> regs_below (List.length st) s ->
    List.Forall (wf c n) st0 /\ List.length st0 = List.length st /\ regs_below (List.length st) s0.
  Proof.
    intros Hc SO H. induction H as [s st Hb|s1 s2 st s0 st0 R IH|fuel s1 s2 st st1 s0 st0 E R IH|b s1 s2 st s0 st0 T R IH
      |b s1 s2 st s0 st0 T R IH|b s1 st s0 st0 T R IH|fuel b s1 st st1 s0 st0 T E R IH]; intros W B; auto.
    - destruct B as (B1 & B2). auto.
    - destruct B as (B1 & B2). destruct (exec_wf fuel s1 st st1 Hc SO W B1 E) as (W1 & L1). rewrite <- L1 in B2 |- *. auto.
    - destruct B as (_ & B1 & B2). auto.
    - destruct B as (_ & B1 & B2). auto.
    - destruct B as (_ & B1). auto.
    - pose proof B as (_ & B1). destruct (exec_wf fuel s1 st st1 Hc SO W B1 E) as (W1 & L1). rewrite <- L1 in B |- *. auto.
  Qed.
  Lemma mem_dense_strong fuel s st w st' w' : cfg_ok c -> size_ok c n -> List.Forall (wf c n) st -> regs_below (List.length st) s ->
    exec_m O c n lost fuel s st w = Some (MFull st' w') ->
    List.Forall (wf c n) st' /\ exists s0, reaches (test O) (exec O c n) s st s0 st'.
  Proof.
    intros Hc SO W B E. pose proof (mem_dense fuel s st w) as H. rewrite E in H. destruct H as (s0 & st0 & R & Hh).
    destruct (reaches_wf s st s0 st0 Hc SO R W B) as (W0 & L0 & B0).
    assert (st' = st0) as ->; [|eauto].
    destruct s0; cbn [d_half] in Hh; try exact Hh. exfalso.
    destruct Hh as (x & y & Ex & Ey & L & _).
    destruct (get_Forall _ _ _ _ W0 Ex) as (_ & Lx & _). destruct (get_Forall _ _ _ _ W0 Ey) as (_ & Ly & _). lia.
  Qed.
  (** A refused [resize] has already changed the size. *)
  Lemma resize_full slack x sz w y w' : is_dynamic c = true ->
    resize_m O c slack x sz w = MFull y w' -> y = mk sz (m_data x) /\ forall k, ~ wf c k y.
  Proof.
    intros D. unfold resize_m. destruct (resize O c x sz) as [z| | |] eqn:E; try discriminate.
    destruct (Nat.leb_spec (List.length (m_data z)) (List.length (m_data x) + slack)) as [L|L]; [discriminate|].
    destruct (request w) as [[|] w1]; [discriminate|]. intros Ey. injection Ey as <- <-. split; [reflexivity|].
    intros k (W1 & W2 & _ & W4). unfold size in W1. rewrite D in W1. cbn [m_size m_data] in *. subst sz.
    unfold resize in E. unfold len in W4. rewrite W2 in W4.
    assert (SO : size_ok c k) by (split; [intros D'; congruence|exact W4]).
    rewrite (data_length_from_size_ok c k SO) in E. cbn [bind] in E. unfold vec_resize in E.
    destruct (_ || _); [discriminate|]. cbn [bind] in E. injection E as <-. cbn [m_data] in L.
    rewrite app_length, firstn_length, repeat_length, Nat2Z.id in L. lia.
  Qed.
  Lemma resize_ran slack x sz w m w' : resize_m O c slack x sz w = MRan m w' -> m = resize O c x sz.
  Proof.
    unfold resize_m. destruct (resize O c x sz) as [z| | |]; try congruence.
    destruct (Nat.leb _ _); [congruence|]. destruct (request w) as [[|] w1]; congruence.
  Qed.
End Dense.

(** ** Half-done assignments *)
Section Half.
  Context {S : Type} (O : Ops S).
  Lemma find_app (t t' : table S) k : t_find (t ++ t') k = match t_find t k with Some v => Some v | None => t_find t' k end.
  Proof. induction t as [|(k0, v) t IH]; [reflexivity|]. cbn. destruct (String.eqb k0 k); [reflexivity|exact IH]. Qed.
  Lemma NoDup_left {A} (l l' : list A) : NoDup (l ++ l') -> NoDup l.
  Proof.
    induction l as [|x l IH]; intros H; [constructor|]. inversion H as [|? ? Hn Hd]; subst. constructor; [|apply IH, Hd].
    intros Hi. apply Hn, in_or_app. left. exact Hi.
  Qed.
  Lemma half_find g (t pre post : table S) k : NoDup (map fst (pre ++ post)) ->
    (In k (map fst pre) -> t_find (t_merge O g t pre) k = t_find (t_merge O g t (pre ++ post)) k) /\
    (~ In k (map fst pre) -> t_find (t_merge O g t pre) k = t_find t k).
  Proof.
    intros N. assert (N1 : NoDup (map fst pre)).
    { rewrite map_app in N. eapply NoDup_left, N. }
    rewrite (find_merge O g t pre k N1), (find_merge O g t (pre ++ post) k N), find_app. split; intros H.
    - apply (in_keys (S := S)) in H. destruct H as (v & ->). reflexivity.
    - apply (find_none (S := S)) in H. rewrite H. reflexivity.
  Qed.
  Lemma half_reads o x y pre post k : keys_ok y -> s_d y = pre ++ post ->
    let z := s_assign O o x (Some (mks (s_f y) pre)) in
    s_get_f z = s_get_f (s_assign O o x (Some y)) /\
    (In k (map fst pre) -> s_get_d O z k = s_get_d O (s_assign O o x (Some y)) k) /\
    (~ In k (map fst pre) -> s_get_d O z k = s_get_d O (s_assign O o x (Some (s_constant (s_f y)))) k).
  Proof.
    intros K E. unfold keys_ok, names in K. rewrite E in K. cbv zeta.
    split; [destruct o; reflexivity|]. unfold s_get_d.
    split; intros H; destruct o; cbn [s_assign s_add_assign s_sub_assign s_mul_assign s_div_assign s_d s_f s_constant s_ctor];
      rewrite ?E;
      match goal with |- context [t_find (t_merge O ?g ?t pre) k] => destruct (half_find g t pre post k K) as (A & B) end;
      rewrite ?(A H), ?(B H); reflexivity.
  Qed.
  Lemma put_put {A} (l : list A) r x y : put (put l r x) r y = put l r y.
  Proof. revert r. induction l as [|z l IH]; intros [|r]; cbn; f_equal; auto. Qed.
  Lemma put_get {A} (l : list A) r q x : q <> r -> get (put l r x) q = get l q.
  Proof. intros H. unfold get. rewrite put_other by exact H. reflexivity. Qed.
  Lemma put_get_same {A} (l : list A) r x y : get l r = Ok y -> get (put l r x) r = Ok x.
  Proof.
    unfold get. destruct (nth_error l r) eqn:E; [|discriminate]. intros _. rewrite put_same; [reflexivity|].
    apply nth_error_Some. congruence.
  Qed.
  Lemma retry lost s st w st' w' : basic s -> (forall o r a, s <> PAsg o r a) ->
    s_step_m O lost s st w = MFull st' w' -> s_step O s st' = s_step O s st.
  Proof.
    intros Hb Hn E. pose proof (s_step_m_spec O lost s st w Hb) as H. rewrite E in H.
    destruct s; cbn [s_half] in H; try (rewrite H; reflexivity).
    - destruct H as (N & x & y & Ex & Ey & ->). cbn [s_step]. unfold s_write.
      rewrite (put_get_same _ _ _ _ Ex), Ex, (put_get _ _ _ _ (not_eq_sym N)), Ey. cbn [bind]. rewrite put_put. reflexivity.
    - exfalso. eapply Hn. reflexivity.
  Qed.
End Half.

Definition keep_new {A} (t t' : A) : A := t'.
Open Scope Z_scope.
Definition sum_st : list (ss Z) := [mks 1 [("a"%string, 10)]; mks 2 [("b"%string, 20); ("a"%string, 30); ("c"%string, 40)]].
Lemma sum_full : s_exec_m Zops keep_new 1 (PAsg Aadd 0 1) sum_st [true; false] =
  Some (MFull [mks 3 [("a"%string, 40); ("b"%string, 20)]; mks 2 [("b"%string, 20); ("a"%string, 30); ("c"%string, 40)]] []).
Proof. reflexivity. Qed.
Lemma sum_keys : List.Forall keys_ok sum_st.
Proof. repeat constructor; cbn; intuition discriminate. Qed.
Lemma strong_false : ~ (forall (S : Type) (O : Ops S) lost fuel (s : stmt S) st w st' w', List.Forall keys_ok st ->
  s_exec_m O lost fuel s st w = Some (MFull st' w') -> exists s0, reaches (s_test O) (s_exec O) s st s0 st').
Proof.
  intros H. destruct (H Z Zops _ _ _ _ _ _ _ sum_keys sum_full) as (s0 & R). inversion R.
Qed.
Lemma retry_false : ~ (forall (S : Type) (O : Ops S) lost (s : stmt S) st w st' w', basic s -> List.Forall keys_ok st ->
  s_step_m O lost s st w = MFull st' w' -> s_step O s st' = s_step O s st).
Proof.
  intros H. specialize (H Z Zops keep_new (PAsg Aadd 0%nat 1%nat) sum_st [true; false] _ _ I sum_keys eq_refl).
  discriminate H.
Qed.
Lemma resize_strong_false : ~ (forall (S : Type) (O : Ops S) c slack (x : dd S) sz w y w' k, cfg_ok c -> wf c k x ->
  resize_m O c slack x sz w = MFull y w' -> y = x).
Proof.
  intros H. specialize (H Z Zops dyn1 0%nat (mk 1 (full [5; 7])) 3 [false] (mk 3 (full [5; 7])) [] 1%nat).
  assert (K : cfg_ok dyn1) by (split; [left; reflexivity|cbn; lia]).
  assert (W : wf dyn1 1 (mk 1 (full [5; 7]))).
  { split; [reflexivity|]. split; [reflexivity|]. split; [|cbv; congruence].
    intros [|[|k]] L; cbn in *; [eexists; reflexivity|eexists; reflexivity|lia]. }
  specialize (H K W eq_refl). discriminate H.
Qed.

(** ** Which statements on dense numbers ask for memory *)
Lemma requests_grant k w : requests k (repeat true k ++ w) = (true, w).
Proof. induction k as [|k IH]; cbn; auto. Qed.
Lemma requests_refuse k j w : (j < k)%nat -> requests k (repeat true j ++ false :: w) = (false, w).
Proof. revert j. induction k as [|k IH]; intros [|j] H; cbn; try lia; auto. apply IH. lia. Qed.
Lemma asks_builds {S} (O : Ops S) c n s (st st' : list (dd S)) : is_dynamic c = true -> (forall r a, s <> PMov r a) ->
  step O c n s st = Ok st' -> asks O c s st = builds O s st.
Proof.
  intros D NM E. unfold asks, builds. rewrite D. destruct s as [| | |r a|r u a| | |o r a| | |]; auto.
  - exfalso. eapply NM; reflexivity.
  - cbn in E. unfold write in E. destruct (get st r); try discriminate E. cbn in E. destruct (get st a) as [x| | |]; try discriminate E. cbn in E.
    destruct u; auto. cbn [asks_u]. unfold apply_u, abs in E.
    destruct (get_f x) as [f| | |] eqn:Ef; [reflexivity|discriminate E|discriminate E|discriminate E].
Qed.
Lemma dense_requests {S} (O : Ops S) c n lost s (st st' : list (dd S)) w : is_dynamic c = true -> (forall r a, s <> PMov r a) ->
  step O c n s st = Ok st' ->
  step_m O c n lost s st (repeat true (builds O s st) ++ w) = MRan (Ok st') w /\
  forall j, (j < builds O s st)%nat -> step_m O c n lost s st (repeat true j ++ false :: w) = MFull st w.
Proof.
  intros D NM E. unfold step_m. rewrite E, (asks_builds O c n s st st' D NM E). split.
  - rewrite requests_grant. reflexivity.
  - intros j Hj. rewrite requests_refuse by exact Hj. destruct s; try reflexivity. exfalso. eapply NM; reflexivity.
Qed.
