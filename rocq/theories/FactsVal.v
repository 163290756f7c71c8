(** C62: the storage does not show. *)
From Coq Require Import ZArith List Bool Lia.
From Verif Require Import Outcome Scalar Model Spec ArrSpec Core Kernels OpsRep AccRep PadRep CreateRep FactsLayout FactsOps FactsCtor FactsArr
  ProgSpec Prog FactsProg ModelObj ObjSpec ValSpec FactsObj FactsSess Samples.
Import ListNotations.
Open Scope Z_scope.
Open Scope res_scope.

Section Val.
  Context {S : Type} (O : Ops S) (c : cfg) (slack : nat -> nat).
  Hypothesis Hc : cfg_ok c.
  Hypothesis HE : c_exc c = true.
  Hypothesis HT : is_dynamic c = false -> exists n, size_ok c n.
  Implicit Types (st : heap S) (s : pstmt S) (x : dd S) (v : vheap S).
  Notation pstep := (pstep O c slack).

  Definition same (m : out S) (r : res (option pyexn * vheap S)) : Prop :=
    match m with
    | Done st => exists v, r = Ok (None, v) /\ (inv st -> holds st v)
    | Raised e st => exists v, r = Ok (Some e, v) /\ (inv st -> holds st v)
    | Aborted => r = Abort
    | Wild => r = UB
    end.
  Lemma same_raise st v e : holds st v -> same (Raised e st) (vraise e v).
  Proof. intros H. exists v. auto. Qed.
  Lemma same_done st v : (inv st -> holds st v) -> same (Done st) (vdone v).
  Proof. intros H. exists v. auto. Qed.
  Lemma same_lift {A} st v (m : res A) k k' : holds st v -> (forall a, m = Ok a -> same (k a) (k' a)) -> same (lift st m k) (vtry v m k').
  Proof. intros H K. destruct m; cbn [lift vtry]; [apply K; reflexivity|apply same_raise, H|reflexivity|reflexivity]. Qed.
  Lemma same_obj st v r k k' : inv st -> holds st v ->
    (forall o sz b d cap, names st r = Some o -> nth_error (objs st) o = Some (sz, b) -> nth_error (bufs st) b = Some (Some (d, cap)) ->
       load st o = Ok (mk sz d) -> nth_error (vals v) o = Some (mk sz d) -> same (k o) (k' o (mk sz d))) ->
    same (obj_of st r k) (vget v r k').
  Proof.
    intros (I1 & I2 & I3) H K. unfold obj_of, vget. destruct H as (H1 & H2 & H3 & H4). rewrite <- H3.
    destruct (names st r) as [o|] eqn:E; [|apply same_raise; repeat split; try apply H2; auto].
    pose proof (I3 _ _ E) as L. destruct (nth_error (objs st) o) as [[sz b]|] eqn:Eo; [|apply nth_error_None in Eo; lia].
    destruct (I1 _ _ _ Eo) as (d & cap & Eb).
    assert (El : load st o = Ok (mk sz d)) by (unfold load; rewrite Eo, Eb; reflexivity).
    pose proof (proj1 (H2 _ _) El) as Ev. rewrite Ev. eapply K; eauto.
  Qed.
  Lemma same_arg st v r k k' : inv st -> holds st v ->
    (forall o x, names st r = Some o -> load st o = Ok x -> same (k x) (k' o x)) -> same (arg st r k) (vget v r k').
  Proof.
    intros I H K. unfold arg. apply same_obj; [exact I|exact H|]. intros o sz b d cap Hr _ _ El _. rewrite El. cbn [lift]. eapply K; eauto.
  Qed.
  Lemma put_old {A} (l : list A) o (y : A) : nth_error l o = Some y -> put l o y = l.
  Proof. revert o. induction l as [|a l IH]; intros [|o] H; try discriminate; [injection H as ->; reflexivity|]. cbn. f_equal. apply IH, H. Qed.
  Lemma load_lt st o x : load st o = Ok x -> (o < length (objs st))%nat.
  Proof. unfold load. destruct (nth_error (objs st) o) as [p|] eqn:E; [intros _; eapply some_lt, E|discriminate]. Qed.

  Lemma holds_fresh st v r x : inv st -> holds st v -> holds (fresh slack st r x)
    (mkv (vals v ++ [x]) (bind_name (vnames v) r (length (vals v))) (wins v)).
  Proof.
    intros I H. destruct (fresh_load slack st r x I) as (F1 & F2). destruct H as (H1 & H2 & H3 & H4).
    split; [unfold fresh; cbn [objs vals]; rewrite !app_length, H1; reflexivity|]. split; [|split].
    - intros o y. cbn [vals]. destruct (Nat.lt_trichotomy o (length (objs st))) as [L|[->|L]].
      + rewrite F1 by exact L. rewrite H2. rewrite nth_error_app1 by lia. reflexivity.
      + rewrite F2. rewrite H1. rewrite snoc_new. split; intros E; injection E as <-; reflexivity.
      + split; intros E; exfalso.
        * apply load_lt in E. unfold fresh in E. cbn [objs] in E. rewrite app_length in E. cbn in E. lia.
        * apply some_lt in E. rewrite app_length in E. cbn in E. lia.
    - intros q. cbn [fresh names vnames]. unfold bind_name. rewrite H1, H3. reflexivity.
    - intros w. specialize (H4 w). cbn [fresh views wins objs]. destruct (views st w) as [a|], (wins v w) as [[[o f] n]|]; auto.
      destruct H4 as (A & B & sz & C). repeat split; auto. exists sz. apply snoc_old, C.
  Qed.
  Lemma same_make st v r m : inv st -> holds st v -> same (make slack st r m) (vnew v r m).
  Proof. intros I H. unfold make, vnew. apply same_lift; [exact H|]. intros x _. apply same_done. intros _. apply holds_fresh; assumption. Qed.

  (** Object [o] gets the contents [x], in its own buffer or in a new one. *)
  Lemma holds_put st v o sz b b' (nb : list (option (data S * nat))) x cap : inv st -> holds st v ->
    nth_error (objs st) o = Some (sz, b) -> nth_error nb b' = Some (Some (m_data x, cap)) ->
    (forall b1 d1 cap1, b1 <> b -> nth_error (bufs st) b1 = Some (Some (d1, cap1)) -> nth_error nb b1 = Some (Some (d1, cap1))) ->
    (b' = b \/ forall w a, views st w = Some a -> v_buf a <> b) ->
    holds (mkheap (put (objs st) o (m_size x, b')) nb (names st) (views st)) (mkv (put (vals v) o x) (vnames v) (wins v)).
  Proof.
    intros (I1 & I2 & I3) (H1 & H2 & H3 & H4) Ho Hb Hnb HB. pose proof (some_lt _ _ _ Ho) as Lo.
    split; [cbn [objs vals]; rewrite !put_length; exact H1|]. split; [|split; [exact H3|]].
    - intros o' y. unfold load. cbn [objs bufs vals]. destruct (Nat.eq_dec o' o) as [->|N].
      + rewrite !put_same by lia. rewrite Hb. destruct x as [zx dx]. cbn [m_size m_data]. split; intros E; injection E as <-; reflexivity.
      + rewrite !put_other by exact N. rewrite <- H2. unfold load. destruct (nth_error (objs st) o') as [[sz' b1]|] eqn:Eo'; [|reflexivity].
        destruct (I1 _ _ _ Eo') as (d1 & cap1 & Eb1). rewrite Eb1, (Hnb b1 d1 cap1); [reflexivity| |exact Eb1].
        intros ->. apply N. eapply I2; eassumption.
    - intros w. specialize (H4 w). cbn [views wins objs]. destruct (views st w) as [a|] eqn:Ew, (wins v w) as [[[o' f] n]|]; auto.
      destruct H4 as (A & B & sz' & C). repeat split; auto. destruct (Nat.eq_dec o' o) as [->|N].
      + assert (EB : v_buf a = b) by congruence. destruct HB as [->|HB]; [|exfalso; eapply HB; [exact Ew|exact EB]].
        exists (m_size x). rewrite EB. apply put_same, Lo.
      + exists sz'. rewrite put_other by exact N. exact C.
  Qed.
  Lemma holds_store st v o sz b d cap x : inv st -> holds st v -> nth_error (objs st) o = Some (sz, b) ->
    nth_error (bufs st) b = Some (Some (d, cap)) -> holds (store st o b cap x) (mkv (put (vals v) o x) (vnames v) (wins v)).
  Proof.
    intros I H Ho Hb. unfold store. apply (holds_put st v o sz b b _ x cap); auto.
    - apply put_same. eapply some_lt, Hb.
    - intros b1 d1 cap1 N E. rewrite put_other by exact N. exact E.
  Qed.
  Lemma same_inplace st v r f k' : inv st -> holds st v ->
    (forall o x, names st r = Some o -> load st o = Ok x -> k' o x = vput v o (f o x)) ->
    same (inplace st r f) (vget v r k').
  Proof.
    intros I H K. unfold inplace. apply same_obj; [exact I|exact H|]. intros o sz b d cap Hr Ho Hb El Ev. rewrite Ho, Hb, K by auto.
    unfold vput. apply same_lift; [exact H|]. intros x _. apply same_done. intros _. eapply holds_store; eassumption.
  Qed.

  Lemma vindex_eq (a : view) i : np_index a i = vindex (v_len a) i.
  Proof. reflexivity. Qed.
  Lemma has_vsize st v r n : holds st v -> (has_size c st r n <-> vsize c v r n).
  Proof.
    intros (H1 & H2 & H3 & H4). split; intros (o & x & A & B & C); exists o, x.
    - split; [rewrite <- H3; exact A|]. split; [apply H2, B|exact C].
    - split; [rewrite H3; exact A|]. split; [apply H2, B|exact C].
  Qed.
  Lemma legal_vlegal st v s : inv st -> holds st v -> (legal c s st <-> vlegal c s v).
  Proof.
    intros I H. pose proof (fun r n => has_vsize st v r n H) as HS. destruct s; cbn [legal vlegal]; try reflexivity.
    - destruct b; try reflexivity. split; intros K n m A B; apply K; apply HS; assumption.
    - split; intros K n m A B; apply K; apply HS; assumption.
    - split; intros K D; destruct (K D) as (F & K'); (split; [exact F|]); intros n A; apply K', HS, A.
    - split; intros K D; destruct (K D) as (F & K'); (split; [exact F|]); intros n A; apply K', HS, A.
    - split; intros (F & K'); (split; [exact F|]); intros n A; apply K', HS, A.
    - split; intros (F & rr & k & T & K'); (split; [exact F|]); exists rr, k; (split; [exact T|]); intros D n A; apply (K' D), HS, A.
    - destruct I as (I1 & I2 & I3), H as (H1 & H2 & H3 & H4). split; intros K D; destruct (K D) as (F & U); (split; [exact F|]).
      + intros o w f n Hr Hw. specialize (H4 w). rewrite Hw in H4. destruct (views st w) as [a|] eqn:Ea; [|exact H4].
        destruct H4 as (_ & _ & sz' & Ho). rewrite <- H3 in Hr. eapply U; eauto.
      + intros o sz' b w a Hr Ho Hw Eb. specialize (H4 w). rewrite Hw in H4. destruct (wins v w) as [[[o' f] n]|] eqn:Ew; [|exact H4].
        destruct H4 as (_ & _ & sz2 & Ho'). rewrite Eb in Ho'. assert (o' = o) by (eapply I2; eassumption). subst o'.
        rewrite H3 in Hr. exact (U o w f n Hr Ew).
  Qed.

  Lemma same_step s st v : inv st -> holds st v -> legal c s st -> same (pstep s st) (vstep O c s v).
  Proof.
    intros I H L. destruct s; cbn [ModelObj.pstep vstep]; try (apply same_make; assumption).
    - destruct (_ && _); [apply same_raise, H|apply same_make; assumption].
    - apply same_obj; [exact I|exact H|]. intros o sz b d cap Hr Ho Hb El Ev. apply same_done. intros _.
      destruct H as (H1 & H2 & H3 & H4). split; [exact H1|]. split; [exact H2|]. split; [|exact H4].
      intros q. cbn [bound names vnames]. unfold bind_name. rewrite H3. reflexivity.
    - apply same_arg; [exact I|exact H|]. intros o x Hr El. cbn [vnew vtry]. apply same_done. intros _. apply holds_fresh; assumption.
    - apply same_arg; [exact I|exact H|]. intros o x Hr El. apply same_make; assumption.
    - apply same_arg; [exact I|exact H|]. intros o x Hr El. apply same_arg; [exact I|exact H|]. intros o' y Hr' El'. apply same_make; assumption.
    - do 3 (apply same_arg; [exact I|exact H|]; intros). apply same_make; assumption.
    - destruct (is_dynamic c); [|apply same_raise, H]. apply same_arg; [exact I|exact H|]. intros o x Hr El. apply same_make; assumption.
    - destruct (is_dynamic c); [|apply same_raise, H]. apply same_arg; [exact I|exact H|]. intros o x Hr El. apply same_make; assumption.
    - apply same_obj; [exact I|exact H|]. intros oa sz b d cap Hr Ho Hb El Ev. apply same_inplace; [exact I|exact H|].
      intros ob x Hr' El'. destruct (Nat.eqb oa ob); [reflexivity|]. rewrite El. reflexivity.
    - destruct o.
      + apply same_arg; [exact I|exact H|]. intros o x Hr El. apply same_make; assumption.
      + apply same_arg; [exact I|exact H|]. intros o x Hr El. apply same_make; assumption.
      + apply same_inplace; [exact I|exact H|]. reflexivity.
      + apply same_inplace; [exact I|exact H|]. reflexivity.
    - apply same_inplace; [exact I|exact H|]. reflexivity.
    - apply same_inplace; [exact I|exact H|]. reflexivity.
    - (* SetHm *) destruct (negb (is_dynamic c) && _).
      + apply same_obj; [exact I|exact H|]. intros. apply same_raise, H.
      + assert (E : obj_of st r (fun _ => inplace st r (fun _ x => set_hm c x m)) = inplace st r (fun _ x => set_hm c x m)).
        { unfold inplace, obj_of. destruct (names st r); reflexivity. }
        rewrite E. apply same_inplace; [exact I|exact H|]. reflexivity.
    - (* Resize *) cbn [legal] in L. destruct (dyn_cases c) as [D|D]; rewrite D; [|apply same_raise, H]. destruct (L D) as ((m & -> & SO) & NV).
      apply same_obj; [exact I|exact H|]. intros o sz b d cap Hr Ho Hb El Ev. rewrite Ho, Hb.
      unfold resize, vput. cbn [m_data].
      rewrite (data_length_from_size_ok c m SO). cbn [bind]. set (q := Z.of_nat (storage_len _ _)).
      destruct (vec_resize O d q) as [d'| | |] eqn:Ed; cbn [bind lift vtry].
      + destruct (Nat.leb _ _).
        * apply same_done. intros _. eapply holds_store; eassumption.
        * apply same_done. intros _.
          apply (holds_put st v o sz b (length (bufs st)) _ (mk (Z.of_nat m) d') (length d' + slack (length (bufs st)))%nat); auto.
          -- cbn [m_data]. rewrite <- (put_length (bufs st) b None) at 2. apply snoc_new.
          -- intros b1 d1 cap1 N E. apply snoc_old. rewrite put_other by exact N. exact E.
          -- right. intros w a Hw. eapply NV; eassumption.
      + exfalso. destruct SO as (_ & SO). unfold vec_resize in Ed.
        replace ((q <? 0) || (max_len <? q)) with false in Ed by (symmetry; apply orb_false_iff; split; apply Z.ltb_ge; unfold q; lia).
        discriminate.
      + reflexivity.
      + reflexivity.
    - apply same_obj; [exact I|exact H|]. intros o sz b d cap Hr Ho Hb El Ev. rewrite Ho, El. cbn [lift].
      destruct (_ <? 0); [reflexivity|]. apply same_done. intros _. destruct H as (H1 & H2 & H3 & H4).
      split; [exact H1|]. split; [exact H2|]. split; [exact H3|]. intros w'. cbn [views wins]. unfold bind_name.
      destruct (Nat.eqb w' w); [|apply H4]. cbn [v_off v_len v_buf objs]. repeat split; auto. eauto.
    - apply same_obj; [exact I|exact H|]. intros o sz b d cap Hr Ho Hb El Ev. rewrite Ho, El. cbn [lift].
      apply same_done. intros _. destruct H as (H1 & H2 & H3 & H4).
      split; [exact H1|]. split; [exact H2|]. split; [exact H3|]. intros w'. cbn [views wins]. unfold bind_name.
      destruct (Nat.eqb w' w); [|apply H4]. cbn [v_off v_len v_buf objs]. repeat split; auto. eauto.
    - pose proof H as H'. destruct H' as (H1 & H2 & H3 & H4). specialize (H4 w).
      destruct (views st w) as [a|] eqn:Ea, (wins v w) as [[[o f] n]|]; try contradiction; [|apply same_raise, H].
      destruct H4 as (<- & <- & sz & Ho). rewrite vindex_eq. destruct (vindex (v_len a) i) as [k|]; [|apply same_raise, H].
      destruct (proj1 I _ _ _ Ho) as (d & cap & Eb).
      rewrite (proj1 (H2 o (mk sz d))) by (unfold load; rewrite Ho, Eb; reflexivity).
      unfold view_read. rewrite Eb. cbn [m_data]. apply same_lift; [exact H|]. intros. apply same_done. auto.
    - pose proof H as H'. destruct H' as (H1 & H2 & H3 & H4). specialize (H4 w).
      destruct (views st w) as [a|] eqn:Ea, (wins v w) as [[[o f] n]|]; try contradiction; [|apply same_raise, H].
      destruct H4 as (<- & <- & sz & Ho). rewrite vindex_eq. destruct (vindex (v_len a) i) as [k|]; [|apply same_raise, H].
      destruct (proj1 I _ _ _ Ho) as (d & cap & Eb).
      rewrite (proj1 (H2 o (mk sz d))) by (unfold load; rewrite Ho, Eb; reflexivity).
      unfold view_write, vput. rewrite Eb. cbn [m_data m_size].
      destruct (wr d (Z.of_nat (v_off a + k)) v0) as [d'|e| |]; cbn [bind lift vtry]; [|apply same_raise, H|reflexivity|reflexivity].
      apply same_done. intros _.
      pose proof (holds_store st v o sz (v_buf a) d cap (mk sz d') I H Ho Eb) as X. unfold store in X. cbn [m_size m_data] in X.
      rewrite (put_old (objs st)) in X by exact Ho. exact X.
  Qed.

  Lemma refines p : forall st v, good c st -> holds st v ->
    (legal_session O c slack p st <-> vlegal_session O c p v) /\
    (legal_session O c slack p st -> exists es st' v', traced O c slack p st = Ok (es, st') /\
       session O c slack p st = Ok st' /\ vsession O c p v = Ok (es, v') /\ holds st' v').
  Proof.
    induction p as [|s p IH]; intros st v G H.
    { split; [reflexivity|]. intros _. exists [], st, v. auto. }
    pose proof (proj1 G) as I. pose proof (legal_vlegal st v s I H) as LV.
    cbn [legal_session vlegal_session traced vsession session].
    assert (K : legal c s st -> exists e st' v',
       (pstep s st = Done st' /\ e = None \/ exists e', pstep s st = Raised e' st' /\ e = Some e') /\
       vstep O c s v = Ok (e, v') /\ good c st' /\ holds st' v').
    { intros L. destruct (safe_step O c slack Hc HE HT s st G L) as (st1 & A & G1).
      assert (I1 : inv st1) by (eapply inv_step; [exact I|exact A]). specialize (G1 I1).
      pose proof (same_step s st v I H L) as M. destruct A as [A|(e & A)]; rewrite A in M |- *; destruct M as (v1 & M & HM).
      - exists None, st1, v1. split; [auto|]. split; [exact M|]. split; [exact G1|exact (HM I1)].
      - exists (Some e), st1, v1. split; [eauto|]. split; [exact M|]. split; [exact G1|exact (HM I1)]. }
    split.
    - split; intros (L & R); (split; [apply LV, L|]).
      + destruct (K L) as (e & st1 & v1 & A & V & G1 & H1). rewrite V. destruct (IH st1 v1 G1 H1) as (E & _).
        destruct A as [(A & _)|(e' & A & _)]; rewrite A in R; apply E, R.
      + apply LV in L. destruct (K L) as (e & st1 & v1 & A & V & G1 & H1). rewrite V in R. destruct (IH st1 v1 G1 H1) as (E & _).
        destruct A as [(A & _)|(e' & A & _)]; rewrite A; apply E, R.
    - intros (L & R). destruct (K L) as (e & st1 & v1 & A & V & G1 & H1). rewrite V. cbn [bind].
      destruct (IH st1 v1 G1 H1) as (_ & N).
      destruct A as [(A & ->)|(e' & A & ->)]; rewrite A in R |- *; destruct (N R) as (es & st2 & v2 & T & Ss & Vs & H2); rewrite T, Vs; cbn [bind];
        eexists _, st2, v2; repeat split; auto; apply H2.
  Qed.
End Val.

Lemma holds_start {S} : @holds S start vstart.
Proof. split; [reflexivity|]. split; [intros [|o] x; split; discriminate|]. split; [reflexivity|]. intros w. exact I. Qed.

Lemma sessions_are_values {S} (O : Ops S) c slack p : cfg_ok c -> c_exc c = true -> (is_dynamic c = false -> exists n, size_ok c n) ->
  (legal_session O c slack p start <-> vlegal_session O c p vstart) /\
  (legal_session O c slack p start -> exists es st v,
     traced O c slack p start = Ok (es, st) /\ session O c slack p start = Ok st /\ vsession O c p vstart = Ok (es, v) /\ holds st v).
Proof. intros Hc HE HT. apply refines; auto; [apply good_start|apply holds_start]. Qed.

Lemma capacities_do_not_show {S} (O : Ops S) c slack1 slack2 p : cfg_ok c -> c_exc c = true -> (is_dynamic c = false -> exists n, size_ok c n) ->
  legal_session O c slack1 p start ->
  exists es st1 st2, legal_session O c slack2 p start /\
    traced O c slack1 p start = Ok (es, st1) /\ traced O c slack2 p start = Ok (es, st2) /\
    (forall r, names st1 r = names st2 r) /\ (forall o x, load st1 o = Ok x <-> load st2 o = Ok x) /\
    (forall w i a, (exists v, views st1 w = Some v /\ view_read st1 v i = Ok a) <-> (exists v, views st2 w = Some v /\ view_read st2 v i = Ok a)).
Proof.
  intros Hc HE HT L1. destruct (sessions_are_values O c slack1 p Hc HE HT) as (E1 & K1), (sessions_are_values O c slack2 p Hc HE HT) as (E2 & K2).
  assert (L2 : legal_session O c slack2 p start) by (apply E2, E1, L1).
  destruct (K1 L1) as (es & st1 & v1 & T1 & S1 & V1 & H1), (K2 L2) as (es2 & st2 & v2 & T2 & S2 & V2 & H2).
  rewrite V1 in V2. injection V2 as <- <-. exists es, st1, st2. repeat (split; [assumption|]).
  assert (R : forall slack st v, session O c slack p start = Ok st -> holds st v -> forall w i a,
    (exists u, views st w = Some u /\ view_read st u i = Ok a) <->
    (exists o f n x, wins v w = Some (o, f, n) /\ nth_error (vals v) o = Some x /\ rd (m_data x) (Z.of_nat (f + i)) = Ok a)).
  { intros slack st v Hs (A1 & A2 & A3 & A4) w i a. specialize (A4 w). pose proof (inv_session O c slack p _ _ inv_start Hs) as (I1 & _ & _). split.
    - intros (u & Eu & Er). rewrite Eu in A4. destruct (wins v w) as [[[o f] n]|]; [|contradiction]. destruct A4 as (<- & <- & sz & Ho).
      destruct (I1 _ _ _ Ho) as (d & cap & Eb). exists o, (v_off u), (v_len u), (mk sz d). split; [reflexivity|].
      split; [apply A2; unfold load; rewrite Ho, Eb; reflexivity|]. unfold view_read in Er. rewrite Eb in Er. exact Er.
    - intros (o & f & n & x & Ew & Ex & Er). rewrite Ew in A4. destruct (views st w) as [u|]; [|contradiction]. destruct A4 as (<- & <- & sz & Ho).
      exists u. split; [reflexivity|]. destruct (I1 _ _ _ Ho) as (d & cap & Eb). apply A2 in Ex. unfold load in Ex. rewrite Ho, Eb in Ex. injection Ex as <-.
      unfold view_read. rewrite Eb. exact Er. }
  split; [|split].
  - intros r. rewrite (proj1 (proj2 (proj2 H1))), (proj1 (proj2 (proj2 H2))). reflexivity.
  - intros o x. rewrite (proj1 (proj2 H1)), (proj1 (proj2 H2)). reflexivity.
  - intros w i a. rewrite (R _ _ _ S1 H1), (R _ _ _ S2 H2). reflexivity.
Qed.
