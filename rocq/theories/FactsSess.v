(** C61: sessions that respect the preconditions never go wrong. *)
From Coq Require Import ZArith List Bool Lia.
From Verif Require Import Outcome Scalar Model Spec ArrSpec Core Kernels OpsRep AccRep PadRep CreateRep FactsLayout FactsOps FactsCtor FactsArr
  ProgSpec Prog FactsProg ModelObj ObjSpec FactsObj Samples.
Import ListNotations.
Open Scope Z_scope.
Open Scope res_scope.

Section Sess.
  Context {S : Type} (O : Ops S) (c : cfg) (slack : nat -> nat).
  Hypothesis Hc : cfg_ok c.
  Hypothesis HE : c_exc c = true.
  Hypothesis HT : is_dynamic c = false -> exists n, size_ok c n.
  Implicit Types (st : heap S) (s : pstmt S) (x : dd S).
  Notation pstep := (pstep O c slack).
  Notation session := (session O c slack).

  Definition good st : Prop :=
    inv st /\
    (forall o x, load st o = Ok x -> exists n, wf c n x) /\
    (forall w v, views st w = Some v -> exists o sz d cap, nth_error (objs st) o = Some (sz, v_buf v) /\
       nth_error (bufs st) (v_buf v) = Some (Some (d, cap)) /\ (v_off v + v_len v <= length d)%nat).
  Definition gstep s st (m : out S) : Prop := exists st', (m = Done st' \/ exists e, m = Raised e st') /\ (inv st' -> good st').
  Definition okres (m : res (dd S)) : Prop := (exists e, m = Throw e) \/ exists x n, m = Ok x /\ wf c n x.

  Lemma dyn_cases : is_dynamic c = true \/ is_dynamic c = false.
  Proof. clear HT. destruct (is_dynamic c); auto. Qed.
  Lemma good_inv st : good st -> inv st. Proof. intros H. apply H. Qed.
  Lemma g_raised s st e : good st -> gstep s st (Raised e st).
  Proof. intros G. exists st. split; [eauto|]. auto. Qed.
  Lemma g_done s st st' : (inv st' -> good st') -> gstep s st (Done st').
  Proof. intros G. exists st'. auto. Qed.
  Lemma g_obj s st r k : good st -> (forall o sz b d cap n, names st r = Some o -> nth_error (objs st) o = Some (sz, b) ->
      nth_error (bufs st) b = Some (Some (d, cap)) -> load st o = Ok (mk sz d) -> wf c n (mk sz d) -> gstep s st (k o)) ->
    gstep s st (obj_of st r k).
  Proof.
    intros G H. unfold obj_of. destruct (names st r) as [o|] eqn:E; [|apply g_raised, G].
    destruct (G) as ((I1 & I2 & I3) & W & _). pose proof (I3 _ _ E) as L.
    destruct (nth_error (objs st) o) as [[sz b]|] eqn:Eo; [|apply nth_error_None in Eo; lia].
    destruct (I1 _ _ _ Eo) as (d & cap & Eb).
    assert (El : load st o = Ok (mk sz d)) by (unfold load; rewrite Eo, Eb; reflexivity).
    destruct (W _ _ El) as (n & Wn). eapply H; eauto.
  Qed.
  Lemma g_arg s st r k : good st -> (forall o x n, names st r = Some o -> load st o = Ok x -> wf c n x -> gstep s st (k x)) ->
    gstep s st (arg st r k).
  Proof.
    intros G H. unfold arg. apply g_obj; [exact G|]. intros o sz b d cap n Hr Ho Hb El W. rewrite El. cbn [lift]. eapply H; eauto.
  Qed.
  Lemma g_make s st r m : good st -> okres m -> gstep s st (make slack st r m).
  Proof.
    intros G [(e & ->)|(x & n & -> & W)]; unfold make; cbn [lift]; [apply g_raised, G|]. apply g_done. intros I.
    destruct G as (I0 & W0 & V0). destruct (fresh_load slack st r x I0) as (F1 & F2). split; [exact I|]. split.
    - intros o y E. destruct (Nat.lt_ge_cases o (length (objs st))) as [L|L].
      + rewrite F1 in E by exact L. eapply W0, E.
      + destruct (Nat.eq_dec o (length (objs st))) as [->|N].
        * rewrite F2 in E. injection E as <-. eauto.
        * unfold load, fresh in E. cbn [objs] in E.
          rewrite (proj2 (nth_error_None _ _)) in E by (rewrite app_length; cbn; lia). discriminate.
    - intros w v E. destruct (V0 w v E) as (o & sz & d & cap & Ho & Hb & HL). exists o, sz, d, cap.
      unfold fresh; cbn [objs bufs]. split; [apply snoc_old, Ho|]. split; [apply snoc_old, Hb|exact HL].
  Qed.
  (** Object [o] holds [x] instead of [mk sz d], in the same buffer. *)
  Lemma good_store st o sz b d cap x n : good st -> nth_error (objs st) o = Some (sz, b) ->
    nth_error (bufs st) b = Some (Some (d, cap)) -> wf c n x ->
    length (m_data x) = length d \/ (forall w v, views st w = Some v -> v_buf v <> b) ->
    inv (store st o b cap x) -> good (store st o b cap x).
  Proof.
    intros ((I1 & I2 & I3) & W & V) Ho Hb Wx HL I. split; [exact I|].
    split.
    - intros o' y E. unfold load, store in E. cbn [objs bufs] in E.
      destruct (nth_error (put (objs st) o (m_size x, b)) o') as [[sz' b']|] eqn:Eo; [|discriminate].
      apply put_cases in Eo as [(-> & [= -> ->] & _)|(N & Eo)].
      + rewrite put_same in E by (eapply some_lt, Hb). injection E as <-. exists n. destruct x; exact Wx.
      + rewrite put_other in E by (intros ->; apply N; eapply I2; eassumption). eapply W. unfold load. rewrite Eo. exact E.
    - intros w v E. destruct (V w v E) as (o' & sz' & d' & cap' & Ho' & Hb' & HL'). unfold store. cbn [objs bufs].
      destruct (Nat.eq_dec (v_buf v) b) as [Eb|N].
      + destruct HL as [HL|HL]; [|exfalso; eapply HL; eassumption].
        rewrite Eb in *. assert (o' = o) by (eapply I2; eassumption). subst o'.
        rewrite Hb in Hb'. injection Hb' as <- <-.
        exists o, (m_size x), (m_data x), cap. rewrite put_same by (eapply some_lt, Ho). rewrite put_same by (eapply some_lt, Hb).
        split; [reflexivity|]. split; [reflexivity|]. lia.
      + exists o', sz', d', cap'. rewrite !put_other; auto.
        intros ->. apply N. rewrite Ho in Ho'. congruence.
  Qed.
  Lemma g_inplace s st r f : good st ->
    (forall o x n, names st r = Some o -> load st o = Ok x -> wf c n x -> okres (f o x)) ->
    (forall o x x', f o x = Ok x' -> keeps x x') -> gstep s st (inplace st r f).
  Proof.
    intros G H K. unfold inplace. apply g_obj; [exact G|]. intros o sz b d cap n Hr Ho Hb El W. rewrite Ho, Hb.
    destruct (H o _ n Hr El W) as [(e & E)|(x & m & E & Wx)]; rewrite E; cbn [lift]; [apply g_raised, G|].
    apply g_done. intros I. apply (good_store _ _ sz _ d _ _ m); try assumption. left. apply (K _ _ _ E).
  Qed.
  Lemma okres_rep n J m : (exists r, m = Ok r /\ rep c n J r) -> okres m.
  Proof. intros (r & -> & R). right. exists r, n. split; [reflexivity|eapply rep_wf, R]. Qed.
  Lemma wf_dyn_size n m x (y : dd S) : wf c n x -> wf c m y -> size c x = size c y -> n = m.
  Proof. intros (A & _) (B & _) E. lia. Qed.
  Lemma static_eq n m x (y : dd S) : is_dynamic c = false -> wf c n x -> wf c m y -> n = m.
  Proof. intros D (A & _) (B & _). unfold size in *. rewrite D in *. lia. Qed.
  Lemma okres_b b x y n m : wf c n x -> wf c m y -> (b = Batan2 -> n = m) -> okres (apply_b O c b x y).
  Proof.
    intros W W' HB. destruct (Nat.eq_dec n m) as [->|N].
    - destruct (wf_rep _ _ _ W) as (J & R), (wf_rep _ _ _ W') as (K & R'). eapply okres_rep, apply_b_rep; eassumption.
    - destruct dyn_cases as [D|D]; [|exfalso; apply N; eapply static_eq; eassumption].
      left. exists IncompatibleSize.
      assert (NS : size c x <> size c y) by (intros E; apply N; exact (wf_dyn_size n m x y W W' E)).
      destruct (mismatch_rejected O c x y x D (or_introl HE) NS) as (E1 & E2 & E3 & E4 & E5 & _). rewrite HE in *.
      destruct b; cbn [apply_b]; try assumption. exfalso. apply N, HB. reflexivity.
  Qed.
  Lemma okres_assign o x y n m : wf c n x -> wf c m y -> okres (assign O c o x (Some y)).
  Proof.
    intros W W'. destruct (Nat.eq_dec n m) as [->|N].
    - destruct (wf_rep _ _ _ W) as (J & R), (wf_rep _ _ _ W') as (K & R'). destruct o; cbn [assign].
      + eapply okres_rep, add_assign_rep; eassumption.
      + eapply okres_rep, sub_assign_rep; eassumption.
      + eapply okres_rep, mul_assign_rep; eassumption.
      + eapply okres_rep, div_assign_rep; eassumption.
    - destruct dyn_cases as [D|D]; [|exfalso; apply N; eapply static_eq; eassumption].
      left. exists IncompatibleSize.
      assert (NS : size c x <> size c y) by (intros E; apply N; exact (wf_dyn_size n m x y W W' E)).
      destruct (mismatch_rejected O c x y x D (or_introl HE) NS) as (_ & _ & _ & _ & _ & _ & E1 & E2 & E3 & E4). rewrite HE in *.
      destruct o; assumption.
  Qed.
  Lemma okres_assign_self o x n : wf c n x -> okres (assign O c o x None).
  Proof.
    intros W. destruct (wf_rep _ _ _ W) as (J & R). destruct o; cbn [assign].
    - eapply okres_rep, add_assign_self, R.
    - eapply okres_rep, sub_assign_self, R.
    - eapply okres_rep, mul_assign_self, R.
    - eapply okres_rep, div_assign_self, R; assumption.
  Qed.
  Lemma okres_assign_s o x v n : wf c n x -> okres (assign_s O o x v).
  Proof.
    intros W. destruct (wf_rep _ _ _ W) as (J & R). destruct o; cbn [assign_s].
    - eapply okres_rep, adds_assign_rep, R.
    - eapply okres_rep, subs_assign_rep, R.
    - eapply okres_rep, muls_assign_rep, R.
    - eapply okres_rep, divs_assign_rep, R.
  Qed.
  Lemma okres_u u x n : wf c n x -> okres (apply_u O c u x).
  Proof. intros W. destruct (wf_rep _ _ _ W) as (J & R). eapply okres_rep, apply_u_rep, R. exact Hc. Qed.

  Lemma safe_step s st : good st -> legal c s st -> gstep s st (pstep s st).
  Proof.
    intros G L. destruct s; cbn [ModelObj.pstep legal] in *.
    - (* NConst *) apply g_make; [exact G|]. destruct dyn_cases as [D|D].
      + destruct (L D) as (n & -> & SO). eapply okres_rep, constant_n_rep, SO.
      + destruct (HT D) as (n & SO). destruct (Z.eq_dec sz (c_tsize c)) as [->|N].
        * rewrite (proj1 SO D). eapply okres_rep, constant_n_rep, SO.
        * left. eexists. apply (static_size_checked O c sz v 0 D HE N).
    - (* NVar *) apply g_make; [exact G|]. destruct L as (Hi & L). destruct dyn_cases as [D|D].
      + destruct (L D) as (n & -> & SO). replace i with (Z.of_nat (Z.to_nat i)) by lia.
        eapply okres_rep, variable_n_rep; [exact SO|lia].
      + destruct (HT D) as (n & SO). destruct (Z.eq_dec sz (c_tsize c)) as [->|N].
        * rewrite (proj1 SO D) in *. replace i with (Z.of_nat (Z.to_nat i)) by lia. eapply okres_rep, variable_n_rep; [exact SO|lia].
        * left. eexists. apply (static_size_checked O c sz v i D HE N).
    - (* NEmpty *) apply g_make; [exact G|]. destruct L as (D & n & -> & SO). eapply okres_rep.
      destruct (zero_n_rep O c n SO) as (r0 & E & R). exists r0. split; [|exact R].
      unfold empty_n. unfold zero_n in E. rewrite D in *. exact E.
    - (* NData *) destruct L as (L1 & L2). destruct dyn_cases as [D|D]; rewrite D; cbn [negb andb].
      + apply g_make; [exact G|]. destruct (create_wf c vs HE D L1 L2) as [(n & r0 & _ & E & W & _)|(_ & E)]; [right|left]; eauto.
      + destruct (HT D) as (n & SO). destruct (Z.eqb_spec (Z.of_nat (length vs)) (StaticDataSize c)) as [E|N]; [|apply g_raised, G].
        cbn [negb andb]. apply g_make; [exact G|]. rewrite (StaticDataSize_ok c n (proj1 SO D)) in E. apply Nat2Z.inj in E.
        assert (W : wf c n (mk (c_tsize c) (full vs))).
        { apply wf_list; [unfold size; rewrite D; apply SO, D|exact E|exact L2]. }
        destruct (create_round_trip c n _ Hc (or_introl HE) W) as (r0 & Er & Es & Ed). cbn [m_data] in *.
        right. exists r0, n. split; [exact Er|]. destruct W as (W1 & W2 & W3 & W4). split; [congruence|].
        rewrite Ed. cbn [m_data] in *. auto.
    - (* Alias *) apply g_obj; [exact G|]. intros o sz b d cap n Hr Ho Hb El W. apply g_done. intros I. split; [exact I|].
      destruct G as (_ & G2 & G3). split; [exact G2|exact G3].
    - (* Copy *) apply g_arg; [exact G|]. intros o x n Hr El W.
      change (gstep (Copy r a) st (make slack st r (Ok x))). apply g_make; [exact G|]. right. eauto.
    - (* Un *) apply g_arg; [exact G|]. intros o x n Hr El W. apply g_make; [exact G|]. eapply okres_u, W.
    - (* Bin *) apply g_arg; [exact G|]. intros o x n Hr El W. apply g_arg; [exact G|]. intros o' y m Hr' El' W'.
      apply g_make; [exact G|]. eapply okres_b; [exact W|exact W'|]. intros ->.
      apply (wf_dyn_size n m x y W W'). apply L; [exists o, x|exists o', y]; auto.
    - (* Hyp *) apply g_arg; [exact G|]. intros o x n Hr El W. apply g_arg; [exact G|]. intros o' y m Hr' El' W'.
      apply g_arg; [exact G|]. intros o2 z k Hr2 El2 W2. apply g_make; [exact G|].
      assert (n = k). { apply (wf_dyn_size n k x z W W2). apply L; [exists o, x|exists o2, z]; auto. } subst k.
      destruct (Nat.eq_dec n m) as [->|N].
      + destruct (wf_rep _ _ _ W) as (J & R), (wf_rep _ _ _ W') as (K & R'), (wf_rep _ _ _ W2) as (M & R2).
        eapply okres_rep, hypot3_rep; eassumption.
      + destruct dyn_cases as [D|D]; [|exfalso; apply N; eapply static_eq; eassumption].
        left. exists IncompatibleSize.
        assert (NS : size c x <> size c y) by (intros E; apply N; exact (wf_dyn_size n m x y W W' E)).
        destruct (mismatch_rejected O c x y z D (or_introl HE) NS) as (_ & _ & _ & _ & _ & E & _). rewrite HE in *. exact E.
    - (* PadL *) destruct dyn_cases as [D|D]; rewrite D; [|apply g_raised, G]. destruct (L D) as ((m & -> & SO) & Hle).
      apply g_arg; [exact G|]. intros o x n Hr El W. apply g_make; [exact G|]. destruct (wf_rep _ _ _ W) as (J & R).
      eapply okres_rep, pad_left_rep; [exact R| |exact SO]. apply Nat2Z.inj_le. apply Hle. exists o, x. split; [exact Hr|]. split; [exact El|]. apply W.
    - (* PadR *) destruct dyn_cases as [D|D]; rewrite D; [|apply g_raised, G]. destruct (L D) as ((m & -> & SO) & Hle).
      apply g_arg; [exact G|]. intros o x n Hr El W. apply g_make; [exact G|]. destruct (wf_rep _ _ _ W) as (J & R).
      eapply okres_rep, pad_right_rep; [exact R| |exact SO]. apply Nat2Z.inj_le. apply Hle. exists o, x. split; [exact Hr|]. split; [exact El|]. apply W.
    - (* IAsg *) apply g_obj; [exact G|]. intros oa sz b d cap n Ha Ho Hb Ela Wa. apply g_inplace; [exact G| |].
      + intros ob x m Hr El W. destruct (Nat.eqb oa ob); [eapply okres_assign_self, W|]. rewrite Ela. cbn [bind].
        eapply okres_assign; [exact W|exact Wa].
      + intros ob x x' E. destruct (Nat.eqb oa ob); [eapply assign_keeps, E|]. rewrite Ela in E. cbn [bind] in E. eapply assign_keeps, E.
    - (* IAsgS *) destruct o.
      + apply g_arg; [exact G|]. intros o x n Hr El W. apply g_make; [exact G|]. eapply okres_u, W.
      + apply g_arg; [exact G|]. intros o x n Hr El W. apply g_make; [exact G|]. eapply okres_u, W.
      + apply g_inplace; [exact G| |].
        * intros ob x m Hr El W. eapply okres_assign_s, W.
        * intros ob x x' E. eapply calm_ok_inv; [|exact E]. apply calm_assign_s.
      + apply g_inplace; [exact G| |].
        * intros ob x m Hr El W. eapply okres_assign_s, W.
        * intros ob x x' E. eapply calm_ok_inv; [|exact E]. apply calm_assign_s.
    - (* SetF *) apply g_inplace; [exact G| |].
      + intros ob x m Hr El W. destruct (wf_rep _ _ _ W) as (J & R). eapply okres_rep, set_f_rep, R.
      + intros ob x x' E. eapply calm_ok_inv; [|exact E]. apply calm_set_f.
    - (* SetH *) destruct L as (Ho & L). apply g_inplace; [exact G| |].
      + intros ob x m Hr El W. destruct (wf_rep _ _ _ W) as (J & R).
        destruct (L (Z.of_nat m)) as (Hi & Hj); [exists ob, x; split; [exact Hr|]; split; [exact El|]; apply W|].
        replace i with (Z.of_nat (Z.to_nat i)) by lia. replace j with (Z.of_nat (Z.to_nat j)) by lia.
        eapply okres_rep, set_h_rep; [exact R|lia|lia|lia].
      + intros ob x x' E. eapply calm_ok_inv; [|exact E]. apply calm_set_h.
    - (* SetHm *) destruct L as (Ho & rr & k & T & L). apply g_obj; [exact G|]. intros o0 sz0 b0 d0 cap0 n0 _ _ _ _ _.
      destruct (negb (is_dynamic c) && _) eqn:Esh; [apply g_raised, G|]. apply g_inplace; [exact G| |].
      + intros ob x n Hr El W.
        assert (HH : (Z.of_nat n <= Z.of_nat rr /\ Z.of_nat n <= Z.of_nat k)).
        { destruct dyn_cases as [D|D].
          - apply (L D). exists ob, x. split; [exact Hr|]. split; [exact El|]. apply W.
          - rewrite D in Esh. cbn [negb andb] in Esh. apply negb_false_iff, andb_prop in Esh as (E1 & E2).
            apply Z.eqb_eq in E1, E2. destruct T as (T1 & T2 & _).
            assert (size c x = Z.of_nat n) by apply W. unfold size in H. rewrite D in H. lia. }
        destruct HH as (H1 & H2).
        destruct (set_hm_large c n rr k x m Ho W T ltac:(lia) ltac:(lia)) as (x' & E & W' & _). right. eauto.
      + intros ob x x' E. eapply calm_ok_inv; [|exact E]. apply calm_set_hm.
    - (* Resize *) destruct dyn_cases as [D|D]; rewrite D; [|apply g_raised, G]. destruct (L D) as ((m & -> & SO) & NV).
      apply g_obj; [exact G|]. intros o sz b d cap n Hr Ho Hb El W. rewrite Ho, Hb.
      destruct (resize_wf O c n m (mk sz d) D W SO) as (x & E & Wx & _). unfold resize in E.
      destruct (n0 <- data_length_from_size c (Z.of_nat m);; vec_resize O d n0) as [d'| | |] eqn:Ed.
      2-4: exfalso; cbn [m_data] in E; destruct (data_length_from_size c (Z.of_nat m)) as [q| | |]; cbn [bind] in Ed, E; try discriminate; rewrite Ed in E; discriminate.
      assert (Ex : x = mk (Z.of_nat m) d').
      { cbn [m_data] in E. destruct (data_length_from_size c (Z.of_nat m)) as [q| | |]; cbn [bind] in Ed, E; try discriminate.
        rewrite Ed in E. cbn [bind] in E. congruence. }
      subst x. cbn [lift]. destruct (Nat.leb _ _).
      + apply g_done. intros I. eapply good_store; try eassumption. right. intros w v Hv. eapply NV; eassumption.
      + apply g_done. intros I. split; [exact I|]. destruct G as ((I1 & I2 & I3) & G2 & G3). split.
        * intros o' y E'. unfold load in E'. cbn [objs bufs] in E'.
          destruct (nth_error (put (objs st) o (Z.of_nat m, length (bufs st))) o') as [[sz' b']|] eqn:Eo; [|discriminate].
          apply put_cases in Eo as [(-> & [= -> ->] & _)|(N & Eo)].
          -- pose proof (snoc_new (put (bufs st) b None) (Some (d', (length d' + slack (length (bufs st)))%nat))) as SN.
             rewrite put_length in SN.
             match goal with H : match ?N with _ => _ end = Ok y |- _ => replace N with (Some (Some (d', (length d' + slack (length (bufs st)))%nat))) in H by (symmetry; exact SN) end.
             injection E' as <-. eauto.
          -- destruct (I1 _ _ _ Eo) as (d1 & cap1 & Eb1).
             assert (NB : b' <> b) by (intros ->; apply N; eapply I2; eassumption).
             rewrite nth_error_app1 in E' by (rewrite put_length; eapply some_lt, Eb1). rewrite put_other in E' by exact NB.
             eapply G2. unfold load. rewrite Eo. exact E'.
        * intros w v Hv. cbn [views] in Hv. destruct (G3 w v Hv) as (o1 & sz1 & d1 & cap1 & Ho1 & Hb1 & HL1).
          assert (NB : v_buf v <> b) by (eapply NV; eassumption).
          assert (NO : o1 <> o) by (intros ->; rewrite Ho in Ho1; congruence).
          exists o1, sz1, d1, cap1. cbn [objs bufs]. rewrite put_other by exact NO. split; [exact Ho1|]. split; [|exact HL1].
          apply snoc_old. rewrite put_other by exact NB. exact Hb1.
    - (* ViewG *) apply g_obj; [exact G|]. intros o sz b d cap n Hr Ho Hb El W. rewrite Ho, El. cbn [lift].
      pose proof (proj1 W) as WS. destruct (Z.ltb_spec (size c (mk sz d)) 0) as [Hneg|Hpos]; [lia|].
      apply g_done. intros I. split; [exact I|]. destruct G as (I0 & G2 & G3). split; [exact G2|].
      intros w' v. cbn [views objs bufs]. unfold bind_name. destruct (Nat.eqb w' w); [|apply G3]. intros [= <-]. cbn [v_buf v_off v_len].
      exists o, sz, d, cap. split; [exact Ho|]. split; [exact Hb|]. rewrite WS. destruct W as (_ & WL & _). cbn [m_data] in WL.
      rewrite WL, Nat2Z.id. apply storage_len_ge.
    - (* ViewData *) apply g_obj; [exact G|]. intros o sz b d cap n Hr Ho Hb El W. rewrite Ho, El. cbn [lift].
      apply g_done. intros I. split; [exact I|]. destruct G as (I0 & G2 & G3). split; [exact G2|].
      intros w' v. cbn [views objs bufs]. unfold bind_name. destruct (Nat.eqb w' w); [|apply G3]. intros [= <-]. cbn [v_buf v_off v_len m_data].
      exists o, sz, d, cap. split; [exact Ho|]. split; [exact Hb|]. lia.
    - (* ViewRead *) destruct (views st w) as [v|] eqn:Ev; [|apply g_raised, G].
      destruct (np_index v i) as [k|] eqn:Ek; [|apply g_raised, G]. destruct (G) as (I & G2 & G3).
      destruct (G3 w v Ev) as (o & sz & d & cap & Ho & Hb & HL).
      assert (Hk : (k < v_len v)%nat).
      { unfold np_index in Ek. destruct (Z.leb_spec (- Z.of_nat (v_len v)) i); destruct (Z.ltb_spec i (Z.of_nat (v_len v))); try discriminate.
        cbn [andb] in Ek. injection Ek as <-. destruct (Z.ltb_spec i 0); lia. }
      destruct (G2 o (mk sz d)) as (n & W); [unfold load; rewrite Ho, Hb; reflexivity|].
      destruct W as (_ & _ & WF & _). cbn [m_data] in WF. destruct (WF (v_off v + k)%nat ltac:(lia)) as (a & Ea).
      unfold view_read. rewrite Hb. rewrite (rd_Some d (v_off v + k)%nat _ a eq_refl Ea). cbn [lift]. apply g_done. auto.
    - (* ViewSet *) destruct (views st w) as [v0|] eqn:Ev; [|apply g_raised, G].
      destruct (np_index v0 i) as [k|] eqn:Ek; [|apply g_raised, G]. destruct (G) as (I & G2 & G3). destruct I as (I1 & I2 & I3).
      destruct (G3 w v0 Ev) as (o & sz & d & cap & Ho & Hb & HL).
      assert (Hk : (k < v_len v0)%nat).
      { unfold np_index in Ek. destruct (Z.leb_spec (- Z.of_nat (v_len v0)) i); destruct (Z.ltb_spec i (Z.of_nat (v_len v0))); try discriminate.
        cbn [andb] in Ek. injection Ek as <-. destruct (Z.ltb_spec i 0); lia. }
      unfold view_write. rewrite Hb, (wr_ok _ (v_off v0 + k)%nat) by (first [reflexivity|lia]). cbn [bind lift].
      destruct (G2 o (mk sz d)) as (n & W); [unfold load; rewrite Ho, Hb; reflexivity|].
      assert (W' : wf c n (mk sz (upd d (v_off v0 + k) v))).
      { destruct W as (W1 & W2 & W3 & W4). cbn [m_data] in *. split; [unfold size in *; cbn [m_size] in *; exact W1|].
        cbn [m_data]. unfold len in *. rewrite upd_length. split; [exact W2|]. split; [|exact W4].
        intros q Hq. destruct (Nat.eq_dec q (v_off v0 + k)) as [->|N].
        - exists v. apply nth_error_upd_eq. exact Hq.
        - rewrite nth_error_upd_ne by lia. apply W3, Hq. }
      assert (EQ : mkheap (objs st) (put (bufs st) (v_buf v0) (Some (upd d (v_off v0 + k) v, cap))) (names st) (views st) =
                   store st o (v_buf v0) cap (mk sz (upd d (v_off v0 + k) v))).
      { unfold store. cbn [m_size m_data]. f_equal. clear - Ho. revert o Ho. generalize (objs st). induction l as [|a l IH]; intros [|o] H; try discriminate.
        - injection H as ->. reflexivity.
        - cbn. f_equal. apply IH, H. }
      rewrite EQ. apply g_done. intros I. apply (good_store st o sz (v_buf v0) d cap _ n); try assumption.
      left. cbn [m_data]. apply upd_length.
  Qed.

  Lemma safe_session p : forall st, good st -> legal_session O c slack p st -> exists st', session p st = Ok st' /\ good st'.
  Proof.
    induction p as [|s p IH]; intros st G L; [exists st; auto|]. destruct L as (L1 & L2).
    destruct (safe_step s st G L1) as (st1 & A & G1).
    assert (I1 : inv st1) by (eapply inv_step; [apply G|]; exact A). specialize (G1 I1).
    cbn [ModelObj.session]. destruct A as [A|(e & A)]; rewrite A in L2 |- *; apply IH; assumption.
  Qed.
  Lemma good_start : good start.
  Proof. split; [apply inv_start|]. split; [intros [|o] x; discriminate|]. intros w v; discriminate. Qed.
End Sess.

Lemma sessions_safe {S} (O : Ops S) c slack p : cfg_ok c -> c_exc c = true -> (is_dynamic c = false -> exists n, size_ok c n) ->
  legal_session O c slack p start ->
  exists st, session O c slack p start = Ok st /\
    (forall r o, names st r = Some o -> exists n x, load st o = Ok x /\ wf c n x) /\
    (forall w v i, views st w = Some v -> (i < v_len v)%nat -> exists a, view_read st v i = Ok a).
Proof.
  intros Hc HE HT L. destruct (safe_session O c slack Hc HE HT p start (good_start c) L) as (st & E & (I1 & I2 & I3) & G2 & G3).
  exists st. split; [exact E|]. split.
  - intros r o Hr. pose proof (I3 _ _ Hr) as Lo. destruct (nth_error (objs st) o) as [[sz b]|] eqn:Eo; [|apply nth_error_None in Eo; lia].
    destruct (I1 _ _ _ Eo) as (d & cap & Eb).
    assert (El : load st o = Ok (mk sz d)) by (unfold load; rewrite Eo, Eb; reflexivity).
    destruct (G2 _ _ El) as (n & W). eauto.
  - intros w v i Hv Hi. destruct (G3 _ _ Hv) as (o & sz & d & cap & Ho & Hb & HL).
    destruct (G2 o (mk sz d)) as (n & W); [unfold load; rewrite Ho, Hb; reflexivity|].
    destruct W as (_ & _ & WF & _). cbn [m_data] in WF. destruct (WF (v_off v + i)%nat ltac:(lia)) as (a & Ea).
    exists a. unfold view_read. rewrite Hb. apply (rd_Some d (v_off v + i)%nat _ a eq_refl Ea).
Qed.

(** ** Witnesses *)
Lemma legal_next {S} (O : Ops S) c slack s p st st' : legal c s st ->
  pstep O c slack s st = Done st' \/ (exists e, pstep O c slack s st = Raised e st') ->
  legal_session O c slack p st' -> legal_session O c slack (s :: p) st.
Proof. intros L [E|(e & E)] H; cbn [legal_session]; rewrite E; auto. Qed.
Lemma fits_small c n : is_dynamic c = true -> Z.of_nat (storage_len (c_ord c) n) <= max_len -> fits c (Z.of_nat n).
Proof. intros D H. exists n. split; [reflexivity|]. split; [congruence|exact H]. Qed.
Ltac legal_fits := match goal with |- fits ?c ?z => change z with (Z.of_nat (Z.to_nat z)); apply fits_small; [reflexivity|vm_compute; discriminate] end.
(** Proves that a concrete session is legal, one statement after the other. *)
Ltac legal_case := cbv zeta; repeat (eapply legal_next;
  [cbn [legal] | first [left; vm_compute; reflexivity|right; eexists; vm_compute; reflexivity] | ]); try exact I;
  repeat match goal with
  | |- _ /\ _ => split
  | |- _ -> _ => intro
  | |- fits _ _ => legal_fits
  | H : has_size _ _ _ _ |- _ => let o := fresh in let x := fresh in let A := fresh in let B := fresh in let C := fresh in
      destruct H as (o & x & A & B & C); vm_compute in A; injection A as <-; vm_compute in B; injection B as <-; vm_compute in C; subst
  | H : names _ _ = _ |- _ => vm_compute in H; injection H as <-
  | H : nth_error _ _ = _ |- _ => vm_compute in H; injection H as <- <-
  | |- unviewed _ _ => let w := fresh in let v := fresh in let V := fresh in intros ? ? ? w v ? ? V; vm_compute in V; repeat (destruct w as [|w]; [injection V as <-|vm_compute in V; try discriminate V])
  | |- context [length _] => cbn [length]
  end; try reflexivity; try lia; try (vm_compute; discriminate).
Lemma views_live_flat {S} (O : Ops S) c slack (p p' : list (pstmt S)) (s : pstmt S) w r o st0 st1 st2 v :
  session O c slack p start = Ok st0 -> s = ViewG w r \/ s = ViewData w r -> names st0 r = Some o ->
  pstep O c slack s st0 = Done st1 -> views st1 w = Some v ->
  unresized O c slack o p' st1 -> session O c slack p' st1 = Ok st2 ->
  exists x1 x2, load st1 o = Ok x1 /\ load st2 o = Ok x2 /\
    m_size x2 = m_size x1 /\ length (m_data x2) = length (m_data x1) /\
    v_off v = (match s with ViewG _ _ => 1 | _ => 0 end)%nat /\
    v_len v = (match s with ViewG _ _ => Z.to_nat (size c x1) | _ => length (m_data x1) end)%nat /\
    (forall i, view_read st2 v i = rd (m_data x2) (Z.of_nat (v_off v + i))) /\
    (forall i a, (v_off v + i < length (m_data x2))%nat -> exists st3,
       view_write st2 v i a = Ok st3 /\ load st3 o = Ok (mk (m_size x2) (upd (m_data x2) (v_off v + i) a))).
Proof.
  intros H0 Hs Hr H1 Hw U H2. destruct (views_live O c slack p p' s w r o st0 st1 st2 v H0 Hs Hr H1 Hw U H2)
    as (x1 & x2 & E1 & E2 & (K1 & K2) & R). exists x1, x2. auto.
Qed.
Lemma operators_throw_first {S} (O : Ops S) c (x : dd S) e :
  (forall o b, assign O c o x b = Throw e -> check_equal_size c (size c x) (ref_size c x b) = Throw e) /\
  (forall v i j (m : mat S) o s,
     set_f x v <> Throw e /\ set_h c x i j v <> Throw e /\ set_hm c x m <> Throw e /\ assign_s O o x s <> Throw e).
Proof. split; [intros o b; apply assign_throws|intros; apply setters_never_throw]. Qed.
Lemma views_always_live_false :
  ~ (forall (S : Type) (O : Ops S) (c : cfg) (slack : nat -> nat) (p : list (pstmt S)) (st : heap S) (w : nat) (v : view) (i : nat),
       cfg_ok c -> session O c slack p start = Ok st -> views st w = Some v -> (i < v_len v)%nat ->
       exists a, view_read st v i = Ok a).
Proof.
  intros H. specialize (H Z Zops dyn1 (fun _ => 0%nat) [NConst 0 5 1; ViewG 0 0; Resize 0 3] _ 0%nat _ 0%nat cfg_dyn1 eq_refl eq_refl).
  destruct H as (a & E); [vm_compute; auto|]. vm_compute in E. discriminate.
Qed.
Lemma always_in_place_false :
  ~ (forall (S : Type) (O : Ops S) (c : cfg) (slack : nat -> nat) (p : list (pstmt S)) (st st' : heap S) (op : aop) (r q : nat) (v : S),
       cfg_ok c -> session O c slack p start = Ok st -> names st q = names st r ->
       pstep O c slack (IAsgS op r v) st = Done st' -> names st' q = names st' r).
Proof.
  intros H. specialize (H Z Zops dyn1 (fun _ => 0%nat) [NConst 0 5 1; Alias 1 0] _ _ Aadd 0%nat 1%nat 3 cfg_dyn1 eq_refl eq_refl eq_refl).
  vm_compute in H. discriminate.
Qed.
Lemma nothing_changed_false :
  ~ (forall (S : Type) (O : Ops S) (c : cfg) (slack : nat -> nat) (p : list (pstmt S)) (s : pstmt S) (st : heap S) (e : pyexn) (st' : heap S) (o : nat),
       cfg_ok c -> session O c slack p start = Ok st -> pstep O c slack s st = Raised e st' -> load st' o = load st o).
Proof.
  intros H. specialize (H Z Zops dyn1 (fun _ => 0%nat) [NConst 0 5 1] (Resize 0 (-5)) _ _ _ 0%nat cfg_dyn1 eq_refl eq_refl).
  vm_compute in H. discriminate.
Qed.
