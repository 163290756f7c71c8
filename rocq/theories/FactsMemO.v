(** C108: memory exhaustion in Python sessions with dense numbers. *)
From Coq Require Import ZArith List Bool Lia.
From Verif Require Import Outcome Scalar Samples Model Spec ProgSpec FactsLayout FactsOps Prog ModelObj FactsObj ModelMem FactsMem ModelMemO MemOSpec.
Import ListNotations.
Open Scope Z_scope.

Section MemOFacts.
  Context {S : Type} (O : Ops S) (c : cfg) (slack : nat -> nat).
  Implicit Types (st : heap S) (w : mem) (p : list (pstmt S)).
  Notation pstep := (pstep O c slack).
  Notation pstep_m := (pstep_m O c slack).
  Notation session_m := (session_m O c slack).

  Lemma requests_all k w : requests k (repeat true k ++ w) = (true, w).
  Proof. induction k as [|k IH]; [reflexivity|exact IH]. Qed.
  Lemma requests_one_left k w : (0 < k)%nat -> requests k (false :: w) = (false, w).
  Proof. destruct k; [lia|reflexivity]. Qed.
  Lemma requests_true k w w' : requests k w = (false, w') -> (0 < k)%nat.
  Proof. destruct k; [discriminate|lia]. Qed.
  Lemma resize_shape r sz st st1 : pstep (Resize r sz) st = Done st1 ->
    exists o z b, names st r = Some o /\ nth_error (objs st) o = Some (z, b).
  Proof.
    cbn [ModelObj.pstep]. destruct (is_dynamic c); [|discriminate]. unfold obj_of. destruct (names st r) as [o|]; [|discriminate].
    destruct (nth_error (objs st) o) as [[z b]|] eqn:E; [|discriminate]. intros _. exists o, z, b. auto.
  Qed.
  Lemma step_m_left s st w :
    match pstep_m s st w with
    | PRan o _ => o = pstep s st
    | PRefused st' _ => p_left O c slack s st st'
    end.
  Proof.
    unfold ModelMemO.pstep_m. destruct (request w) as [[|] w0]; cbn [negb]; [|left; reflexivity].
    destruct (pstep s st) as [st1|e st1| |] eqn:E; try reflexivity.
    destruct (requests (p_asks O c s st st1) w0) as [[|] w1] eqn:R; [reflexivity|].
    destruct s; try (left; reflexivity). destruct (resize_shape _ _ _ _ E) as (o & z & b & Hn & Ho).
    right. exists r, sz, o, b, z, st1. repeat split; try assumption.
    - apply requests_true in R. cbn [p_asks] in R. destruct (Nat.ltb_spec (length (bufs st)) (length (bufs st1))); [assumption|lia].
    - unfold sized. rewrite Hn, Ho. reflexivity.
  Qed.
  Lemma step_m_ran s st : exists w0, forall w, pstep_m s st (w0 ++ w) = PRan (pstep s st) w.
  Proof.
    unfold ModelMemO.pstep_m. destruct (pstep s st) as [st1|e st1| |] eqn:E; try (exists [true]; reflexivity).
    exists (true :: repeat true (p_asks O c s st st1)). intros w. cbn [app request negb]. rewrite requests_all. reflexivity.
  Qed.
  Lemma step_m_refused s st st' : p_left O c slack s st st' -> exists w0, forall w, pstep_m s st (w0 ++ w) = PRefused st' w.
  Proof.
    intros [->|(r & sz & o & b & z & st1 & -> & Hn & Ho & E & L & ->)]; [exists [false]; reflexivity|].
    exists [true; false]. intros w. unfold ModelMemO.pstep_m. cbn [app request negb]. rewrite E. cbn [p_asks].
    rewrite (proj2 (Nat.ltb_lt _ _) L). cbn [requests request]. unfold sized. rewrite Hn, Ho. reflexivity.
  Qed.
  Lemma session_m_lives p st m : p_lives O c slack p st m <-> exists w, session_m p st w = m.
  Proof.
    split.
    - assert (G : p_lives O c slack p st m -> exists w0, forall w, session_m p st (w0 ++ w) = m).
      { intros L. induction L as [st|s p st st1 m E L (w0 & IH)|s p st e st1 m E L (w0 & IH)|s p st E|s p st E|s p st st1 m H L (w0 & IH)].
        - exists []. reflexivity.
        - destruct (step_m_ran s st) as (w1 & H). exists (w1 ++ w0). intros w. cbn [ModelMemO.session_m]. rewrite <- app_assoc, H, E. apply IH.
        - destruct (step_m_ran s st) as (w1 & H). exists (w1 ++ w0). intros w. cbn [ModelMemO.session_m]. rewrite <- app_assoc, H, E. apply IH.
        - destruct (step_m_ran s st) as (w1 & H). exists w1. intros w. cbn [ModelMemO.session_m]. rewrite H, E. reflexivity.
        - destruct (step_m_ran s st) as (w1 & H). exists w1. intros w. cbn [ModelMemO.session_m]. rewrite H, E. reflexivity.
        - destruct (step_m_refused s st st1 H) as (w1 & Hw). exists (w1 ++ w0). intros w. cbn [ModelMemO.session_m]. rewrite <- app_assoc, Hw. apply IH. }
      intros L. destruct (G L) as (w0 & H). exists (w0 ++ []). apply H.
    - intros (w & <-). revert st w. induction p as [|s p IH]; intros st w; cbn [ModelMemO.session_m]; [constructor|].
      pose proof (step_m_left s st w) as H. destruct (pstep_m s st w) as [o w1|st1 w1].
      + destruct o as [st1|e st1| |]; symmetry in H; [eapply LvDone|eapply LvRaised|apply LvAbort|apply LvWild]; try exact H; apply IH.
      + eapply LvRefused; [exact H|apply IH].
  Qed.
  Lemma session_m_granted p : forall st w, List.Forall (fun g : bool => g = true) w -> session_m p st w = session O c slack p st.
  Proof.
    induction p as [|s p IH]; intros st w Hw; [reflexivity|]. cbn [ModelMemO.session_m session]. unfold ModelMemO.pstep_m.
    destruct (request_granted w Hw) as (w1 & -> & H1). cbn [negb].
    destruct (pstep s st) as [st1|e st1| |]; [|apply IH, H1|reflexivity|reflexivity].
    destruct (requests_granted (p_asks O c s st st1) w1 H1) as (w2 & -> & H2). apply IH, H2.
  Qed.

  (** ** Consequences *)
  Lemma left_same s st st' : no_resize s -> p_left O c slack s st st' -> st' = st.
  Proof. intros H [->|(r & sz & o & b & z & st1 & -> & _)]; [reflexivity|destruct H]. Qed.
  Lemma lives_thinned p st m : List.Forall no_resize p ->
    (p_lives O c slack p st m <-> exists q, thinned q p /\ session O c slack q st = m).
  Proof.
    intros HN. split.
    - intros L. induction L as [st|s p st st1 m E L IH|s p st e st1 m E L IH|s p st E|s p st E|s p st st1 m H L IH];
        try (inversion HN as [|? ? Hs Hp]; subst).
      + exists []. split; [constructor|reflexivity].
      + destruct (IH Hp) as (q & T & Q). exists (s :: q). split; [constructor; exact T|]. cbn [session]. rewrite E. exact Q.
      + destruct (IH Hp) as (q & T & Q). exists (s :: q). split; [constructor; exact T|]. cbn [session]. rewrite E. exact Q.
      + exists [s]. split; [|cbn [session]; rewrite E; reflexivity]. constructor. clear. induction p; constructor; assumption.
      + exists [s]. split; [|cbn [session]; rewrite E; reflexivity]. constructor. clear. induction p; constructor; assumption.
      + destruct (IH Hp) as (q & T & Q). apply (left_same s st st1 Hs) in H. subst st1. exists q. split; [constructor; exact T|exact Q].
    - intros (q & T & Q). revert st m Q. induction T as [|s q p T IH|s q p T IH]; intros st m Q.
      + cbn in Q. subst m. constructor.
      + inversion HN as [|? ? Hs Hp]; subst. cbn [session]. destruct (pstep s st) as [st1|e st1| |] eqn:E.
        * eapply LvDone; [exact E|]. apply IH; [exact Hp|reflexivity].
        * eapply LvRaised; [exact E|]. apply IH; [exact Hp|reflexivity].
        * apply LvAbort, E.
        * apply LvWild, E.
      + inversion HN as [|? ? Hs Hp]; subst. eapply LvRefused; [left; reflexivity|]. apply IH; [exact Hp|reflexivity].
  Qed.
  Lemma left_rest s st st' : p_left O c slack s st st' -> names st' = names st /\ views st' = views st /\ bufs st' = bufs st /\
    forall o, (forall r sz, s = Resize r sz -> names st r <> Some o) -> load st' o = load st o.
  Proof.
    intros [->|(r & sz & o & b & z & st1 & -> & Hn & Ho & E & L & ->)]; [auto|]. cbn [names views bufs]. repeat split.
    intros o' H. unfold load. cbn [objs bufs]. rewrite Prog.put_other by (intros ->; exact (H r sz eq_refl Hn)). reflexivity.
  Qed.
  Lemma left_retry s st st' : p_left O c slack s st st' -> pstep s st' = pstep s st.
  Proof.
    intros [->|(r & sz & o & b & z & st1 & -> & Hn & Ho & E & L & ->)]; [reflexivity|]. cbn [ModelObj.pstep].
    cbn [ModelObj.pstep] in E. destruct (is_dynamic c); [|discriminate]. clear E. unfold obj_of. cbn [names objs bufs views]. rewrite Hn, Ho.
    rewrite Prog.put_same by (eapply some_lt, Ho). destruct (nth_error (bufs st) b) as [[[d cap]|]|]; try reflexivity.
    unfold store. cbn [objs bufs names views]. rewrite !put_put.
    destruct (n <- data_length_from_size c sz ;; vec_resize O d n); cbn [lift]; rewrite ?put_put; reflexivity.
  Qed.
  Lemma left_load r sz st st' o x : p_left O c slack (Resize r sz) st st' -> st' <> st -> names st r = Some o -> load st o = Ok x ->
    load st' o = Ok (mk sz (m_data x)) /\ forall k n, wf c k x -> sz <> Z.of_nat k -> ~ wf c n (mk sz (m_data x)).
  Proof.
    intros [->|(r' & sz' & o' & b & z & st1 & Es & Hn & Ho & E & L & ->)] D Hr Hl; [congruence|]. injection Es as <- <-.
    rewrite Hr in Hn. injection Hn as <-. unfold load in Hl. rewrite Ho in Hl.
    destruct (nth_error (bufs st) b) as [[[d cap]|]|] eqn:Eb; try discriminate. injection Hl as <-. split.
    - unfold load. cbn [objs bufs]. rewrite Prog.put_same by (eapply some_lt, Ho). rewrite Eb. reflexivity.
    - assert (DY : is_dynamic c = true) by (cbn [ModelObj.pstep] in E; destruct (is_dynamic c); [reflexivity|discriminate]).
      intros k n (W1 & W2 & _) NE (W1' & W2' & _). unfold size in *. rewrite DY in *. cbn [m_size m_data] in *. subst sz.
      rewrite W2 in W2'. destruct (Nat.lt_trichotomy n k) as [H|[->|H]]; [|congruence|]; apply (storage_len_mono c) in H; lia.
  Qed.
End MemOFacts.

(** x of size 1 over [dyn1], x.resize(2) with the request for the new buffer refused. *)
Definition one : list (pstmt Z) := [NVar 0 0 5 1].
Lemma p_unchanged_false : ~ (forall (S : Type) (O : Ops S) (c : cfg) (slack : nat -> nat) (p : list (pstmt S)) (s : pstmt S) (st st' : heap S),
  session O c slack p start = Ok st -> p_left O c slack s st st' -> st' = st).
Proof.
  intros H. destruct (session Zops dyn1 (fun _ => 0%nat) one start) as [st|e| |] eqn:E; try discriminate.
  specialize (H Z Zops dyn1 (fun _ => 0%nat) one (Resize 0 2) st (sized st 0 2) E). vm_compute in E. injection E as <-.
  match type of H with p_left _ _ _ _ ?st _ -> _ => pose proof (step_m_left Zops dyn1 (fun _ => 0%nat) (Resize 0 2) st [true; false]) as L end.
  vm_compute in L. apply H in L. discriminate L.
Qed.
