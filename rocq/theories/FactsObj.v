(** C58-C60: objects, names and views. *)
From Coq Require Import ZArith List Bool Lia.
From Verif Require Import Outcome Scalar Model Spec Core Kernels OpsRep ProgSpec Prog FactsProg ModelObj Samples.
Import ListNotations.
Open Scope Z_scope.
Open Scope res_scope.

(** ** In-place methods keep the length and throw nothing after their check *)
Definition calm {A} (P : A -> Prop) (m : res A) : Prop := (exists a, m = Ok a /\ P a) \/ m = UB \/ m = Abort.
Lemma calm_ok {A} (P : A -> Prop) a : P a -> calm P (Ok a).
Proof. left. eauto. Qed.
Lemma calm_bind {A B} (Q : A -> Prop) (P : B -> Prop) m k : calm Q m -> (forall a, Q a -> calm P (k a)) -> calm P (bind m k).
Proof. intros [(a & -> & H)|[-> | ->]] K; cbn [bind]; [apply K, H|right; left|right; right]; reflexivity. Qed.
Lemma calm_imp {A} (P Q : A -> Prop) m : (forall a, P a -> Q a) -> calm P m -> calm Q m.
Proof. intros H [(a & -> & HP)|K]; [left; eauto|right; exact K]. Qed.
Lemma calm_rd {S} (l : data S) i : calm (fun _ => True) (rd l i).
Proof. unfold rd. destruct (_ <? _); [right; left; reflexivity|]. destruct (nth_error _ _) as [[v|]|]; [left; eauto|right; left|right; left]; reflexivity. Qed.
Lemma calm_wr {S} (l : data S) i v : calm (fun l' => length l' = length l) (wr l i v).
Proof. unfold wr. destruct (_ || _); [right; left; reflexivity|left]. eexists. split; [reflexivity|apply upd_length]. Qed.
Lemma calm_ck z : calm (fun _ => True) (ck z).
Proof. unfold ck. destruct (_ && _); [left; eauto|right; left; reflexivity]. Qed.
Lemma calm_assert c b : calm (fun _ => True) (assert_ c b).
Proof. unfold assert_. destruct (_ && _); [right; right; reflexivity|left; eauto]. Qed.
Lemma calm_loop {St} (P : St -> Prop) body : (forall i s, P s -> calm P (body i s)) ->
  forall n lo s, P s -> calm P (loop n lo body s).
Proof.
  intros H. induction n as [|n IH]; intros lo s HP; cbn [loop]; [apply calm_ok, HP|].
  apply (calm_bind P); [apply H, HP|]. intros s' HP'. apply IH, HP'.
Qed.
Lemma calm_for {St} (P : St -> Prop) body lo hi s : P s -> (forall i s, P s -> calm P (body i s)) -> calm P (for_ lo hi body s).
Proof. intros HP H. apply calm_loop; assumption. Qed.
Lemma calm_mget {S} (m : mat S) i j : calm (fun _ => True) (mget m i j).
Proof. unfold mget. destruct (_ && _); [apply calm_rd|right; left; reflexivity]. Qed.

(** Proves [calm (fun d => length d = n) ...] and variants by following the code. *)
Ltac calm_step := first
  [ apply calm_rd | apply calm_ck | apply calm_assert | apply calm_mget
  | (eapply calm_imp; [|apply calm_wr]; cbn beta; intros; congruence)
  | (apply (calm_bind (fun _ => True)); [first [apply calm_rd|apply calm_ck|apply calm_assert|apply calm_mget]|intros ? _]) ].

Section Calm.
  Context {S : Type} (O : Ops S) (c : cfg).
  Implicit Types (x y : dd S).
  Definition keeps x x' : Prop := m_size x' = m_size x /\ length (m_data x') = length (m_data x).

  Lemma calm_binary inc x a b f da db daa dab dbb (r : data S) :
    calm (fun r' => length r' = length r) (binary O c inc x a b f da db daa dab dbb r).
  Proof.
    unfold binary. apply (calm_bind (fun r' => length r' = length r)); [apply calm_wr|]. intros r1 H1.
    destruct (_ || _); [apply calm_ok, H1|].
    apply (calm_bind (fun r' => length r' = length r)).
    - apply calm_for; [exact H1|]. intros i r2 H2. do 2 calm_step. destruct inc; [calm_step|]; calm_step.
    - intros r2 H2. destruct (_ || _); [apply calm_ok, H2|].
      apply (calm_bind (fun st : Z * data S => length (snd st) = length r)).
      + apply calm_for; [exact H2|]. intros i [k r3] H3. cbn [snd] in H3. do 2 calm_step.
        apply calm_for; [exact H3|]. intros j [k' r4] H4. cbn [snd] in H4. do 3 calm_step.
        apply (calm_bind (fun d => length d = length r)); [calm_step|]. intros r5 H5. apply calm_ok, H5.
      + intros [k r3] H3. apply calm_ok, H3.
  Qed.
  Lemma calm_assign o x b : check_equal_size c (size c x) (ref_size c x b) = Ok tt -> calm (keeps x) (assign O c o x b).
  Proof.
    intros E. destruct o; unfold assign, add_assign, sub_assign, mul_assign, div_assign; rewrite E; cbn [bind].
    - apply (calm_bind (fun d => length d = length (m_data x))).
      + apply calm_for; [reflexivity|]. intros i d H. do 2 calm_step. calm_step.
      + intros d H. apply calm_ok. split; [reflexivity|exact H].
    - apply (calm_bind (fun d => length d = length (m_data x))).
      + apply calm_for; [reflexivity|]. intros i d H. do 2 calm_step. calm_step.
      + intros d H. apply calm_ok. split; [reflexivity|exact H].
    - unfold ref_f. do 4 calm_step.
      apply (calm_bind (fun d => length d = length (m_data x))); [calm_step|]. intros d1 H1.
      apply (calm_bind (fun d => length d = length (m_data x))).
      + apply calm_for; [exact H1|]. intros i d H. do 2 calm_step. calm_step.
      + intros d2 H2. destruct (_ =? _); [apply calm_ok; split; [reflexivity|exact H2]|].
        apply (calm_bind (fun st : Z * data S => length (snd st) = length (m_data x))).
        * apply calm_for; [exact H2|]. intros i st Hst.
          apply calm_for; [exact Hst|]. intros j [it d3] H3. cbn [snd] in H3. do 5 calm_step.
          apply (calm_bind (fun d => length d = length (m_data x))); [calm_step|]. intros d4 H4. apply calm_ok, H4.
        * intros [it d3] H3. apply calm_ok. split; [reflexivity|exact H3].
    - unfold ref_f. do 2 calm_step. destruct (k_div_assign O a a0) as [[[[[f da] db] daa] dab] dbb].
      apply (calm_bind (fun d => length d = length (m_data x))); [apply calm_binary|].
      intros d H. apply calm_ok. split; [reflexivity|exact H].
  Qed.
  Lemma calm_muls_assign x s : calm (keeps x) (muls_assign O x (SVal s)).
  Proof.
    unfold muls_assign. apply (calm_bind (fun d => length d = length (m_data x))).
    - apply calm_for; [reflexivity|]. intros i d H. cbn [sderef]. calm_step. cbn [bind]. calm_step.
    - intros d H. apply calm_ok. split; [reflexivity|exact H].
  Qed.
  Lemma calm_set_f x v : calm (keeps x) (set_f x v).
  Proof.
    unfold set_f. apply (calm_bind (fun d => length d = length (m_data x))); [apply calm_wr|].
    intros d H. apply calm_ok. split; [reflexivity|exact H].
  Qed.
  Lemma calm_assign_s o x s : calm (keeps x) (assign_s O o x s).
  Proof.
    destruct o; unfold assign_s.
    - unfold adds_assign, get_f. calm_step. cbn [sderef bind]. apply calm_set_f.
    - unfold subs_assign, get_f. calm_step. cbn [sderef bind]. apply calm_set_f.
    - apply calm_muls_assign.
    - unfold divs_assign. cbn [sderef bind]. apply calm_muls_assign.
  Qed.
  Lemma calm_idx_h x i j : calm (fun _ => True) (idx_h c x i j).
  Proof. unfold idx_h, idx_tri. do 2 calm_step. destruct (_ <? _); repeat calm_step. Qed.
  Lemma calm_set_h x i j v : calm (keeps x) (set_h c x i j v).
  Proof.
    unfold set_h. apply (calm_bind (fun _ => True)); [apply calm_idx_h|]. intros k _.
    apply (calm_bind (fun d => length d = length (m_data x))); [apply calm_wr|].
    intros d H. apply calm_ok. split; [reflexivity|exact H].
  Qed.
  Lemma calm_set_h1 x i v : calm (keeps x) (set_h1 c x i v).
  Proof.
    unfold set_h1, idx_h1. apply (calm_bind (fun _ => True)).
    - apply (calm_bind (fun _ => True)); [destruct (c_dbg c); [|apply calm_ok; exact I]|intros _ _]; repeat calm_step.
    - intros k _. apply (calm_bind (fun d => length d = length (m_data x))); [apply calm_wr|].
      intros d H. apply calm_ok. split; [reflexivity|exact H].
  Qed.
  Lemma calm_set_hm x m : calm (keeps x) (set_hm c x m).
  Proof.
    unfold set_hm. apply (calm_bind (fun st : Z * dd S => keeps x (snd st))).
    - apply calm_for; [split; reflexivity|]. intros i st Hst. apply calm_for; [exact Hst|].
      intros j [it y] (H1 & H2). cbn [snd] in *. calm_step.
      apply (calm_bind (keeps x)).
      + eapply calm_imp; [|apply calm_set_h1]. intros z (K1 & K2). split; congruence.
      + intros z K. apply calm_ok, K.
    - intros [it y] H. apply calm_ok, H.
  Qed.
  Lemma calm_ok_inv {A} (P : A -> Prop) m a : calm P m -> m = Ok a -> P a.
  Proof. intros [(b & -> & H)|[-> | ->]] E; try discriminate. injection E as <-. exact H. Qed.
  Lemma calm_throw {A} (P : A -> Prop) m e : calm P m -> m <> Throw e.
  Proof. intros [(b & -> & H)|[-> | ->]]; discriminate. Qed.
  Lemma assign_keeps o x b x' : assign O c o x b = Ok x' -> keeps x x'.
  Proof.
    intros E. destruct (check_equal_size c (size c x) (ref_size c x b)) as [[]|e| |] eqn:Ec.
    - eapply calm_ok_inv; [apply calm_assign, Ec|exact E].
    - destruct o; unfold assign, add_assign, sub_assign, mul_assign, div_assign in E; rewrite Ec in E; discriminate.
    - destruct o; unfold assign, add_assign, sub_assign, mul_assign, div_assign in E; rewrite Ec in E; discriminate.
    - destruct o; unfold assign, add_assign, sub_assign, mul_assign, div_assign in E; rewrite Ec in E; discriminate.
  Qed.
  Lemma assign_throws o x b e : assign O c o x b = Throw e -> check_equal_size c (size c x) (ref_size c x b) = Throw e.
  Proof.
    intros E. destruct (check_equal_size c (size c x) (ref_size c x b)) as [[]|e'| |] eqn:Ec.
    - exfalso. revert E. eapply calm_throw, calm_assign, Ec.
    - destruct o; unfold assign, add_assign, sub_assign, mul_assign, div_assign in E; rewrite Ec in E; cbn in E; congruence.
    - destruct o; unfold assign, add_assign, sub_assign, mul_assign, div_assign in E; rewrite Ec in E; discriminate.
    - destruct o; unfold assign, add_assign, sub_assign, mul_assign, div_assign in E; rewrite Ec in E; discriminate.
  Qed.
  Lemma setters_never_throw x v i j (m : mat S) o s e :
    set_f x v <> Throw e /\ set_h c x i j v <> Throw e /\ set_hm c x m <> Throw e /\ assign_s O o x s <> Throw e.
  Proof.
    split; [eapply calm_throw, calm_set_f|]. split; [eapply calm_throw, calm_set_h|].
    split; [eapply calm_throw, calm_set_hm|]. eapply calm_throw, calm_assign_s.
  Qed.
End Calm.

(** ** What one statement can do to the heap *)
Section Heap.
  Context {S : Type} (O : Ops S) (c : cfg) (slack : nat -> nat).
  Implicit Types (st : heap S) (s : pstmt S).
  Notation pstep := (pstep O c slack).
  Notation session := (session O c slack).
  Notation unresized := (unresized O c slack).

  Inductive effect s st st' : Prop :=
  | E_names : objs st' = objs st -> bufs st' = bufs st -> views st' = views st ->
      (forall r o, names st' r = Some o -> exists q, names st q = Some o) -> effect s st st'
  | E_views w v : objs st' = objs st -> bufs st' = bufs st -> names st' = names st ->
      views st' = bind_name (views st) w v ->
      (exists o sz d cap, nth_error (objs st) o = Some (sz, v_buf v) /\ nth_error (bufs st) (v_buf v) = Some (Some (d, cap))) ->
      effect s st st'
  | E_fresh r x : st' = fresh slack st r x -> effect s st st'
  | E_store r o b cap sz d x : names st r = Some o -> nth_error (objs st) o = Some (sz, b) ->
      nth_error (bufs st) b = Some (Some (d, cap)) -> keeps (mk sz d) x -> st' = store st o b cap x -> effect s st st'
  | E_write w v k d d' cap : views st w = Some v -> nth_error (bufs st) (v_buf v) = Some (Some (d, cap)) ->
      length d' = length d -> (forall i, i <> (v_off v + k)%nat -> nth_error d' i = nth_error d i) ->
      st' = mkheap (objs st) (put (bufs st) (v_buf v) (Some (d', cap))) (names st) (views st) -> effect s st st'
  | E_resize r o b cap sz0 sz d : s = Resize r sz -> names st r = Some o -> nth_error (objs st) o = Some (sz0, b) ->
      nth_error (bufs st) b = Some (Some (d, cap)) ->
      (st' = mkheap (put (objs st) o (sz, b)) (bufs st) (names st) (views st) \/
       exists d', (st' = store st o b cap (mk sz d') \/
         st' = mkheap (put (objs st) o (sz, length (bufs st)))
                 (put (bufs st) b None ++ [Some (d', (length d' + slack (length (bufs st)))%nat)]) (names st) (views st))) ->
      effect s st st'.
  Lemma E_id s st : effect s st st.
  Proof. apply E_names; eauto. Qed.

  Definition after s st st' : Prop := pstep s st = Done st' \/ exists e, pstep s st = Raised e st'.

  (** The continuation forms of [pstep]. *)
  Definition fine s st (m : out S) : Prop :=
    forall st', m = Done st' \/ (exists e, m = Raised e st') -> effect s st st'.
  Lemma fine_done s st st' : effect s st st' -> fine s st (Done st').
  Proof. intros H st'' [E|(e & E)]; [injection E as <-; exact H|discriminate]. Qed.
  Lemma fine_raised s st e : fine s st (Raised e st).
  Proof. intros st'' [E|(e' & E)]; [discriminate|injection E as <- <-; apply E_id]. Qed.
  Lemma fine_stop s st : fine s st Aborted /\ fine s st Wild.
  Proof. split; intros st'' [E|(e' & E)]; discriminate. Qed.
  Lemma fine_lift {A} s st (m : res A) k : (forall a, m = Ok a -> fine s st (k a)) -> fine s st (lift st m k).
  Proof. intros H. destruct m; cbn [lift]; [apply H; reflexivity|apply fine_raised|apply fine_stop|apply fine_stop]. Qed.
  Lemma fine_obj s st r k : (forall o, names st r = Some o -> fine s st (k o)) -> fine s st (obj_of st r k).
  Proof. intros H. unfold obj_of. destruct (names st r); [apply H; reflexivity|apply fine_raised]. Qed.
  Lemma fine_arg s st r k : (forall x, fine s st (k x)) -> fine s st (arg st r k).
  Proof. intros H. unfold arg. apply fine_obj. intros o _. apply fine_lift. intros x _. apply H. Qed.
  Lemma fine_make s st r m : fine s st (make slack st r m).
  Proof. unfold make. apply fine_lift. intros x _. apply fine_done. eapply E_fresh. reflexivity. Qed.
  Lemma fine_inplace s st r f : (forall o x x', f o x = Ok x' -> keeps x x') -> fine s st (inplace st r f).
  Proof.
    intros H. unfold inplace. apply fine_obj. intros o Ho.
    destruct (nth_error (objs st) o) as [[sz b]|] eqn:Eo; [|apply fine_stop].
    destruct (nth_error (bufs st) b) as [[[d cap]|]|] eqn:Eb; [|apply fine_stop|apply fine_stop].
    apply fine_lift. intros x Ex. apply fine_done. eapply E_store; try eassumption; [|reflexivity]. eapply H, Ex.
  Qed.
  Lemma load_ok st o sz b x : nth_error (objs st) o = Some (sz, b) -> load st o = Ok x ->
    exists cap, nth_error (bufs st) b = Some (Some (m_data x, cap)) /\ m_size x = sz.
  Proof.
    unfold load. intros ->. destruct (nth_error (bufs st) b) as [[[d cap]|]|]; intros E; try discriminate.
    injection E as <-. eauto.
  Qed.

  Lemma step_effect s st st' : after s st st' -> effect s st st'.
  Proof.
    change (after s st st') with (pstep s st = Done st' \/ exists e, pstep s st = Raised e st'). revert st'.
    change (fine s st (pstep s st)). destruct s; cbn [ModelObj.pstep];
      try apply fine_make; try (apply fine_arg; intros; apply fine_make);
      try (apply fine_arg; intros; apply fine_arg; intros; apply fine_make);
      try (apply fine_inplace; intros o x x' E; (eapply calm_ok_inv; [|exact E]);
           first [apply calm_set_f|apply calm_set_h]).
    - destruct (_ && _); [apply fine_raised|apply fine_make].
    - apply fine_obj. intros o Ho. apply fine_done. apply E_names; try reflexivity.
      intros q o'. cbn [bound names]. unfold bind_name. destruct (Nat.eqb q r); [intros [= <-]|]; eauto.
    - apply fine_arg. intros x. apply fine_done. eapply E_fresh. reflexivity.
    - do 3 (apply fine_arg; intros). apply fine_make.
    - destruct (is_dynamic c); [|apply fine_raised]. apply fine_arg. intros. apply fine_make.
    - destruct (is_dynamic c); [|apply fine_raised]. apply fine_arg. intros. apply fine_make.
    - apply fine_obj. intros oa _. apply fine_inplace. intros ob x x' E.
      destruct (Nat.eqb oa ob); [eapply assign_keeps, E|].
      destruct (load st oa) as [y| | |]; cbn [bind] in E; try discriminate. eapply assign_keeps, E.
    - destruct o; first [apply fine_arg; intros; apply fine_make |
        apply fine_inplace; intros ob x x' E; eapply calm_ok_inv; [|exact E]; apply calm_assign_s].
    - apply fine_obj. intros o _. destruct (_ && _); [apply fine_raised|]. apply fine_inplace. intros ob x x' E.
      eapply calm_ok_inv; [|exact E]. apply calm_set_hm.
    - destruct (is_dynamic c); [|apply fine_raised]. apply fine_obj. intros o Ho.
      destruct (nth_error (objs st) o) as [[sz0 b]|] eqn:Eo; [|apply fine_stop].
      destruct (nth_error (bufs st) b) as [[[d cap]|]|] eqn:Eb; [|apply fine_stop|apply fine_stop].
      destruct (n <- data_length_from_size c sz;; vec_resize O d n) as [d'| | |] eqn:E; cbn [lift];
        try (intros st' [H|(e' & H)]; discriminate).
      + destruct (Nat.leb _ _); apply fine_done; (eapply E_resize; [reflexivity|eassumption..|]); right; eauto.
      + intros st' [H|(e' & H)]; [discriminate|]. injection H as <- <-.
        (eapply E_resize; [reflexivity|eassumption..|]). left. reflexivity.
    - apply fine_obj. intros o Ho. destruct (nth_error (objs st) o) as [[sz0 b]|] eqn:Eo; [|apply fine_stop].
      apply fine_lift. intros x Ex. destruct (_ <? 0); [apply fine_stop|]. apply fine_done.
      destruct (load_ok _ _ _ _ _ Eo Ex) as (cap & Eb & _). eapply E_views; try reflexivity. cbn [v_buf]. eauto 8.
    - apply fine_obj. intros o Ho. destruct (nth_error (objs st) o) as [[sz0 b]|] eqn:Eo; [|apply fine_stop].
      apply fine_lift. intros x Ex. apply fine_done.
      destruct (load_ok _ _ _ _ _ Eo Ex) as (cap & Eb & _). eapply E_views; try reflexivity. cbn [v_buf]. eauto 8.
    - destruct (views st w) as [v|]; [|apply fine_raised]. destruct (np_index v i); [|apply fine_raised].
      apply fine_lift. intros. apply fine_done, E_id.
    - destruct (views st w) as [v0|] eqn:Ew; [|apply fine_raised]. destruct (np_index v0 i) as [k|]; [|apply fine_raised].
      apply fine_lift. intros st' E. apply fine_done. unfold view_write in E.
      destruct (nth_error (bufs st) (v_buf v0)) as [[[d cap]|]|] eqn:Eb; try discriminate.
      apply bind_ok_inv in E as (d' & Ed & E). injection E as <-. unfold wr in Ed. destruct (_ || _); [discriminate|].
      injection Ed as <-. eapply E_write with (k := k); [exact Ew|exact Eb| | |reflexivity]; [apply upd_length|].
      intros i' Hi. apply nth_error_upd_ne. lia.
  Qed.

  (** ** Heaps reached by sessions *)
  Definition inv st : Prop :=
    (forall o sz b, nth_error (objs st) o = Some (sz, b) -> exists d cap, nth_error (bufs st) b = Some (Some (d, cap))) /\
    (forall o1 o2 z1 z2 b, nth_error (objs st) o1 = Some (z1, b) -> nth_error (objs st) o2 = Some (z2, b) -> o1 = o2) /\
    (forall r o, names st r = Some o -> (o < length (objs st))%nat).
  Lemma inv_start : inv start.
  Proof. split; [intros [|o]; discriminate|]. split; [intros [|o1]; discriminate|]. intros r o; discriminate. Qed.
  Lemma put_cases {A} (l : list A) o x q y : nth_error (put l o x) q = Some y ->
    (q = o /\ y = x /\ (o < length l)%nat) \/ (q <> o /\ nth_error l q = Some y).
  Proof.
    intros H. assert (L : (q < length l)%nat) by (rewrite <- (put_length l o x); apply nth_error_Some; congruence).
    destruct (Nat.eq_dec q o) as [->|N]; [left|right].
    - rewrite put_same in H by exact L. injection H as ->. auto.
    - rewrite put_other in H by exact N. auto.
  Qed.
  Lemma some_lt {A} (l : list A) i x : nth_error l i = Some x -> (i < length l)%nat.
  Proof. intros H. apply nth_error_Some. congruence. Qed.
  Lemma snoc_cases {A} (l : list A) x i y : nth_error (l ++ [x]) i = Some y -> nth_error l i = Some y \/ (i = length l /\ y = x).
  Proof.
    intros H. destruct (Nat.lt_ge_cases i (length l)) as [L|L].
    - rewrite nth_error_app1 in H by exact L. auto.
    - rewrite nth_error_app2 in H by exact L. destruct (i - length l)%nat as [|k] eqn:E.
      + cbn in H. injection H as <-. right. split; [lia|reflexivity].
      + cbn in H. destruct k; discriminate.
  Qed.
  Lemma snoc_old {A} (l : list A) x i y : nth_error l i = Some y -> nth_error (l ++ [x]) i = Some y.
  Proof. intros H. rewrite nth_error_app1; [exact H|eapply some_lt, H]. Qed.
  Lemma snoc_new {A} (l : list A) x : nth_error (l ++ [x]) (length l) = Some x.
  Proof. rewrite nth_error_app2, Nat.sub_diag by lia. reflexivity. Qed.

  Lemma inv_effect s st st' : inv st -> effect s st st' -> inv st'.
  Proof.
    intros (I1 & I2 & I3) E. destruct E as
      [Eo Eb _ En|w v Eo Eb En _ _|r x ->|r o b cap sz d x Hr Ho Hb (K1 & K2) ->|w v k d d' cap Hv Hb HL _ ->|r o b cap sz0 sz d -> Hr Ho Hb H].
    - unfold inv. rewrite Eo, Eb. split; [exact I1|]. split; [exact I2|]. intros r o H. destruct (En _ _ H) as (q & Hq). eapply I3, Hq.
    - unfold inv. rewrite Eo, Eb, En. auto.
    - unfold fresh, inv. cbn [objs bufs names]. split; [|split].
      + intros o sz b H. apply snoc_cases in H as [H|(-> & [= -> ->])].
        * destruct (I1 _ _ _ H) as (d & cap & Hd). exists d, cap. apply snoc_old, Hd.
        * eexists _, _. apply snoc_new.
      + intros o1 o2 s1 s2 b H1 H2. apply snoc_cases in H1 as [H1|(-> & [= -> ->])]; apply snoc_cases in H2 as [H2|(-> & E2)].
        * eapply I2; eassumption.
        * injection E2 as -> ->. destruct (I1 _ _ _ H1) as (d & cap & Hd). apply some_lt in Hd. lia.
        * destruct (I1 _ _ _ H2) as (d & cap & Hd). apply some_lt in Hd. lia.
        * reflexivity.
      + intros q o. unfold bind_name. rewrite app_length. cbn. destruct (Nat.eqb q r); [intros [= <-]; lia|].
        intros H. apply I3 in H. lia.
    - unfold store, inv. cbn [objs bufs names]. split; [|split].
      + intros o1 sz1 b1 H. destruct (Nat.eq_dec b1 b) as [->|N].
        * eexists _, _. apply put_same. eapply some_lt, Hb.
        * apply put_cases in H as [(_ & [= -> ->] & _)|(_ & H)]; [contradiction|]. rewrite put_other by exact N. eapply I1, H.
      + intros o1 o2 s1 s2 b0 H1 H2. apply put_cases in H1, H2.
        destruct H1 as [(-> & [= -> ->] & _)|(N1 & H1)], H2 as [(-> & E2 & _)|(N2 & H2)].
        * reflexivity.
        * eapply I2; eassumption.
        * injection E2 as -> ->. eapply I2; eassumption.
        * eapply I2; eassumption.
      + intros q o1 H. rewrite put_length. eapply I3, H.
    - unfold inv. cbn [objs bufs names]. split; [|split; [exact I2|exact I3]].
      intros o sz b H. destruct (Nat.eq_dec b (v_buf v)) as [->|N].
      + eexists _, _. apply put_same. eapply some_lt, Hb.
      + rewrite put_other by exact N. eapply I1, H.
    - assert (PI : forall x, (forall q o1, names st q = Some o1 -> (o1 < length (put (objs st) o x))%nat)).
      { intros x q o1 Hq. rewrite put_length. eapply I3, Hq. }
      destruct H as [-> |(d' & [-> | ->])].
      + unfold inv. cbn [objs bufs names]. split; [|split; [|apply PI]].
        * intros o1 s1 b1 H. apply put_cases in H as [(_ & [= -> ->] & _)|(_ & H)]; eauto.
        * intros o1 o2 s1 s2 b0 H1 H2. apply put_cases in H1, H2.
          destruct H1 as [(-> & [= -> ->] & _)|(N1 & H1)], H2 as [(-> & E2 & _)|(N2 & H2)];
            try (injection E2 as -> ->); try reflexivity; eapply I2; eassumption.
      + unfold store, inv. cbn [objs bufs names m_size m_data]. split; [|split; [|apply PI]].
        * intros o1 sz1 b1 H. destruct (Nat.eq_dec b1 b) as [->|N].
          -- eexists _, _. apply put_same. eapply some_lt, Hb.
          -- apply put_cases in H as [(_ & [= -> ->] & _)|(_ & H)]; [contradiction|]. rewrite put_other by exact N. eapply I1, H.
        * intros o1 o2 s1 s2 b0 H1 H2. apply put_cases in H1, H2.
          destruct H1 as [(-> & [= -> ->] & _)|(N1 & H1)], H2 as [(-> & E2 & _)|(N2 & H2)];
            try (injection E2 as -> ->); try reflexivity; eapply I2; eassumption.
      + unfold inv. cbn [objs bufs names]. split; [|split; [|apply PI]].
        * intros o1 sz1 b1 H. apply put_cases in H as [(_ & [= -> ->] & _)|(N & H)].
          -- eexists _, _. rewrite <- (put_length (bufs st) b None). apply snoc_new.
          -- destruct (I1 _ _ _ H) as (d1 & cap1 & Hd). exists d1, cap1. apply snoc_old.
             rewrite put_other; [exact Hd|]. intros ->. apply N. eapply I2; eassumption.
        * intros o1 o2 s1 s2 b0 H1 H2. apply put_cases in H1, H2.
          assert (FR : forall o3 z3, nth_error (objs st) o3 = Some (z3, length (bufs st)) -> False).
          { intros o3 z3 H3. destruct (I1 _ _ _ H3) as (d3 & cap3 & Hd). apply some_lt in Hd. lia. }
          destruct H1 as [(-> & [= -> ->] & _)|(N1 & H1)], H2 as [(-> & E2 & _)|(N2 & H2)];
            try (injection E2 as -> ->); try reflexivity; try (exfalso; eapply FR; eassumption); eapply I2; eassumption.
  Qed.
  Lemma inv_step s st st' : inv st -> after s st st' -> inv st'.
  Proof. intros I H. eapply inv_effect; [exact I|]. apply step_effect, H. Qed.
  Lemma session_cons s p st st' : session (s :: p) st = Ok st' -> exists st1, after s st st1 /\ session p st1 = Ok st'.
  Proof.
    cbn [ModelObj.session]. unfold after. destruct (pstep s st) as [st1|e st1| |]; intros H; try discriminate; eauto.
  Qed.
  Lemma inv_session p : forall st st', inv st -> session p st = Ok st' -> inv st'.
  Proof.
    induction p as [|s p IH]; intros st st' I H; [injection H as <-; exact I|].
    apply session_cons in H as (st1 & A & H). eapply IH; [|exact H]. eapply inv_step; eassumption.
  Qed.

  (** ** Views *)
  (** Object [o] keeps its size, its buffer and the length of its storage. *)
  Definition stays (o : nat) st st' : Prop := forall sz b d cap,
    nth_error (objs st) o = Some (sz, b) -> nth_error (bufs st) b = Some (Some (d, cap)) ->
    nth_error (objs st') o = Some (sz, b) /\ exists d', nth_error (bufs st') b = Some (Some (d', cap)) /\ length d' = length d.
  Lemma stays_effect s st st' o : inv st -> effect s st st' ->
    match s with Resize r _ => names st r <> Some o | _ => True end -> stays o st st'.
  Proof.
    intros (I1 & I2 & I3) E U sz b d cap Ho Hb. destruct E as
      [Eo Eb _ En|w v Eo Eb En _ _|r x ->|r o1 b1 cap1 sz1 d1 x Hr1 Ho1 Hb1 (K1 & K2) ->|w v k d1 d' cap1 Hv1 Hb1 HL _ ->|r o1 b1 cap1 sz0 sz1 d1 -> Hr1 Ho1 Hb1 H].
    - rewrite Eo, Eb. eauto.
    - rewrite Eo, Eb. eauto.
    - unfold fresh. cbn [objs bufs]. split; [apply snoc_old, Ho|]. exists d. split; [apply snoc_old, Hb|reflexivity].
    - unfold store. cbn [objs bufs]. destruct (Nat.eq_dec o1 o) as [->|N].
      + rewrite Ho in Ho1. injection Ho1 as <- <-. rewrite Hb in Hb1. injection Hb1 as <- <-. cbn [m_size m_data] in *.
        rewrite put_same by (eapply some_lt, Ho). rewrite put_same by (eapply some_lt, Hb). rewrite K1. eauto.
      + assert (b <> b1) by (intros <-; apply N; eapply I2; eassumption).
        rewrite !put_other by congruence. eauto.
    - cbn [objs bufs]. split; [exact Ho|]. destruct (Nat.eq_dec b (v_buf v)) as [->|N].
      + rewrite Hb in Hb1. injection Hb1 as <- <-. rewrite put_same by (eapply some_lt, Hb). eauto.
      + rewrite put_other by exact N. eauto.
    - assert (N : o <> o1) by (intros ->; apply U; exact Hr1).
      assert (b <> b1) by (intros <-; apply N; eapply I2; eassumption).
      destruct H as [-> |(d' & [-> | ->])]; unfold store; cbn [objs bufs]; rewrite ?put_other by congruence; eauto.
      split; [exact Ho|]. exists d. split; [|reflexivity]. apply snoc_old. rewrite put_other by congruence. exact Hb.
  Qed.
  Lemma stays_session o p : forall st st', inv st -> unresized o p st -> session p st = Ok st' -> stays o st st'.
  Proof.
    induction p as [|s p IH]; intros st st' I U H; [injection H as <-; intros sz b d cap; eauto|].
    apply session_cons in H as (st1 & A & H). destruct U as (U1 & U2).
    assert (U2' : unresized o p st1) by (destruct A as [A|(e & A)]; rewrite A in U2; exact U2).
    intros sz b d cap Ho Hb. destruct (stays_effect s st st1 o I (step_effect _ _ _ A) U1 _ _ _ _ Ho Hb) as (Ho' & d' & Hb' & L').
    destruct (IH st1 st' (inv_step _ _ _ I A) U2' H _ _ _ _ Ho' Hb') as (Ho2 & d2 & Hb2 & L2).
    split; [exact Ho2|]. exists d2. split; [exact Hb2|congruence].
  Qed.

  Lemma view_of s w r o st st1 : s = ViewG w r \/ s = ViewData w r -> names st r = Some o -> pstep s st = Done st1 ->
    exists sz b d cap v, nth_error (objs st) o = Some (sz, b) /\ nth_error (bufs st) b = Some (Some (d, cap)) /\
      views st1 w = Some v /\ v_buf v = b /\ objs st1 = objs st /\ bufs st1 = bufs st /\ names st1 = names st /\
      v = mkview b (match s with ViewG _ _ => 1 | _ => 0 end) (match s with ViewG _ _ => Z.to_nat (size c (mk sz d)) | _ => length d end).
  Proof.
    intros [-> | ->] Hr H; cbn [ModelObj.pstep] in H; unfold obj_of in H; rewrite Hr in H;
      (destruct (nth_error (objs st) o) as [[sz b]|] eqn:Eo; [|discriminate]);
      (destruct (load st o) as [x| | |] eqn:El; cbn [lift] in H; try discriminate);
      destruct (load_ok _ _ _ _ _ Eo El) as (cap & Eb & Es).
    - destruct (_ <? 0); [discriminate|]. injection H as <-. exists sz, b, (m_data x), cap. eexists.
      split; [reflexivity|]. split; [exact Eb|]. split; [cbn [views]; unfold bind_name; rewrite Nat.eqb_refl; reflexivity|].
      repeat (split; [reflexivity|]). f_equal. subst sz. destruct x; reflexivity.
    - injection H as <-. exists sz, b, (m_data x), cap. eexists.
      split; [reflexivity|]. split; [exact Eb|]. split; [cbn [views]; unfold bind_name; rewrite Nat.eqb_refl; reflexivity|].
      repeat (split; [reflexivity|]). reflexivity.
  Qed.

  Lemma views_live p p' s w r o st0 st1 st2 v :
    session p start = Ok st0 -> s = ViewG w r \/ s = ViewData w r -> names st0 r = Some o -> pstep s st0 = Done st1 ->
    views st1 w = Some v -> unresized o p' st1 -> session p' st1 = Ok st2 ->
    exists x1 x2, load st1 o = Ok x1 /\ load st2 o = Ok x2 /\ keeps x1 x2 /\
      v_off v = (match s with ViewG _ _ => 1 | _ => 0 end)%nat /\
      v_len v = (match s with ViewG _ _ => Z.to_nat (size c x1) | _ => length (m_data x1) end)%nat /\
      (forall i, view_read st2 v i = rd (m_data x2) (Z.of_nat (v_off v + i))) /\
      (forall i a, (v_off v + i < length (m_data x2))%nat -> exists st3,
         view_write st2 v i a = Ok st3 /\ load st3 o = Ok (mk (m_size x2) (upd (m_data x2) (v_off v + i) a))).
  Proof.
    intros H0 Hs Hr H1 Hw U H2. pose proof (inv_session _ _ _ inv_start H0) as I0.
    assert (I1 : inv st1) by (eapply inv_step; [exact I0|]; left; exact H1).
    destruct (view_of _ _ _ _ _ _ Hs Hr H1) as (sz & b & d & cap & v' & Eo & Eb & Ev & Vb & Oo & Ob & On & Vv).
    rewrite Hw in Ev. injection Ev as <-. rewrite <- Oo in Eo. rewrite <- Ob in Eb.
    destruct (stays_session o p' st1 st2 I1 U H2 _ _ _ _ Eo Eb) as (Eo2 & d2 & Eb2 & L2).
    exists (mk sz d), (mk sz d2).
    split; [unfold load; rewrite Eo, Eb; reflexivity|]. split; [unfold load; rewrite Eo2, Eb2; reflexivity|].
    split; [split; [reflexivity|exact L2]|]. cbn [m_data m_size].
    split; [subst v; reflexivity|]. split; [subst v; reflexivity|].
    split; [intros i; unfold view_read; rewrite Vb, Eb2; reflexivity|].
    intros i a Hi. unfold view_write. rewrite Vb, Eb2. rewrite (wr_ok _ (v_off v + i)%nat) by (first [reflexivity|lia]).
    cbn [bind]. eexists. split; [reflexivity|]. unfold load. cbn [objs bufs]. rewrite Eo2, put_same by (eapply some_lt, Eb2). reflexivity.
  Qed.

  Lemma resize_views st r o sz0 sz b d cap n v :
    is_dynamic c = true -> names st r = Some o -> nth_error (objs st) o = Some (sz0, b) ->
    nth_error (bufs st) b = Some (Some (d, cap)) -> v_buf v = b -> data_length_from_size c sz = Ok n -> 0 <= n <= max_len ->
    exists st' x, pstep (Resize r sz) st = Done st' /\ load st' o = Ok x /\ m_size x = sz /\ len (m_data x) = n /\
      (Z.of_nat cap < n -> forall i, view_read st' v i = UB) /\
      (n <= Z.of_nat cap -> forall i, view_read st' v i = rd (m_data x) (Z.of_nat (v_off v + i))).
  Proof.
    intros D Hr Ho Hb Hv Hn Hn2. cbn [ModelObj.pstep]. rewrite D. unfold obj_of. rewrite Hr, Ho, Hb, Hn. cbn [bind].
    unfold vec_resize. replace ((n <? 0) || (max_len <? n)) with false
      by (symmetry; apply orb_false_iff; split; apply Z.ltb_ge; lia). cbn [lift].
    set (d' := firstn (Z.to_nat n) d ++ repeat (Some (o_Z O 0)) (Z.to_nat n - length d)).
    assert (L : length d' = Z.to_nat n) by (unfold d'; rewrite app_length, firstn_length, repeat_length; lia).
    destruct (Nat.leb_spec (length d') cap) as [Le|Gt].
    - eexists _, (mk sz d'). split; [reflexivity|]. unfold store, load, view_read. cbn [objs bufs m_size m_data].
      rewrite put_same by (eapply some_lt, Ho). rewrite Hv, put_same by (eapply some_lt, Hb).
      split; [reflexivity|]. split; [reflexivity|]. split; [unfold len; lia|]. split; [intros; lia|]. reflexivity.
    - eexists _, (mk sz d'). split; [reflexivity|]. unfold load, view_read. cbn [objs bufs].
      rewrite put_same by (eapply some_lt, Ho). pose proof (snoc_new (put (bufs st) b None) (Some (d', (length d' + slack (length (bufs st)))%nat))) as SN.
      rewrite put_length in SN. cbv beta iota.
      match goal with |- context [match ?N with _ => _ end = Ok _] => replace N with (Some (Some (d', (length d' + slack (length (bufs st)))%nat))) by (symmetry; exact SN) end.
      split; [reflexivity|]. split; [reflexivity|]. cbn [m_data]. split; [unfold len; lia|]. split; [|intros; lia].
      intros _ i. rewrite Hv, nth_error_app1 by (rewrite put_length; eapply some_lt, Hb).
      rewrite put_same by (eapply some_lt, Hb). reflexivity.
  Qed.

  (** ** Names *)
  Lemma inplace_shared st st' r f : inv st -> (forall o x x', f o x = Ok x' -> keeps x x') -> inplace st r f = Done st' ->
    exists o x x', names st r = Some o /\ load st o = Ok x /\ f o x = Ok x' /\ load st' o = Ok x' /\
      (forall q, names st' q = names st q) /\ (forall o', o' <> o -> load st' o' = load st o').
  Proof.
    intros (I1 & I2 & I3) K H. unfold inplace, obj_of in H. destruct (names st r) as [o|] eqn:Er; [|discriminate].
    destruct (nth_error (objs st) o) as [[sz b]|] eqn:Eo; [|discriminate].
    destruct (nth_error (bufs st) b) as [[[d cap]|]|] eqn:Eb; try discriminate.
    destruct (f o (mk sz d)) as [x| | |] eqn:Ex; cbn [lift] in H; try discriminate. injection H as <-.
    exists o, (mk sz d), x. split; [reflexivity|]. split; [unfold load; rewrite Eo, Eb; reflexivity|]. split; [exact Ex|].
    split; [|split; [reflexivity|]].
    - unfold load, store. cbn [objs bufs]. rewrite put_same by (eapply some_lt, Eo). rewrite put_same by (eapply some_lt, Eb).
      destruct x; reflexivity.
    - intros o' N. unfold load, store. cbn [objs bufs]. rewrite put_other by exact N.
      destruct (nth_error (objs st) o') as [[sz' b']|] eqn:Eo'; [|reflexivity].
      rewrite put_other; [reflexivity|]. intros ->. apply N. eapply I2; eassumption.
  Qed.
  Lemma fresh_load st r x : inv st ->
    (forall o, (o < length (objs st))%nat -> load (fresh slack st r x) o = load st o) /\
    load (fresh slack st r x) (length (objs st)) = Ok x.
  Proof.
    intros (I1 & _). split.
    - intros o Ho. unfold load, fresh. cbn [objs bufs]. rewrite nth_error_app1 by exact Ho.
      destruct (nth_error (objs st) o) as [[sz b]|] eqn:Eo; [|reflexivity].
      destruct (I1 _ _ _ Eo) as (d & cap & Eb). rewrite nth_error_app1 by (eapply some_lt, Eb). reflexivity.
    - unfold load, fresh. cbn [objs bufs]. rewrite !snoc_new. destruct x; reflexivity.
  Qed.

  Lemma assign_shared p st st' op r a o oa : session p start = Ok st -> names st r = Some o -> names st a = Some oa ->
    pstep (IAsg op r a) st = Done st' ->
    exists x y x', load st o = Ok x /\ load st oa = Ok y /\
      assign O c op x (if Nat.eqb oa o then None else Some y) = Ok x' /\ load st' o = Ok x' /\
      (forall q, names st' q = names st q) /\ (forall o', o' <> o -> load st' o' = load st o').
  Proof.
    intros Hp Hr Ha H. pose proof (inv_session _ _ _ inv_start Hp) as I. cbn [ModelObj.pstep] in H. unfold obj_of in H at 1.
    rewrite Ha in H. apply inplace_shared in H; [|exact I|].
    - destruct H as (o1 & x & x' & E1 & Ex & Ef & El & Hn & Hl). rewrite Hr in E1. injection E1 as <-.
      destruct (Nat.eqb_spec oa o) as [->|N].
      + exists x, x, x'. auto 8.
      + destruct (load st oa) as [y| | |] eqn:Ey; cbn [bind] in Ef; try discriminate. exists x, y, x'. auto 8.
    - intros ob x x' E. destruct (Nat.eqb oa ob); [eapply assign_keeps, E|].
      destruct (load st oa) as [y| | |]; cbn [bind] in E; try discriminate. eapply assign_keeps, E.
  Qed.
  Lemma assign_s_shared p st st' op r v o : session p start = Ok st -> names st r = Some o -> op = Amul \/ op = Adiv ->
    pstep (IAsgS op r v) st = Done st' ->
    exists x x', load st o = Ok x /\ assign_s O op x v = Ok x' /\ load st' o = Ok x' /\
      (forall q, names st' q = names st q) /\ (forall o', o' <> o -> load st' o' = load st o').
  Proof.
    intros Hp Hr Hop H. pose proof (inv_session _ _ _ inv_start Hp) as I.
    assert (H' : inplace st r (fun _ x => assign_s O op x v) = Done st') by (destruct Hop; subst op; exact H).
    apply inplace_shared in H'; [|exact I|].
    - destruct H' as (o1 & x & x' & E1 & Ex & Ef & El & Hn & Hl). rewrite Hr in E1. injection E1 as <-. exists x, x'. auto 8.
    - intros ob x x' E. eapply calm_ok_inv; [|exact E]. apply calm_assign_s.
  Qed.
  Lemma assign_s_rebinds p st st' op r v o : session p start = Ok st -> names st r = Some o -> op = Aadd \/ op = Asub ->
    pstep (IAsgS op r v) st = Done st' ->
    exists x x' o', load st o = Ok x /\ apply_u O c (aop_s op v) x = Ok x' /\
      names st' r = Some o' /\ o' <> o /\ load st' o' = Ok x' /\ load st' o = Ok x /\
      (forall q, q <> r -> names st' q = names st q /\ names st' q <> Some o') /\
      (forall q o1, names st q = Some o1 -> load st' o1 = load st o1).
  Proof.
    intros Hp Hr Hop H. pose proof (inv_session _ _ _ inv_start Hp) as I. destruct (I) as (I1 & I2 & I3).
    assert (H' : arg st r (fun x => make slack st r (apply_u O c (aop_s op v) x)) = Done st') by (destruct Hop; subst op; exact H).
    unfold arg, obj_of in H'. rewrite Hr in H'. destruct (load st o) as [x| | |] eqn:Ex; cbn [lift] in H'; try discriminate.
    unfold make in H'. destruct (apply_u O c (aop_s op v) x) as [x'| | |] eqn:Ef; cbn [lift] in H'; try discriminate.
    injection H' as <-. destruct (fresh_load st r x' I) as (F1 & F2).
    exists x, x', (length (objs st)). split; [reflexivity|]. split; [exact Ef|].
    cbn [fresh names]. unfold bind_name. rewrite Nat.eqb_refl. split; [reflexivity|].
    pose proof (I3 _ _ Hr) as Lo. split; [lia|]. split; [exact F2|]. split; [rewrite F1 by exact Lo; exact Ex|]. split.
    - intros q N. destruct (Nat.eqb_spec q r); [contradiction|]. split; [reflexivity|]. intros E. apply I3 in E. lia.
    - intros q o1 E. apply F1. eapply I3, E.
  Qed.

  (** ** Exceptions *)
  Lemma raised_lift {A} st (m : res A) k e st' : lift st m k = Raised e st' ->
    (exists e', m = Throw e' /\ e = Cpp e' /\ st' = st) \/ exists a, m = Ok a /\ k a = Raised e st'.
  Proof. destruct m; cbn [lift]; intros H; try discriminate; [right; eauto|left]. injection H as <- <-. eauto. Qed.
  Lemma raised_obj st r k e st' : obj_of st r k = Raised e st' -> st' = st \/ exists o, names st r = Some o /\ k o = Raised e st'.
  Proof. unfold obj_of. destruct (names st r); [right; eauto|]. intros H. injection H as <- <-. left. reflexivity. Qed.
  Lemma raised_arg st r k e st' : arg st r k = Raised e st' -> st' = st \/ exists x, k x = Raised e st'.
  Proof.
    unfold arg. intros H. apply raised_obj in H as [H|(o & _ & H)]; [auto|].
    apply raised_lift in H as [(e' & _ & _ & H)|(x & _ & H)]; eauto.
  Qed.
  Lemma raised_make st r m e st' : make slack st r m = Raised e st' -> st' = st.
  Proof. unfold make. intros H. apply raised_lift in H as [(e' & _ & _ & H)|(x & _ & H)]; [exact H|discriminate]. Qed.
  Lemma raised_inplace st r f e st' : inplace st r f = Raised e st' -> st' = st.
  Proof.
    unfold inplace. intros H. apply raised_obj in H as [H|(o & _ & H)]; [exact H|].
    destruct (nth_error (objs st) o) as [[sz b]|]; [|discriminate].
    destruct (nth_error (bufs st) b) as [[[d cap]|]|]; try discriminate.
    apply raised_lift in H as [(e' & _ & _ & H)|(x & _ & H)]; [exact H|discriminate].
  Qed.
  Lemma exceptions_change_nothing s st e st' : (forall r sz, s <> Resize r sz) -> pstep s st = Raised e st' -> st' = st.
  Proof.
    intros N H. destruct s; cbn [ModelObj.pstep] in H;
      try (exfalso; eapply N; reflexivity);
      try (eapply raised_make, H); try (eapply raised_inplace, H);
      try (apply raised_arg in H as [H|(x & H)]; [exact H|first [discriminate|eapply raised_make, H]]).
    - destruct (_ && _); [injection H as <- <-; reflexivity|eapply raised_make, H].
    - apply raised_obj in H as [H|(o & _ & H)]; [exact H|discriminate].
    - apply raised_arg in H as [H|(x & H)]; [exact H|]. apply raised_arg in H as [H|(y & H)]; [exact H|eapply raised_make, H].
    - apply raised_arg in H as [H|(x & H)]; [exact H|]. apply raised_arg in H as [H|(y & H)]; [exact H|].
      apply raised_arg in H as [H|(z & H)]; [exact H|eapply raised_make, H].
    - destruct (is_dynamic c); [|injection H as <- <-; reflexivity]. apply raised_arg in H as [H|(x & H)]; [exact H|eapply raised_make, H].
    - destruct (is_dynamic c); [|injection H as <- <-; reflexivity]. apply raised_arg in H as [H|(x & H)]; [exact H|eapply raised_make, H].
    - apply raised_obj in H as [H|(o' & _ & H)]; [exact H|eapply raised_inplace, H].
    - destruct o; try (eapply raised_inplace, H); (apply raised_arg in H as [H|(x & H)]; [exact H|eapply raised_make, H]).
    - apply raised_obj in H as [H|(o' & _ & H)]; [exact H|]. destruct (_ && _); [injection H as <- <-; reflexivity|eapply raised_inplace, H].
    - apply raised_obj in H as [H|(o & _ & H)]; [exact H|]. destruct (nth_error (objs st) o) as [[sz b]|]; [|discriminate].
      apply raised_lift in H as [(e' & _ & _ & H)|(x & _ & H)]; [exact H|]. destruct (_ <? 0); discriminate.
    - apply raised_obj in H as [H|(o & _ & H)]; [exact H|]. destruct (nth_error (objs st) o) as [[sz b]|]; [|discriminate].
      apply raised_lift in H as [(e' & _ & _ & H)|(x & _ & H)]; [exact H|discriminate].
    - destruct (views st w) as [v|]; [|injection H as <- <-; reflexivity]. destruct (np_index v i); [|injection H as <- <-; reflexivity].
      apply raised_lift in H as [(e' & _ & _ & H)|(x & _ & H)]; [exact H|discriminate].
    - destruct (views st w) as [v0|]; [|injection H as <- <-; reflexivity]. destruct (np_index v0 i); [|injection H as <- <-; reflexivity].
      apply raised_lift in H as [(e' & _ & _ & H)|(x & _ & H)]; [exact H|discriminate].
  Qed.

  (** A failing [resize] has already changed the size. *)
  Lemma failed_resize p st r o sz x n : is_dynamic c = true -> session p start = Ok st -> names st r = Some o ->
    load st o = Ok x -> data_length_from_size c sz = Ok n -> n < 0 \/ max_len < n ->
    exists st', pstep (Resize r sz) st = Raised (Cpp LengthError) st' /\ load st' o = Ok (mk sz (m_data x)) /\
      (forall k, ~ wf c k (mk sz (m_data x))) /\ (forall o', o' <> o -> load st' o' = load st o').
  Proof.
    intros D Hp Hr Hx Hn Hb. pose proof (inv_session _ _ _ inv_start Hp) as I.
    unfold load in Hx. destruct (nth_error (objs st) o) as [[sz0 b]|] eqn:Eo; [|discriminate].
    destruct (nth_error (bufs st) b) as [[[d cap]|]|] eqn:Eb; try discriminate. injection Hx as <-. cbn [m_data].
    cbn [ModelObj.pstep]. rewrite D. unfold obj_of. rewrite Hr, Eo, Eb, Hn. cbn [bind].
    unfold vec_resize. replace ((n <? 0) || (max_len <? n)) with true
      by (symmetry; apply orb_true_iff; destruct Hb; [left|right]; apply Z.ltb_lt; lia). cbn [lift].
    eexists. split; [reflexivity|]. split; [|split].
    - unfold load. cbn [objs bufs]. rewrite put_same by (eapply some_lt, Eo). rewrite Eb. reflexivity.
    - intros k (W1 & W2 & _ & W4). unfold size in W1. rewrite D in W1. cbn [m_size] in W1. subst sz.
      unfold len in W4. rewrite W2 in W4. cbn [m_data] in *.
      assert (n = Z.of_nat (storage_len (c_ord c) k)).
      { assert (SO : size_ok c k) by (split; [intros D'; congruence|exact W4]).
        rewrite (data_length_from_size_ok c k SO) in Hn. injection Hn as <-. reflexivity. }
      lia.
    - intros o' N. unfold load. cbn [objs bufs]. rewrite put_other by exact N. reflexivity.
  Qed.
End Heap.
