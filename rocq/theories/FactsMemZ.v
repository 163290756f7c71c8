(** C107: memory exhaustion in Python sessions. *)
From Coq Require Import String ZArith List Bool Lia.
From Verif Require Import Outcome Scalar Samples Model ProgSpec ModelS SpecS FactsS ModelObj ModelObjS ModelMem MemSpec FactsMem ModelMemZ MemZSpec.
Import ListNotations.

Section MemZFacts.
  Context {S : Type} (O : Ops S).
  Implicit Types (t b : table S) (x y : ss S) (w : mem) (st : zheap S).

  (** A computation that asks exactly [j] times. *)
  Definition takes {A} (m : mm A) (v : A) : Prop := exists j, forall w, m (repeat true j ++ w)%list = (Some v, w).
  Lemma takes_ret {A} (v : A) : takes (mret v) v. Proof. exists 0%nat. reflexivity. Qed.
  Lemma takes_bind {A B} (m : mm A) (k : A -> mm B) v u : takes m v -> takes (k v) u -> takes (mbind m k) u.
  Proof.
    intros (i & Hi) (j & Hj). exists (i + j)%nat. intros w. unfold mbind. rewrite repeat_app, <- app_assoc, Hi. apply Hj.
  Qed.
  Lemma takes_copy t : takes (copy_m t) t. Proof. exists 1%nat. reflexivity. Qed.
  Lemma takes_merge g b : forall t, exists j, forall w, merge_m O g t b (repeat true j ++ w)%list = (t_merge O g t b, true, w).
  Proof.
    induction b as [|(k, v) b IH]; intros t; [exists 0%nat; reflexivity|]. destruct (IH (t_update O t k (fun o => g o v))) as (j & Hj).
    cbn [merge_m]. destruct (t_find t k); [exists j; exact Hj|]. exists (Datatypes.S j). intros w. cbn [repeat app request]. apply Hj.
  Qed.
  Lemma takes_merged g t b : takes (merged O g t b) (t_merge O g t b).
  Proof. destruct (takes_merge g b t) as (j & Hj). exists j. intros w. unfold merged. rewrite Hj. reflexivity. Qed.
  Lemma takes_ctor (f : S) d : takes (s_ctor_m f d) (mks f d). Proof. eapply takes_bind; [apply takes_copy|apply takes_ret]. Qed.
  Lemma takes_result (f : S) d t : takes d t -> takes (s_result_m f d) (mks f t).
  Proof. intros H. eapply takes_bind; [exact H|apply takes_ctor]. Qed.
  Lemma takes_unary a da : takes (s_unary_m O a da) (s_unary O a da).
  Proof. eapply takes_bind; [apply takes_copy|apply takes_ret]. Qed.
  Lemma takes_binary a b da db : takes (s_binary_m O a b da db) (s_binary O a b da db).
  Proof. eapply takes_bind; [apply takes_copy|apply takes_merged]. Qed.
  Lemma takes_ternary a b c da db dc : takes (s_ternary_m O a b c da db dc) (s_ternary O a b c da db dc).
  Proof. eapply takes_bind; [apply takes_copy|]. eapply takes_bind; [apply takes_merged|apply takes_merged]. Qed.
  Lemma takes_on_copy F x : takes (on_copy_m F x) (F x).
  Proof. eapply takes_bind; [apply takes_copy|]. destruct x as [f d]. apply takes_ret. Qed.
  Lemma takes_unary_op F x : takes (s_unary_op_m O F x) (s_unary_op O F x).
  Proof. unfold s_unary_op_m, s_unary_op. destruct (F (s_f x)) as [f da]. apply takes_result, takes_unary. Qed.
  Lemma takes_u u x : takes (s_apply_u_m O u x) (s_apply_u O u x).
  Proof.
    destruct u; cbn [s_apply_u_m s_apply_u]; try apply takes_unary_op;
      try match goal with |- takes (on_copy_m ?F x) _ => exact (takes_on_copy F x) end.
    apply takes_result, takes_unary.
  Qed.
  Lemma takes_b (b : bfun) x y : takes (s_apply_b_m O b x y) (s_apply_b O b x y).
  Proof. destruct b; cbn [s_apply_b_m s_apply_b]; apply takes_result, takes_binary. Qed.
  Lemma takes_h x y z : takes (s_hypot3_m O x y z) (s_hypot3 O x y z).
  Proof. apply takes_result, takes_ternary. Qed.
  Lemma takes_assign o x y : exists j, forall w, s_assign_m O o x y (repeat true j ++ w)%list = (s_assign O o x (Some y), true, w).
  Proof.
    destruct o; cbn [s_assign_m]; cbv zeta;
      match goal with |- context [merge_m O ?g ?t ?b _] => destruct (takes_merge g b t) as (j & Hj) end;
      exists j; intros w; rewrite Hj; reflexivity.
  Qed.
  (** The loop stops at the first of the entries [(k, v) :: post]. *)
  Lemma stops_merge g post k v pre : forall t, ~ In k (map fst (t_merge O g t pre)) ->
    exists j, forall w, merge_m O g t (pre ++ (k, v) :: post)%list (repeat true j ++ false :: w)%list = (t_merge O g t pre, false, w).
  Proof.
    induction pre as [|(k', v') pre IH]; intros t H.
    - exists 0%nat. intros w. cbn [app merge_m]. assert (F : t_find t k = None) by (apply find_none; exact H). rewrite F. reflexivity.
    - destruct (IH (t_update O t k' (fun o => g o v')) H) as (j & Hj). cbn [app merge_m].
      destruct (t_find t k'); [exists j; exact Hj|]. exists (Datatypes.S j). intros w. cbn [repeat app request]. apply Hj.
  Qed.
  Lemma stops_assign o x y pre k v post : s_d y = (pre ++ (k, v) :: post)%list ->
    ~ In k (SpecS.names (s_assign O o x (Some (mks (s_f y) pre)))) ->
    exists j, forall w, s_assign_m O o x y (repeat true j ++ false :: w)%list = (s_assign O o x (Some (mks (s_f y) pre)), false, w).
  Proof.
    intros E H. destruct o; cbn [s_assign_m s_assign] in *; unfold s_add_assign, s_sub_assign, s_mul_assign, s_div_assign in *; cbv zeta in *;
      cbn [s_f s_d] in *; rewrite E;
      match goal with |- context [merge_m O ?g ?t _ _] => destruct (stops_merge g post k v pre t H) as (j & Hj) end;
      exists j; intros w; rewrite Hj; reflexivity.
  Qed.

  (** ** One statement *)
  Lemma new_m_spec st r m x w : gives m x ->
    match znew_m st r m w with
    | (ZRan e, st', _) => e = None /\ st' = znew st r x
    | (ZRefused, st', _) => st' = st
    end.
  Proof.
    intros (G & _). unfold znew_m. specialize (G w). destruct (m w) as [[z|] w']; cbn [fst] in G; [|reflexivity].
    destruct G as [E|E]; [|discriminate]. injection E as ->. destruct (request w') as [[|] w'']; [split|]; reflexivity.
  Qed.
  Lemma gives_ctor (f : S) d : gives (s_ctor_m f d) (mks (S := S) f d).
  Proof. eapply gives_bind; [apply gives_copy|apply gives_ret]. Qed.
  Lemma step_m_left s st w :
    match zstep_m O s st w with
    | (ZRan e, st', _) => (e, st') = zstep O s st
    | (ZRefused, st', _) => z_left O s st st'
    end.
  Proof.
    assert (N : forall st r m x w, gives m x ->
      match znew_m st r m w with
      | (ZRan e, st', _) => (e, st') = (None, znew st r x)
      | (ZRefused, st', _) => z_left O s st st'
      end).
    { intros st0 r m x w0 G. pose proof (new_m_spec st0 r m x w0 G) as H. destruct (znew_m st0 r m w0) as [[[e|] st'] w'].
      - destruct H as (-> & ->). reflexivity.
      - left. exact H. }
    unfold zstep_m. destruct (request w) as [[|] w0]; cbn [negb]; [|left; reflexivity].
    destruct s as [r f d|r v|r k v|r a|r u a|r b a1 a2|r a1 a2 a3|op r a|op r v]; cbn [zstep].
    - apply N, gives_ctor.
    - apply N. exact (gives_ctor v []).
    - apply N. eapply gives_bind; [apply gives_copy|]. exact (gives_ctor v _).
    - destruct (zget st a) as [[o x]|]; reflexivity.
    - destruct (zget st a) as [[o x]|]; [|reflexivity]. apply N, gives_u.
    - destruct (zget st a1) as [[o x]|]; [|reflexivity]. destruct (zget st a2) as [[o2 y]|]; [|reflexivity]. apply N, gives_b.
    - destruct (zget st a1) as [[o x]|]; [|reflexivity]. destruct (zget st a2) as [[o2 y]|]; [|reflexivity].
      destruct (zget st a3) as [[o3 z]|]; [|reflexivity]. apply N, gives_h.
    - destruct (zget st a) as [[oa y]|] eqn:Ea; [|reflexivity]. destruct (zget st r) as [[o x]|] eqn:Er; [|reflexivity].
      destruct (Nat.eqb_spec oa o) as [_|D]; [reflexivity|]. pose proof (assign_m_spec O op x y w0) as H.
      destruct (s_assign_m O op x y w0) as [[z [|]] w1]; [rewrite H; reflexivity|].
      destruct H as (pre & k & v & post & E & -> & Hn). right. exists op, r, a, oa, o, x, y, pre, k, v, post. repeat split; assumption.
    - destruct (zget st r) as [[o x]|]; [|reflexivity]. destruct op; try reflexivity; apply N, gives_u.
  Qed.
  Lemma new_m_takes st r m x : takes m x -> exists j, forall w, znew_m st r m (repeat true j ++ w)%list = (ZRan None, znew st r x, w).
  Proof.
    intros (j & Hj). exists (j + 1)%nat. intros w. unfold znew_m. rewrite repeat_app, <- app_assoc, Hj. reflexivity.
  Qed.
  Lemma step_m_ran s st : exists j, forall w, zstep_m O s st (repeat true j ++ w)%list = (ZRan (fst (zstep O s st)), snd (zstep O s st), w).
  Proof.
    assert (N : forall r m x, takes m x -> exists j, forall w,
      (let (ok, w) := request (repeat true j ++ w)%list in if negb ok then (ZRefused, st, w) else znew_m st r m w) = (ZRan None, znew st r x, w)).
    { intros r m x T. destruct (new_m_takes st r m x T) as (j & Hj). exists (Datatypes.S j). intros w. cbn [repeat app request negb]. apply Hj. }
    unfold zstep_m. destruct s as [r f d|r v|r k v|r a|r u a|r b a1 a2|r a1 a2 a3|op r a|op r v]; cbn [zstep].
    - apply N, takes_ctor.
    - apply N. exact (takes_ctor v []).
    - apply N. eapply takes_bind; [apply takes_copy|]. exact (takes_ctor v _).
    - exists 1%nat. intros w. cbn. destruct (zget st a) as [[o x]|]; reflexivity.
    - destruct (zget st a) as [[o x]|]; [apply N, takes_u|exists 1%nat; reflexivity].
    - destruct (zget st a1) as [[o x]|]; [|exists 1%nat; reflexivity]. destruct (zget st a2) as [[o2 y]|]; [|exists 1%nat; reflexivity]. apply N, takes_b.
    - destruct (zget st a1) as [[o x]|]; [|exists 1%nat; reflexivity]. destruct (zget st a2) as [[o2 y]|]; [|exists 1%nat; reflexivity].
      destruct (zget st a3) as [[o3 z]|]; [|exists 1%nat; reflexivity]. apply N, takes_h.
    - destruct (zget st a) as [[oa y]|]; [|exists 1%nat; reflexivity]. destruct (zget st r) as [[o x]|]; [|exists 1%nat; reflexivity].
      destruct (Nat.eqb oa o); [exists 1%nat; reflexivity|]. destruct (takes_assign op x y) as (j & Hj). exists (Datatypes.S j). intros w.
      cbn [repeat app request negb]. rewrite Hj. reflexivity.
    - destruct (zget st r) as [[o x]|]; [|exists 1%nat; reflexivity].
      destruct op; try (exists 1%nat; reflexivity); apply N, takes_u.
  Qed.
  Lemma step_m_refused s st st' : z_left O s st st' -> exists w0, forall w, zstep_m O s st (w0 ++ w)%list = (ZRefused, st', w).
  Proof.
    intros [->|(op & r & a & oa & o & x & y & pre & k & v & post & -> & Ea & Er & D & E & Hn & ->)].
    - exists [false]. reflexivity.
    - destruct (stops_assign op x y pre k v post E Hn) as (j & Hj). exists (true :: repeat true j ++ [false])%list. intros w.
      cbn [app zstep_m request negb]. unfold zstep_m. cbn [request negb]. rewrite Ea, Er, (proj2 (Nat.eqb_neq oa o) D).
      rewrite <- app_assoc. cbn [app]. rewrite Hj. reflexivity.
  Qed.

  (** ** Sessions *)
  Lemma session_lives p st st' : z_lives O p st st' <-> exists w, zsession_m O p st w = st'.
  Proof.
    split.
    - assert (G : z_lives O p st st' -> exists w0, forall w, zsession_m O p st (w0 ++ w)%list = st').
      { intros L. induction L as [st|s p st st' L (w0 & IH)|s p st st1 st' H L (w0 & IH)].
        - exists []. reflexivity.
        - destruct (step_m_ran s st) as (j & Hj). exists (repeat true j ++ w0)%list. intros w. cbn [zsession_m]. rewrite <- app_assoc, Hj. apply IH.
        - destruct (step_m_refused s st st1 H) as (w1 & Hw). exists (w1 ++ w0)%list. intros w. cbn [zsession_m]. rewrite <- app_assoc, Hw. apply IH. }
      intros L. destruct (G L) as (w0 & H). exists (w0 ++ [])%list. apply H.
    - intros (w & <-). revert st w. induction p as [|s p IH]; intros st w; cbn [zsession_m]; [constructor|].
      pose proof (step_m_left s st w) as H. destruct (zstep_m O s st w) as [[[e|] st1] w1].
      + apply LRan. rewrite <- H. apply IH.
      + eapply LRefused; [exact H|apply IH].
  Qed.
  Lemma step_m_granted s st w : List.Forall (fun g : bool => g = true) w ->
    exists w', zstep_m O s st w = (ZRan (fst (zstep O s st)), snd (zstep O s st), w') /\ List.Forall (fun g : bool => g = true) w'.
  Proof.
    intros Hw. destruct (step_m_ran s st) as (j & Hj). revert Hw Hj.
    assert (N : forall r m x w0, gives m x -> granted w0 -> exists w', znew_m st r m w0 = (ZRan None, znew st r x, w') /\ granted w').
    { intros r m x w0 (_ & G) H0. unfold znew_m. destruct (G w0 H0) as (w1 & -> & H1). destruct (request_granted w1 H1) as (w2 & -> & H2). eauto. }
    intros Hw _. change (List.Forall (fun g : bool => g = true)) with granted in *. destruct (request_granted w Hw) as (w0 & Ew & H0).
    unfold zstep_m. rewrite Ew. cbn [negb].
    destruct s as [r f d|r v|r k v|r a|r u a|r b a1 a2|r a1 a2 a3|op r a|op r v]; cbn [zstep].
    - apply N; [apply gives_ctor|exact H0].
    - apply N; [exact (gives_ctor v [])|exact H0].
    - apply N; [eapply gives_bind; [apply gives_copy|]; exact (gives_ctor v _)|exact H0].
    - destruct (zget st a) as [[o x]|]; eauto.
    - destruct (zget st a) as [[o x]|]; [apply N; [apply gives_u|exact H0]|eauto].
    - destruct (zget st a1) as [[o x]|]; [|eauto]. destruct (zget st a2) as [[o2 y]|]; [|eauto]. apply N; [apply gives_b|exact H0].
    - destruct (zget st a1) as [[o x]|]; [|eauto]. destruct (zget st a2) as [[o2 y]|]; [|eauto].
      destruct (zget st a3) as [[o3 z]|]; [|eauto]. apply N; [apply gives_h|exact H0].
    - destruct (zget st a) as [[oa y]|]; [|eauto]. destruct (zget st r) as [[o x]|]; [|eauto].
      destruct (Nat.eqb oa o); [eauto|]. destruct (assign_m_granted O op x y w0 H0) as (w1 & -> & H1). eauto.
    - destruct (zget st r) as [[o x]|]; [|eauto]. destruct op; cbn [fst snd]; eauto; (apply N; [apply gives_u|exact H0]).
  Qed.
  Lemma session_granted p : forall st w, List.Forall (fun g : bool => g = true) w -> zsession_m O p st w = zsession O p st.
  Proof.
    induction p as [|s p IH]; intros st w Hw; cbn [zsession_m zsession]; [reflexivity|].
    destruct (step_m_granted s st w Hw) as (w' & -> & Hw'). apply IH, Hw'.
  Qed.

  (** ** Consequences *)
  Lemma put_length {A} (l : list A) i (x : A) : List.length (put l i x) = List.length l.
  Proof. revert i. induction l as [|a l IH]; intros [|i]; cbn; auto. Qed.
  Lemma put_other {A} (l : list A) i j (x : A) : i <> j -> nth_error (put l i x) j = nth_error l j.
  Proof. revert i j. induction l as [|a l IH]; intros [|i] [|j] H; cbn; auto; try congruence. Qed.
  Lemma put_Forall {A} (P : A -> Prop) (l : list A) i (x : A) : List.Forall P l -> P x -> List.Forall P (put l i x).
  Proof. intros H Hx. revert i. induction H as [|a l Ha Hl IH]; intros [|i]; cbn; constructor; auto. Qed.
  Lemma zget_in st r o x : zget st r = Some (o, x) -> znames st r = Some o /\ nth_error (zobjs st) o = Some x.
  Proof.
    unfold zget. destruct (znames st r) as [o'|]; [|discriminate]. destruct (nth_error (zobjs st) o') as [x'|] eqn:E; [|discriminate].
    intros H. injection H as <- <-. auto.
  Qed.
  Lemma left_others s st st' : z_left O s st st' ->
    znames st' = znames st /\ List.length (zobjs st') = List.length (zobjs st) /\
    forall o, (forall op r a, s = ZAsg op r a -> znames st r <> Some o) -> nth_error (zobjs st') o = nth_error (zobjs st) o.
  Proof.
    intros [->|(op & r & a & oa & o & x & y & pre & k & v & post & -> & Ea & Er & D & E & Hn & ->)]; [auto|].
    split; [reflexivity|]. split; [apply put_length|]. intros o' H. apply put_other. intros <-. apply (H op r a eq_refl). apply zget_in in Er. apply Er.
  Qed.
  Lemma valid_get st r o x : z_valid st -> zget st r = Some (o, x) -> keys_ok x.
  Proof. intros (F & _) H. apply zget_in in H. destruct H as (_ & E). apply nth_error_In in E. eapply Forall_forall in F; eassumption. Qed.
  Lemma valid_new st r x : z_valid st -> keys_ok x -> z_valid (znew st r x).
  Proof.
    intros (F & N) K. split; cbn [znew zobjs znames].
    - apply Forall_app. split; [exact F|constructor; [exact K|constructor]].
    - intros q o. unfold bind_name. rewrite app_length. cbn [List.length]. destruct (Nat.eqb q r); [intros H; injection H as <-; lia|].
      intros H. apply N in H. lia.
  Qed.
  Lemma valid_put st o x : z_valid st -> keys_ok x -> z_valid (zput st o x).
  Proof.
    intros (F & N) K. split; cbn [zput zobjs znames]; [apply put_Forall; assumption|]. intros q o' H. rewrite put_length. eapply N, H.
  Qed.
  Lemma left_valid s st st' : z_valid st -> z_left O s st st' -> z_valid st'.
  Proof.
    intros V [->|(op & r & a & oa & o & x & y & pre & k & v & post & -> & Ea & Er & D & E & Hn & ->)]; [exact V|].
    apply valid_put; [exact V|]. apply FactsMem.keys_ok_assign. eapply valid_get; eassumption.
  Qed.
  Lemma step_valid s st : new_ok s -> z_valid st -> z_valid (snd (zstep O s st)).
  Proof.
    intros HN V. destruct s as [r f d|r v|r k v|r a|r u a|r b a1 a2|r a1 a2 a3|op r a|op r v]; cbn [zstep].
    - apply valid_new; [exact V|exact HN].
    - apply valid_new; [exact V|constructor].
    - apply valid_new; [exact V|apply keys_ok_var].
    - destruct (zget st a) as [[o x]|] eqn:E; [|exact V]. apply zget_in in E. destruct V as (F & N). split; [exact F|]. cbn [snd zobjs znames].
      intros q o'. unfold bind_name. destruct (Nat.eqb q r); [intros H; injection H as <-; eapply N, E|apply N].
    - destruct (zget st a) as [[o x]|] eqn:E; [|exact V]. apply valid_new; [exact V|]. apply keys_ok_u. eapply valid_get; eassumption.
    - destruct (zget st a1) as [[o x]|] eqn:E; [|exact V]. destruct (zget st a2) as [[o2 y]|]; [|exact V]. apply valid_new; [exact V|].
      apply keys_ok_b. eapply valid_get; eassumption.
    - destruct (zget st a1) as [[o x]|] eqn:E; [|exact V]. destruct (zget st a2) as [[o2 y]|]; [|exact V]. destruct (zget st a3) as [[o3 z]|]; [|exact V].
      apply valid_new; [exact V|]. apply keys_ok_h. eapply valid_get; eassumption.
    - destruct (zget st a) as [[oa y]|]; [|exact V]. destruct (zget st r) as [[o x]|] eqn:E; [|exact V]. apply valid_put; [exact V|].
      apply FactsS.keys_ok_assign. eapply valid_get; eassumption.
    - destruct (zget st r) as [[o x]|] eqn:E; [|exact V]. pose proof (valid_get _ _ _ _ V E) as K.
      destruct op; cbn [snd]; first [apply valid_new; [exact V|]; apply keys_ok_u, K | apply valid_put; [exact V|]; apply keys_ok_assign_s, K].
  Qed.
  Lemma lives_valid p st st' : List.Forall new_ok p -> z_valid st -> z_lives O p st st' -> z_valid st'.
  Proof.
    intros HN V L. induction L as [st|s p st st' L IH|s p st st1 st' H L IH]; [exact V| |]; inversion HN; subst; apply IH; auto.
    - apply step_valid; assumption.
    - eapply left_valid; eassumption.
  Qed.
  Lemma left_retry s st st' : not_in_place s -> z_left O s st st' -> zstep O s st' = zstep O s st.
  Proof. intros HN [->|(op & r & a & oa & o & x & y & pre & k & v & post & -> & _)]; [reflexivity|destruct HN]. Qed.
End MemZFacts.

Section Refuted.
  Open Scope Z_scope.
  (** x = SScalar(1, {a: 1}); y = SScalar(2, {b: 1}); t = x; x += y, refused: x and t have the value 3 and no derivative by b. *)
  Definition zx : ss Z := mks 1 [("a"%string, 1)].
  Definition zy : ss Z := mks 2 [("b"%string, 1)].
  Definition zcase : list (zstmt Z) := [ZNew 0 1 [("a"%string, 1)]; ZNew 1 2 [("b"%string, 1)]; ZAlias 2 0; ZAsg Aadd 0 1].
  Definition zheap0 : zheap Z := zsession_m Zops (firstn 3 zcase) zstart [].
  Lemma half_case : z_left Zops (ZAsg Aadd 0 1) zheap0 (zput zheap0 0 (mks 3 [("a"%string, 1)])).
  Proof.
    right. exists Aadd, 0%nat, 1%nat, 1%nat, 0%nat, zx, zy, [], "b"%string, 1, []. repeat split; try reflexivity; [discriminate|].
    cbn. intros [H|[]]. discriminate.
  Qed.
  Lemma valid_case : z_valid zheap0.
  Proof.
    split; [repeat constructor; intros []|]. intros r o. cbn. unfold bind_name.
    destruct (Nat.eqb r 2); [intros H; injection H as <-; lia|]. destruct (Nat.eqb r 1); [intros H; injection H as <-; lia|].
    destruct (Nat.eqb r 0); [intros H; injection H as <-; lia|discriminate].
  Qed.
  Lemma z_unchanged_false : ~ (forall (S : Type) (O : Ops S) (s : zstmt S) (st st' : zheap S), z_valid st -> z_left O s st st' -> st' = st).
  Proof. intros H. specialize (H Z Zops _ _ _ valid_case half_case). apply (f_equal (fun h => nth_error (zobjs h) 0)) in H. discriminate H. Qed.
  Lemma z_retry_false : ~ (forall (S : Type) (O : Ops S) (s : zstmt S) (st st' : zheap S), z_valid st -> z_left O s st st' -> zstep O s st' = zstep O s st).
  Proof. intros H. specialize (H Z Zops _ _ _ valid_case half_case). apply (f_equal (fun h => nth_error (zobjs (snd h)) 0)) in H. discriminate H. Qed.
End Refuted.
