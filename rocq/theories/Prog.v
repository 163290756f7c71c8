(** Programs: simulation by jets, congruence, symbolic execution along the path taken. *)
From Coq Require Import ZArith List Bool Reals Lra Lia.
From Coquelicot Require Import Coquelicot.
From Verif Require Import Outcome Scalar Model Spec Core Kernels OpsRep AccRep PadRep RealOps Deriv UDeriv BDeriv
  FactsLayout FactsCtor FactsOps ExprSpec Expr Struct FactsExpr Chain FactsReal Cont ProgSpec.
Import ListNotations.

(** ** Lists *)
Lemma put_length {A} (l : list A) r x : length (put l r x) = length l.
Proof. revert r. induction l as [|y l IH]; intros [|r]; cbn; auto. Qed.
Lemma put_map {A B} (f : A -> B) l r x : map f (put l r x) = put (map f l) r (f x).
Proof. revert r. induction l as [|y l IH]; intros [|r]; cbn; f_equal; auto. Qed.
Lemma put_Forall {A} (P : A -> Prop) l r x : List.Forall P l -> P x -> List.Forall P (put l r x).
Proof. intros H Hx. revert r. induction H; intros [|r]; cbn; constructor; auto. Qed.
Lemma put_Forall2 {A B} (P : A -> B -> Prop) l l' r x y : Forall2 P l l' -> P x y -> Forall2 P (put l r x) (put l' r y).
Proof. intros H Hx. revert r. induction H; intros [|r]; cbn; constructor; auto. Qed.
Lemma put_other {A} (l : list A) r q x : q <> r -> nth_error (put l r x) q = nth_error l q.
Proof. revert r q. induction l as [|y l IH]; intros [|r] [|q] H; cbn; try reflexivity; try congruence. apply IH. congruence. Qed.
Lemma put_same {A} (l : list A) r x : (r < length l)%nat -> nth_error (put l r x) r = Some x.
Proof. revert r. induction l as [|y l IH]; intros [|r] H; cbn in *; auto; try lia. apply IH. lia. Qed.
Lemma Forall2_get {A B} (P : A -> B -> Prop) l l' d r : Forall2 P l l' -> (r < length l)%nat ->
  exists y, nth_error l' r = Some y /\ P (nth r l d) y.
Proof.
  intros H. revert r. induction H as [|x y l l' Hxy H IH]; intros [|r] Hr; cbn in *; try lia.
  - eauto.
  - apply IH. lia.
Qed.
Lemma Forall2_nth {A B} (P : A -> B -> Prop) l l' d d' r : Forall2 P l l' -> (r < length l)%nat -> P (nth r l d) (nth r l' d').
Proof.
  intros H. revert r. induction H as [|x y l l' Hxy H IH]; intros [|r] Hr; cbn in *; try lia; auto. apply IH. lia.
Qed.
Lemma Forall_nth {A} (P : A -> Prop) l d r : List.Forall P l -> (r < length l)%nat -> P (nth r l d).
Proof. intros H Hr. rewrite List.Forall_forall in H. apply H, nth_In, Hr. Qed.

Section Jets.
  Context {S : Type} (O : Ops S).
  Implicit Types (J K : jet S) (js : list (jet S)).

  Definition jreg js r : jet S := nth r js (jconst O (o_Z O 0%Z)).
  Definition jassign (o : aop) J (b : option (jet S)) : jet S :=
    match o, b with
    | Aadd, Some K => jmap2 (o_add O) J K | Aadd, None => jmap2 (o_add O) J J
    | Asub, Some K => jmap2 (o_sub O) J K | Asub, None => jmap2 (o_sub O) J J
    | Amul, Some K => jmul_assign O J K | Amul, None => jmul_self O J
    | Adiv, Some K => jb6 O (k_div_assign O (jf J) (jf K)) J K
    | Adiv, None => let '(f, da, db, daa, dab, dbb) := k_div_assign O (jf J) (jf J) in
                    jb_self O f da db daa dab dbb J
    end.
  Definition jassign_s (o : aop) J (s : S) : jet S :=
    match o with
    | Aadd => jsetf J (o_add O (jf J) s) | Asub => jsetf J (o_sub O (jf J) s)
    | Amul => jmap (fun v => o_mul O v s) J
    | Adiv => jmap (fun v => o_mul O v (o_div O (o_Z O 1%Z) s)) J
    end.
  Definition mirror (o : cmp) : cmp :=
    match o with Ceq => Ceq | Cne => Cne | Clt => Cgt | Cgt => Clt | Cle => Cge | Cge => Cle end.
  Definition jtest (k : cond S) js : bool :=
    match k with
    | CRR o a b => scmp O o (jf (jreg js a)) (jf (jreg js b))
    | CRS o a s => scmp O o (jf (jreg js a)) s
    | CSR o s a => scmp O (mirror o) (jf (jreg js a)) s
    end.
  Definition jstep (s : stmt S) js : list (jet S) :=
    match s with
    | PConst r v => put js r (jconst O v)
    | PMov r a => put js r (jreg js a)
    | PU r u a => put js r (jap_u O u (jreg js a))
    | PB r b a1 a2 => put js r (jap_b O b (jreg js a1) (jreg js a2))
    | PH r a1 a2 a3 => put js r (jap_hypot3 O (jreg js a1) (jreg js a2) (jreg js a3))
    | PAsg o r a => put js r (jassign o (jreg js r) (if Nat.eqb a r then None else Some (jreg js a)))
    | PAsgS o r v => put js r (jassign_s o (jreg js r) v)
    | _ => js
    end.
  Fixpoint jexec (fuel : nat) (s : stmt S) js : option (list (jet S)) :=
    match fuel with
    | Datatypes.O => None
    | Datatypes.S k =>
      match s with
      | PSeq s1 s2 => match jexec k s1 js with Some js => jexec k s2 js | None => None end
      | PIf b s1 s2 => if jtest b js then jexec k s1 js else jexec k s2 js
      | PWhile b s1 =>
        if jtest b js then match jexec k s1 js with Some js => jexec k s js | None => None end else Some js
      | _ => Some (jstep s js)
      end
    end.

  Lemma jstep_length s js : length (jstep s js) = length js.
  Proof. destruct s; cbn; rewrite ?put_length; reflexivity. Qed.
  Lemma jexec_length fuel : forall s js js', jexec fuel s js = Some js' -> length js' = length js.
  Proof.
    induction fuel as [|k IH]; intros s js js' H; [discriminate|]. cbn [jexec] in H.
    destruct s; try (injection H as H; subst; first [reflexivity|apply jstep_length|apply put_length]; fail).
    - destruct (jexec k s1 js) as [j1|] eqn:E; [|discriminate]. rewrite (IH _ _ _ H). apply (IH _ _ _ E).
    - destruct (jtest k0 js); apply (IH _ _ _ H).
    - destruct (jtest k0 js); [|congruence].
      destruct (jexec k s js) as [j1|] eqn:E; [|discriminate]. rewrite (IH _ _ _ H). apply (IH _ _ _ E).
  Qed.

  (** *** the model follows the jets *)
  Section Sim.
    Context (c : cfg) (n : nat) (Hc : cfg_ok c) (SO : size_ok c n).
    Definition okr js st := Forall2 (rep c n) js st.

    Lemma get_ok js st r : okr js st -> (r < length js)%nat -> exists x, get st r = Ok x /\ rep c n (jreg js r) x.
    Proof. intros H Hr. destruct (Forall2_get _ _ _ (jconst O (o_Z O 0%Z)) r H Hr) as (x & E & R). exists x. unfold get. rewrite E. auto. Qed.
    Lemma write_ok js st r J m : okr js st -> (r < length js)%nat -> (exists x, m = Ok x /\ rep c n J x) ->
      exists st', write st r m = Ok st' /\ okr (put js r J) st'.
    Proof.
      intros H Hr (x & -> & R). unfold write. destruct (get_ok js st r H Hr) as (y & -> & _). cbn [bind].
      eexists. split; [reflexivity|]. apply put_Forall2; assumption.
    Qed.
    Lemma assign_ok o J x r a js st : okr js st -> (a < length js)%nat -> rep c n J x ->
      (exists y, get st a = Ok y /\ exists z, assign O c o x (if Nat.eqb a r then None else Some y) = Ok z /\
         rep c n (jassign o J (if Nat.eqb a r then None else Some (jreg js a))) z).
    Proof.
      intros H Ha R. destruct (get_ok js st a H Ha) as (y & E & R'). exists y. split; [exact E|].
      destruct (Nat.eqb a r), o; cbn [assign jassign].
      - apply (add_assign_self O c n J x R).
      - apply (sub_assign_self O c n J x R).
      - apply (mul_assign_self O c n J x R).
      - apply (div_assign_self O c Hc n J x R).
      - apply (add_assign_rep O c n J _ x y R R').
      - apply (sub_assign_rep O c n J _ x y R R').
      - apply (mul_assign_rep O c n J _ x y R R').
      - apply (div_assign_rep O c Hc n J _ x y R R').
    Qed.
    Lemma assign_s_ok o J x s : rep c n J x -> exists z, assign_s O o x s = Ok z /\ rep c n (jassign_s o J s) z.
    Proof.
      intros R. destruct o; cbn [assign_s jassign_s].
      - apply (adds_assign_rep O c n J x s R).
      - apply (subs_assign_rep O c n J x s R).
      - apply (muls_assign_rep O c n J x s R).
      - apply (divs_assign_rep O c n J x s R).
    Qed.
    Lemma test_ok k js st : okr js st -> cond_below (length js) k -> test O k st = Ok (jtest k js).
    Proof.
      intros H B. destruct k as [o a b|o a s|o s a]; cbn [test jtest cond_below] in *.
      - destruct B as (Ba & Bb). destruct (get_ok _ _ _ H Ba) as (x & -> & R). destruct (get_ok _ _ _ H Bb) as (y & -> & R').
        cbn [bind]. unfold compare. rewrite (get_f_rep _ _ _ _ R), (get_f_rep _ _ _ _ R'). reflexivity.
      - destruct (get_ok _ _ _ H B) as (x & -> & R). cbn [bind]. unfold compare_s. rewrite (get_f_rep _ _ _ _ R). reflexivity.
      - destruct (get_ok _ _ _ H B) as (x & -> & R). cbn [bind]. unfold s_compare, compare_s.
        rewrite (get_f_rep _ _ _ _ R). destruct o; reflexivity.
    Qed.
    Lemma step_ok s js st : okr js st -> regs_below (length js) s ->
      exists st', step O c n s st = Ok st' /\ okr (jstep s js) st'.
    Proof.
      intros H B. destruct s; cbn [step jstep regs_below] in *; try (exists st; split; [reflexivity|exact H]).
      - apply write_ok; [assumption..|]. apply constant_n_rep, SO.
      - apply write_ok; [tauto..|]. apply get_ok; tauto.
      - apply write_ok; [tauto..|]. destruct (get_ok js st a H ltac:(tauto)) as (x & -> & R). cbn [bind].
        apply apply_u_rep; assumption.
      - apply write_ok; [tauto..|]. destruct (get_ok js st a1 H ltac:(tauto)) as (x & -> & R).
        destruct (get_ok js st a2 H ltac:(tauto)) as (y & -> & R'). cbn [bind]. apply apply_b_rep; assumption.
      - apply write_ok; [tauto..|]. destruct (get_ok js st a1 H ltac:(tauto)) as (x & -> & R).
        destruct (get_ok js st a2 H ltac:(tauto)) as (y & -> & R'). destruct (get_ok js st a3 H ltac:(tauto)) as (z & -> & R'').
        cbn [bind]. apply hypot3_rep; assumption.
      - apply write_ok; [tauto..|]. destruct (get_ok js st r H ltac:(tauto)) as (x & -> & R). cbn [bind].
        destruct (assign_ok o _ x r a js st H ltac:(tauto) R) as (y & -> & z & E & R'). cbn [bind]. eauto.
      - apply write_ok; [tauto..|]. destruct (get_ok js st r H ltac:(tauto)) as (x & -> & R). cbn [bind].
        apply assign_s_ok, R.
    Qed.
    Lemma exec_ok fuel : forall s js st, okr js st -> regs_below (length js) s ->
      match jexec fuel s js with
      | Some js' => exists st', exec O c n fuel s st = Some (Ok st') /\ okr js' st'
      | None => exec O c n fuel s st = None
      end.
    Proof.
      induction fuel as [|k IH]; intros s js st H B; [reflexivity|].
      assert (HS : forall s, regs_below (length js) s ->
        exists st', Some (step O c n s st) = Some (Ok st') /\ okr (jstep s js) st').
      { intros s' B'. destruct (step_ok s' js st H B') as (st' & -> & H'). eauto. }
      cbn [jexec exec]. destruct s; try (apply HS, B).
      - destruct B as (B1 & B2). specialize (IH s1 js st H B1) as I1. destruct (jexec k s1 js) as [j1|] eqn:E1.
        + destruct I1 as (st1 & -> & H1). apply (IH s2 j1 st1 H1). rewrite (jexec_length _ _ _ _ E1). exact B2.
        + rewrite I1. reflexivity.
      - destruct B as (Bk & B1 & B2). rewrite (test_ok k0 js st H Bk).
        destruct (jtest k0 js); [apply (IH s1 js st H B1)|apply (IH s2 js st H B2)].
      - destruct B as (Bk & B1). rewrite (test_ok k0 js st H Bk).
        destruct (jtest k0 js); [|eauto].
        specialize (IH s js st H B1) as I1. destruct (jexec k s js) as [j1|] eqn:E1.
        + destruct I1 as (st1 & -> & H1). apply (IH (PWhile k0 s) j1 st1 H1). rewrite (jexec_length _ _ _ _ E1). split; assumption.
        + rewrite I1. reflexivity.
    Qed.
  End Sim.

  (** *** congruence *)
  Section Cong.
    Context (ord : Z) (n : nat).
    Ltac cg := intros; repeat match goal with H : jeq _ _ _ _ |- _ => destruct H as (? & ? & ?) end;
      (split; [cbn; congruence|]); split; intros; cbn;
      repeat match goal with
        | H : jf _ = jf _ |- _ => rewrite ?H; clear H
        | H : forall i, (i < n)%nat -> jg _ i = jg _ i |- _ => rewrite ?H by lia; clear H
        | H : ord <> 1%Z -> _, H' : ord <> 1%Z |- _ => rewrite ?(H H') by lia; clear H
        end; try reflexivity.
    Lemma ju_cong f da daa J K : jeq ord n J K -> jeq ord n (ju O f da daa J) (ju O f da daa K).
    Proof. cg. Qed.
    Lemma jb_cong f da db daa dab dbb J K J' K' : jeq ord n J K -> jeq ord n J' K' ->
      jeq ord n (jb O f da db daa dab dbb J J') (jb O f da db daa dab dbb K K').
    Proof. cg. Qed.
    Lemma jt_cong f da db dc daa dab dac dbb dbc dcc J K J' K' J'' K'' : jeq ord n J K -> jeq ord n J' K' ->
      jeq ord n J'' K'' ->
      jeq ord n (jt O f da db dc daa dab dac dbb dbc dcc J J' J'') (jt O f da db dc daa dab dac dbb dbc dcc K K' K'').
    Proof. cg. Qed.
    Lemma jmap_cong op J K : jeq ord n J K -> jeq ord n (jmap op J) (jmap op K).
    Proof. cg. Qed.
    Lemma jmap2_cong op J K J' K' : jeq ord n J K -> jeq ord n J' K' -> jeq ord n (jmap2 op J J') (jmap2 op K K').
    Proof. cg. Qed.
    Lemma jsetf_cong v J K : jeq ord n J K -> jeq ord n (jsetf J v) (jsetf K v).
    Proof. cg. Qed.
    Lemma jmul_assign_cong J K J' K' : jeq ord n J K -> jeq ord n J' K' -> jeq ord n (jmul_assign O J J') (jmul_assign O K K').
    Proof. cg. Qed.
    Lemma jmul_self_cong J K : jeq ord n J K -> jeq ord n (jmul_self O J) (jmul_self O K).
    Proof. cg. Qed.
    Lemma jb_self_cong f da db daa dab dbb J K : jeq ord n J K ->
      jeq ord n (jb_self O f da db daa dab dbb J) (jb_self O f da db daa dab dbb K).
    Proof. cg. Qed.
    Lemma jeq_f (J K : jet S) : jeq ord n J K -> jf J = jf K. Proof. intros H. apply H. Qed.

    Lemma ju3_cong t J K : jeq ord n J K -> jeq ord n (ju3 O t J) (ju3 O t K).
    Proof. destruct t as [[? ?] ?]. apply ju_cong. Qed.

    Lemma jap_u_cong u J K : jeq ord n J K -> jeq ord n (jap_u O u J) (jap_u O u K).
    Proof.
      intros H. pose proof (jeq_f _ _ H) as E. destruct u; cbn [jap_u]; rewrite ?E;
        try (apply jmap_cong, H); try (apply jsetf_cong, H); try (apply jsetf_cong, jmap_cong, H);
        try (apply ju3_cong, H).
      destruct (o_lt O (jf K) (o_Z O 0)); [apply jmap_cong, H|exact H].
    Qed.
    Lemma jap_b_cong b J K J' K' : jeq ord n J K -> jeq ord n J' K' -> jeq ord n (jap_b O b J J') (jap_b O b K K').
    Proof.
      intros H H'. unfold jap_b, jb6. rewrite (jeq_f _ _ H), (jeq_f _ _ H').
      destruct (k_b O b (jf K) (jf K')) as [[[[[? ?] ?] ?] ?] ?]. apply jb_cong; assumption.
    Qed.
    Lemma jap_h_cong J K J' K' J'' K'' : jeq ord n J K -> jeq ord n J' K' -> jeq ord n J'' K'' ->
      jeq ord n (jap_hypot3 O J J' J'') (jap_hypot3 O K K' K'').
    Proof.
      intros H H' H''. unfold jap_hypot3. rewrite (jeq_f _ _ H), (jeq_f _ _ H'), (jeq_f _ _ H''). cbv zeta.
      apply jt_cong; assumption.
    Qed.
    Lemma jassign_cong o J K b b' : jeq ord n J K ->
      match b, b' with Some A, Some B => jeq ord n A B | None, None => True | _, _ => False end ->
      jeq ord n (jassign o J b) (jassign o K b').
    Proof.
      intros H H'. destruct b as [A|], b' as [B|]; try contradiction; destruct o; cbn [jassign].
      - apply jmap2_cong; assumption.
      - apply jmap2_cong; assumption.
      - apply jmul_assign_cong; assumption.
      - rewrite (jeq_f _ _ H), (jeq_f _ _ H'). apply jb_cong; assumption.
      - apply jmap2_cong; assumption.
      - apply jmap2_cong; assumption.
      - apply jmul_self_cong; assumption.
      - rewrite (jeq_f _ _ H). apply jb_self_cong; assumption.
    Qed.
    Lemma jassign_s_cong o J K s : jeq ord n J K -> jeq ord n (jassign_s o J s) (jassign_s o K s).
    Proof.
      intros H. destruct o; cbn [jassign_s]; rewrite ?(jeq_f _ _ H); first [apply jsetf_cong, H|apply jmap_cong, H].
    Qed.
    Definition jsame js js' := Forall2 (jeq ord n) js js'.
    Lemma jreg_cong js js' r : jsame js js' -> jeq ord n (jreg js r) (jreg js' r).
    Proof.
      intros H. unfold jreg. destruct (Nat.lt_ge_cases r (length js)) as [L|L].
      - apply Forall2_nth; assumption.
      - rewrite !nth_overflow by (rewrite <- ?(Forall2_len _ _ _ H); exact L). apply jeq_refl.
    Qed.
    Lemma jtest_cong k js js' : jsame js js' -> jtest k js = jtest k js'.
    Proof.
      intros H. destruct k; cbn [jtest];
        repeat match goal with |- context [jreg js ?a] => rewrite (jeq_f _ _ (jreg_cong js js' a H)) end; reflexivity.
    Qed.
    Lemma jstep_cong s js js' : jsame js js' -> jsame (jstep s js) (jstep s js').
    Proof.
      intros H. pose proof (fun r => jreg_cong js js' r H) as G. destruct s; cbn [jstep]; try exact H; apply put_Forall2; auto.
      - apply jeq_refl.
      - apply jap_u_cong, G.
      - apply jap_b_cong; apply G.
      - apply jap_h_cong; apply G.
      - apply jassign_cong; [apply G|]. destruct (Nat.eqb a r); [exact I|apply G].
      - apply jassign_s_cong, G.
    Qed.
    Lemma jexec_cong fuel : forall s js js', jsame js js' ->
      match jexec fuel s js, jexec fuel s js' with Some a, Some b => jsame a b | None, None => True | _, _ => False end.
    Proof.
      induction fuel as [|k IH]; intros s js js' H; [exact I|]. cbn [jexec]. destruct s; try (apply jstep_cong, H).
      - specialize (IH s1 js js' H) as I1. destruct (jexec k s1 js) as [a|], (jexec k s1 js') as [b|]; try contradiction; auto.
        apply IH, I1.
      - rewrite (jtest_cong k0 js js' H). destruct (jtest k0 js'); apply IH, H.
      - rewrite (jtest_cong k0 js js' H). destruct (jtest k0 js'); [|exact H].
        specialize (IH s js js' H) as I1. destruct (jexec k s js) as [a|], (jexec k s js') as [b|]; try contradiction; auto.
        apply IH, I1.
    Qed.
  End Cong.
End Jets.
