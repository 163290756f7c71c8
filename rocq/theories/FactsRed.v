(** Reductions, scalar products and matrix products in any order (C96): facts about components. *)
From Coq Require Import ZArith List Bool Lia Permutation Setoid Morphisms Ring Ring_theory.
From Verif Require Import Outcome Scalar Model Spec Core OpsRep Prog FactsLayout FactsOps ExprSpec RedSpec RingSpec.
Import ListNotations.

Lemma leaves_tmap {A B} (f : A -> B) t : leaves (tmap f t) = map f (leaves t).
Proof. induction t; cbn; [reflexivity|]. rewrite map_app. congruence. Qed.

(** *** componentwise *)
Section Components.
  Context {S : Type} (O : Ops S) (c : cfg) (Hc : cfg_ok c).
  Local Notation jop := (jap_b O).
  Lemma reduce_rep b n (x : nat -> dd S) (J : nat -> jet S) t : (forall k, In k (leaves t) -> rep c n (J k) (x k)) ->
    exists r, reduce O c b (tmap x t) = Ok r /\ rep c n (tfold (jop b) (tmap J t)) r.
  Proof.
    induction t as [k|l IHl r IHr]; cbn [leaves tmap reduce tfold]; intros H.
    - eexists. split; [reflexivity|]. apply H. left. reflexivity.
    - destruct IHl as (y & Ey & Ry). { intros k Hk. apply H. apply in_or_app. left; exact Hk. }
      destruct IHr as (z & Ez & Rz). { intros k Hk. apply H. apply in_or_app. right; exact Hk. }
      rewrite Ey, Ez. cbn [bind]. apply (apply_b_rep O c Hc n _ _ y z b Ry Rz).
  Qed.
  Lemma jadd_comp (J : nat -> jet S) t :
    jf (tfold (jop Badd) (tmap J t)) = tfold (o_add O) (tmap (fun k => jf (J k)) t) /\
    (forall i, jg (tfold (jop Badd) (tmap J t)) i = tfold (o_add O) (tmap (fun k => jg (J k) i) t)) /\
    (forall i j, hess (tfold (jop Badd) (tmap J t)) i j = tfold (o_add O) (tmap (fun k => hess (J k) i j) t)).
  Proof.
    induction t as [k|l (L1 & L2 & L3) r (R1 & R2 & R3)]; cbn [tmap tfold]; [repeat split|].
    unfold hess in *. repeat split; intros; cbn; [rewrite L1, R1|rewrite L2, R2|rewrite L3, R3]; reflexivity.
  Qed.
  Lemma shows_ext' n (x : dd S) f f' g g' h h' : shows c n x f g h -> f = f' -> (forall i, (i < n)%nat -> g i = g' i) ->
    (c_ord c = 2%Z -> forall i j, (i < n)%nat -> (j < n)%nat -> h i j = h' i j) -> shows c n x f' g' h'.
  Proof.
    intros (W & F & G & H) <- EG EH. split; [exact W|]. split; [exact F|]. split.
    - intros i Hi. rewrite <- EG by exact Hi. apply G, Hi.
    - intros Ho i j Hi Hj. rewrite <- EH by assumption. apply H; assumption.
  Qed.
  Lemma tmap_ext {A B} (f g : A -> B) t : (forall k, In k (leaves t) -> f k = g k) -> tmap f t = tmap g t.
  Proof.
    induction t as [k|l IHl r IHr]; cbn; intros H; [rewrite H by (left; reflexivity); reflexivity|].
    rewrite IHl, IHr; [reflexivity|intros k Hk; apply H, in_or_app; right; exact Hk|intros k Hk; apply H, in_or_app; left; exact Hk].
  Qed.
  Lemma sum_components n (x : nat -> dd S) f g h t : (forall k, In k (leaves t) -> shows c n (x k) (f k) (g k) (h k)) ->
    exists r, reduce O c Badd (tmap x t) = Ok r /\
      shows c n r (tfold (o_add O) (tmap f t)) (fun i => tfold (o_add O) (tmap (fun k => g k i) t))
        (fun i j => tfold (o_add O) (tmap (fun k => h k i j) t)).
  Proof.
    intros H. destruct (reduce_rep Badd n x (fun k => mkjet (f k) (g k) (h k)) t) as (r & E & R).
    { intros k Hk. apply shows_rep; [exact Hc|apply H, Hk]. }
    exists r. split; [exact E|]. destruct (jadd_comp (fun k => mkjet (f k) (g k) (h k)) t) as (C1 & C2 & C3).
    eapply shows_ext'; [apply rep_shows, R|exact C1|intros i _; apply C2|].
    intros Ho i j Hi Hj. rewrite C3. f_equal. apply tmap_ext. intros k Hk. unfold hess. cbn [jh].
    destruct (H k Hk) as (W & _ & _ & HH). pose proof (shows_rep c n _ _ _ _ Hc (H k Hk)) as RK. apply rep_shows in RK. destruct RK as (_ & _ & _ & HK).
    specialize (HK Ho i j Hi Hj). rewrite (HH Ho i j Hi Hj) in HK. unfold hess in HK. cbn [jh] in HK. injection HK as <-. reflexivity.
  Qed.

  (** *** swapped operands *)
  Lemma mirrored_agree b n t t' : (forall a b, o_add O a b = o_add O b a) -> (forall a b, o_mul O a b = o_mul O b a) -> b = Badd \/ b = Bmul ->
    mirrored t t' -> Forall (wf c n) (leaves t) -> agree c (reduce O c b t) (reduce O c b t').
  Proof.
    intros Ca Cm Hb M W.
    assert (SW : forall J K, jeq (c_ord c) n (jop b J K) (jop b K J)).
    { intros J K. destruct Hb as [-> | ->].
      - split; [cbn; apply Ca|]. split; intros; cbn; apply Ca.
      - split; [cbn; apply Cm|]. split; intros; cbn; [apply Ca|]. f_equal; apply Ca. }
    assert (G : exists J, (exists r, reduce O c b t = Ok r /\ rep c n J r) /\ (exists r, reduce O c b t' = Ok r /\ rep c n J r)).
    { induction M as [x|l r l' r' _ IHl _ IHr|l r l' r' _ IHl _ IHr]; cbn [leaves] in W.
      - inversion W as [|? ? W1 _]; subst. destruct (wf_rep c n x W1) as (J & R). exists J. split; exists x; split; (reflexivity || exact R).
      - apply Forall_app in W. destruct W as (Wl & Wr). destruct (IHl Wl) as (J & (y & E & R) & (y' & E' & R')), (IHr Wr) as (K & (z & F & Q) & (z' & F' & Q')).
        exists (jop b J K). cbn [reduce]. rewrite E, F, E', F'. cbn [bind]. split; [apply (apply_b_rep O c Hc n J K y z b R Q)|apply (apply_b_rep O c Hc n J K y' z' b R' Q')].
      - apply Forall_app in W. destruct W as (Wl & Wr). destruct (IHl Wl) as (J & (y & E & R) & (y' & E' & R')), (IHr Wr) as (K & (z & F & Q) & (z' & F' & Q')).
        exists (jop b J K). cbn [reduce]. rewrite E, F, E', F'. cbn [bind]. split; [apply (apply_b_rep O c Hc n J K y z b R Q)|].
        destruct (apply_b_rep O c Hc n K J z' y' b Q' R') as (r0 & E0 & R0). exists r0. split; [exact E0|]. eapply rep_jeq; [apply SW|exact R0]. }
    destruct G as (J & A & B). eapply agree_rep; [exact A|exact B|apply jeq_refl].
  Qed.
End Components.

(** *** any order, scalars from a commutative ring *)
Section Ring.
  Context {S : Type} (O : Ops S) (c : cfg) (n : nat) (Hc : cfg_ok c) (RL : ring_laws O).
  Local Notation "x == y" := (jeq (c_ord c) n x y) (at level 70).
  Local Notation "x +' y" := (jap_b O Badd x y) (at level 50, left associativity).
  Local Notation "x *' y" := (jap_b O Bmul x y) (at level 40, left associativity).
  Local Notation "# z" := (o_Z O z) (at level 1, z at level 0).
  Definition jconst (s : S) : jet S := mkjet s (fun _ => #0) (fun _ _ => #0).
  Local Definition RT := proj1 RL.
  Add Ring SR : RT.
  Instance jeq_equiv : Equivalence (jeq (S := S) (c_ord c) n).
  Proof. split; [intros x; apply jeq_refl|intros x y; apply jeq_sym|intros x y z; apply jeq_trans]. Qed.
  Instance jop_proper b : Proper (jeq (c_ord c) n ==> jeq (c_ord c) n ==> jeq (c_ord c) n) (jap_b O b).
  Proof. intros J K E J' K' E'. apply jap_b_cong; assumption. Qed.
  Ltac jring := split; [cbn; ring|]; split; intros; cbn; ring.
  Lemma ja_comm J K : J +' K == K +' J. Proof. jring. Qed.
  Lemma ja_assoc J K L : J +' (K +' L) == J +' K +' L. Proof. jring. Qed.
  Lemma ja_zero J : jconst #0 +' J == J. Proof. jring. Qed.
  Lemma jm_comm J K : J *' K == K *' J. Proof. jring. Qed.
  Lemma jm_assoc J K L : J *' (K *' L) == J *' K *' L. Proof. jring. Qed.
  Lemma jm_one J : jconst #1 *' J == J. Proof. jring. Qed.
  Lemma jm_zero J : jconst #0 *' J == jconst #0. Proof. jring. Qed.
  Lemma jm_add J K L : (J +' K) *' L == J *' L +' K *' L. Proof. jring. Qed.
  Lemma jm_addr J K L : L *' (J +' K) == L *' J +' L *' K. Proof. jring. Qed.
  Lemma jm_zeror J : J *' jconst #0 == jconst #0. Proof. jring. Qed.

  Section Monoid.
    Context (b : bfun) (u : jet S) (Cb : forall J K, jap_b O b J K == jap_b O b K J) (Ab : forall J K L, jap_b O b J (jap_b O b K L) == jap_b O b (jap_b O b J K) L)
      (Ub : forall J, jap_b O b u J == J).
    Definition jfold (l : list (jet S)) : jet S := fold_right (jap_b O b) u l.
    Lemma jfold_app l l' : jfold (l ++ l') == jap_b O b (jfold l) (jfold l').
    Proof. induction l as [|J l IH]; cbn; [symmetry; apply Ub|]. fold (jfold (l ++ l')). fold (jfold l). rewrite IH. apply Ab. Qed.
    Lemma jfold_perm l l' : Permutation l l' -> jfold l == jfold l'.
    Proof.
      induction 1 as [|J l l' _ IH|J K l|l l1 l' _ IH1 _ IH2]; cbn; [reflexivity| | |].
      - fold (jfold l). fold (jfold l'). rewrite IH. reflexivity.
      - fold (jfold l). rewrite !Ab. rewrite (Cb K J). reflexivity.
      - rewrite IH1. exact IH2.
    Qed.
    Lemma jtree t : tfold (jap_b O b) t == jfold (leaves t).
    Proof.
      induction t as [J|l IHl r IHr]; cbn [tfold leaves].
      - cbn. rewrite Cb. symmetry. apply Ub.
      - rewrite IHl, IHr. symmetry. apply jfold_app.
    Qed.
    Lemma rep_tree t : Forall (wf c n) (leaves t) -> exists Js, Forall2 (rep c n) Js (leaves t) /\ exists r, reduce O c b t = Ok r /\ rep c n (jfold Js) r.
    Proof.
      induction t as [x|l IHl r IHr]; cbn [leaves reduce]; intros W.
      - inversion W as [|? ? W1 _]; subst. destruct (wf_rep c n x W1) as (J & R). exists [J]. split; [constructor; [exact R|constructor]|].
        exists x. split; [reflexivity|]. eapply rep_jeq; [|exact R]. cbn. rewrite Cb. symmetry. apply Ub.
      - apply Forall_app in W. destruct W as (Wl & Wr). destruct (IHl Wl) as (Js & FJ & y & E & R), (IHr Wr) as (Ks & FK & z & F & Q).
        exists (Js ++ Ks). split; [apply Forall2_app; assumption|]. rewrite E, F. cbn [bind].
        destruct (apply_b_rep O c Hc n _ _ y z b R Q) as (r0 & E0 & R0). exists r0. split; [exact E0|]. eapply rep_jeq; [|exact R0]. symmetry. apply jfold_app.
    Qed.
    Lemma reps_perm (l l' : list (dd S)) : Permutation l l' -> forall Js, Forall2 (rep c n) Js l -> exists Js', Permutation Js Js' /\ Forall2 (rep c n) Js' l'.
    Proof.
      induction 1 as [|x l l' _ IH|x y l|l l1 l' _ IH1 _ IH2]; intros Js F.
      - exists Js. split; [reflexivity|exact F].
      - inversion F as [|J ? Js0 ? R F0]; subst. destruct (IH _ F0) as (Js' & P & F'). exists (J :: Js'). split; [apply perm_skip; exact P|constructor; assumption].
      - inversion F as [|J ? Js0 ? R F0]; subst. inversion F0 as [|K ? Js1 ? R' F1]; subst. exists (K :: J :: Js1). split; [apply perm_swap|constructor; [exact R'|constructor; assumption]].
      - destruct (IH1 _ F) as (J1 & P1 & F1), (IH2 _ F1) as (J2 & P2 & F2). exists J2. split; [exact (perm_trans P1 P2)|exact F2].
    Qed.
    Lemma jfold_cong (l : list (dd S)) : forall Js Ks, Forall2 (rep c n) Js l -> Forall2 (rep c n) Ks l -> jfold Js == jfold Ks.
    Proof.
      induction l as [|x l IH]; intros Js Ks F G; inversion F as [|J ? Js0 ? R F0]; inversion G as [|K ? Ks0 ? Q G0]; subst; [reflexivity|]. cbn.
      apply jap_b_cong; [exact (rep_fun c n J K x R Q)|apply IH; assumption].
    Qed.
    Lemma trees_agree t t' : Permutation (leaves t) (leaves t') -> Forall (wf c n) (leaves t) -> agree c (reduce O c b t) (reduce O c b t').
    Proof.
      intros P W. destruct (rep_tree t W) as (Js & FJ & A). assert (W' : Forall (wf c n) (leaves t')) by (rewrite <- P; exact W).
      destruct (rep_tree t' W') as (Ks & FK & B). eapply agree_rep; [exact A|exact B|].
      destruct (reps_perm _ _ P _ FJ) as (Js' & PJ & FJ'). rewrite (jfold_perm _ _ PJ). apply (jfold_cong (leaves t')); assumption.
    Qed.
    Lemma py_fold_rep xs : Forall (wf c n) xs -> forall J x, rep c n J x -> exists Js, Forall2 (rep c n) Js xs /\ exists r, py_fold O c b x xs = Ok r /\ rep c n (jfold (J :: Js)) r.
    Proof.
      induction 1 as [|y xs W _ IH]; intros J x R; cbn [py_fold].
      - exists []. split; [constructor|]. exists x. split; [reflexivity|]. eapply rep_jeq; [|exact R]. cbn. rewrite Cb. symmetry. apply Ub.
      - destruct (wf_rep c n y W) as (K & Q). destruct (apply_b_rep O c Hc n J K x y b R Q) as (z & E & Z). rewrite E. cbn [bind].
        destruct (IH _ z Z) as (Js & F & r & Er & Rr). exists (K :: Js). split; [constructor; assumption|]. exists r. split; [exact Er|].
        eapply rep_jeq; [|exact Rr]. cbn. symmetry. apply Ab.
    Qed.
  End Monoid.

  Lemma reductions_agree t t' : Permutation (leaves t) (leaves t') -> Forall (wf c n) (leaves t) ->
    agree c (reduce O c Badd t) (reduce O c Badd t') /\ agree c (reduce O c Bmul t) (reduce O c Bmul t').
  Proof.
    intros P W. split.
    - exact (trees_agree Badd (jconst #0) ja_comm ja_assoc ja_zero t t' P W).
    - exact (trees_agree Bmul (jconst #1) jm_comm jm_assoc jm_one t t' P W).
  Qed.
  Lemma python_folds x xs t : Permutation (leaves t) (x :: xs) -> Forall (wf c n) (x :: xs) ->
    agree c (py_sum O c x xs) (reduce O c Badd t) /\ agree c (py_prod O c x xs) (reduce O c Bmul t).
  Proof.
    intros P W. inversion W as [|? ? W1 W2]; subst. destruct (wf_rep c n x W1) as (J & R).
    assert (WT : Forall (wf c n) (leaves t)) by (rewrite P; exact W). split.
    - unfold py_sum. destruct (apply_u_rep O c Hc n J x (Usadd #0) R) as (y & E & Q). rewrite E. cbn [bind].
      assert (Q' : rep c n J y). { eapply rep_jeq; [|exact Q]. split; [cbn; ring|]. split; intros; cbn; ring. }
      destruct (py_fold_rep Badd (jconst #0) ja_comm ja_assoc ja_zero xs W2 J y Q') as (Js & F & A).
      destruct (rep_tree Badd (jconst #0) ja_comm ja_assoc ja_zero t WT) as (Ks & G & B).
      eapply agree_rep; [exact A|exact B|]. destruct (reps_perm _ _ P _ G) as (Ks' & PK & G'). rewrite (jfold_perm Badd (jconst #0) ja_comm ja_assoc _ _ PK).
      apply (jfold_cong Badd (jconst #0) (x :: xs)); [constructor; assumption|exact G'].
    - unfold py_prod. destruct (apply_u_rep O c Hc n J x (Usmul #1) R) as (y & E & Q). rewrite E. cbn [bind].
      assert (Q' : rep c n J y). { eapply rep_jeq; [|exact Q]. split; [cbn; ring|]. split; intros; cbn; ring. }
      destruct (py_fold_rep Bmul (jconst #1) jm_comm jm_assoc jm_one xs W2 J y Q') as (Js & F & A).
      destruct (rep_tree Bmul (jconst #1) jm_comm jm_assoc jm_one t WT) as (Ks & G & B).
      eapply agree_rep; [exact A|exact B|]. destruct (reps_perm _ _ P _ G) as (Ks' & PK & G'). rewrite (jfold_perm Bmul (jconst #1) jm_comm jm_assoc _ _ PK).
      apply (jfold_cong Bmul (jconst #1) (x :: xs)); [constructor; assumption|exact G'].
  Qed.

  (** *** matrices *)
  Fixpoint jsum (m : nat) (F : nat -> jet S) : jet S := match m with 0%nat => jconst #0 | Datatypes.S m => jsum m F +' F m end.
  Lemma jsum_ext m F G : (forall k, (k < m)%nat -> F k == G k) -> jsum m F == jsum m G.
  Proof. induction m as [|m IH]; cbn [jsum]; intros H; [reflexivity|]. rewrite IH by (intros; apply H; lia). rewrite (H m) by lia. reflexivity. Qed.
  Lemma jsum_add m F G : jsum m (fun k => F k +' G k) == jsum m F +' jsum m G.
  Proof.
    induction m as [|m IH]; cbn [jsum]; [symmetry; apply ja_zero|]. rewrite IH.
    rewrite !ja_assoc. rewrite <- (ja_assoc (jsum m F) (jsum m G) (F m)), (ja_comm (jsum m G) (F m)), ja_assoc. reflexivity.
  Qed.
  Lemma jsum_mul_l m F L : L *' jsum m F == jsum m (fun k => L *' F k).
  Proof. induction m as [|m IH]; cbn [jsum]; [apply jm_zeror|]. rewrite jm_addr, IH. reflexivity. Qed.
  Lemma jsum_mul_r m F L : jsum m F *' L == jsum m (fun k => F k *' L).
  Proof. induction m as [|m IH]; cbn [jsum]; [apply jm_zero|]. rewrite jm_add, IH. reflexivity. Qed.
  Lemma jsum_swap l m (F : nat -> nat -> jet S) : jsum l (fun i => jsum m (F i)) == jsum m (fun j => jsum l (fun i => F i j)).
  Proof.
    induction l as [|l IH]; cbn [jsum].
    - induction m as [|m IHm]; cbn [jsum]; [reflexivity|]. rewrite <- IHm. symmetry. apply ja_zero.
    - rewrite IH. symmetry. apply jsum_add.
  Qed.
  Lemma jfold_seq m F : jfold Badd (jconst #0) (map F (seq 0 m)) == jsum m F.
  Proof.
    induction m as [|m IH]; [reflexivity|]. rewrite seq_S, map_app. rewrite (jfold_app Badd (jconst #0) ja_assoc ja_zero). rewrite IH. cbn [jsum map jfold fold_right Nat.add].
    rewrite (ja_comm (F m)), ja_zero. reflexivity.
  Qed.
  Lemma dot_rep m (x y : nat -> dd S) z J K : (forall k, (k < m)%nat -> rep c n (J k) (x k) /\ rep c n (K k) (y k)) -> dot O c m x y z ->
    rep c n (jsum m (fun k => J k *' K k)) z.
  Proof.
    intros R (t & p & P & E & ER).
    assert (IN : forall k, In k (leaves t) -> (k < m)%nat). { intros k Hk. apply (Permutation_in _ P) in Hk. apply in_seq in Hk. lia. }
    destruct (reduce_rep O c Hc Badd n p (fun k => J k *' K k) t) as (r & E' & R').
    { intros k Hk. destruct (R k (IN k Hk)) as (R1 & R2). destruct (apply_b_rep O c Hc n _ _ _ _ Bmul R1 R2) as (q & Eq & Rq).
      rewrite (E k (IN k Hk)) in Eq. injection Eq as <-. exact Rq. }
    rewrite ER in E'. injection E' as <-. eapply rep_jeq; [|exact R'].
    rewrite (jtree Badd (jconst #0) ja_comm ja_assoc ja_zero), leaves_tmap, <- jfold_seq.
    apply (jfold_perm Badd (jconst #0) ja_comm ja_assoc), Permutation_map, P.
  Qed.
  Lemma mat_reps l m (A : nat -> nat -> dd S) : wf_mat c n l m A -> exists J, forall i j, (i < l)%nat -> (j < m)%nat -> rep c n (J i j) (A i j).
  Proof.
    intros W. assert (V : forall i, exists J, forall j, (i < l)%nat -> (j < m)%nat -> rep c n (J j) (A i j)).
    { intros i. assert (Hk : forall k, (k <= m)%nat -> exists J, forall j, (i < l)%nat -> (j < k)%nat -> rep c n (J j) (A i j)).
      { induction k as [|k IH]; intros Hk; [exists (fun _ => jconst #0); lia|]. destruct (IH ltac:(lia)) as (J & HJ).
        destruct (Nat.lt_ge_cases i l) as [Hi|Hi]; [|exists J; lia]. destruct (wf_rep c n _ (W i k Hi ltac:(lia))) as (K & R).
        exists (fun j => if Nat.eqb j k then K else J j). intros j _ Hj. destruct (Nat.eqb_spec j k) as [->|N]; [exact R|]. apply HJ; [exact Hi|lia]. }
      apply (Hk m). lia. }
    assert (Hk : forall k, exists J, forall i j, (i < k)%nat -> (i < l)%nat -> (j < m)%nat -> rep c n (J i j) (A i j)).
    { induction k as [|k (J & HJ)]; [exists (fun _ _ => jconst #0); lia|]. destruct (V k) as (K & HK).
      exists (fun i j => if Nat.eqb i k then K j else J i j). intros i j H1 H2 H3. destruct (Nat.eqb_spec i k) as [->|N]; [apply HK; assumption|]. apply HJ; [lia|assumption..]. }
    destruct (Hk l) as (J & HJ). exists J. intros i j Hi Hj. apply HJ; assumption.
  Qed.
  Lemma matmul_assoc a b d e A B D AB BD L R : wf_mat c n a b A -> wf_mat c n b d B -> wf_mat c n d e D ->
    matmul O c a b d A B AB -> matmul O c a d e AB D L -> matmul O c b d e B D BD -> matmul O c a b e A BD R -> same_mat c a e L R.
  Proof.
    intros WA WB WD MAB ML MBD MR i j Hi Hj.
    destruct (mat_reps a b A WA) as (JA & RA), (mat_reps b d B WB) as (JB & RB), (mat_reps d e D WD) as (JD & RD).
    assert (RL1 : rep c n (jsum d (fun q => jsum b (fun p => JA i p *' JB p q) *' JD q j)) (L i j)).
    { apply (dot_rep d (AB i) (fun q => D q j)); [|apply ML; assumption]. intros q Hq. split; [|apply RD; assumption].
      apply (dot_rep b (A i) (fun p => B p q)); [|apply MAB; assumption]. intros p Hp. split; [apply RA|apply RB]; assumption. }
    assert (RR : rep c n (jsum b (fun p => JA i p *' jsum d (fun q => JB p q *' JD q j))) (R i j)).
    { apply (dot_rep b (A i) (fun p => BD p j)); [|apply MR; assumption]. intros p Hp. split; [apply RA; assumption|].
      apply (dot_rep d (B p) (fun q => D q j)); [|apply MBD; assumption]. intros q Hq. split; [apply RB|apply RD]; assumption. }
    refine (rep_same _ _ _ _ _ _ RL1 RR _).
    transitivity (jsum d (fun q => jsum b (fun p => JA i p *' JB p q *' JD q j))); [apply jsum_ext; intros q _; apply jsum_mul_r|].
    transitivity (jsum b (fun p => jsum d (fun q => JA i p *' JB p q *' JD q j))); [apply jsum_swap|].
    apply jsum_ext. intros p _. rewrite jsum_mul_l. apply jsum_ext. intros q _. symmetry. apply jm_assoc.
  Qed.
  (** Products exist, whatever orders are chosen. *)
  Lemma dot_exists m (x y : nat -> dd S) (t : tree nat) : Permutation (leaves t) (seq 0 m) ->
    (forall k, (k < m)%nat -> wf c n (x k) /\ wf c n (y k)) ->
    exists p z, (forall k, (k < m)%nat -> apply_b O c Bmul (x k) (y k) = Ok (p k)) /\ reduce O c Badd (tmap p t) = Ok z /\ wf c n z.
  Proof.
    intros P W. assert (V : exists p J, forall k, (k < m)%nat -> apply_b O c Bmul (x k) (y k) = Ok (p k) /\ rep c n (J k) (p k)).
    { clear P. induction m as [|m IH]; [exists x, (fun _ => jconst #0); lia|]. destruct IH as (p & J & H); [intros k Hk; apply W; lia|].
      destruct (W m ltac:(lia)) as (W1 & W2). destruct (wf_rep c n _ W1) as (J1 & R1), (wf_rep c n _ W2) as (J2 & R2).
      destruct (apply_b_rep O c Hc n _ _ _ _ Bmul R1 R2) as (q & Eq & Rq).
      exists (fun k => if Nat.eqb k m then q else p k), (fun k => if Nat.eqb k m then J1 *' J2 else J k).
      intros k Hk. destruct (Nat.eqb_spec k m) as [->|N]; [split; assumption|apply H; lia]. }
    destruct V as (p & J & H). destruct (reduce_rep O c Hc Badd n p J t) as (z & E & R).
    { intros k Hk. apply H. apply (Permutation_in _ P), in_seq in Hk. lia. }
    exists p, z. split; [intros k Hk; apply H, Hk|]. split; [exact E|eapply rep_wf, R].
  Qed.
End Ring.
