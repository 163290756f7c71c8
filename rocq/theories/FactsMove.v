(** Proofs for C97. *)
From Coq Require Import ZArith List Bool Permutation Lia Arith.
From Verif Require Import Outcome Scalar Model ModelS ModelMove MoveSpec.
Import ListNotations.
Open Scope nat_scope.
Open Scope list_scope.

Section Gen.
  Context {X Op Iop J : Type} (exec : Op -> list X -> res X) (iexec : Iop -> X -> option X -> res X)
          (husk : option J -> X -> X) (less : X -> X -> res bool).
  Local Notation mstep := (mstep exec iexec husk).
  Local Notation mrun := (mrun exec iexec husk).
  Local Notation arun := (arun (Op := Op) (Iop := Iop) exec iexec husk less).

  Lemma setv_at : forall (st : vars (X := X)) r x, setv st r x r = Some x.
  Proof. intros. unfold setv. now rewrite Nat.eqb_refl. Qed.
  Lemma setv_ne : forall (st : vars (X := X)) r x q, q <> r -> setv st r x q = st q.
  Proof. intros st r x q N. unfold setv. destruct (Nat.eqb_spec q r); [contradiction|reflexivity]. Qed.

  Lemma getv_live : forall lv (st st' : vars (X := X)) r, same_live lv st st' -> lv r = true -> getv st r = getv st' r.
  Proof. intros lv st st' r H L. unfold getv. now rewrite (H r L). Qed.
  Lemma getvs_live : forall lv (st st' : vars (X := X)) rs, same_live lv st st' -> forallb lv rs = true ->
    getvs st rs = getvs st' rs.
  Proof.
    intros lv st st' rs H. induction rs as [|r rs IH]; intros F; [reflexivity|]. cbn in *.
    apply andb_true_iff in F. destruct F as [F1 F2]. rewrite (getv_live _ _ _ _ H F1), (IH F2). reflexivity.
  Qed.
  Lemma same_setv : forall lv (st st' : vars (X := X)) r x, same_live lv st st' ->
    same_live (mark lv r true) (setv st r x) (setv st' r x).
  Proof.
    intros lv st st' r x H q L. unfold setv, mark in *. destruct (Nat.eqb_spec q r); [reflexivity|]. now apply H.
  Qed.
  Lemma same_weaken : forall lv lv' (st st' : vars (X := X)), same_live lv st st' ->
    (forall r, lv' r = true -> lv r = true) -> same_live lv' st st'.
  Proof. intros lv lv' st st' H W r L. apply H, W, L. Qed.
  Lemma same_dead : forall lv (st st' : vars (X := X)) r x, same_live lv st st' ->
    same_live (mark lv r false) (setv st r x) st'.
  Proof.
    intros lv st st' r x H q L. unfold setv, mark in *. destruct (Nat.eqb_spec q r); [discriminate|]. now apply H.
  Qed.

  Lemma tidy_step_ok : forall j lv s lv' st st', tidy_step lv s = Some lv' -> same_live lv st st' ->
    ends_alike (same_live lv') (mstep j s st) (plain_step exec iexec s st').
  Proof.
    intros j lv s lv' st st' T H. destruct s as [r o args|r a|r a|r a|r a|o r a]; cbn in T |- *.
    - destruct (forallb lv args) eqn:E; [|discriminate]. injection T as <-.
      rewrite (getvs_live _ _ _ _ H E). destruct (getvs st' args); cbn; auto.
      destruct (exec o a); cbn; auto. now apply same_setv.
    - destruct (lv a) eqn:E; [|discriminate]. injection T as <-. rewrite (getv_live _ _ _ _ H E).
      destruct (getv st' a); cbn; auto. now apply same_setv.
    - destruct (lv a) eqn:E; [|discriminate]. cbn in T. destruct (Nat.eqb_spec r a) as [->|N]; [discriminate|].
      injection T as <-. unfold move_new. destruct (Nat.eqb_spec r a); [contradiction|]. rewrite (getv_live _ _ _ _ H E).
      destruct (getv st' a); cbn; auto. now apply same_dead, same_setv.
    - destruct (lv a) eqn:E; [|discriminate]. injection T as <-. unfold move_to. rewrite (getv_live _ _ _ _ H E).
      destruct (getv st' a); cbn; auto. now apply same_dead, same_setv.
    - destruct (lv r) eqn:E; [|discriminate]. destruct (lv a) eqn:E'; [|discriminate]. injection T as <-.
      rewrite (getv_live _ _ _ _ H E). destruct (getv st' r) as [t| | |] eqn:Er; cbn; auto.
      unfold move_to. destruct (Nat.eqb_spec a r) as [->|N].
      + unfold getv at 1. rewrite setv_at. cbn. rewrite Er. cbn. intros q L.
        unfold setv. destruct (Nat.eqb q r); [reflexivity|]. now apply H.
      + unfold getv at 1. rewrite setv_ne by exact N. fold (getv st a). rewrite (getv_live _ _ _ _ H E').
        destruct (getv st' a) as [y| | |]; cbn; auto. intros q L. unfold setv.
        destruct (Nat.eqb q a); [reflexivity|]. destruct (Nat.eqb q r); [reflexivity|]. now apply H.
    - destruct (lv r) eqn:E; [|discriminate]. cbn in T. rewrite (getv_live _ _ _ _ H E).
      destruct (getv st' r) as [x| | |]; cbn; auto.
      assert (K : forall y, ends_alike (same_live lv) (x0 <- iexec o x y ;; Ok (setv st r x0)) (x0 <- iexec o x y ;; Ok (setv st' r x0))).
      { intros y. destruct (iexec o x y) as [z| | |]; cbn; auto. intros q L. unfold setv.
        destruct (Nat.eqb q r); [reflexivity|]. now apply H. }
      destruct a as [a|]; cbn.
      + destruct (lv a) eqn:E'; [|discriminate]. injection T as <-. rewrite (getv_live _ _ _ _ H E').
        destruct (getv st' a); cbn; auto.
      + injection T as <-. apply K.
  Qed.

  Lemma tidy_ok : forall w js k lv lv' st st', tidy lv w = Some lv' -> same_live lv st st' ->
    ends_alike (same_live lv') (mrun js k w st) (plain exec iexec w st').
  Proof.
    induction w as [|s w IH]; intros js k lv lv' st st' T H; cbn in T |- *.
    - injection T as <-. exact H.
    - destruct (tidy_step lv s) as [l|] eqn:E; [|discriminate].
      pose proof (tidy_step_ok (js k) _ _ _ _ _ E H) as K.
      destruct (mstep (js k) s st), (plain_step exec iexec s st'); cbn in K |- *; try contradiction; auto.
      eapply IH; eauto.
  Qed.

  (** Without husks every program is a program of copies. *)
  Lemma move_is_copy : (forall j x, husk j x = x) -> forall w js k st,
    (forall r, ~ In (MMove r r) w) ->
    ends_alike (fun a b => forall r, a r = b r) (mrun js k w st) (plain exec iexec w st).
  Proof.
    intros Hh w js k st Hw.
    assert (G : forall w k st st', (forall r, ~ In (MMove r r) w) -> (forall r, st r = st' r) ->
      ends_alike (fun a b => forall r, a r = b r) (mrun js k w st) (plain exec iexec w st')).
    { clear w k st Hw. intros w. induction w as [|s w IH]; intros k st st' Hw E; [exact E|]. cbn.
      assert (K : ends_alike (fun a b => forall r, a r = b r) (mstep (js k) s st) (plain_step exec iexec s st')).
      { assert (Eg : forall r, getv st r = getv st' r) by (intros r; unfold getv; now rewrite E).
        assert (Egs : forall rs, getvs st rs = getvs st' rs) by (intros rs; induction rs as [|r rs IHr]; cbn; [reflexivity|now rewrite Eg, IHr]).
        assert (Es : forall r x q, setv st r x q = setv st' r x q) by (intros r x q; unfold setv; now rewrite E).
        destruct s as [r o args|r a|r a|r a|r a|o r a]; cbn.
        - rewrite Egs. destruct (getvs st' args); cbn; auto. destruct (exec o a); cbn; auto.
        - rewrite Eg. destruct (getv st' a); cbn; auto.
        - unfold move_new. destruct (Nat.eqb_spec r a) as [->|N]; [exfalso; apply (Hw a); now left|].
          rewrite Eg. destruct (getv st' a) as [x| | |] eqn:Ea; cbn; auto. intros q. rewrite Hh. unfold setv.
          destruct (Nat.eqb_spec q a) as [->|].
          + destruct (Nat.eqb_spec a r); [now subst|]. unfold getv in Ea. destruct (st' a); congruence.
          + now rewrite E.
        - unfold move_to. rewrite Eg. destruct (getv st' a) as [x| | |] eqn:Ea; cbn; auto. intros q. rewrite Hh. unfold setv.
          destruct (Nat.eqb_spec q a) as [->|].
          + destruct (Nat.eqb_spec a r); [reflexivity|]. unfold getv in Ea. destruct (st' a); congruence.
          + now rewrite E.
        - rewrite Eg. destruct (getv st' r) as [x| | |] eqn:Er; cbn; auto. rewrite Hh. unfold move_to.
          assert (Ea : getv (setv st r x) a = getv st' a).
          { unfold getv, setv in *. destruct (Nat.eqb_spec a r) as [->|]; [destruct (st' r); congruence|now rewrite E]. }
          rewrite Ea. destruct (getv st' a) as [y| | |]; cbn; auto. intros q. rewrite Hh. unfold setv.
          destruct (Nat.eqb q a); [reflexivity|]. destruct (Nat.eqb q r); [reflexivity|apply E].
        - rewrite Eg. destruct (getv st' r) as [x| | |]; cbn; auto.
          destruct a as [a|]; cbn.
          + rewrite Eg. destruct (getv st' a) as [y| | |]; cbn; auto. destruct (iexec o x _); cbn; auto.
          + destruct (iexec o x None); cbn; auto. }
      destruct (mstep (js k) s st), (plain_step exec iexec s st'); cbn in K |- *; try contradiction; auto.
      apply IH; [|exact K]. intros r I. apply (Hw r). now right. }
    now apply G.
  Qed.

  (** *** algorithms that rearrange *)
  Lemma perm_option : forall (f g : nat -> option X) a b l l', f a = g b -> Permutation (map f l) (map g l') ->
    Permutation (map f (a :: l)) (map g (b :: l')).
  Proof. intros f g a b l l' E P. cbn. rewrite E. now constructor. Qed.
  Lemma map_setv_out : forall (st : vars (X := X)) r x l, ~ In r l -> map (setv st r x) l = map st l.
  Proof. intros st r x l N. apply map_ext_in. intros q I. apply setv_ne. intros ->. contradiction. Qed.

  Lemma swap_map : forall (st : vars (X := X)) r a x y lv, NoDup lv -> In r lv -> In a lv -> st r = Some x -> st a = Some y ->
    Permutation (map (setv (setv st r y) a x) lv) (map st lv).
  Proof.
    intros st r a x y lv ND Ir Ia Hr Ha. destruct (Nat.eq_dec r a) as [->|N].
    - assert (y = x) by congruence. subst y. apply Permutation_refl'. apply map_ext. intros q. unfold setv.
      destruct (Nat.eqb_spec q a) as [->|]; [now rewrite Ha|reflexivity].
    - assert (exists l, Permutation lv (r :: a :: l)) as [l Pl].
      { apply in_split in Ir. destruct Ir as (l1 & l2 & ->). assert (Ia' : In a (l1 ++ l2)).
        { apply in_app_iff in Ia. apply in_app_iff. destruct Ia as [Ia|[Ia|Ia]]; auto; contradiction. }
        apply in_split in Ia'. destruct Ia' as (m1 & m2 & Em). exists (m1 ++ m2).
        rewrite <- Permutation_middle. rewrite Em. constructor. now rewrite <- Permutation_middle. }
      assert (ND' := Permutation_NoDup Pl ND). inversion ND' as [|? ? N1 ND1]; subst. inversion ND1 as [|? ? N2 ND2]; subst.
      rewrite Pl. cbn. rewrite (setv_ne _ a x r) by auto. rewrite !setv_at.
      rewrite map_setv_out by auto. rewrite map_setv_out by (intros I; apply N1; now right).
      rewrite Hr, Ha. constructor.
  Qed.

  Lemma arun_ok : forall p js k lv lv' (st : vars (X := X)) (P : X -> Prop),
    (forall x y, P x -> P y -> exists b, less x y = Ok b) ->
    rearranges lv p lv' -> NoDup lv -> (forall r, In r lv -> exists x, st r = Some x /\ P x) ->
    exists st', arun js k p st = Ok st' /\ NoDup lv' /\ Permutation (map st' lv') (map st lv).
  Proof.
    intros p js k lv lv' st P HL. revert k lv st.
    assert (MV : forall (st : vars (X := X)) lv r a l j, NoDup lv -> ~ In r lv -> Permutation lv (a :: l) ->
        (forall q, In q lv -> exists x, st q = Some x /\ P x) ->
        exists x, getv st a = Ok x /\ r <> a /\ NoDup (r :: l) /\
          (forall q, In q (r :: l) -> exists x', setv (setv st r x) a (husk j x) q = Some x' /\ P x') /\
          Permutation (map (setv (setv st r x) a (husk j x)) (r :: l)) (map st lv)).
    { intros st lv r a l j ND Nr Pl HP. assert (Ia : In a lv) by (rewrite Pl; now left).
      destruct (HP a Ia) as (x & Ex & Px). exists x. assert (ND' := Permutation_NoDup Pl ND).
      inversion ND' as [|? ? N1 ND1]; subst. assert (Nra : r <> a) by (intros ->; contradiction).
      assert (Nrl : ~ In r l) by (intros I; apply Nr; rewrite Pl; now right).
      split; [unfold getv; now rewrite Ex|]. split; [exact Nra|]. split; [now constructor|]. split.
      - intros q [<-|I].
        + exists x. rewrite setv_ne by exact Nra. now rewrite setv_at.
        + destruct (HP q) as (x' & E' & P'); [rewrite Pl; now right|]. exists x'. split; [|exact P'].
          rewrite setv_ne by (intros ->; contradiction). rewrite setv_ne by (intros ->; contradiction). exact E'.
      - rewrite Pl. cbn. rewrite setv_ne by exact Nra. rewrite setv_at, Ex. constructor.
        rewrite map_setv_out by exact N1. now rewrite map_setv_out by exact Nrl. }
    induction p as [|r a p IH|r a p IH|r a p IH|a b p IH]; intros k lv st R ND HP.
    - exists st. split; [reflexivity|]. cbn in R. split; [eapply Permutation_NoDup; eauto|].
      now apply Permutation_map, Permutation_sym.
    - cbn [rearranges] in R. destruct R as [Nr (l & Pl & R)].
      destruct (MV st lv r a l None ND Nr Pl HP) as (x & Ex & Nra & ND' & HP' & PP).
      destruct (IH (Datatypes.S k) _ _ R ND' HP') as (st' & E & ND'' & P').
      exists st'. split; [|split; [exact ND''|now rewrite P']].
      cbn. unfold move_new. destruct (Nat.eqb_spec r a); [contradiction|]. rewrite Ex. cbn. exact E.
    - cbn [rearranges] in R. destruct R as [Nr (l & Pl & R)].
      destruct (MV st lv r a l (Some (js k)) ND Nr Pl HP) as (x & Ex & Nra & ND' & HP' & PP).
      destruct (IH (Datatypes.S k) _ _ R ND' HP') as (st' & E & ND'' & P').
      exists st'. split; [|split; [exact ND''|now rewrite P']].
      cbn. unfold move_to. rewrite Ex. cbn. exact E.
    - cbn [rearranges] in R. destruct R as (Ir & Ia & R). destruct (HP r Ir) as (x & Ex & Px). destruct (HP a Ia) as (y & Ey & Py).
      assert (Hs : exists st1, mstep (js k) (MSwap r a) st = Ok st1 /\ forall q, st1 q = setv (setv st r y) a x q).
      { cbn. unfold getv at 1. rewrite Ex. cbn. unfold move_to. destruct (Nat.eqb_spec a r) as [->|N].
        - unfold getv. rewrite setv_at. cbn. eexists. split; [reflexivity|]. intros q. unfold setv. now destruct (Nat.eqb q r).
        - unfold getv. rewrite setv_ne by exact N. rewrite Ey. cbn. eexists. split; [reflexivity|]. intros q. unfold setv.
          destruct (Nat.eqb q a); [reflexivity|]. now destruct (Nat.eqb q r). }
      destruct Hs as (st1 & Es & Hst1).
      assert (HP1 : forall q, In q lv -> exists x, st1 q = Some x /\ P x).
      { intros q I. rewrite Hst1. unfold setv. destruct (Nat.eqb q a); [eauto|]. destruct (Nat.eqb q r); eauto. }
      destruct (IH (Datatypes.S k) _ _ R ND HP1) as (st' & E & ND' & P').
      exists st'. split; [cbn [ModelMove.arun]; rewrite Es; exact E|]. split; [exact ND'|].
      rewrite P'. rewrite (map_ext _ _ Hst1). now apply swap_map.
    - cbn [rearranges] in R. destruct R as (Ia & Ib & R). destruct (HP a Ia) as (x & Ex & Px). destruct (HP b Ib) as (y & Ey & Py).
      destruct (HL x y Px Py) as (l & El). destruct (IH l (Datatypes.S k) _ _ (R l) ND HP) as (st' & E & ND' & P').
      exists st'. split; [|auto]. cbn. unfold getv. rewrite Ex, Ey. cbn. rewrite El. exact E.
  Qed.

  (** *** insertion sort *)
  Lemma shift_rearranges : forall t rest lv' k n, k < n -> n <= t ->
    (forall l, Permutation l (seq 0 n) -> rearranges l rest lv') ->
    forall l, Permutation l (t :: seq 0 k ++ seq (S k) (n - S k)) -> rearranges l (shift_down t k rest) lv'.
  Proof.
    intros t rest lv' k. induction k as [|k IH]; intros n Hk Ht HR l Pl; cbn [shift_down rearranges].
    - split.
      + rewrite Pl. cbn. rewrite in_seq. lia.
      + exists (seq 1 (n - 1)). split; [exact Pl|]. apply HR. destruct n; [lia|]. cbn. now rewrite Nat.sub_0_r.
    - split; [rewrite Pl; now left|]. split; [rewrite Pl; right; apply in_app_iff; left; apply in_seq; lia|].
      intros b. assert (Nk : ~ In (S k) l).
      { rewrite Pl. cbn. rewrite in_app_iff, !in_seq. lia. }
      assert (Es : seq (S k) (n - S k) = S k :: seq (S (S k)) (n - S (S k))).
      { replace (n - S k) with (S (n - S (S k))) by lia. reflexivity. }
      destruct b; cbn [rearranges].
      + split; [exact Nk|]. exists (t :: seq 0 k ++ seq (S (S k)) (n - S (S k))). split.
        * rewrite Pl. rewrite seq_S. cbn. rewrite <- app_assoc. cbn.
          rewrite perm_swap. constructor. now rewrite <- Permutation_middle.
        * apply (IH n); [lia|lia|exact HR|]. rewrite perm_swap. constructor. rewrite Es. now rewrite Permutation_middle.
      + split; [exact Nk|]. exists (seq 0 (S k) ++ seq (S (S k)) (n - S (S k))). split; [exact Pl|].
        apply HR. rewrite Permutation_middle.
        apply Permutation_refl'. replace n with (S k + S (n - S (S k))) at 2 by lia. now rewrite seq_app.
  Qed.
  Lemma isort_from_rearranges : forall m t k n, k + m = n -> n <= t ->
    forall l, Permutation l (seq 0 n) -> rearranges l (isort_from t k m) (seq 0 n).
  Proof.
    induction m as [|m IH]; intros t k n Hn Ht l Pl; [exact Pl|]. cbn [isort_from rearranges]. split.
    - rewrite Pl, in_seq. lia.
    - exists (seq 0 k ++ seq (S k) (n - S k)). split.
      + rewrite Pl. replace n with (k + S (n - S k)) at 1 by lia. rewrite seq_app. cbn. now rewrite <- Permutation_middle.
      + apply (shift_rearranges t _ _ k n); [lia|lia| |reflexivity]. intros l' Pl'. apply IH; [lia|lia|exact Pl'].
  Qed.
  Lemma isort_rearranges : forall n, rearranges (seq 0 n) (isort n) (seq 0 n).
  Proof.
    intros n. unfold isort. destruct n as [|n]; [cbn; constructor|].
    apply isort_from_rearranges; [lia|lia|reflexivity].
  Qed.

  Section Sort.
    Context (P : X -> Prop) (lt : X -> X -> bool) (SW : strict_weak P lt)
            (HL : forall x y, P x -> P y -> less x y = Ok (lt x y)).
    (** Places [0..k] except [h] hold values in order; those beyond the hole are not below the value in [t]. *)
    Definition holds (st : vars (X := X)) (xs : nat -> X) (D : nat -> Prop) : Prop := forall i, D i -> st i = Some (xs i) /\ P (xs i).

    Lemma sw_asym : forall x y, P x -> P y -> lt x y = true -> lt y x = false.
    Proof.
      intros x y Px Py L. destruct (lt y x) eqn:E; [|reflexivity].
      pose proof (sw_trans _ _ SW _ _ _ Px Py Px L E) as K. now rewrite (sw_irrefl _ _ SW _ Px) in K.
    Qed.

    Lemma shift_sorts : forall rest t js k q n (st : vars (X := X)) (xs : nat -> X) v, k <= q -> q < n -> n <= t ->
      st t = Some v -> P v ->
      (forall i, i < n -> i <> k -> st i = Some (xs i) /\ P (xs i)) ->
      (forall i j, i < j -> j <= q -> i <> k -> j <> k -> lt (xs j) (xs i) = false) ->
      (forall j, k < j -> j <= q -> lt (xs j) v = false) ->
      forall s, exists js' s' st' xs', arun js s (shift_down t k rest) st = arun js' s' rest st' /\
        (forall i, i < n -> st' i = Some (xs' i) /\ P (xs' i)) /\
        (forall i, q < i -> i < n -> xs' i = xs i) /\
        (forall i j, i < j -> j <= q -> lt (xs' j) (xs' i) = false).
    Proof.
      intros rest t js k. induction k as [|k IH]; intros q n st xs v Hk Hq Ht Ev Pv HS HO HB s; cbn [shift_down].
      - exists js, (Datatypes.S s). cbn. unfold move_to, getv. rewrite Ev. cbn.
        eexists. exists (fun i => if Nat.eqb i 0 then v else xs i). split; [reflexivity|]. split; [|split].
        + intros i Hi. rewrite setv_ne by lia. unfold setv. destruct (Nat.eqb_spec i 0); [auto|]. apply HS; lia.
        + intros i Hi _. destruct (Nat.eqb_spec i 0); [lia|reflexivity].
        + intros i j Hij Hj. destruct (Nat.eqb_spec j 0); [lia|]. destruct (Nat.eqb_spec i 0); [apply HB; lia|apply HO; lia].
      - destruct (HS k) as [Ek Pk]; [lia|lia|]. cbn. unfold getv at 1 2. rewrite Ev, Ek. cbn. rewrite (HL _ _ Pv Pk). cbn.
        destruct (lt v (xs k)) eqn:L.
        + cbn. unfold move_to, getv. rewrite Ek. cbn.
          set (xs1 := fun i => if Nat.eqb i (S k) then xs k else xs i).
          assert (X1 : exists js' s' st' xs', arun js (S (S s)) (shift_down t k rest)
              (setv (setv st (S k) (xs k)) k (husk (Some (js (S s))) (xs k))) = arun js' s' rest st' /\
              (forall i, i < n -> st' i = Some (xs' i) /\ P (xs' i)) /\
              (forall i, q < i -> i < n -> xs' i = xs1 i) /\
              (forall i j, i < j -> j <= q -> lt (xs' j) (xs' i) = false)).
          { apply (IH q n _ xs1 v); try lia.
            - rewrite !setv_ne by lia. exact Ev.
            - exact Pv.
            - intros i Hi Hik. rewrite setv_ne by exact Hik. unfold xs1, setv. destruct (Nat.eqb_spec i (S k)); [auto|].
              apply HS; lia.
            - intros i j Hij Hj Hi Hjk. unfold xs1.
              destruct (Nat.eqb_spec j (S k)) as [->|Nj].
              + destruct (Nat.eqb_spec i (S k)); [lia|]. apply HO; lia.
              + destruct (Nat.eqb_spec i (S k)) as [->|Ni]; [apply HO; lia|apply HO; lia].
            - intros j Hj Hjq. unfold xs1. destruct (Nat.eqb_spec j (S k)); [|apply HB; lia]. now apply sw_asym. }
          destruct X1 as (js' & s' & st' & xs' & E1 & E2 & E3 & E4). exists js', s', st', xs'.
          split; [exact E1|]. split; [exact E2|]. split; [|exact E4].
          intros i Hi Hin. rewrite E3 by lia. unfold xs1. destruct (Nat.eqb_spec i (S k)); [lia|reflexivity].
        + exists js, (S (S s)). cbn. unfold move_to, getv. rewrite Ev. cbn.
          eexists. exists (fun i => if Nat.eqb i (S k) then v else xs i). split; [reflexivity|]. split; [|split].
          * intros i Hi. rewrite setv_ne by lia. unfold setv. destruct (Nat.eqb_spec i (S k)); [auto|]. apply HS; lia.
          * intros i Hi _. destruct (Nat.eqb_spec i (S k)); [lia|reflexivity].
          * intros i j Hij Hj. destruct (Nat.eqb_spec j (S k)) as [->|Nj].
            -- destruct (Nat.eqb_spec i (S k)); [lia|]. destruct (Nat.eq_dec i k) as [->|Nik]; [exact L|].
               destruct (HS i) as [_ Pi]; [lia|lia|]. apply (sw_neg _ _ SW _ (xs k)); auto. apply HO; lia.
            -- destruct (Nat.eqb_spec i (S k)) as [->|Ni]; [apply HB; lia|apply HO; lia].
    Qed.

    Lemma isort_from_sorts : forall m t k n js s (st : vars (X := X)) (xs : nat -> X), 1 <= k -> k + m = n -> n <= t ->
      (forall i, i < n -> st i = Some (xs i) /\ P (xs i)) ->
      (forall i j, i < j -> j < k -> lt (xs j) (xs i) = false) ->
      exists st' xs', arun js s (isort_from t k m) st = Ok st' /\
        (forall i, i < n -> st' i = Some (xs' i) /\ P (xs' i)) /\ in_order lt n xs'.
    Proof.
      induction m as [|m IH]; intros t k n js s st xs H1 Hn Ht HS HO.
      - exists st, xs. split; [reflexivity|]. split; [exact HS|]. intros i j Hij Hj. apply HO; lia.
      - destruct (HS k) as [Ek Pk]; [lia|]. cbn [isort_from ModelMove.arun ModelMove.mstep]. unfold move_new.
        destruct (Nat.eqb_spec t k); [lia|]. unfold getv. rewrite Ek. cbn [bind].
        edestruct (shift_sorts (isort_from t (S k) m) t js k k n (setv (setv st t (xs k)) k (husk None (xs k))) xs (xs k))
          with (s := S s) as (js' & s' & st' & xs' & E1 & E2 & E3 & E4); try lia.
        + rewrite setv_ne by lia. now rewrite setv_at.
        + exact Pk.
        + intros i Hi Hik. rewrite !setv_ne by lia. apply HS; lia.
        + intros i j Hij Hj Hi Hjk. apply HO; lia.
        + rewrite E1. apply (IH t (S k) n js' s' st' xs'); try lia; auto. intros i j Hij Hj. apply E4; lia.
    Qed.

    Lemma isort_sorts : forall n js (st : vars (X := X)) (xs : nat -> X), (forall i, i < n -> st i = Some (xs i) /\ P (xs i)) ->
      exists st' xs', arun js 0 (isort n) st = Ok st' /\ (forall i, i < n -> st' i = Some (xs' i)) /\
        Permutation (map xs' (seq 0 n)) (map xs (seq 0 n)) /\ in_order lt n xs'.
    Proof.
      intros n js st xs HS. destruct n as [|n].
      - exists st, xs. split; [reflexivity|]. split; [intros; lia|]. split; [constructor|]. intros i j; lia.
      - destruct (isort_from_sorts n (S n) 1 (S n) js 0 st xs) as (st' & xs' & E & H' & HO); try lia; auto.
        exists st', xs'. unfold isort. replace (S n - 1) with n by lia. split; [exact E|]. split; [intros i Hi; apply H', Hi|].
        split; [|exact HO].
        destruct (arun_ok (isort (S n)) js 0 (seq 0 (S n)) (seq 0 (S n)) st P) as (st2 & E2 & _ & PP).
        + intros x y Px Py. exists (lt x y). auto.
        + apply isort_rearranges.
        + apply seq_NoDup.
        + intros r Ir. apply in_seq in Ir. destruct (HS r) as [A B]; [lia|]. eauto.
        + unfold isort in E2. replace (S n - 1) with n in E2 by lia. rewrite E in E2. injection E2 as <-.
          assert (M1 : map st' (seq 0 (S n)) = map Some (map xs' (seq 0 (S n)))).
          { rewrite map_map. apply map_ext_in. intros i Ii. apply in_seq in Ii. apply H'. lia. }
          assert (M2 : map st (seq 0 (S n)) = map Some (map xs (seq 0 (S n)))).
          { rewrite map_map. apply map_ext_in. intros i Ii. apply in_seq in Ii. apply HS. lia. }
          rewrite M1, M2 in PP.
          assert (G : forall l l' : list X, Permutation (map Some l) (map Some l') -> Permutation l l').
          { intros l l' Q. apply (Permutation_map (fun o => match o with Some x => x | None => xs 0 end)) in Q.
            rewrite !map_map in Q. now rewrite !map_id in Q. }
          now apply G.
    Qed.
  End Sort.
End Gen.
