(** Proofs about threads. *)
From Coq Require Import ZArith List Bool Lia.
From Verif Require Import Outcome Scalar Model Spec ProgSpec ModelObj ObjSpec ValSpec FactsObj FactsSess FactsVal ModelS ModelObjS ThrSpec.
Import ListNotations.

Section Values.
  Context {S : Type} (O : Ops S) (c : cfg) (own ownw : nat -> option nat).
  Local Notation vheap := (vheap S).
  Local Notation usable := ThrSpec.usable.

  (** Thread [t] alone is in state [v], all threads together in state [m]; [phi]: objects of [v] known to the thread ([d]) in [m];
      [T]: owners of the objects of [m]. *)
  Record sim (T : nat -> option nat) (t : nat) (phi : nat -> nat) (d : nat -> Prop) (v m : vheap) : Prop := {
    s_dom : forall o, d o -> (o < length (vals v))%nat /\ (phi o < length (vals m))%nat /\ nth_error (vals m) (phi o) = nth_error (vals v) o /\ usable (T (phi o)) t;
    s_inj : forall o o', d o -> d o' -> phi o = phi o' -> o = o';
    s_nam : forall r, usable (own r) t -> vnames m r = option_map phi (vnames v r) /\ (forall o, vnames v r = Some o -> d o /\ T (phi o) = own r);
    s_win : forall w, usable (ownw w) t ->
      wins m w = option_map (fun x => let '(o, f, n) := x in (phi o, f, n)) (wins v w) /\
      (forall o f n, wins v w = Some (o, f, n) -> d o /\ T (phi o) = ownw w)
  }.
  Definition frame (T T' : nat -> option nat) (t : nat) (m m' : vheap) : Prop :=
    forall u phi d v, u <> t -> sim T u phi d v m -> sim T' u phi d v m'.
  Definition good (T : nat -> option nat) (t : nat) (m : vheap) (rv rm : vres) : Prop :=
    match rv with
    | Ok (e, v') => exists m' T' phi' d', rm = Ok (e, m') /\ sim T' t phi' d' v' m' /\ frame T T' t m m'
    | Throw x => rm = Throw x
    | Abort => rm = Abort
    | UB => rm = UB
    end.

  Lemma nth_put {A} (l : list A) o x i : (o < length l)%nat -> nth_error (put l o x) i = if Nat.eqb i o then Some x else nth_error l i.
  Proof.
    revert o i. induction l as [|a l IH]; intros o i H; [cbn in H; lia|]. destruct o as [|o], i as [|i]; try reflexivity.
    cbn [put nth_error Nat.eqb]. apply IH. cbn in H. lia.
  Qed.
  Lemma length_put {A} (l : list A) o x : length (put l o x) = length l.
  Proof. revert o. induction l as [|a l IH]; intros [|o]; cbn; [reflexivity|reflexivity|reflexivity|]. f_equal. apply IH. Qed.
  Lemma nth_snoc {A} (l : list A) x i : (i < length l)%nat -> nth_error (l ++ [x]) i = nth_error l i.
  Proof. intros H. apply nth_error_app1. exact H. Qed.
  Lemma nth_last {A} (l : list A) x : nth_error (l ++ [x]) (length l) = Some x.
  Proof. rewrite nth_error_app2 by lia. rewrite Nat.sub_diag. reflexivity. Qed.

  Section Step.
    Context (T : nat -> option nat) (t : nat) (phi : nat -> nat) (d : nat -> Prop) (v m : vheap) (SM : sim T t phi d v m).
    Lemma good_done : good T t m (Ok (None, v)) (Ok (None, m)).
    Proof. exists m, T, phi, d. split; [reflexivity|]. split; [exact SM|]. intros u p dd w _ X. exact X. Qed.
    Lemma good_raise e : good T t m (vraise e v) (vraise e m).
    Proof. exists m, T, phi, d. split; [reflexivity|]. split; [exact SM|]. intros u p dd w _ X. exact X. Qed.
    Lemma good_try {A} (x : res A) k k' : (forall a, x = Ok a -> good T t m (k a) (k' a)) -> good T t m (vtry v x k) (vtry m x k').
    Proof. destruct x as [a|e| |]; cbn; intros H; [apply H; reflexivity|apply good_raise|reflexivity|reflexivity]. Qed.

    Lemma good_new r x : own r = Some t -> good T t m (vnew v r x) (vnew m r x).
    Proof.
      intros Ow. apply good_try. intros a _. unfold vdone. cbn.
      set (lv := length (vals v)). set (lm := length (vals m)).
      exists (mkv (vals m ++ [a]) (bind_name (vnames m) r lm) (wins m)), (fun o => if Nat.eqb o lm then Some t else T o),
        (fun o => if Nat.eqb o lv then lm else phi o), (fun o => d o \/ o = lv).
      split; [reflexivity|]. destruct SM as [D I N W].
      assert (DV : forall o, d o -> Nat.eqb o lv = false /\ Nat.eqb (phi o) lm = false).
      { intros o Ho. destruct (D o Ho) as (A1 & A2 & _). split; apply Nat.eqb_neq; unfold lv, lm; lia. }
      split.
      - constructor; cbn [vals vnames wins].
        + intros o [Ho| ->].
          * destruct (DV o Ho) as (E1 & E2). rewrite E1, E2. destruct (D o Ho) as (A1 & A2 & A3 & A4).
            rewrite !app_length. cbn. repeat split; [lia|lia|rewrite !nth_snoc by assumption; exact A3|exact A4].
          * rewrite !Nat.eqb_refl. rewrite !app_length. cbn. unfold lv, lm. rewrite !nth_last. repeat split; [lia|lia|left; reflexivity].
        + intros o o' [Ho| ->] [Ho'| ->]; rewrite ?Nat.eqb_refl.
          * destruct (DV o Ho) as (E1 & _), (DV o' Ho') as (E2 & _). rewrite E1, E2. apply I; assumption.
          * destruct (DV o Ho) as (E1 & E2). rewrite E1. intros E. rewrite E, Nat.eqb_refl in E2. discriminate.
          * destruct (DV o' Ho') as (E1 & E2). rewrite E1. intros E. rewrite <- E, Nat.eqb_refl in E2. discriminate.
          * reflexivity.
        + intros q Hq. unfold bind_name. destruct (Nat.eqb_spec q r) as [->|Nq].
          * cbn. rewrite Nat.eqb_refl. split; [reflexivity|]. intros o [= <-]. rewrite !Nat.eqb_refl. split; [right; reflexivity|symmetry; exact Ow].
          * destruct (N q Hq) as (E & B). split.
            { rewrite E. destruct (vnames v q) as [o|] eqn:EQ; [|reflexivity]. cbn. destruct (B o eq_refl) as (Ho & _).
              destruct (DV o Ho) as (E1 & _). rewrite E1. reflexivity. }
            { intros o Ho. destruct (B o Ho) as (Hd & TO). destruct (DV o Hd) as (E1 & E2). rewrite E1, E2. split; [left; exact Hd|exact TO]. }
        + intros q Hq. destruct (W q Hq) as (E & B). split.
          { rewrite E. destruct (wins v q) as [[[o f] n]|] eqn:EQ; [|reflexivity]. cbn. destruct (B o f n eq_refl) as (Ho & _).
            destruct (DV o Ho) as (E1 & _). rewrite E1. reflexivity. }
          { intros o f n Ho. destruct (B o f n Ho) as (Hd & TO). destruct (DV o Hd) as (E1 & E2). rewrite E1, E2. split; [left; exact Hd|exact TO]. }
      - intros u phi' d' v' Nu [D' I' N' W'].
        assert (DV' : forall o, d' o -> Nat.eqb (phi' o) lm = false).
        { intros o Ho. destruct (D' o Ho) as (_ & A2 & _). apply Nat.eqb_neq. unfold lm. lia. }
        constructor; cbn [vals vnames wins].
        + intros o Ho. rewrite (DV' o Ho). destruct (D' o Ho) as (A1 & A2 & A3 & A4). rewrite app_length, nth_snoc by exact A2. cbn.
          repeat split; [exact A1|lia|exact A3|exact A4].
        + exact I'.
        + intros q Hq. destruct (N' q Hq) as (E & B). split.
          * unfold bind_name. destruct (Nat.eqb_spec q r) as [->|Nq]; [|exact E]. exfalso. rewrite Ow in Hq. destruct Hq as [[= ->]|Hq]; [congruence|discriminate].
          * intros o Ho. destruct (B o Ho) as (Hd & TO). rewrite (DV' o Hd). split; assumption.
        + intros q Hq. destruct (W' q Hq) as (E & B). split; [exact E|]. intros o f n Ho. destruct (B o f n Ho) as (Hd & TO). rewrite (DV' o Hd). split; assumption.
    Qed.

    Lemma good_put o x : d o -> T (phi o) = Some t -> good T t m (vput v o x) (vput m (phi o) x).
    Proof.
      intros Hd TO. apply good_try. intros a _. unfold vdone. cbn.
      exists (mkv (put (vals m) (phi o) a) (vnames m) (wins m)), T, phi, d. split; [reflexivity|]. destruct SM as [D I N W].
      destruct (D o Hd) as (L1 & L2 & _ & _). split.
      - constructor; cbn [vals vnames wins]; [|exact I|exact N|exact W].
        intros q Hq. destruct (D q Hq) as (A1 & A2 & A3 & A4). rewrite !length_put, !nth_put by assumption. repeat split; try assumption.
        destruct (Nat.eqb_spec q o) as [->|Nq]; [rewrite Nat.eqb_refl; reflexivity|].
        destruct (Nat.eqb_spec (phi q) (phi o)) as [E|_]; [exfalso; apply Nq; apply I; assumption|exact A3].
      - intros u phi' d' v' Nu [D' I' N' W']. constructor; cbn [vals vnames wins]; [|exact I'|exact N'|exact W'].
        intros q Hq. destruct (D' q Hq) as (A1 & A2 & A3 & A4). rewrite !length_put, !nth_put by assumption. repeat split; try assumption.
        destruct (Nat.eqb_spec (phi' q) (phi o)) as [E|_]; [|exact A3]. exfalso. rewrite E, TO in A4. destruct A4 as [[= ->]|A4]; [congruence|discriminate].
    Qed.
    Lemma good_bind r o : own r = Some t -> d o -> T (phi o) = Some t ->
      good T t m (vdone (mkv (vals v) (bind_name (vnames v) r o) (wins v))) (vdone (mkv (vals m) (bind_name (vnames m) r (phi o)) (wins m))).
    Proof.
      intros Ow Hd TO. exists (mkv (vals m) (bind_name (vnames m) r (phi o)) (wins m)), T, phi, d. split; [reflexivity|].
      destruct SM as [D I N W]. split.
      - constructor; cbn [vals vnames wins]; [exact D|exact I| |exact W].
        intros q Hq. unfold bind_name. destruct (Nat.eqb_spec q r) as [->|Nq]; [|apply N, Hq].
        split; [reflexivity|]. intros o' [= <-]. split; [exact Hd|congruence].
      - intros u phi' d' v' Nu [D' I' N' W']. constructor; cbn [vals vnames wins]; [exact D'|exact I'| |exact W'].
        intros q Hq. unfold bind_name. destruct (Nat.eqb_spec q r) as [->|Nq]; [|apply N', Hq].
        exfalso. rewrite Ow in Hq. destruct Hq as [[= ->]|Hq]; [congruence|discriminate].
    Qed.
    Lemma good_view w o f n : ownw w = Some t -> d o -> T (phi o) = Some t ->
      good T t m (vdone (mkv (vals v) (vnames v) (bind_name (wins v) w (o, f, n)))) (vdone (mkv (vals m) (vnames m) (bind_name (wins m) w (phi o, f, n)))).
    Proof.
      intros Ow Hd TO. exists (mkv (vals m) (vnames m) (bind_name (wins m) w (phi o, f, n))), T, phi, d. split; [reflexivity|].
      destruct SM as [D I N W]. split.
      - constructor; cbn [vals vnames wins]; [exact D|exact I|exact N|].
        intros q Hq. unfold bind_name. destruct (Nat.eqb_spec q w) as [->|Nq]; [|apply W, Hq].
        split; [reflexivity|]. intros o' f' n' [= <- _ _]. split; [exact Hd|congruence].
      - intros u phi' d' v' Nu [D' I' N' W']. constructor; cbn [vals vnames wins]; [exact D'|exact I'|exact N'|].
        intros q Hq. unfold bind_name. destruct (Nat.eqb_spec q w) as [->|Nq]; [|apply W', Hq].
        exfalso. rewrite Ow in Hq. destruct Hq as [[= ->]|Hq]; [congruence|discriminate].
    Qed.
    Lemma good_get r k k' : usable (own r) t ->
      (forall o x, d o -> T (phi o) = own r -> nth_error (vals v) o = Some x -> nth_error (vals m) (phi o) = Some x -> good T t m (k o x) (k' (phi o) x)) ->
      good T t m (vget v r k) (vget m r k').
    Proof.
      intros U H. unfold vget. destruct (s_nam _ _ _ _ _ _ SM r U) as (E & B). rewrite E.
      destruct (vnames v r) as [o|]; cbn [option_map]; [|apply good_raise].
      destruct (B o eq_refl) as (Hd & TO). destruct (s_dom _ _ _ _ _ _ SM o Hd) as (_ & _ & E2 & _).
      destruct (nth_error (vals v) o) as [x|] eqn:Ex; rewrite E2; [|reflexivity]. apply H; assumption.
    Qed.

    Lemma good_step s : allowed own ownw t s -> good T t m (vstep O c s v) (vstep O c s m).
    Proof.
      assert (MINE : forall o, own o = Some t -> usable (own o) t) by (intros o E; left; exact E).
      destruct s as [r a sz|r i a sz|r sz|r l|r a|r a|r u a|r b a1 a2|r a1 a2 a3|r a sz|r a sz|op r a|op r a|r a|r i j a|r mm|r sz|w r|w r|w i|w i a];
        cbn [allowed vstep]; intros A.
      - apply good_new, A.
      - apply good_new, A.
      - apply good_new, A.
      - destruct (negb (is_dynamic c) && _); [apply good_raise|apply good_new, A].
      - destruct A as (A1 & A2). apply good_get; [apply MINE, A2|]. intros o x Hd TO _ _. apply good_bind; [exact A1|exact Hd|congruence].
      - destruct A as (A1 & A2). apply good_get; [exact A2|]. intros o x _ _ _ _. apply good_new, A1.
      - destruct A as (A1 & A2). apply good_get; [exact A2|]. intros o x _ _ _ _. apply good_new, A1.
      - destruct A as (A1 & A2 & A3). apply good_get; [exact A2|]. intros o x _ _ _ _. apply good_get; [exact A3|]. intros o' x' _ _ _ _. apply good_new, A1.
      - destruct A as (A1 & A2 & A3 & A4). apply good_get; [exact A2|]. intros o x _ _ _ _. apply good_get; [exact A3|]. intros o' x' _ _ _ _.
        apply good_get; [exact A4|]. intros o'' x'' _ _ _ _. apply good_new, A1.
      - destruct A as (A1 & A2). destruct (is_dynamic c); [|apply good_raise]. apply good_get; [exact A2|]. intros o x _ _ _ _. apply good_new, A1.
      - destruct A as (A1 & A2). destruct (is_dynamic c); [|apply good_raise]. apply good_get; [exact A2|]. intros o x _ _ _ _. apply good_new, A1.
      - destruct A as (A1 & A2). apply good_get; [exact A2|]. intros oa y Hda _ _ _. apply good_get; [apply MINE, A1|]. intros o x Hd TO _ _.
        assert (EQ : Nat.eqb (phi oa) (phi o) = Nat.eqb oa o).
        { destruct (Nat.eqb_spec oa o) as [->|N]; [apply Nat.eqb_refl|]. apply Nat.eqb_neq. intros E. apply N. exact (s_inj _ _ _ _ _ _ SM _ _ Hda Hd E). }
        rewrite EQ. apply good_put; [exact Hd|congruence].
      - apply good_get; [apply MINE, A|]. intros o x Hd TO _ _. destruct op; try (apply good_new, A); apply good_put; [exact Hd|congruence|exact Hd|congruence].
      - apply good_get; [apply MINE, A|]. intros o x Hd TO _ _. apply good_put; [exact Hd|congruence].
      - apply good_get; [apply MINE, A|]. intros o x Hd TO _ _. apply good_put; [exact Hd|congruence].
      - apply good_get; [apply MINE, A|]. intros o x Hd TO _ _. destruct (negb (is_dynamic c) && _); [apply good_raise|]. apply good_put; [exact Hd|congruence].
      - destruct (is_dynamic c); [|apply good_raise]. apply good_get; [apply MINE, A|]. intros o x Hd TO _ _. apply good_put; [exact Hd|congruence].
      - destruct A as (A1 & A2). apply good_get; [apply MINE, A2|]. intros o x Hd TO _ _. destruct (size c x <? 0)%Z; [reflexivity|]. apply good_view; [exact A1|exact Hd|congruence].
      - destruct A as (A1 & A2). apply good_get; [apply MINE, A2|]. intros o x Hd TO _ _. apply good_view; [exact A1|exact Hd|congruence].
      - destruct (s_win _ _ _ _ _ _ SM w A) as (E & B). rewrite E. destruct (wins v w) as [[[o f] n]|]; cbn [option_map]; [|apply good_raise].
        destruct (B o f n eq_refl) as (Hd & TO). destruct (s_dom _ _ _ _ _ _ SM o Hd) as (_ & _ & E2 & _). rewrite E2.
        destruct (vindex n i); [|apply good_raise]. destruct (nth_error (vals v) o); [|reflexivity]. apply good_try. intros; apply good_done.
      - assert (U : usable (ownw w) t) by (left; exact A).
        destruct (s_win _ _ _ _ _ _ SM w U) as (E & B). rewrite E. destruct (wins v w) as [[[o f] n]|]; cbn [option_map]; [|apply good_raise].
        destruct (B o f n eq_refl) as (Hd & TO). destruct (s_dom _ _ _ _ _ _ SM o Hd) as (_ & _ & E2 & _). rewrite E2.
        destruct (vindex n i); [|apply good_raise]. destruct (nth_error (vals v) o); [|reflexivity]. apply good_put; [exact Hd|congruence].
    Qed.
  End Step.

  (** ** whole executions *)
  Lemma only_cons {A} t u (a : A) w : only_of t ((u, a) :: w) = if Nat.eqb u t then a :: only_of t w else only_of t w.
  Proof. unfold only_of. cbn [filter fst]. destruct (Nat.eqb u t); reflexivity. Qed.
  Lemma pick_cons {A B} t u (a : A) w (e : B) es : pick t ((u, a) :: w) (e :: es) = if Nat.eqb u t then e :: pick t w es else pick t w es.
  Proof. unfold pick. cbn [map combine fst]. apply only_cons. Qed.
  Definition upd_at {A} (f : nat -> A) (t : nat) (a : A) : nat -> A := fun u => if Nat.eqb u t then a else f u.
  Definition fails {A} (x : res A) : Prop := match x with Ok _ => False | _ => True end.

  Lemma threads_run w : forall T vs phi d m, (forall t, sim T t (phi t) (d t) (vs t) m) ->
    Forall (fun x => allowed own ownw (fst x) (snd x)) w ->
    match vsession O c (map snd w) m with
    | Ok (es, m') => exists T' vs' phi' d', (forall t, vsession O c (only_of t w) (vs t) = Ok (pick t w es, vs' t)) /\
                       forall t, sim T' t (phi' t) (d' t) (vs' t) m'
    | _ => exists t, fails (vsession O c (only_of t w) (vs t))
    end.
  Proof.
    induction w as [|(t, s) w IH]; intros T vs phi d m SM A; cbn [map vsession snd].
    - exists T, vs, phi, d. split; [intros t; reflexivity|exact SM].
    - inversion A as [|? ? A1 A2]; subst. cbn [fst snd] in A1.
      pose proof (good_step T t (phi t) (d t) (vs t) m (SM t) s A1) as G. unfold good in G.
      destruct (vstep O c s (vs t)) as [[e v']|x| |] eqn:EV.
      2-4: rewrite G; cbn [bind]; exists t; rewrite only_cons, Nat.eqb_refl; cbn [vsession]; rewrite EV; exact I.
      destruct G as (m1 & T1 & phi1 & d1 & EM & S1 & FR). rewrite EM. cbn [bind].
      assert (SM1 : forall u, sim T1 u (upd_at phi t phi1 u) (upd_at d t d1 u) (upd_at vs t v' u) m1).
      { intros u. unfold upd_at. destruct (Nat.eqb_spec u t) as [->|Nu]; [exact S1|]. apply FR; [exact Nu|apply SM]. }
      specialize (IH T1 _ _ _ m1 SM1 A2).
      destruct (vsession O c (map snd w) m1) as [[es m']|x| |]; cbn [bind].
      + destruct IH as (T' & vs' & phi' & d' & E & S'). exists T', vs', phi', d'. split; [|exact S'].
        intros u. specialize (E u). rewrite only_cons, pick_cons. unfold upd_at in E. destruct (Nat.eqb_spec t u) as [->|Nu].
        * rewrite Nat.eqb_refl in E. cbn [vsession]. rewrite EV. cbn [bind]. rewrite E. reflexivity.
        * destruct (Nat.eqb_spec u t); [congruence|]. exact E.
      + destruct IH as (u & F). exists u. rewrite only_cons. unfold upd_at in F. destruct (Nat.eqb_spec t u) as [->|Nu].
        * rewrite Nat.eqb_refl in F. cbn [vsession]. rewrite EV. cbn [bind]. destruct (vsession O c (only_of u w) v'); [destruct F|exact I|exact I|exact I].
        * destruct (Nat.eqb_spec u t); [congruence|]. exact F.
      + destruct IH as (u & F). exists u. rewrite only_cons. unfold upd_at in F. destruct (Nat.eqb_spec t u) as [->|Nu].
        * rewrite Nat.eqb_refl in F. cbn [vsession]. rewrite EV. cbn [bind]. destruct (vsession O c (only_of u w) v'); [destruct F|exact I|exact I|exact I].
        * destruct (Nat.eqb_spec u t); [congruence|]. exact F.
      + destruct IH as (u & F). exists u. rewrite only_cons. unfold upd_at in F. destruct (Nat.eqb_spec t u) as [->|Nu].
        * rewrite Nat.eqb_refl in F. cbn [vsession]. rewrite EV. cbn [bind]. destruct (vsession O c (only_of u w) v'); [destruct F|exact I|exact I|exact I].
        * destruct (Nat.eqb_spec u t); [congruence|]. exact F.
  Qed.

  Lemma sim_start v0 : separate own ownw v0 -> exists T d, forall t, sim T t (fun o => o) (d t) v0 v0.
  Proof.
    intros (who & N & W). exists who, (fun t o => (o < length (vals v0))%nat /\ usable (who o) t). intros t. constructor.
    - intros o (H1 & H2). repeat split; assumption.
    - intros; assumption.
    - intros r U. split; [destruct (vnames v0 r); reflexivity|]. intros o E. destruct (N r o E) as (E1 & L). rewrite <- E1. repeat split; assumption.
    - intros w U. split; [destruct (wins v0 w) as [[[o f] n]|]; reflexivity|]. intros o f n E. destruct (W w o f n E) as (E1 & L). rewrite <- E1. repeat split; assumption.
  Qed.
  Lemma sim_same T t phi d v m : sim T t phi d v m -> same_for own ownw t v m.
  Proof.
    intros [D I N W]. split; [|split].
    - intros r U. destruct (N r U) as (E & B). unfold named. rewrite E. destruct (vnames v r) as [o|]; [|reflexivity]. cbn.
      destruct (B o eq_refl) as (Hd & _). symmetry. apply D, Hd.
    - intros w U. destruct (W w U) as (E & B). unfold shown. rewrite E. destruct (wins v w) as [[[o f] n]|]; [|reflexivity]. cbn.
      destruct (B o f n eq_refl) as (Hd & _). destruct (D o Hd) as (_ & _ & E2 & _). rewrite E2. reflexivity.
    - intros r r' U U'. destruct (N r U) as (E & B), (N r' U') as (E' & B'). rewrite E, E'.
      destruct (vnames v r) as [o|], (vnames v r') as [o'|]; cbn; split; intros H; try discriminate; try congruence.
      injection H as H. f_equal. apply I; [apply B; reflexivity|apply B'; reflexivity|exact H].
  Qed.

  Lemma threads_values w v0 : separate own ownw v0 -> Forall (fun x => allowed own ownw (fst x) (snd x)) w ->
    ((exists es m, vsession O c (map snd w) v0 = Ok (es, m)) <-> forall t, exists es v, vsession O c (only_of t w) v0 = Ok (es, v)) /\
    (forall es m, vsession O c (map snd w) v0 = Ok (es, m) -> forall t, exists v,
       vsession O c (only_of t w) v0 = Ok (pick t w es, v) /\ same_for own ownw t v m).
  Proof.
    intros SP A. destruct (sim_start v0 SP) as (T & d & SM). pose proof (threads_run w T (fun _ => v0) (fun _ o => o) d v0 SM A) as R. split; [split|].
    - intros (es & m & E) t. rewrite E in R. destruct R as (T' & vs' & phi' & d' & ES & _). eexists; eexists. apply ES.
    - intros H. destruct (vsession O c (map snd w) v0) as [[es m]|x| |]; [eexists; eexists; reflexivity| | |];
        destruct R as (t & F); destruct (H t) as (es & v & E); rewrite E in F; destruct F.
    - intros es m E t. rewrite E in R. destruct R as (T' & vs' & phi' & d' & ES & S'). exists (vs' t). split; [apply ES|]. eapply sim_same, S'.
  Qed.

  (** ** preconditions *)
  Lemma vsize_sim T t phi d v m r n : sim T t phi d v m -> usable (own r) t -> vsize c m r n <-> vsize c v r n.
  Proof.
    intros SM U. destruct (s_nam _ _ _ _ _ _ SM r U) as (E & B). unfold vsize. split.
    - intros (o & x & E1 & E2 & E3). rewrite E in E1. destruct (vnames v r) as [q|]; [|discriminate]. cbn in E1. injection E1 as <-.
      destruct (B q eq_refl) as (Hd & _). destruct (s_dom _ _ _ _ _ _ SM q Hd) as (_ & _ & E4 & _). exists q, x. repeat split; congruence.
    - intros (o & x & E1 & E2 & E3). destruct (B o E1) as (Hd & _). destruct (s_dom _ _ _ _ _ _ SM o Hd) as (_ & _ & E4 & _).
      exists (phi o), x. rewrite E, E1. repeat split; congruence.
  Qed.
  Lemma legal_sim T vs phi d m t s : (forall t, sim T t (phi t) (d t) (vs t) m) -> allowed own ownw t s -> vlegal c s (vs t) -> vlegal c s m.
  Proof.
    intros SM A. assert (MINE : forall o, own o = Some t -> usable (own o) t) by (intros o E; left; exact E).
    assert (VS : forall r n, usable (own r) t -> vsize c m r n -> vsize c (vs t) r n) by (intros r n U; apply (vsize_sim _ _ _ _ _ _ r n (SM t) U)).
    destruct s as [r a sz|r i a sz|r sz|r l|r a|r a|r u a|r b a1 a2|r a1 a2 a3|r a sz|r a sz|op r a|op r a|r a|r i j a|r mm|r sz|w r|w r|w i|w i a];
      cbn [allowed vlegal] in *; try (intros H; exact H).
    - destruct b; try (intros H; exact H). destruct A as (_ & U1 & U2). intros H n q H1 H2. apply (H n q); apply VS; assumption.
    - destruct A as (_ & U1 & _ & U2). intros H n q H1 H2. apply (H n q); apply VS; assumption.
    - destruct A as (_ & U1). intros H D. destruct (H D) as (F & B). split; [exact F|]. intros n H1. apply B. apply VS; auto.
    - destruct A as (_ & U1). intros H D. destruct (H D) as (F & B). split; [exact F|]. intros n H1. apply B. apply VS; auto.
    - intros (H1 & H2). split; [exact H1|]. intros n H3. apply H2. apply VS; auto.
    - intros (H1 & rr & k & H2 & H3). split; [exact H1|]. exists rr, k. split; [exact H2|]. intros D n H4. apply H3; [exact D|]. apply VS; auto.
    - intros H D. destruct (H D) as (F & B). split; [exact F|]. intros o w f n E1 E2.
      destruct (s_nam _ _ _ _ _ _ (SM t) r (MINE r A)) as (E & BN). rewrite E in E1. destruct (vnames (vs t) r) as [q|]; [|discriminate].
      cbn in E1. injection E1 as <-. destruct (BN q eq_refl) as (Hd & TO).
      destruct (ownw w) as [u|] eqn:OW.
      + assert (U : usable (ownw w) u) by (left; exact OW). destruct (s_win _ _ _ _ _ _ (SM u) w U) as (EW & BW). rewrite EW in E2.
        destruct (wins (vs u) w) as [[[o' f'] n']|] eqn:EU; [|discriminate]. cbn in E2. injection E2 as E2 <- <-.
        destruct (BW o' f' n' eq_refl) as (Hd' & TO'). rewrite E2, TO, A in TO'. rewrite OW in TO'. injection TO' as <-.
        apply (B q w f' n' eq_refl). rewrite EU. f_equal. f_equal. f_equal. exact (s_inj _ _ _ _ _ _ (SM t) _ _ Hd' Hd E2).
      + assert (U : usable (ownw w) t) by (right; exact OW). destruct (s_win _ _ _ _ _ _ (SM t) w U) as (EW & BW). rewrite EW in E2.
        destruct (wins (vs t) w) as [[[o' f'] n']|] eqn:EU; [|discriminate]. cbn in E2. injection E2 as E2 <- <-.
        destruct (BW o' f' n' eq_refl) as (Hd' & TO'). rewrite E2, TO, A, OW in TO'. discriminate.
  Qed.
  Lemma threads_legal w : forall T vs phi d m, (forall t, sim T t (phi t) (d t) (vs t) m) ->
    Forall (fun x => allowed own ownw (fst x) (snd x)) w -> (forall t, vlegal_session O c (only_of t w) (vs t)) -> vlegal_session O c (map snd w) m.
  Proof.
    induction w as [|(t, s) w IH]; intros T vs phi d m SM A L; cbn [map vlegal_session snd]; [exact I|].
    inversion A as [|? ? A1 A2]; subst. cbn [fst snd] in A1.
    pose proof (L t) as Lt. rewrite only_cons, Nat.eqb_refl in Lt. cbn [vlegal_session] in Lt. destruct Lt as (L1 & L2).
    split; [eapply legal_sim; eassumption|].
    pose proof (good_step T t (phi t) (d t) (vs t) m (SM t) s A1) as G. unfold good in G.
    destruct (vstep O c s (vs t)) as [[e v']|x| |] eqn:EV.
    2-4: rewrite G; exact I.
    destruct G as (m1 & T1 & phi1 & d1 & EM & S1 & FR). rewrite EM.
    apply (IH T1 (upd_at vs t v') (upd_at phi t phi1) (upd_at d t d1)); [|exact A2|].
    - intros u. unfold upd_at. destruct (Nat.eqb_spec u t) as [->|Nu]; [exact S1|]. apply FR; [exact Nu|apply SM].
    - intros u. unfold upd_at. destruct (Nat.eqb_spec u t) as [->|Nu]; [exact L2|]. specialize (L u). rewrite only_cons in L.
      destruct (Nat.eqb_spec t u); [congruence|]. exact L.
  Qed.
End Values.

(** ** on the storage *)
Section Storage.
  Context {S : Type} (O : Ops S) (c : cfg) (own ownw : nat -> option nat).
  Lemma vsession_app p q v : vsession O c (p ++ q) v =
    ('(es, v1) <- vsession O c p v ;; '(fs, v2) <- vsession O c q v1 ;; Ok (es ++ fs, v2))%res.
  Proof.
    revert v. induction p as [|s p IH]; intros v; cbn [app vsession bind].
    - destruct (vsession O c q v) as [[fs v2]|x| |]; reflexivity.
    - destruct (vstep O c s v) as [[e v1]|x| |]; cbn [bind]; [|reflexivity..]. rewrite IH.
      destruct (vsession O c p v1) as [[es v2]|x| |]; cbn [bind]; [|reflexivity..].
      destruct (vsession O c q v2) as [[fs v3]|x| |]; reflexivity.
  Qed.
  Lemma vlegal_app p q v es v1 : vsession O c p v = Ok (es, v1) ->
    (vlegal_session O c (p ++ q) v <-> vlegal_session O c p v /\ vlegal_session O c q v1).
  Proof.
    revert v es. induction p as [|s p IH]; intros v es E; cbn [app vlegal_session vsession] in *.
    - injection E as _ <-. tauto.
    - destruct (vstep O c s v) as [[e v2]|x| |]; cbn [bind] in E; try discriminate.
      destruct (vsession O c p v2) as [[es' v3]|x| |] eqn:EP; cbn [bind] in E; try discriminate. injection E as <- <-.
      rewrite (IH v2 es' EP). tauto.
  Qed.
  Lemma view_holds slack p st v : session O c slack p start = Ok st -> holds st v -> forall w i a,
    (exists u, views st w = Some u /\ view_read st u i = Ok a) <->
    (exists o f n x, wins v w = Some (o, f, n) /\ nth_error (vals v) o = Some x /\ rd (m_data x) (Z.of_nat (f + i)) = Ok a).
  Proof.
    intros Hs (A1 & A2 & A3 & A4) w i a. specialize (A4 w). pose proof (inv_session O c slack p _ _ inv_start Hs) as (I1 & _ & _). split.
    - intros (u & Eu & Er). rewrite Eu in A4. destruct (wins v w) as [[[o f] n]|]; [|contradiction]. destruct A4 as (<- & <- & sz & Ho).
      destruct (I1 _ _ _ Ho) as (d & cap & Eb). exists o, (v_off u), (v_len u), (mk sz d). split; [reflexivity|].
      split; [apply A2; unfold load; rewrite Ho, Eb; reflexivity|]. unfold view_read in Er. rewrite Eb in Er. exact Er.
    - intros (o & f & n & x & Ew & Ex & Er). rewrite Ew in A4. destruct (views st w) as [u|]; [|contradiction]. destruct A4 as (<- & <- & sz & Ho).
      exists u. split; [reflexivity|]. destruct (I1 _ _ _ Ho) as (d & cap & Eb). apply A2 in Ex. unfold load in Ex. rewrite Ho, Eb in Ex. injection Ex as <-.
      unfold view_read. rewrite Eb. exact Er.
  Qed.
  Lemma threads_storage slack p es0 v0 w : cfg_ok c -> c_exc c = true -> (is_dynamic c = false -> exists n, size_ok c n) ->
    vsession O c p vstart = Ok (es0, v0) -> separate own ownw v0 -> Forall (fun x => allowed own ownw (fst x) (snd x)) w ->
    (forall t, legal_session O c slack (p ++ only_of t w) start) ->
    legal_session O c slack (p ++ map snd w) start /\
    exists es st, traced O c slack (p ++ map snd w) start = Ok (es0 ++ es, st) /\
      forall t, exists st', traced O c slack (p ++ only_of t w) start = Ok (es0 ++ pick t w es, st') /\
        (forall r x, usable (own r) t ->
           (exists o, names st r = Some o /\ load st o = Ok x) <-> (exists o, names st' r = Some o /\ load st' o = Ok x)) /\
        (forall a i x, usable (ownw a) t ->
           (exists v, views st a = Some v /\ view_read st v i = Ok x) <-> (exists v, views st' a = Some v /\ view_read st' v i = Ok x)).
  Proof.
    intros Hc HE HT V0 SP A L.
    assert (VL : forall t, vlegal_session O c (only_of t w) v0).
    { intros t. specialize (L t). apply (proj1 (sessions_are_values O c slack _ Hc HE HT)) in L. apply (vlegal_app _ _ _ _ _ V0) in L. apply L. }
    assert (VP : vlegal_session O c p vstart).
    { specialize (L 0%nat). apply (proj1 (sessions_are_values O c slack _ Hc HE HT)) in L. apply (vlegal_app _ _ _ _ _ V0) in L. apply L. }
    assert (LM : legal_session O c slack (p ++ map snd w) start).
    { apply (proj1 (sessions_are_values O c slack _ Hc HE HT)). apply (vlegal_app _ _ _ _ _ V0). split; [exact VP|].
      destruct (sim_start own ownw v0 SP) as (T & d & SM). exact (threads_legal O c own ownw w T (fun _ => v0) (fun _ o => o) d v0 SM A VL). }
    split; [exact LM|].
    destruct (sessions_are_values O c slack (p ++ map snd w) Hc HE HT) as (_ & KM). destruct (KM LM) as (em & st & m & TM & SSM & VM & HM).
    rewrite vsession_app, V0 in VM. cbn [bind] in VM. destruct (vsession O c (map snd w) v0) as [[es m']|x| |] eqn:EM; cbn [bind] in VM; try discriminate.
    injection VM as <- <-. exists es, st. split; [exact TM|]. intros t.
    destruct (threads_values O c own ownw w v0 SP A) as (_ & TV). destruct (TV es m' EM t) as (v & EV & (SN & SW & _)).
    destruct (sessions_are_values O c slack (p ++ only_of t w) Hc HE HT) as (_ & KT). destruct (KT (L t)) as (et & st' & v' & TT & SST & VT & HT').
    rewrite vsession_app, V0 in VT. cbn [bind] in VT. rewrite EV in VT. cbn [bind] in VT. injection VT as <- <-.
    exists st'. split; [exact TT|]. split.
    - intros r x U. specialize (SN r U). unfold named in SN. destruct HM as (_ & LD & NM & _), HT' as (_ & LD' & NM' & _). rewrite NM, NM'. split.
      + intros (o & Eo & Lo). rewrite Eo in SN. apply LD in Lo. rewrite Lo in SN. destruct (vnames v r) as [o'|]; [|discriminate]. exists o'. split; [reflexivity|apply LD', SN].
      + intros (o & Eo & Lo). rewrite Eo in SN. apply LD' in Lo. rewrite Lo in SN. destruct (vnames m' r) as [o'|]; [|discriminate]. exists o'. split; [reflexivity|apply LD; congruence].
    - intros a i x U. rewrite (view_holds slack _ st m' SSM HM), (view_holds slack _ st' v SST HT'). specialize (SW a U). unfold shown in SW. split.
      + intros (o & f & n & y & Ew & Ex & Er). rewrite Ew, Ex in SW. destruct (wins v a) as [[[o' f'] n']|]; [|discriminate]. injection SW as SW <- <-.
        exists o', f', n', y. repeat split; assumption.
      + intros (o & f & n & y & Ew & Ex & Er). rewrite Ew, Ex in SW. destruct (wins m' a) as [[[o' f'] n']|]; [|discriminate]. injection SW as SW <- <-.
        exists o', f, n, y. repeat split; [symmetry; exact SW|assumption].
  Qed.
End Storage.

(** ** sparse numbers *)
Section Sparse.
  Context {S : Type} (O : Ops S) (own : nat -> option nat).
  Local Notation zheap := (zheap S).
  Local Notation usable := ThrSpec.usable.
  Record zsim (T : nat -> option nat) (t : nat) (phi : nat -> nat) (d : nat -> Prop) (v m : zheap) : Prop := {
    z_dom : forall o, d o -> (o < length (zobjs v))%nat /\ (phi o < length (zobjs m))%nat /\ nth_error (zobjs m) (phi o) = nth_error (zobjs v) o /\ usable (T (phi o)) t;
    z_inj : forall o o', d o -> d o' -> phi o = phi o' -> o = o';
    z_nam : forall r, usable (own r) t -> znames m r = option_map phi (znames v r) /\ (forall o, znames v r = Some o -> d o /\ T (phi o) = own r)
  }.
  Definition zframe (T T' : nat -> option nat) (t : nat) (m m' : zheap) : Prop :=
    forall u phi d v, u <> t -> zsim T u phi d v m -> zsim T' u phi d v m'.
  Definition zgood (T : nat -> option nat) (t : nat) (m : zheap) (rv rm : option pyexn * zheap) : Prop :=
    exists m' T' phi' d', rm = (fst rv, m') /\ zsim T' t phi' d' (snd rv) m' /\ zframe T T' t m m'.
  Section Step.
    Context (T : nat -> option nat) (t : nat) (phi : nat -> nat) (d : nat -> Prop) (v m : zheap) (SM : zsim T t phi d v m).
    Lemma zgood_same e : zgood T t m (e, v) (e, m).
    Proof. exists m, T, phi, d. split; [reflexivity|]. split; [exact SM|]. intros u p dd w _ X. exact X. Qed.
    Lemma zgood_new r a : own r = Some t -> zgood T t m (None, znew v r a) (None, znew m r a).
    Proof.
      intros Ow. set (lv := length (zobjs v)). set (lm := length (zobjs m)).
      exists (znew m r a), (fun o => if Nat.eqb o lm then Some t else T o), (fun o => if Nat.eqb o lv then lm else phi o), (fun o => d o \/ o = lv).
      split; [reflexivity|]. destruct SM as [D I N].
      assert (DV : forall o, d o -> Nat.eqb o lv = false /\ Nat.eqb (phi o) lm = false).
      { intros o Ho. destruct (D o Ho) as (A1 & A2 & _). split; apply Nat.eqb_neq; unfold lv, lm; lia. }
      split.
      - constructor; cbn [snd znew zobjs znames].
        + intros o [Ho| ->].
          * destruct (DV o Ho) as (E1 & E2). rewrite E1, E2. destruct (D o Ho) as (A1 & A2 & A3 & A4).
            rewrite !app_length. cbn. repeat split; [lia|lia|rewrite !nth_snoc by assumption; exact A3|exact A4].
          * rewrite !Nat.eqb_refl. rewrite !app_length. cbn. unfold lv, lm. rewrite !nth_last. repeat split; [lia|lia|left; reflexivity].
        + intros o o' [Ho| ->] [Ho'| ->]; rewrite ?Nat.eqb_refl.
          * destruct (DV o Ho) as (E1 & _), (DV o' Ho') as (E2 & _). rewrite E1, E2. apply I; assumption.
          * destruct (DV o Ho) as (E1 & E2). rewrite E1. intros E. rewrite E, Nat.eqb_refl in E2. discriminate.
          * destruct (DV o' Ho') as (E1 & E2). rewrite E1. intros E. rewrite <- E, Nat.eqb_refl in E2. discriminate.
          * reflexivity.
        + intros q Hq. unfold bind_name. destruct (Nat.eqb_spec q r) as [->|Nq].
          * cbn. fold lv lm. rewrite Nat.eqb_refl. split; [reflexivity|]. intros o [= <-]. rewrite !Nat.eqb_refl. split; [right; reflexivity|symmetry; exact Ow].
          * destruct (N q Hq) as (E & B). split.
            { rewrite E. destruct (znames v q) as [o|] eqn:EQ; [|reflexivity]. cbn. destruct (B o eq_refl) as (Ho & _).
              destruct (DV o Ho) as (E1 & _). rewrite E1. reflexivity. }
            { intros o Ho. destruct (B o Ho) as (Hd & TO). destruct (DV o Hd) as (E1 & E2). rewrite E1, E2. split; [left; exact Hd|exact TO]. }
      - intros u phi' d' v' Nu [D' I' N'].
        assert (DV' : forall o, d' o -> Nat.eqb (phi' o) lm = false).
        { intros o Ho. destruct (D' o Ho) as (_ & A2 & _). apply Nat.eqb_neq. unfold lm. lia. }
        constructor; cbn [znew zobjs znames].
        + intros o Ho. rewrite (DV' o Ho). destruct (D' o Ho) as (A1 & A2 & A3 & A4). rewrite app_length, nth_snoc by exact A2. cbn.
          repeat split; [exact A1|lia|exact A3|exact A4].
        + exact I'.
        + intros q Hq. destruct (N' q Hq) as (E & B). split.
          * unfold bind_name. destruct (Nat.eqb_spec q r) as [->|Nq]; [|exact E]. exfalso. rewrite Ow in Hq. destruct Hq as [[= ->]|Hq]; [congruence|discriminate].
          * intros o Ho. destruct (B o Ho) as (Hd & TO). rewrite (DV' o Hd). split; assumption.
    Qed.
    Lemma zgood_put o a : d o -> T (phi o) = Some t -> zgood T t m (None, zput v o a) (None, zput m (phi o) a).
    Proof.
      intros Hd TO. exists (zput m (phi o) a), T, phi, d. split; [reflexivity|]. destruct SM as [D I N].
      destruct (D o Hd) as (L1 & L2 & _ & _). split.
      - constructor; cbn [snd zput zobjs znames]; [|exact I|exact N].
        intros q Hq. destruct (D q Hq) as (A1 & A2 & A3 & A4). rewrite !length_put, !nth_put by assumption. repeat split; try assumption.
        destruct (Nat.eqb_spec q o) as [->|Nq]; [rewrite Nat.eqb_refl; reflexivity|].
        destruct (Nat.eqb_spec (phi q) (phi o)) as [E|_]; [exfalso; apply Nq; apply I; assumption|exact A3].
      - intros u phi' d' v' Nu [D' I' N']. constructor; cbn [zput zobjs znames]; [|exact I'|exact N'].
        intros q Hq. destruct (D' q Hq) as (A1 & A2 & A3 & A4). rewrite !length_put, !nth_put by assumption. repeat split; try assumption.
        destruct (Nat.eqb_spec (phi' q) (phi o)) as [E|_]; [|exact A3]. exfalso. rewrite E, TO in A4. destruct A4 as [[= ->]|A4]; [congruence|discriminate].
    Qed.
    Lemma zgood_bind r o : own r = Some t -> d o -> T (phi o) = Some t ->
      zgood T t m (None, mkz (zobjs v) (bind_name (znames v) r o)) (None, mkz (zobjs m) (bind_name (znames m) r (phi o))).
    Proof.
      intros Ow Hd TO. exists (mkz (zobjs m) (bind_name (znames m) r (phi o))), T, phi, d. split; [reflexivity|].
      destruct SM as [D I N]. split.
      - constructor; cbn [snd zobjs znames]; [exact D|exact I|].
        intros q Hq. unfold bind_name. destruct (Nat.eqb_spec q r) as [->|Nq]; [|apply N, Hq].
        split; [reflexivity|]. intros o' [= <-]. split; [exact Hd|congruence].
      - intros u phi' d' v' Nu [D' I' N']. constructor; cbn [zobjs znames]; [exact D'|exact I'|].
        intros q Hq. unfold bind_name. destruct (Nat.eqb_spec q r) as [->|Nq]; [|apply N', Hq].
        exfalso. rewrite Ow in Hq. destruct Hq as [[= ->]|Hq]; [congruence|discriminate].
    Qed.
    Lemma zget_sim r : usable (own r) t ->
      (zget v r = None /\ zget m r = None) \/ (exists o x, zget v r = Some (o, x) /\ zget m r = Some (phi o, x) /\ d o /\ T (phi o) = own r).
    Proof.
      intros U. unfold zget. destruct (z_nam _ _ _ _ _ _ SM r U) as (E & B). rewrite E.
      destruct (znames v r) as [o|]; cbn [option_map]; [|left; split; reflexivity].
      destruct (B o eq_refl) as (Hd & TO). destruct (z_dom _ _ _ _ _ _ SM o Hd) as (_ & _ & E2 & _). rewrite E2.
      destruct (nth_error (zobjs v) o) as [x|]; [|left; split; reflexivity]. right. exists o, x. repeat split; assumption.
    Qed.
    Lemma zgood_step s : zallowed own t s -> zgood T t m (zstep O s v) (zstep O s m).
    Proof.
      assert (MINE : forall o, own o = Some t -> usable (own o) t) by (intros o E; left; exact E).
      destruct s as [r f l|r a|r k a|r a|r u a|r b a1 a2|r a1 a2 a3|op r a|op r a]; cbn [zallowed zstep]; intros A.
      - apply zgood_new, A.
      - apply zgood_new, A.
      - apply zgood_new, A.
      - destruct A as (A1 & A2). destruct (zget_sim a (MINE a A2)) as [(E1 & E2)|(o & x & E1 & E2 & Hd & TO)]; rewrite E1, E2; [apply zgood_same|].
        apply zgood_bind; [exact A1|exact Hd|congruence].
      - destruct A as (A1 & A2). destruct (zget_sim a A2) as [(E1 & E2)|(o & x & E1 & E2 & Hd & TO)]; rewrite E1, E2; [apply zgood_same|]. apply zgood_new, A1.
      - destruct A as (A1 & A2 & A3). destruct (zget_sim a1 A2) as [(E1 & E2)|(o & x & E1 & E2 & Hd & TO)]; rewrite E1, E2; [apply zgood_same|].
        destruct (zget_sim a2 A3) as [(F1 & F2)|(o' & x' & F1 & F2 & Hd' & TO')]; rewrite F1, F2; [apply zgood_same|]. apply zgood_new, A1.
      - destruct A as (A1 & A2 & A3 & A4). destruct (zget_sim a1 A2) as [(E1 & E2)|(o & x & E1 & E2 & Hd & TO)]; rewrite E1, E2; [apply zgood_same|].
        destruct (zget_sim a2 A3) as [(F1 & F2)|(o' & x' & F1 & F2 & Hd' & TO')]; rewrite F1, F2; [apply zgood_same|].
        destruct (zget_sim a3 A4) as [(G1 & G2)|(o'' & x'' & G1 & G2 & Hd'' & TO'')]; rewrite G1, G2; [apply zgood_same|]. apply zgood_new, A1.
      - destruct A as (A1 & A2). destruct (zget_sim a A2) as [(E1 & E2)|(oa & y & E1 & E2 & Hda & TOa)]; rewrite E1, E2; [apply zgood_same|].
        destruct (zget_sim r (MINE r A1)) as [(F1 & F2)|(o & x & F1 & F2 & Hd & TO)]; rewrite F1, F2; [apply zgood_same|].
        assert (EQ : Nat.eqb (phi oa) (phi o) = Nat.eqb oa o).
        { destruct (Nat.eqb_spec oa o) as [->|N]; [apply Nat.eqb_refl|]. apply Nat.eqb_neq. intros E. apply N. exact (z_inj _ _ _ _ _ _ SM _ _ Hda Hd E). }
        rewrite EQ. apply zgood_put; [exact Hd|congruence].
      - destruct (zget_sim r (MINE r A)) as [(F1 & F2)|(o & x & F1 & F2 & Hd & TO)]; rewrite F1, F2; [apply zgood_same|].
        destruct op; try (apply zgood_new, A); apply zgood_put; [exact Hd|congruence|exact Hd|congruence].
    Qed.
  End Step.

  Lemma zthreads_run w : forall T vs phi d m, (forall t, zsim T t (phi t) (d t) (vs t) m) ->
    Forall (fun x => zallowed own (fst x) (snd x)) w ->
    let (es, m') := ztraced O (map snd w) m in
    exists T' vs' phi' d', (forall t, ztraced O (only_of t w) (vs t) = (pick t w es, vs' t)) /\ forall t, zsim T' t (phi' t) (d' t) (vs' t) m'.
  Proof.
    induction w as [|(t, s) w IH]; intros T vs phi d m SM A; cbn [map ztraced snd].
    - exists T, vs, phi, d. split; [intros t; reflexivity|exact SM].
    - inversion A as [|? ? A1 A2]; subst. cbn [fst snd] in A1.
      destruct (zgood_step T t (phi t) (d t) (vs t) m (SM t) s A1) as (m1 & T1 & phi1 & d1 & EM & S1 & FR).
      destruct (zstep O s (vs t)) as [e v'] eqn:EV. cbn [fst snd] in *. rewrite EM.
      assert (SM1 : forall u, zsim T1 u (upd_at phi t phi1 u) (upd_at d t d1 u) (upd_at vs t v' u) m1).
      { intros u. unfold upd_at. destruct (Nat.eqb_spec u t) as [->|Nu]; [exact S1|]. apply FR; [exact Nu|apply SM]. }
      specialize (IH T1 _ _ _ m1 SM1 A2). destruct (ztraced O (map snd w) m1) as [es m'].
      destruct IH as (T' & vs' & phi' & d' & E & S'). exists T', vs', phi', d'. split; [|exact S'].
      intros u. specialize (E u). rewrite only_cons, pick_cons. unfold upd_at in E. destruct (Nat.eqb_spec t u) as [->|Nu].
      + rewrite Nat.eqb_refl in E. cbn [ztraced]. rewrite EV, E. reflexivity.
      + destruct (Nat.eqb_spec u t); [congruence|]. exact E.
  Qed.
  Lemma threads_sparse w v0 : zseparate own v0 -> Forall (fun x => zallowed own (fst x) (snd x)) w ->
    forall t, let (es, m) := ztraced O (map snd w) v0 in
      fst (ztraced O (only_of t w) v0) = pick t w es /\ zsame_for own t (snd (ztraced O (only_of t w) v0)) m.
  Proof.
    intros (who & N0) A t.
    assert (SM : forall t, zsim who t (fun o => o) (fun o => (o < length (zobjs v0))%nat /\ usable (who o) t) v0 v0).
    { intros u. constructor.
      - intros o (H1 & H2). repeat split; assumption.
      - intros; assumption.
      - intros r U. split; [destruct (znames v0 r); reflexivity|]. intros o E. destruct (N0 r o E) as (E1 & L). rewrite <- E1. repeat split; assumption. }
    pose proof (zthreads_run w who (fun _ => v0) (fun _ o => o) _ v0 SM A) as R. destruct (ztraced O (map snd w) v0) as [es m].
    destruct R as (T' & vs' & phi' & d' & ES & S'). rewrite ES. split; [reflexivity|]. cbn [snd]. specialize (S' t). destruct S' as [D I N]. split.
    - intros r U. destruct (N r U) as (E & B). unfold znamed. rewrite E. destruct (znames (vs' t) r) as [o|]; [|reflexivity]. cbn.
      destruct (B o eq_refl) as (Hd & _). symmetry. apply D, Hd.
    - intros r r' U U'. destruct (N r U) as (E & B), (N r' U') as (E' & B'). rewrite E, E'.
      destruct (znames (vs' t) r) as [o|], (znames (vs' t) r') as [o'|]; cbn; split; intros H; try discriminate; try congruence.
      injection H as H. f_equal. apply I; [apply B; reflexivity|apply B'; reflexivity|exact H].
  Qed.
  Lemma ztraced_session p v : zsession O p v = snd (ztraced O p v).
  Proof. revert v. induction p as [|s p IH]; intros v; cbn; [reflexivity|]. rewrite IH. destruct (zstep O s v) as [e v']. cbn. destruct (ztraced O p v'). reflexivity. Qed.
End Sparse.

(** ** the order does not matter *)
Section Orders.
  Context {S : Type} (O : Ops S) (c : cfg) (own ownw : nat -> option nat).
  Lemma same_trans t (v1 v2 m : vheap S) : same_for own ownw t v1 v2 -> same_for own ownw t v1 m -> same_for own ownw t v2 m.
  Proof.
    intros (A1 & A2 & A3) (B1 & B2 & B3). repeat split.
    - intros r U. rewrite <- A1, <- B1 by exact U. reflexivity.
    - intros r U. rewrite <- A2, <- B2 by exact U. reflexivity.
    - intros E. apply (B3 r r'), (A3 r r'), E; assumption.
    - intros E. apply (A3 r r'), (B3 r r'), E; assumption.
  Qed.
  Lemma threads_orders w w' v0 es m : separate own ownw v0 ->
    Forall (fun x => allowed own ownw (fst x) (snd x)) w -> Forall (fun x => allowed own ownw (fst x) (snd x)) w' ->
    (forall t, only_of t w = only_of t w') ->
    vsession O c (map snd w) v0 = Ok (es, m) ->
    exists es' m', vsession O c (map snd w') v0 = Ok (es', m') /\
      forall t, pick t w es = pick t w' es' /\ same_for own ownw t m m'.
  Proof.
    intros SP A A' EQ E. destruct (threads_values O c own ownw w v0 SP A) as (I1 & I2).
    destruct (threads_values O c own ownw w' v0 SP A') as (J1 & J2).
    destruct (proj2 J1) as (es' & m' & E'). { intros t. rewrite <- EQ. apply I1. eauto. }
    exists es', m'. split; [exact E'|]. intros t. destruct (I2 _ _ E t) as (v & V1 & V2), (J2 _ _ E' t) as (v' & W1 & W2).
    rewrite EQ, W1 in V1. injection V1 as V1 <-. split; [symmetry; exact V1|]. exact (same_trans t v' m m' V2 W2).
  Qed.
End Orders.
