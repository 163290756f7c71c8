(** C115: the values and derivatives of sparse numbers whose scalars are dense numbers. *)
From Coq Require Import ZArith List Bool Reals Lra Lia String.
From Coquelicot Require Import Coquelicot.
From Verif Require Import Outcome Scalar Model Spec ModelS ModelNS SpecS NestSSpec Core OpsRep AccRep FactsOps FactsLayout FactsVar RealOps Deriv UDeriv BDeriv FactsS ExprSpec Expr Struct FactsExpr Chain FactsCtor FactsNum Samples NestSpec FactsNest FactsNestS.
Import ListNotations.
Open Scope R_scope.

Section Values.
  Context (c : cfg) (Hc : cfg_ok c) (n : nat).
  Definition dj (u : dual) : jet R := mkjet (du_f u) (du_g u) (du_h u).
  Lemma has_rep x u : has c n x u <-> rep c n (dj u) x.
  Proof.
    split.
    - intros (W & Hf & Hg & Hh). destruct (wf_rep _ _ _ W) as (J & HJ). eapply rep_jeq; [|exact HJ]. split; [|split].
      + pose proof (get_f_rep _ _ _ _ HJ) as E. cbn. congruence.
      + intros i Hi. pose proof (get_g_rep _ _ _ _ _ HJ Hi) as E. cbn. rewrite Hg in E by exact Hi. congruence.
      + intros No i j Hij. assert (Ho2 : c_ord c = 2%Z) by (destruct Hc as ([H|H] & _); [contradiction|exact H]).
        pose proof (get_h_rep _ _ _ _ i j HJ No ltac:(lia) ltac:(lia)) as E.
        rewrite Hh in E by (try exact Ho2; lia). rewrite hess_upper in E by lia. cbn. congruence.
    - intros H. apply rep_shows in H. destruct H as (W & Hf & Hg & Hh). split; [exact W|]. split; [exact Hf|]. split; [exact Hg|].
      intros Ho i j Hij. rewrite Hh by (try exact Ho; lia). rewrite hess_upper by lia. reflexivity.
  Qed.
  Definition tabs (t : table (dd R)) (T : string -> dual) : Prop := forall k v, t_find t k = Some v -> has c n v (T k).
  Definition lifts (f : dd R -> res (dd R)) (p : dual -> dual) : Prop := forall v u, has c n v u -> exists r, f v = Ok r /\ has c n r (p u).
  Lemma tabs_tail k v t T : ~ In k (map fst t) -> tabs ((k, v) :: t) T -> has c n v (T k) /\ tabs t T.
  Proof.
    intros HN H. split; [apply H; cbn; rewrite String.eqb_refl; reflexivity|]. intros k' v' E. apply H. cbn.
    destruct (String.eqb_spec k k') as [<-|]; [|exact E]. exfalso. apply HN. apply (proj2 (in_keys t k)). eauto.
  Qed.
  Lemma map_tabs f p t T : lifts f p -> NoDup (map fst t) -> tabs t T ->
    exists t', ns_map f t = Ok t' /\ map fst t' = map fst t /\ tabs t' (fun k => p (T k)).
  Proof.
    intros Hf. induction t as [|(k, v) t IH]; cbn [ns_map map fst]; intros ND H.
    - exists []. split; [reflexivity|]. split; [reflexivity|]. intros k0 v0 E; discriminate E.
    - inversion ND as [|? ? Hn Hd]; subst. destruct (tabs_tail k v t T Hn H) as (H0 & H1).
      destruct (Hf v _ H0) as (r & -> & Hr). destruct (IH Hd H1) as (t' & -> & E & Ht). cbn [bind]. eexists. split; [reflexivity|].
      split; [cbn; f_equal; exact E|]. intros k' v'. cbn. destruct (String.eqb_spec k k') as [<-|]; [intros [= <-]; exact Hr|apply Ht].
  Qed.
  Lemma update_tabs f p t T k : lifts f p -> NoDup (map fst t) -> tabs t T -> In k (map fst t) ->
    exists t', ns_update Rops c t k f = Ok t' /\ map fst t' = map fst t /\ tabs t' (fun k' => if String.eqb k k' then p (T k') else T k').
  Proof.
    intros Hf. induction t as [|(k0, v) t IH]; cbn [ns_update map fst In]; [tauto|]. intros ND H HI.
    inversion ND as [|? ? Hn Hd]; subst. destruct (tabs_tail k0 v t T Hn H) as (H0 & H1).
    destruct (String.eqb_spec k0 k) as [->|Ne].
    - destruct (Hf v _ H0) as (r & -> & Hr). cbn [bind]. eexists. split; [reflexivity|]. split; [reflexivity|].
      intros k' v'. cbn. destruct (String.eqb_spec k k') as [<-|]; [intros [= <-]; exact Hr|apply H1].
    - destruct HI as [HI|HI]; [contradiction|]. destruct (IH Hd H1 HI) as (t' & -> & E & Ht). cbn [bind]. eexists. split; [reflexivity|].
      split; [cbn; f_equal; exact E|]. intros k' v'. cbn. destruct (String.eqb_spec k0 k') as [<-|]; [|apply Ht].
      intros [= <-]. destruct (String.eqb_spec k k0); [congruence|exact H0].
  Qed.
  Lemma merge_tabs g p b : (forall w x, has c n w x -> lifts (fun o => g o w) (fun u => p u x)) -> NoDup (map fst b) ->
    forall t T TB, NoDup (map fst t) -> tabs t T -> tabs b TB -> (forall k, In k (map fst b) -> In k (map fst t)) ->
    exists t', ns_merge Rops c g t b = Ok t' /\ map fst t' = map fst t /\ tabs t' (fun k => match t_find b k with Some _ => p (T k) (TB k) | None => T k end).
  Proof.
    intros Hg. induction b as [|(k, v) b IH]; intros NB t T TB NT Ht Hb HI; cbn [ns_merge map fst In] in *.
    - exists t. split; [reflexivity|]. split; [reflexivity|]. exact Ht.
    - inversion NB as [|? ? Hn Hd]; subst. destruct (tabs_tail k v b TB Hn Hb) as (H0 & H1).
      destruct (update_tabs (fun o => g o v) (fun u => p u (TB k)) t T k (Hg v _ H0) NT Ht (HI k (or_introl eq_refl))) as (t1 & -> & E1 & Ht1). cbn [bind].
      destruct (IH Hd t1 _ TB ltac:(rewrite E1; exact NT) Ht1 H1) as (t2 & -> & E2 & Ht2); [intros k' H'; rewrite E1; apply HI; auto|].
      exists t2. split; [reflexivity|]. split; [congruence|]. intros k' v' E. specialize (Ht2 k' v' E). cbn beta in Ht2. cbn [t_find].
      destruct (String.eqb_spec k k') as [<-|]; [|exact Ht2].
      destruct (t_find b k) eqn:F; [|exact Ht2]. exfalso. apply Hn. apply (proj2 (in_keys b k)). eauto.
  Qed.
  Ltac jets := split; [|split; [intros i Hi|intros Ho i j Hi]]; cbn; ring.
  Definition fd (a : fac (S := R)) (u : dual) : Prop := match a with FInt z => u = mkdual (IZR z) (fun _ => 0) (fun _ _ => 0) | FNum x => has c n x u end.
  Lemma lifts_times_assign a y : fd a y -> lifts (fun v => times_assign Rops c v a) (fun u => dual_mul u y).
  Proof.
    intros Ha v u H. apply has_rep in H. destruct a as [z|x]; cbn [times_assign fd] in *.
    - subst y. destruct (muls_assign_rep Rops c n _ v (IZR z) H) as (r & E & R). exists r. split; [exact E|]. apply has_rep.
      eapply rep_jeq; [|exact R]. jets.
    - apply has_rep in Ha. destruct (mul_assign_rep Rops c n _ _ v x H Ha) as (r & E & R). exists r. split; [exact E|]. apply has_rep.
      eapply rep_jeq; [|exact R]. jets.
  Qed.
  Lemma lifts_times a y : fd a y -> lifts (times Rops c a) (fun u => dual_mul y u).
  Proof.
    intros Ha v u H. apply has_rep in H. destruct a as [z|x]; cbn [times fd] in *.
    - subst y. destruct (muls_rep Rops c n _ v (IZR z) H) as (r & E & R). exists r. split; [exact E|]. apply has_rep.
      eapply rep_jeq; [|exact R]. jets.
    - apply has_rep in Ha. destruct (apply_b_rep Rops c Hc n _ _ x v Bmul Ha H) as (r & E & R). exists r. split; [exact E|]. apply has_rep.
      eapply rep_jeq; [|exact R]. jets.
  Qed.
  Lemma lifts_add w x : has c n w x -> lifts (fun o => add_assign Rops c o (Some w)) (fun u => dual_add u x).
  Proof.
    intros Hw v u H. apply has_rep in H, Hw. destruct (add_assign_rep Rops c n _ _ v w H Hw) as (r & E & R). exists r. split; [exact E|]. apply has_rep.
    eapply rep_jeq; [|exact R]. jets.
  Qed.
  Lemma lifts_sub w x : has c n w x -> lifts (fun o => sub_assign Rops c o (Some w)) (fun u => dual_sub u x).
  Proof.
    intros Hw v u H. apply has_rep in H, Hw. destruct (sub_assign_rep Rops c n _ _ v w H Hw) as (r & E & R). exists r. split; [exact E|]. apply has_rep.
    eapply rep_jeq; [|exact R]. jets.
  Qed.
  Lemma lifts_mul w x : has c n w x -> lifts (fun o => mul_assign Rops c o (Some w)) (fun u => dual_mul u x).
  Proof. intros Hw. exact (lifts_times_assign (FNum w) x Hw). Qed.
  (** What equals what: enough for [has]. *)
  Definition deq (u v : dual) : Prop := du_f u = du_f v /\ (forall i, du_g u i = du_g v i) /\ (forall i j, du_h u i j = du_h v i j).
  Lemma has_deq x u v : deq u v -> has c n x u -> has c n x v.
  Proof. intros (A & B & C) H. apply has_rep. apply has_rep in H. eapply rep_jeq; [|exact H]. split; [exact A|]. split; intros; [apply B|apply C]. Qed.
  Lemma binary_tabs a b da db ya yb TA TB : fd da ya -> fd db yb -> NoDup (map fst a) -> NoDup (map fst b) -> tabs a TA -> tabs b TB ->
    (forall k, In k (map fst b) -> In k (map fst a)) -> (forall k, t_find b k = None -> dual_zero (TB k)) ->
    exists t, ns_binary Rops c a b da db = Ok t /\ map fst t = map fst a /\ tabs t (fun k => dual_add (dual_mul (TA k) ya) (dual_mul yb (TB k))).
  Proof.
    intros Fa Fb Na Nb Ha Hb HI HZ. unfold ns_binary.
    destruct (map_tabs _ _ a TA (lifts_times_assign da ya Fa) Na Ha) as (r & -> & Er & Hr). cbn [bind].
    destruct (merge_tabs (fun o v => w <- times Rops c db v ;; add_assign Rops c o (Some w)) (fun u x => dual_add u (dual_mul yb x)) b) with (t := r) (T := fun k => dual_mul (TA k) ya) (TB := TB) as (t & Et & Ek & Ht);
      [|exact Nb|rewrite Er; exact Na|exact Hr|exact Hb|rewrite Er; exact HI|].
    - intros w x Hw v u Hv. destruct (lifts_times db yb Fb w x Hw) as (z & -> & Hz). cbn [bind]. exact (lifts_add z _ Hz v u Hv).
    - exists t. split; [exact Et|]. split; [congruence|]. intros k v E. specialize (Ht k v E). cbn beta in Ht. destruct (t_find b k) eqn:F; [exact Ht|].
      destruct (HZ k F) as (Z0 & Z1 & Z2). eapply has_deq; [|exact Ht]. split; [|split; intros]; cbn; rewrite ?Z0, ?Z1, ?Z2; ring.
  Qed.
  Lemma finish a f t u T T' : NoDup (map fst (s_d a)) -> has c n f u -> map fst t = map fst (s_d a) -> tabs t T ->
    (forall k, deq (T k) (T' k)) -> (forall k, t_find (s_d a) k = None -> dual_zero (T' k)) -> gives_s c n a (Ok (mks f t)) u T'.
  Proof.
    intros ND Hf E Ht HD HZ. eexists. split; [reflexivity|]. split; [exact E|]. split; [cbn; rewrite E; exact ND|]. split; [exact Hf|].
    intros k. cbn. destruct (t_find t k) as [v|] eqn:F; [eapply has_deq; [apply HD|apply Ht, F]|].
    apply HZ. apply find_none. apply find_none in F. unfold keys in *. rewrite <- E. exact F.
  Qed.
  Lemma values a b u v TA TB : has_s c n a u TA -> has_s c n b v TB -> ~ new_name a b ->
    gives_s c n a (ns_add Rops c a b) (dual_add u v) (fun k => dual_add (TA k) (TB k)) /\
    gives_s c n a (ns_sub Rops c a b) (dual_sub u v) (fun k => dual_sub (TA k) (TB k)) /\
    gives_s c n a (ns_mul Rops c a b) (dual_mul u v) (fun k => dual_add (dual_mul (TA k) v) (dual_mul u (TB k))) /\
    gives_s c n a (ns_add_assign Rops c a b) (dual_add u v) (fun k => dual_add (TA k) (TB k)) /\
    gives_s c n a (ns_sub_assign Rops c a b) (dual_sub u v) (fun k => dual_sub (TA k) (TB k)) /\
    gives_s c n a (ns_mul_assign Rops c a b) (dual_mul u v) (fun k => dual_add (dual_mul (TA k) v) (dual_mul u (TB k))).
  Proof.
    intros (NA & HA & KA) (NB & HB & KB) HN.
    assert (HI : forall k, In k (map fst (s_d b)) -> In k (map fst (s_d a))).
    { intros k Hk. destruct (in_dec string_dec k (map fst (s_d a))) as [H|H]; [exact H|]. destruct HN. exists k. auto. }
    assert (TAs : tabs (s_d a) TA) by (intros k w E; specialize (KA k); rewrite E in KA; exact KA).
    assert (TBs : tabs (s_d b) TB) by (intros k w E; specialize (KB k); rewrite E in KB; exact KB).
    assert (ZA : forall k, t_find (s_d a) k = None -> dual_zero (TA k)) by (intros k E; specialize (KA k); rewrite E in KA; exact KA).
    assert (ZB : forall k, t_find (s_d b) k = None -> dual_zero (TB k)) by (intros k E; specialize (KB k); rewrite E in KB; exact KB).
    assert (ZZ : forall k, t_find (s_d a) k = None -> dual_zero (TA k) /\ dual_zero (TB k)).
    { intros k E. split; [apply ZA, E|]. apply ZB, find_none. apply find_none in E. intros Hk. apply E, HI, Hk. }
    pose proof (proj1 (has_rep _ _) HA) as RA. pose proof (proj1 (has_rep _ _) HB) as RB.
    destruct (apply_b_rep Rops c Hc n _ _ _ _ Badd RA RB) as (r1 & E1 & R1).
    destruct (apply_b_rep Rops c Hc n _ _ _ _ Bsub RA RB) as (r2 & E2 & R2).
    destruct (apply_b_rep Rops c Hc n _ _ _ _ Bmul RA RB) as (r3 & E3 & R3).
    assert (H1 : has c n r1 (dual_add u v)) by (apply has_rep; eapply rep_jeq; [|exact R1]; jets).
    assert (H2 : has c n r2 (dual_sub u v)) by (apply has_rep; eapply rep_jeq; [|exact R2]; jets).
    assert (H3 : has c n r3 (dual_mul u v)) by (apply has_rep; eapply rep_jeq; [|exact R3]; jets).
    destruct (lifts_add _ _ HB _ _ HA) as (r4 & E4 & H4). destruct (lifts_sub _ _ HB _ _ HA) as (r5 & E5 & H5). destruct (lifts_mul _ _ HB _ _ HA) as (r6 & E6 & H6).
    cbn [apply_b] in E1, E2, E3.
    unfold ns_add, ns_sub, ns_mul, ns_add_assign, ns_sub_assign, ns_mul_assign. rewrite E1, E2, E3, E4, E5, E6. cbn [bind].
    destruct (binary_tabs (s_d a) (s_d b) (FInt 1) (FInt 1) _ _ TA TB eq_refl eq_refl NA NB TAs TBs HI ZB) as (t1 & -> & K1 & T1).
    destruct (binary_tabs (s_d a) (s_d b) (FInt 1) (FInt (-1)) _ _ TA TB eq_refl eq_refl NA NB TAs TBs HI ZB) as (t2 & -> & K2 & T2).
    destruct (binary_tabs (s_d a) (s_d b) (FNum (s_f b)) (FNum (s_f a)) _ _ TA TB HB HA NA NB TAs TBs HI ZB) as (t3 & -> & K3 & T3).
    destruct (merge_tabs _ dual_add (s_d b) lifts_add NB (s_d a) TA TB NA TAs TBs HI) as (t4 & -> & K4 & T4).
    destruct (merge_tabs _ dual_sub (s_d b) lifts_sub NB (s_d a) TA TB NA TAs TBs HI) as (t5 & -> & K5 & T5). cbn [bind].
    repeat match goal with |- _ /\ _ => split end; (eapply finish; [exact NA|eassumption|eassumption|eassumption| |]).
    1,3,5,7,9,11: intros k; cbn beta; try (split; [|split; intros]; cbn; ring).
    1,2: destruct (t_find (s_d b) k) eqn:F; [split; [|split; intros]; reflexivity|];
      destruct (ZB k F) as (Z0 & Z1 & Z2); split; [|split; intros]; cbn; rewrite ?Z0, ?Z1, ?Z2; ring.
    all: intros k F; destruct (ZZ k F) as ((A0 & A1 & A2) & (B0 & B1 & B2)); split; [|split; intros]; cbn; rewrite ?A0, ?A1, ?A2, ?B0, ?B1, ?B2; ring.
  Qed.
End Values.

(** Both names entered by hand with [SScalar(f, data)]. *)
Definition by_hand (f dx dy : R) : ss (dd R) :=
  mks (mk 1 [Some f; Some dx]) [("x", mk 1 [Some dx; Some 0]); ("y", mk 1 [Some dy; Some 0])]%string.
Lemma by_hand_has f dx dy : has_s (sta1 1) 1 (by_hand f dx dy) (mkdual f (fun _ => dx) (fun _ _ => 0))
  (fun k => mkdual (if String.eqb k "x" then dx else if String.eqb k "y" then dy else 0) (fun _ => 0) (fun _ _ => 0)).
Proof.
  assert (W : forall u v : R, wf (sta1 1) 1 (mk 1 [Some u; Some v])).
  { intros. repeat split; try (vm_compute; congruence). intros [|[|k]] Hk; cbn in *; eauto; lia. }
  assert (HH : forall u v h, has (sta1 1) 1 (mk 1 [Some u; Some v]) (mkdual u (fun _ => v) h)).
  { intros u v h. split; [apply W|]. split; [reflexivity|]. split; [|intros E; discriminate E]. intros i Hi. assert (i = 0%nat) by lia. subst i. reflexivity. }
  split; [cbn; repeat constructor; cbn; intuition discriminate|]. split; [apply HH|].
  intros k. cbn [s_d by_hand t_find]. rewrite (String.eqb_sym "x" k), (String.eqb_sym "y" k).
  destruct (String.eqb k "x"); [apply HH|]. destruct (String.eqb k "y"); [apply HH|]. repeat split.
Qed.
Lemma by_hand_names f dx dy f' dx' dy' : ~ new_name (by_hand f dx dy) (by_hand f' dx' dy').
Proof. intros (k & A & B). exact (B A). Qed.
