(** Scalar products and norms of vectors of expressions over the reals, sums of doubles in any order (C96). *)
From Coq Require Import ZArith List Bool Lia Permutation Reals Lra.
From Coquelicot Require Import Coquelicot.
From Flocq Require Import Core BinarySingleNaN.
From Verif Require Import Outcome Scalar Float64 Model Spec RealOps ExprSpec RedSpec Samples FactsExpr FactsRed Ops64 B64 Facts64 FactsErr.
Import ListNotations.
Open Scope R_scope.

(** *** reals *)
Definition lsum (l : list R) : R := fold_right Rplus 0 l.
Lemma lsum_app l l' : lsum (l ++ l') = lsum l + lsum l'.
Proof. induction l as [|a l IH]; [symmetry; apply Rplus_0_l|]. change (a + lsum (l ++ l') = a + lsum l + lsum l'). rewrite IH. lra. Qed.
Lemma lsum_perm l l' : Permutation l l' -> lsum l = lsum l'.
Proof.
  induction 1 as [|a l l' _ IH|a b l|l m l' _ IH1 _ IH2]; cbn; [reflexivity| | |congruence].
  - fold (lsum l) (lsum l'). rewrite IH. reflexivity.
  - fold (lsum l). lra.
Qed.
Lemma lsum_seq m f : lsum (map f (seq 0 m)) = rsum m f.
Proof. induction m as [|m IH]; [reflexivity|]. rewrite seq_S, map_app, lsum_app, IH. cbn. lra. Qed.
Lemma edot_rev e f t p : rev (edot e f t) p = lsum (map (fun k => rev (e k) p * rev (f k) p) (leaves t)).
Proof.
  unfold edot. induction t as [k|l IHl r IHr]; cbn [leaves tmap tfold rev breal map].
  - cbn. lra.
  - rewrite map_app, lsum_app, IHl, IHr. reflexivity.
Qed.
Lemma edot_dom e f t p : (forall k, In k (leaves t) -> dom (e k) p /\ dom (f k) p) -> dom (edot e f t) p.
Proof.
  unfold edot. induction t as [k|l IHl r IHr]; cbn [leaves tmap tfold dom]; intros H.
  - destruct (H k (or_introl eq_refl)) as (D1 & D2). repeat split; assumption.
  - split; [apply IHl; intros k Hk; apply H, in_or_app; left; exact Hk|]. split; [apply IHr; intros k Hk; apply H, in_or_app; right; exact Hk|]. exact I.
Qed.
Lemma edot_vars e f t n : (forall k, In k (leaves t) -> vars_below n (e k) /\ vars_below n (f k)) -> vars_below (S := R) n (edot e f t).
Proof.
  unfold edot. induction t as [k|l IHl r IHr]; cbn [leaves tmap tfold vars_below]; intros H.
  - apply H. left. reflexivity.
  - split; [apply IHl; intros k Hk; apply H, in_or_app; left; exact Hk|apply IHr; intros k Hk; apply H, in_or_app; right; exact Hk].
Qed.
Section Exact.
  Context (c : cfg) (n m : nat) (p : nat -> R) (t : tree nat) (Hc : cfg_ok c) (Hs : size_ok c n) (P : Permutation (leaves t) (seq 0 m)).
  Lemma below k : In k (leaves t) -> (k < m)%nat.
  Proof. intros Hk. apply (Permutation_in _ P), in_seq in Hk. lia. Qed.
  Lemma dot_fun e f q : rev (edot e f t) q = rsum m (fun k => rev (e k) q * rev (f k) q).
  Proof. rewrite edot_rev, <- lsum_seq. apply lsum_perm, Permutation_map, P. Qed.
  Lemma partial_ext F G i l : (forall q, F q = G q) -> partial F i p l -> partial G i p l.
  Proof. intros E D. unfold partial in *. eapply is_derive_ext; [|exact D]. intros s. apply E. Qed.
  Lemma partial2_ext F G i j l : (forall q, F q = G q) -> partial2 F i j p l -> partial2 G i j p l.
  Proof.
    intros E (D & L & DD). exists D. split; [|exact DD]. revert L. apply filter_imp. intros s H. unfold partial in *.
    eapply is_derive_ext; [|exact H]. intros s'. apply E.
  Qed.
  Lemma expr_exact (E : expr R) (F : (nat -> R) -> R) : vars_below n E -> dom E p -> (forall q, rev E q = F q) ->
    exists xs r f g h, variables Rops c (coords n p) = Ok xs /\ run Rops c n xs E = Ok r /\ shows c n r f g h /\ f = F p /\
      (forall i, (i < n)%nat -> partial F i p (g i)) /\
      (c_ord c = 2%Z -> forall i j, (i < n)%nat -> (j < n)%nat -> partial2 F i j p (h i j)).
  Proof.
    intros V D EF. destruct (exact1 c n E p Hc Hs V D) as (xs & r & E1 & E2 & W & Gf & g & Gg & _).
    destruct (proj1 Hc) as [O1|O2].
    - exists xs, r, (F p), g, (fun _ _ => 0). split; [exact E1|]. split; [exact E2|]. split.
      { split; [exact W|]. split; [rewrite Gf, EF; reflexivity|]. split; [intros i Hi; apply Gg, Hi|]. intros O2. rewrite O1 in O2. discriminate. }
      split; [reflexivity|]. split; [intros i Hi; apply (partial_ext (rev E)); [exact EF|apply Gg, Hi]|]. intros O2. rewrite O1 in O2. discriminate.
    - destruct (exact2 c n E p Hc O2 Hs V D) as (xs' & r' & E1' & E2' & _ & h & Hh & _). rewrite E1 in E1'. injection E1' as <-. rewrite E2 in E2'. injection E2' as <-.
      exists xs, r, (F p), g, h. split; [exact E1|]. split; [exact E2|]. split.
      { split; [exact W|]. split; [rewrite Gf, EF; reflexivity|]. split; [intros i Hi; apply Gg, Hi|]. intros _ i j Hi Hj. apply Hh; assumption. }
      split; [reflexivity|]. split; [intros i Hi; apply (partial_ext (rev E)); [exact EF|apply Gg, Hi]|].
      intros _ i j Hi Hj. apply (partial2_ext (rev E)); [exact EF|apply Hh; assumption].
  Qed.
  Lemma dot_exact e f : (forall k, (k < m)%nat -> vars_below n (e k) /\ vars_below n (f k) /\ dom (e k) p /\ dom (f k) p) ->
    let F := fun q => rsum m (fun k => rev (e k) q * rev (f k) q) in
    exists xs r v g h, variables Rops c (coords n p) = Ok xs /\ run Rops c n xs (edot e f t) = Ok r /\ shows c n r v g h /\ v = F p /\
      (forall i, (i < n)%nat -> partial F i p (g i)) /\
      (c_ord c = 2%Z -> forall i j, (i < n)%nat -> (j < n)%nat -> partial2 F i j p (h i j)).
  Proof.
    intros H. apply expr_exact.
    - apply edot_vars. intros k Hk. destruct (H k (below k Hk)) as (A & B & _). split; assumption.
    - apply edot_dom. intros k Hk. destruct (H k (below k Hk)) as (_ & _ & A & B). split; assumption.
    - intros q. apply dot_fun.
  Qed.
  Lemma rsum_sq (f : nat -> R) k : (k < m)%nat -> f k <> 0 -> 0 < rsum m (fun k => f k * f k).
  Proof.
    clear. assert (P0 : forall m, 0 <= rsum m (fun k => f k * f k)). { intros q. induction q as [|m0 IH]; cbn [rsum]; [lra|]. pose proof (Rle_0_sqr (f m0)) as Q. unfold Rsqr in Q. lra. }
    induction m as [|m0 IH]; intros H N; [lia|]. cbn [rsum]. destruct (Nat.eq_dec k m0) as [->|K].
    - pose proof (P0 m0). assert (0 < f m0 * f m0) by (apply Rsqr_pos_lt in N; exact N). lra.
    - pose proof (IH ltac:(lia) N). pose proof (Rle_0_sqr (f m0)) as Q. unfold Rsqr in Q. lra.
  Qed.
  Lemma norm_exact e : (forall k, (k < m)%nat -> vars_below n (e k) /\ dom (e k) p) -> (exists k, (k < m)%nat /\ rev (e k) p <> 0) ->
    let F := fun q => sqrt (rsum m (fun k => rev (e k) q * rev (e k) q)) in
    exists xs r v g h, variables Rops c (coords n p) = Ok xs /\ run Rops c n xs (enorm e t) = Ok r /\ shows c n r v g h /\ v = F p /\
      (forall i, (i < n)%nat -> partial F i p (g i)) /\
      (c_ord c = 2%Z -> forall i j, (i < n)%nat -> (j < n)%nat -> partial2 F i j p (h i j)).
  Proof.
    intros H (k0 & K0 & N0). apply expr_exact.
    - cbn [enorm vars_below]. apply edot_vars. intros k Hk. destruct (H k (below k Hk)). split; assumption.
    - cbn [enorm dom]. split; [apply edot_dom; intros k Hk; destruct (H k (below k Hk)); split; assumption|].
      rewrite dot_fun. cbn [udom]. apply (rsum_sq (fun k => rev (e k) p) k0 K0 N0).
    - intros q. cbn [enorm rev]. rewrite dot_fun. reflexivity.
  Qed.
End Exact.

(** *** doubles *)
Lemma add_not_finite_r a b : is_finite b = false -> is_finite (b64_add a b) = false.
Proof. destruct a as [?|[]| |? ? ? ?], b as [?|[]| |? ? ? ?]; try discriminate; reflexivity. Qed.
Lemma add_finite a b : finite64 (b64_add a b) -> finite64 a /\ finite64 b.
Proof.
  unfold finite64. intros F. split.
  - destruct (is_finite a) eqn:E; [reflexivity|]. rewrite (add_not_finite a b E) in F. exact F.
  - destruct (is_finite b) eqn:E; [reflexivity|]. rewrite (add_not_finite_r a b E) in F. exact F.
Qed.
Definition asum (l : list b64) : R := lsum (map (fun v => Rabs (val64 v)) l).
Definition vsum (l : list b64) : R := lsum (map val64 l).
Lemma asum_pos l : 0 <= asum l.
Proof. induction l as [|a l IH]; [apply Rle_refl|]. change (0 <= Rabs (val64 a) + asum l). pose proof (Rabs_pos (val64 a)). lra. Qed.
Lemma vsum_le l : Rabs (vsum l) <= asum l.
Proof. induction l as [|a l IH]; [cbn; rewrite Rabs_R0; apply Rle_refl|]. change (Rabs (val64 a + vsum l) <= Rabs (val64 a) + asum l). eapply Rle_trans; [apply Rabs_triang|]. lra. Qed.
Lemma pow_mono u a b : 0 <= u -> (a <= b)%nat -> (1 + u) ^ a <= (1 + u) ^ b.
Proof. intros U L. apply Rle_pow; [lra|exact L]. Qed.
Lemma sum_tree_error (t : tree b64) : finite64 (tfold b64_add t) ->
  List.Forall finite64 (leaves t) /\ Rabs (val64 (tfold b64_add t) - vsum (leaves t)) <= ((1 + u64) ^ depth t - 1) * asum (leaves t).
Proof.
  assert (U : 0 <= u64) by (apply Rlt_le, bpow_gt_0).
  induction t as [a|l IHl r IHr]; cbn [tfold leaves depth]; intros F.
  - split; [repeat constructor; exact F|]. cbn. rewrite Rplus_0_r, Rminus_diag_eq, Rabs_R0 by reflexivity. pose proof (Rabs_pos (val64 a)). lra.
  - destruct (add_finite _ _ F) as (Fl & Fr). destruct (IHl Fl) as (GL & BL), (IHr Fr) as (GR & BR). split; [apply List.Forall_app; split; assumption|].
    destruct (local_errors (tfold b64_add l) (tfold b64_add r)) as (LE & _). specialize (LE F).
    unfold vsum, asum in *. rewrite !map_app, !lsum_app. fold (vsum (leaves l)) (vsum (leaves r)) (asum (leaves l)) (asum (leaves r)) in *.
    set (d := Nat.max (depth l) (depth r)). set (g := (1 + u64) ^ d).
    assert (G1 : 1 <= g) by (apply pow_R1_Rle; lra).
    assert (BL' : Rabs (val64 (tfold b64_add l) - vsum (leaves l)) <= (g - 1) * asum (leaves l)).
    { eapply Rle_trans; [exact BL|]. apply Rmult_le_compat_r; [apply asum_pos|]. pose proof (pow_mono u64 (depth l) d U ltac:(unfold d; lia)). unfold g. lra. }
    assert (BR' : Rabs (val64 (tfold b64_add r) - vsum (leaves r)) <= (g - 1) * asum (leaves r)).
    { eapply Rle_trans; [exact BR|]. apply Rmult_le_compat_r; [apply asum_pos|]. pose proof (pow_mono u64 (depth r) d U ltac:(unfold d; lia)). unfold g. lra. }
    cbn [pow]. fold d g.
    set (x := val64 (tfold b64_add l)) in *. set (y := val64 (tfold b64_add r)) in *. set (z := val64 (b64_add _ _)) in *.
    pose proof (vsum_le (leaves l)) as VL. pose proof (vsum_le (leaves r)) as VR.
    set (sl := vsum (leaves l)) in *. set (sr := vsum (leaves r)) in *. set (al := asum (leaves l)) in *. set (ar := asum (leaves r)) in *.
    assert (AX : Rabs (x + y) <= g * (al + ar)).
    { replace (x + y) with ((x - sl) + (y - sr) + (sl + sr)) by ring. eapply Rle_trans; [apply Rabs_triang|].
      eapply Rle_trans; [apply Rplus_le_compat; apply Rabs_triang|]. lra. }
    replace (z - (sl + sr)) with ((z - (x + y)) + ((x - sl) + (y - sr))) by ring.
    eapply Rle_trans; [apply Rabs_triang|]. eapply Rle_trans; [apply Rplus_le_compat; [exact LE|apply Rabs_triang]|].
    assert (u64 * Rabs (x + y) <= u64 * (g * (al + ar))) by (apply Rmult_le_compat_l; assumption). lra.
Qed.
Lemma lsum_tree (f : nat -> R) (t : tree nat) m : Permutation (leaves t) (seq 0 m) -> lsum (map f (leaves t)) = rsum m f.
Proof. intros P. rewrite <- lsum_seq. apply lsum_perm, Permutation_map, P. Qed.
Lemma depth_tmap {A B} (f : A -> B) t : depth (tmap f t) = depth t.
Proof. induction t; cbn; congruence. Qed.
Lemma component_error (f : nat -> b64) (t : tree nat) m : Permutation (leaves t) (seq 0 m) -> finite64 (tfold b64_add (tmap f t)) ->
  Rabs (val64 (tfold b64_add (tmap f t)) - rsum m (fun k => val64 (f k))) <= ((1 + u64) ^ depth t - 1) * rsum m (fun k => Rabs (val64 (f k))).
Proof.
  intros P F. destruct (sum_tree_error (tmap f t) F) as (_ & B). rewrite depth_tmap, leaves_tmap in B. unfold vsum, asum in B. rewrite !map_map in B.
  rewrite (lsum_tree (fun k => val64 (f k)) t m P), (lsum_tree (fun k => Rabs (val64 (f k))) t m P) in B. exact B.
Qed.
Lemma sums_of_doubles M c n m (x : nat -> dd b64) f g h (t : tree nat) : cfg_ok c -> Permutation (leaves t) (seq 0 m) ->
  (forall k, (k < m)%nat -> shows c n (x k) (f k) (g k) (h k)) ->
  exists r F G H, reduce (b64ops M) c Badd (tmap x t) = Ok r /\ shows c n r F G H /\
    let close (v : b64) (w : nat -> b64) :=
      finite64 v -> Rabs (val64 v - rsum m (fun k => val64 (w k))) <= ((1 + u64) ^ depth t - 1) * rsum m (fun k => Rabs (val64 (w k))) in
    close F f /\ (forall i, close (G i) (fun k => g k i)) /\ (forall i j, close (H i j) (fun k => h k i j)).
Proof.
  intros Hc P H. destruct (sum_components (b64ops M) c Hc n x f g h t) as (r & E & S).
  { intros k Hk. apply H. apply (Permutation_in _ P), in_seq in Hk. lia. }
  exists r. do 3 eexists. split; [exact E|]. split; [exact S|]. cbv zeta. cbn [o_add b64ops]. split; [|split].
  - apply component_error, P.
  - intros i. apply (component_error (fun k => g k i)), P.
  - intros i j. apply (component_error (fun k => h k i j)), P.
Qed.
Lemma constant_shows M v : exists x, constant_n (b64ops M) dyn1 v 0 = Ok x /\ shows dyn1 0 x v (fun _ => b64_of_Z 0) (fun _ _ => b64_of_Z 0).
Proof.
  exists (mk 0 [Some v]). split; [reflexivity|]. split; [split; [reflexivity|]; split; [reflexivity|]; split; [|vm_compute; discriminate]|].
  - intros [|k] Hk; [eexists; reflexivity|cbn in Hk; lia].
  - split; [reflexivity|]. split; [intros i Hi; lia|intros _ i j Hi; lia].
Qed.
Lemma order_matters : forall M : libm,
  ~ (forall c n (t t' : tree (dd b64)), cfg_ok c -> Permutation (leaves t) (leaves t') -> List.Forall (wf c n) (leaves t) ->
       agree c (reduce (b64ops M) c Badd t) (reduce (b64ops M) c Badd t')).
Proof.
  intros M H. set (f := fun k : nat => match k with 0 => b64_of_Z (2 ^ 53) | 1 => b64_of_Z 1 | _ => b64_of_Z (- 2 ^ 53) end%nat).
  set (x := fun k => mk 0 [Some (f k)] : dd b64). set (t := Node (Node (Leaf 0%nat) (Leaf 1%nat)) (Leaf 2%nat)). set (t' := Node (Node (Leaf 0%nat) (Leaf 2%nat)) (Leaf 1%nat)).
  assert (SH : forall k, shows dyn1 0 (x k) (f k) (fun _ => b64_of_Z 0) (fun _ _ => b64_of_Z 0)).
  { intros k. destruct (constant_shows M (f k)) as (y & E & Y). injection E as <-. exact Y. }
  destruct (sum_components (b64ops M) dyn1 cfg_dyn1 0 x f (fun _ _ => b64_of_Z 0) (fun _ _ _ => b64_of_Z 0) t) as (r & E & (_ & V & _)); [intros k _; apply SH|].
  destruct (sum_components (b64ops M) dyn1 cfg_dyn1 0 x f (fun _ _ => b64_of_Z 0) (fun _ _ _ => b64_of_Z 0) t') as (r' & E' & (_ & V' & _)); [intros k _; apply SH|].
  destruct (H dyn1 0%nat (tmap x t) (tmap x t') cfg_dyn1) as (q & q' & Q & Q' & _ & D).
  - cbn. apply perm_skip, perm_swap.
  - cbn. repeat (apply List.Forall_cons; [apply SH|]). apply List.Forall_nil.
  - rewrite E in Q. apply Ok_inj in Q. rewrite E' in Q'. apply Ok_inj in Q'. subst q q'.
    assert (EQ : tfold b64_add (tmap f t) = tfold b64_add (tmap f t')).
    { unfold get_f in V, V'. rewrite D, V' in V. apply Ok_inj in V. symmetry. exact V. }
    apply (f_equal (@B2SF prec64 emax64)) in EQ. vm_compute in EQ. discriminate EQ.
Qed.
