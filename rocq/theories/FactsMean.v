(** Mean value forms: enclosures of derivatives over a box, used between two points of the box. *)
From Coq Require Import ZArith List Bool Reals Lra Lia Psatz.
From Coquelicot Require Import Coquelicot.
From Verif Require Import Outcome Scalar Model Spec RealOps ExprSpec ProgSpec NumSpec ParamSpec FactsParam FactsExpr FactsNum
  Expr CreateRep OpsRep AccRep PadRep FactsEncl FactsLayout FactsSessS MeanSpec.
Import ListNotations.
Open Scope R_scope.

Lemma coords_seg {T} (mem : R -> T -> Prop) (l : list nat) p q t : convex_sets mem -> 0 <= t <= 1 -> forall box,
  Forall2 mem (map p l) box -> Forall2 mem (map q l) box -> Forall2 mem (map (along p (step p q) t) l) box.
Proof.
  intros CV Ht. induction l as [|i l IH]; intros box H1 H2; cbn in *; [exact H1|].
  inversion H1 as [|? b ? box' M1 R1]; subst. inversion H2 as [|? ? ? ? M2 R2]; subst.
  constructor; [|apply IH; assumption]. unfold along, step. destruct (Rle_dec (p i) (q i)).
  - apply (CV (p i) (q i)); auto. nra.
  - apply (CV (q i) (p i)); auto. nra.
Qed.

(** The number computed over the reals at [p], related to the one computed over the box. *)
Lemma point_in {T} (O' : Ops T) (mem : R -> T -> Prop) c e e' box r p :
  cfg_ok c -> size_ok c (length box) -> vars_below (length box) e -> no_abs e -> arith_rel mem Rops O' -> expr_rel mem e e' ->
  evaluate O' c box e' = Ok r -> Forall2 mem (coords (length box) p) box -> dom e p ->
  let n := length box in
  exists f g h, (exists F, get_f r = Ok F /\ mem f F) /\ f = rev e p /\
    (forall i, (i < n)%nat -> exists G, get_g c r (Z.of_nat i) = Ok G /\ mem (g i) G) /\
    (c_ord c = 2%Z -> forall i j, (i < n)%nat -> (j < n)%nat -> exists H, get_h c r (Z.of_nat i) (Z.of_nat j) = Ok H /\ mem (h i j) H) /\
    (forall i j, h i j = h j i) /\
    (forall u, dirder (rev e) u p (gdot n g u)) /\
    (forall u, dirder2 (rev e) u u p (hdot n h u)).
Proof.
  intros Hc SO HV NA A He E Hbox D n.
  destruct (run_variables c n e p Hc SO HV) as (xs & x & E1 & E2 & R).
  set (J := jev Rops (fun i => jvar Rops i (p i)) e) in *.
  unfold evaluate in E.
  destruct (res_rel_Ok _ _ _ _ (variables_par mem Rops O' c A _ _ Hbox) E1) as (xs' & E1' & Hxs).
  rewrite E1' in E. cbn [bind] in E.
  destruct (res_rel_Ok _ _ _ _ (expr_par mem Rops O' c A n e e' xs xs' (or_intror NA) He Hxs) E2) as (r' & E2' & Hr).
  assert (r' = r) by (unfold n in *; congruence). subst r'.
  exists (jf J), (jg J), (hess J).
  refine (conj _ (conj _ (conj _ (conj _ (conj _ (conj _ _)))))).
  - destruct (res_rel_Ok _ _ _ _ (get_f_par mem x r Hr) (get_f_rep _ _ _ _ R)) as (F & EF & HF). eauto.
  - apply jev_f; auto.
  - intros i Hi. destruct (res_rel_Ok _ _ _ _ (get_g_par mem c x r _ Hr) (get_g_rep _ _ _ _ _ R Hi)) as (G & EG & HG). eauto.
  - intros O2 i j Hi Hj. assert (O1 : c_ord c <> 1%Z) by lia.
    destruct (res_rel_Ok _ _ _ _ (get_h_par mem c x r _ _ Hr) (get_h_rep _ _ _ _ _ _ R O1 Hi Hj)) as (G & EG & HG). eauto.
  - intros i j. unfold hess. now rewrite Nat.min_comm, Nat.max_comm.
  - intros u. pose proof (jev_point n e p u u HV D) as TT. apply J2_dir in TT. apply TT.
  - intros u. pose proof (jev_point n e p u u HV D) as TT. apply J2_dir in TT. apply TT.
Qed.

(** Derivatives along a line. *)
Lemma line_shift e p v t s : rev e (along (along p v t) v s) = rev e (along p v (t + s)).
Proof. apply rev_ext. intros k. unfold along. ring. Qed.
Lemma shift_derive (f : R -> R) t l : is_derive (fun s => f (t + s)) 0 l <-> is_derive f t l.
Proof.
  split; intros H.
  - apply (is_derive_ext (fun x => (fun s => f (t + s)) (x - t))); [intros x; f_equal; ring|].
    replace l with (scal 1 l) by (unfold scal; cbn; unfold mult; cbn; ring).
    apply (is_derive_comp (fun s => f (t + s)) (fun x => x - t)).
    + replace (t - t) with 0 by ring. exact H.
    + auto_derive; [exact I|ring].
  - replace l with (scal 1 l) by (unfold scal; cbn; unfold mult; cbn; ring).
    apply (is_derive_comp f (fun s => t + s)).
    + replace (t + 0) with t by ring. exact H.
    + auto_derive; [exact I|ring].
Qed.
Lemma dirder_line e p v t l : dirder (rev e) v (along p v t) l -> is_derive (fun s => rev e (along p v s)) t l.
Proof.
  intros H. apply shift_derive. eapply is_derive_ext; [|exact H]. intros s. cbn beta. apply line_shift.
Qed.
Lemma dirder2_line e p v t l : dirder2 (rev e) v v (along p v t) l -> is_derive (Derive (fun s => rev e (along p v s))) t l.
Proof.
  intros (D & HD & H). apply shift_derive. eapply is_derive_ext_loc; [|exact H].
  revert HD. apply filter_imp. intros s Hs. symmetry. apply is_derive_unique.
  apply dirder_line. unfold dirder in *. eapply is_derive_ext; [|exact Hs]. intros x. cbn beta.
  apply rev_ext. intros k. unfold along. ring.
Qed.

Lemma along_0 e p v : rev e (along p v 0) = rev e p.
Proof. apply rev_ext. intros k. unfold along. ring. Qed.
Lemma along_1 e p q : rev e (along p (step p q) 1) = rev e q.
Proof. apply rev_ext. intros k. unfold along, step. ring. Qed.

Section Box.
  Context {T : Type} (O' : Ops T) (mem : R -> T -> Prop) (c : cfg) (e : expr R) (e' : expr T) (box : list T) (r : dd T).
  Let n := length box.
  Hypothesis Hc : cfg_ok c.
  Hypothesis SO : size_ok c n.
  Hypothesis HV : vars_below n e.
  Hypothesis NA : no_abs e.
  Hypothesis A : arith_rel mem Rops O'.
  Hypothesis He : expr_rel mem e e'.
  Hypothesis CV : convex_sets mem.
  Hypothesis E : evaluate O' c box e' = Ok r.
  Hypothesis DD : forall q, Forall2 mem (coords n q) box -> dom e q.

  Lemma mean1 p q : Forall2 mem (coords n p) box -> Forall2 mem (coords n q) box ->
    exists g, (forall i, (i < n)%nat -> exists G, get_g c r (Z.of_nat i) = Ok G /\ mem (g i) G) /\
      rev e q = rev e p + gdot n g (step p q).
  Proof.
    intros Hp Hq. set (v := step p q). set (phi := fun t => rev e (along p v t)).
    assert (IN : forall t, 0 <= t <= 1 -> Forall2 mem (coords n (along p v t)) box).
    { intros t Ht. apply coords_seg; auto. }
    assert (DE : forall t, 0 <= t <= 1 -> exists g, (forall i, (i < n)%nat -> exists G, get_g c r (Z.of_nat i) = Ok G /\ mem (g i) G) /\
      is_derive phi t (gdot n g v)).
    { intros t Ht. destruct (point_in O' mem c e e' box r _ Hc SO HV NA A He E (IN t Ht) (DD _ (IN t Ht)))
        as (f & g & h & _ & _ & Hg & _ & _ & H1 & _). exists g. split; [exact Hg|]. apply dirder_line, H1. }
    destruct (MVT_gen phi 0 1 (Derive phi)) as (t & Ht & Et).
    - rewrite Rmin_left, Rmax_right by lra. intros x Hx. destruct (DE x ltac:(lra)) as (g & _ & Hd).
      apply Derive_correct. eexists; exact Hd.
    - rewrite Rmin_left, Rmax_right by lra. intros x Hx. destruct (DE x ltac:(lra)) as (g & _ & Hd).
      apply continuity_pt_filterlim. apply @ex_derive_continuous. eexists; exact Hd.
    - rewrite Rmin_left, Rmax_right in Ht by lra. destruct (DE t Ht) as (g & Hg & Hd). exists g. split; [exact Hg|].
      rewrite (is_derive_unique _ _ _ Hd) in Et. unfold phi in Et. unfold v in Et. rewrite along_0, along_1 in Et.
      fold v in Et. fold v. lra.
  Qed.

  Lemma mean2 p q : c_ord c = 2%Z -> Forall2 mem (coords n p) box -> Forall2 mem (coords n q) box ->
    forall g, dirder (rev e) (step p q) p (gdot n g (step p q)) ->
    exists h, (forall i j, (i < n)%nat -> (j < n)%nat -> exists H, get_h c r (Z.of_nat i) (Z.of_nat j) = Ok H /\ mem (h i j) H) /\
      (forall i j, h i j = h j i) /\
      rev e q = rev e p + gdot n g (step p q) + 1 / 2 * hdot n h (step p q).
  Proof.
    intros O2 Hp Hq g Hg. set (v := step p q) in *. set (phi := fun t => rev e (along p v t)).
    assert (IN : forall t, 0 <= t <= 1 -> Forall2 mem (coords n (along p v t)) box).
    { intros t Ht. apply coords_seg; auto. }
    assert (DE : forall t, 0 <= t <= 1 -> ex_derive phi t /\ exists h,
      (forall i j, (i < n)%nat -> (j < n)%nat -> exists H, get_h c r (Z.of_nat i) (Z.of_nat j) = Ok H /\ mem (h i j) H) /\
      (forall i j, h i j = h j i) /\ is_derive (Derive phi) t (hdot n h v)).
    { intros t Ht. destruct (point_in O' mem c e e' box r _ Hc SO HV NA A He E (IN t Ht) (DD _ (IN t Ht)))
        as (f & g' & h & _ & _ & _ & Hh & Sy & H1 & H2). split.
      - eexists. apply dirder_line, H1.
      - exists h. split; [exact (Hh O2)|]. split; [exact Sy|]. apply dirder2_line, H2. }
    destruct (Taylor_Lagrange phi 1 0 1) as (t & Ht & Et); [lra| |].
    - intros t Ht k Hk. destruct (DE t Ht) as (D1 & h & _ & _ & D2).
      destruct k as [|[|[|k]]]; [exact I|exact D1| |lia]. cbn. eexists. exact D2.
    - destruct (DE t ltac:(lra)) as (_ & h & Hh & Sy & D2). exists h. split; [exact Hh|]. split; [exact Sy|].
      cbn [sum_f_R0] in Et. change (Derive_n phi 0 0) with (phi 0) in Et. change (Derive_n phi 1 0) with (Derive phi 0) in Et.
      change (Derive_n phi 2 t) with (Derive (Derive phi) t) in Et. rewrite (is_derive_unique _ _ _ D2) in Et.
      assert (D0 : is_derive phi 0 (gdot n g v)).
      { apply dirder_line. unfold dirder in *. eapply is_derive_ext; [|exact Hg]. intros s. cbn beta. apply rev_ext. intros k. unfold along. ring. }
      rewrite (is_derive_unique _ _ _ D0) in Et. unfold phi in Et. unfold v in Et. rewrite along_0, along_1 in Et. fold v in Et.
      cbn [fact INR Nat.mul Nat.add] in Et. rewrite Et. cbn [pow]. field.
  Qed.
End Box.

(** ** Mean value form, for one box *)
Lemma mean_value_form {T} (O' : Ops T) (mem : R -> T -> Prop) c n e e' box :
  cfg_ok c -> size_ok c n -> length box = n -> vars_below n e -> no_abs e -> arith_rel mem Rops O' -> expr_rel mem e e' ->
  convex_sets mem -> (forall q, Forall2 mem (coords n q) box -> dom e q) ->
  exists r, evaluate O' c box e' = Ok r /\ wf c n r /\
    forall p q, Forall2 mem (coords n p) box -> Forall2 mem (coords n q) box ->
      exists g, (forall i, (i < n)%nat -> exists G, get_g c r (Z.of_nat i) = Ok G /\ mem (g i) G) /\
        rev e q = rev e p + gdot n g (step p q).
Proof.
  intros Hc SO L HV NA A He CV DD.
  destruct (enclosure O' mem c n e e' box Hc SO L HV NA A He) as (r & E & W & _). exists r. split; [exact E|]. split; [exact W|].
  intros p q Hp Hq. subst n. eapply mean1; eauto.
Qed.

Lemma taylor_form {T} (O' : Ops T) (mem : R -> T -> Prop) c n e e' mid box :
  cfg_ok c -> c_ord c = 2%Z -> size_ok c n -> length mid = n -> length box = n -> vars_below n e -> no_abs e ->
  arith_rel mem Rops O' -> expr_rel mem e e' -> convex_sets mem -> (forall q, Forall2 mem (coords n q) box -> dom e q) ->
  exists r0 r, evaluate O' c mid e' = Ok r0 /\ evaluate O' c box e' = Ok r /\
    forall p q, Forall2 mem (coords n p) mid -> Forall2 mem (coords n p) box -> Forall2 mem (coords n q) box ->
      exists g h, (forall i, (i < n)%nat -> exists G, get_g c r0 (Z.of_nat i) = Ok G /\ mem (g i) G) /\
        (forall i j, (i < n)%nat -> (j < n)%nat -> exists H, get_h c r (Z.of_nat i) (Z.of_nat j) = Ok H /\ mem (h i j) H) /\
        (forall i j, h i j = h j i) /\
        rev e q = rev e p + gdot n g (step p q) + 1 / 2 * hdot n h (step p q).
Proof.
  intros Hc O2 SO L0 L HV NA A He CV DD.
  destruct (enclosure O' mem c n e e' mid Hc SO L0 HV NA A He) as (r0 & E0 & _ & _).
  destruct (enclosure O' mem c n e e' box Hc SO L HV NA A He) as (r & E & _ & _).
  exists r0, r. split; [exact E0|]. split; [exact E|]. intros p q Hp0 Hp Hq. revert L0. subst n. intros L0. rewrite <- L0 in SO, HV, Hp0.
  destruct (point_in O' mem c e e' mid r0 p Hc SO HV NA A He E0 Hp0 (DD p Hp)) as (f & g & h0 & _ & _ & Hg & _ & _ & H1 & _).
  rewrite L0 in SO, HV, Hp0, Hg, H1.
  destruct (mean2 O' mem c e e' box r Hc SO HV NA A He CV E DD p q O2 Hp Hq g (H1 _)) as (h & Hh & Sy & Eq).
  exists g, h. auto.
Qed.

(** ** Centred forms through [eval] *)
Lemma fold_rel {T} (O' : Ops T) (mem : R -> T -> Prop) (w : nat -> R) (w' : nat -> T) l : arith_rel mem Rops O' ->
  (forall i, In i l -> mem (w i) (w' i)) -> forall a b, mem a b ->
  mem (fold_left (fun s i => s + w i) l a) (fold_left (fun s i => o_add O' s (w' i)) l b).
Proof.
  intros A. induction l as [|i l IH]; intros H a b Hab; cbn; [exact Hab|]. apply IH; [intros; apply H; right; assumption|].
  apply (ar_add _ _ _ A); [exact Hab|]. apply H. left. reflexivity.
Qed.
Lemma Forall2_nth_rel {T} (mem : R -> T -> Prop) l l' i d d' : Forall2 mem l l' -> (i < length l)%nat -> mem (nth i l d) (nth i l' d').
Proof.
  intros H. revert i. induction H as [|x y l l' Hxy H IH]; intros i Hi; cbn in *; [lia|]. destruct i; [exact Hxy|]. apply IH. lia.
Qed.
Lemma eval_encl {T} (O' : Ops T) (mem : R -> T -> Prop) c n z F G H f g h dv D :
  cfg_ok c -> arith_rel mem Rops O' -> shows c n z F G H -> mem f F -> (forall i, (i < n)%nat -> mem (g i) (G i)) ->
  (c_ord c = 2%Z -> forall i j, (i < n)%nat -> (j < n)%nat -> mem (h i j) (H i j)) ->
  Forall2 mem (coords n dv) D ->
  exists y, eval O' c z D = Ok y /\
    mem (f + gdot n g dv + (if Z.eqb (c_ord c) 1 then 0 else 1 / 2 * hdot n h dv)) y.
Proof.
  intros Hc A SH Mf Mg Mh MD. pose proof (shows_rep _ _ _ _ _ _ Hc SH) as R.
  assert (LD : length D = n) by (rewrite <- (Forall2_len _ _ _ MD); apply coords_length).
  set (J := mkjet F G H) in *. exists (eval_spec O' c n J D). split; [apply eval_rep; [exact R|lia]|].
  assert (MDi : forall i, (i < n)%nat -> mem (dv i) (nth i D (o_Z O' 0%Z))).
  { intros i Hi. rewrite <- (nth_coords n dv i Hi). apply Forall2_nth_rel; [exact MD|]. rewrite coords_length. exact Hi. }
  assert (MG : mem (f + gdot n g dv) (sum_g O' n J D)).
  { unfold gdot, sum_g. rewrite <- (fold_rsum n (fun i => g i * dv i)). rewrite (fold_rsum n).
    rewrite (rsum_ext n _ (fun i => dv i * g i)) by (intros; ring). rewrite <- (fold_rsum n (fun i => dv i * g i)).
    apply fold_rel; [exact A| |exact Mf]. intros i Hi. apply in_seq in Hi. apply (ar_mul _ _ _ A); [apply MDi; lia|apply Mg; lia]. }
  unfold eval_spec. destruct (Z.eqb_spec (c_ord c) 1) as [O1|O1]; [rewrite Rplus_0_r; exact MG|].
  assert (O2 : c_ord c = 2%Z) by (destruct Hc as [[?|?] _]; congruence).
  assert (HH : forall i j, (i < n)%nat -> (j < n)%nat -> hess J i j = H i j).
  { intros i j Hi Hj. destruct SH as (_ & _ & _ & Hh). pose proof (Hh O2 i j Hi Hj) as E1. rewrite (get_h_rep _ _ _ _ _ _ R O1 Hi Hj) in E1. congruence. }
  apply (ar_add _ _ _ A); [exact MG|]. replace (1 / 2) with (/ 2) by field. apply (ar_mul _ _ _ A); [apply (ar_half _ _ _ A)|].
  unfold hdot, quad.
  rewrite (rsum_ext n _ (fun i => dv i * rsum n (fun j => dv j * h i j))).
  2:{ intros i _. rewrite <- rsum_scal. apply rsum_ext. intros j _. ring. }
  rewrite <- (Rplus_0_l (rsum n _)). rewrite <- (fold_rsum n (fun i => dv i * rsum n (fun j => dv j * h i j))).
  apply fold_rel; [exact A| |apply (ar_Z _ _ _ A 0%Z)]. intros i Hi. apply in_seq in Hi.
  apply (ar_mul _ _ _ A); [apply MDi; lia|]. unfold row_sum.
  rewrite <- (Rplus_0_l (rsum n _)). rewrite <- (fold_rsum n (fun j => dv j * h i j)).
  apply fold_rel; [exact A| |apply (ar_Z _ _ _ A 0%Z)]. intros j Hj. apply in_seq in Hj.
  apply (ar_mul _ _ _ A); [apply MDi; lia|]. rewrite HH by lia. apply Mh; [exact O2|lia|lia].
Qed.

Lemma centred_form {T} (O' : Ops T) (mem : R -> T -> Prop) c n e e' mid box :
  cfg_ok c -> size_ok c n -> length mid = n -> length box = n -> vars_below n e -> no_abs e ->
  arith_rel mem Rops O' -> expr_rel mem e e' -> convex_sets mem -> (forall q, Forall2 mem (coords n q) box -> dom e q) ->
  exists r0 r, evaluate O' c mid e' = Ok r0 /\ evaluate O' c box e' = Ok r /\
    forall F0 G0 H0 F G H z, shows c n r0 F0 G0 H0 -> shows c n r F G H ->
      shows c n z F0 (if Z.eqb (c_ord c) 1 then G else G0) H ->
      forall p q D, Forall2 mem (coords n p) mid -> Forall2 mem (coords n p) box -> Forall2 mem (coords n q) box ->
        Forall2 mem (coords n (step p q)) D ->
        exists y, eval O' c z D = Ok y /\ mem (rev e q) y.
Proof.
  intros Hc SO L0 L HV NA A He CV DD.
  destruct (enclosure O' mem c n e e' mid Hc SO L0 HV NA A He) as (r0 & E0 & _ & _).
  destruct (enclosure O' mem c n e e' box Hc SO L HV NA A He) as (r & E & _ & _).
  exists r0, r. split; [exact E0|]. split; [exact E|]. intros F0 G0 H0 F G H z S0 S1 SZ p q D Hp0 Hp Hq HD. revert L0. subst n. intros L0.
  rewrite <- L0 in SO, HV, Hp0.
  destruct (point_in O' mem c e e' mid r0 p Hc SO HV NA A He E0 Hp0 (DD p Hp)) as (f & g & h0 & (F' & EF & HF) & Ef & Hg & _ & _ & H1 & _).
  rewrite L0 in SO, HV, Hp0, Hg, H1.
  destruct S0 as (_ & SF & SG & _). destruct S1 as (_ & _ & SG1 & SH1).
  assert (F' = F0) by congruence. subst F'. subst f.
  destruct (Z.eqb_spec (c_ord c) 1) as [O1|O1].
  - destruct (mean1 O' mem c e e' box r Hc SO HV NA A He CV E DD p q Hp Hq) as (g1 & Hg1 & Eq).
    destruct (eval_encl O' mem c (length box) z F0 G H (rev e p) g1 (fun _ _ => 0) (step p q) D Hc A SZ HF) as (y & Ey & Hy).
    + intros i Hi. destruct (Hg1 i Hi) as (G' & EG & HG). rewrite (SG1 i Hi) in EG. injection EG as <-. exact HG.
    + intros O2. lia.
    + exact HD.
    + exists y. split; [exact Ey|]. rewrite O1 in Hy. cbn in Hy. rewrite Rplus_0_r, <- Eq in Hy. exact Hy.
  - assert (O2 : c_ord c = 2%Z) by (destruct Hc as [[?|?] _]; congruence).
    destruct (mean2 O' mem c e e' box r Hc SO HV NA A He CV E DD p q O2 Hp Hq g (H1 _)) as (h & Hh & Sy & Eq).
    destruct (eval_encl O' mem c (length box) z F0 G0 H (rev e p) g h (step p q) D Hc A SZ HF) as (y & Ey & Hy).
    + intros i Hi. destruct (Hg i Hi) as (G' & EG & HG). rewrite (SG i Hi) in EG. injection EG as <-. exact HG.
    + intros _ i j Hi Hj. destruct (Hh i j Hi Hj) as (G' & EG & HG). rewrite (SH1 O2 i j Hi Hj) in EG. injection EG as <-. exact HG.
    + exact HD.
    + exists y. split; [exact Ey|]. rewrite O2 in Hy. cbn in Hy. rewrite <- Eq in Hy. exact Hy.
Qed.

(** ** Tests *)
Lemma gdot_single n g v i : (i < n)%nat -> (forall k, (k < n)%nat -> k <> i -> v k = 0) -> gdot n g v = g i * v i.
Proof.
  intros Hi Hv. unfold gdot. revert Hi Hv. induction n as [|n IH]; intros Hi Hv; [lia|]. cbn [rsum].
  destruct (Nat.eq_dec i n) as [->|N].
  - rewrite (rsum_ext n _ (fun _ => 0)); [rewrite rsum_zero; ring|]. intros k Hk. rewrite Hv by lia. ring.
  - rewrite IH by (try lia; intros; apply Hv; lia). rewrite (Hv n) by lia. ring.
Qed.
Lemma monotone_test {T} (O' : Ops T) (mem : R -> T -> Prop) c n e e' box i :
  cfg_ok c -> size_ok c n -> length box = n -> vars_below n e -> no_abs e -> arith_rel mem Rops O' -> expr_rel mem e e' ->
  convex_sets mem -> (forall q, Forall2 mem (coords n q) box -> dom e q) -> (i < n)%nat ->
  exists r G, evaluate O' c box e' = Ok r /\ get_g c r (Z.of_nat i) = Ok G /\
    ((forall g, mem g G -> 0 < g) ->
     forall p q, Forall2 mem (coords n p) box -> Forall2 mem (coords n q) box ->
       (forall k, (k < n)%nat -> k <> i -> p k = q k) -> p i < q i -> rev e p < rev e q).
Proof.
  intros Hc SO L HV NA A He CV DD Hi.
  destruct (mean_value_form O' mem c n e e' box Hc SO L HV NA A He CV DD) as (r & E & W & M).
  destruct (wf_rep _ _ _ W) as (J & R). exists r, (jg J i). split; [exact E|]. split; [eapply get_g_rep; eassumption|].
  intros Pos p q Hp Hq Hk Hlt. destruct (M p q Hp Hq) as (g & Hg & Eq). rewrite (gdot_single n g _ i Hi) in Eq.
  - destruct (Hg i Hi) as (G & EG & HG). rewrite (get_g_rep _ _ _ _ _ R Hi) in EG. injection EG as <-.
    pose proof (Pos _ HG). unfold step in Eq. assert (0 < g i * (q i - p i)) by (apply Rmult_lt_0_compat; lra). lra.
  - intros k Hkn Hki. unfold step. rewrite (Hk k Hkn Hki). ring.
Qed.

Lemma convexity_test {T} (O' : Ops T) (mem : R -> T -> Prop) c n e e' box :
  cfg_ok c -> c_ord c = 2%Z -> size_ok c n -> length box = n -> vars_below n e -> no_abs e ->
  arith_rel mem Rops O' -> expr_rel mem e e' -> convex_sets mem -> (forall q, Forall2 mem (coords n q) box -> dom e q) ->
  exists r, evaluate O' c box e' = Ok r /\
    ((forall h, (forall i j, h i j = h j i) ->
        (forall i j, (i < n)%nat -> (j < n)%nat -> exists H, get_h c r (Z.of_nat i) (Z.of_nat j) = Ok H /\ mem (h i j) H) ->
        forall v, 0 <= hdot n h v) ->
     forall p q t, Forall2 mem (coords n p) box -> Forall2 mem (coords n q) box -> 0 <= t <= 1 ->
       rev e (along p (step p q) t) <= (1 - t) * rev e p + t * rev e q).
Proof.
  intros Hc O2 SO L HV NA A He CV DD.
  destruct (enclosure O' mem c n e e' box Hc SO L HV NA A He) as (r & E & _ & _). exists r. split; [exact E|].
  intros Pos p q t Hp Hq Ht. subst n. set (m := along p (step p q) t).
  assert (Hm : Forall2 mem (coords (length box) m) box) by (apply coords_seg; auto).
  destruct (point_in O' mem c e e' box r m Hc SO HV NA A He E Hm (DD m Hm)) as (f & g & h0 & _ & _ & _ & _ & _ & H1 & _).
  destruct (mean2 O' mem c e e' box r Hc SO HV NA A He CV E DD m p O2 Hm Hp g (H1 _)) as (h & Hh & Sy & Ep).
  destruct (mean2 O' mem c e e' box r Hc SO HV NA A He CV E DD m q O2 Hm Hq g (H1 _)) as (h' & Hh' & Sy' & Eq).
  pose proof (Pos h Sy Hh (step m p)) as P1. pose proof (Pos h' Sy' Hh' (step m q)) as P2.
  assert (G1 : gdot (length box) g (step m p) = - t * gdot (length box) g (step p q)).
  { unfold gdot. rewrite <- rsum_scal. apply rsum_ext. intros k _. unfold m, step, along. ring. }
  assert (G2 : gdot (length box) g (step m q) = (1 - t) * gdot (length box) g (step p q)).
  { unfold gdot. rewrite <- rsum_scal. apply rsum_ext. intros k _. unfold m, step, along. ring. }
  rewrite G1 in Ep. rewrite G2 in Eq. set (w := gdot (length box) g (step p q)) in *.
  assert (L1 : rev e m - t * w <= rev e p) by lra. assert (L2 : rev e m + (1 - t) * w <= rev e q) by lra.
  pose proof (Rmult_le_compat_l (1 - t) _ _ ltac:(lra) L1). pose proof (Rmult_le_compat_l t _ _ ltac:(lra) L2). lra.
Qed.

(** ** Systems: if no matrix in the enclosure of the Jacobian has a kernel, the map is one-to-one on the box *)
Lemma pick_rows {T} (O' : Ops T) (mem : R -> T -> Prop) c n box es es' rs p q :
  cfg_ok c -> size_ok c n -> length box = n -> arith_rel mem Rops O' -> convex_sets mem ->
  Forall2 (expr_rel mem) es es' ->
  (forall e, In e es -> vars_below n e /\ no_abs e /\ forall q, Forall2 mem (coords n q) box -> dom e q) ->
  Forall2 (fun e' r => evaluate O' c box e' = Ok r) es' rs ->
  Forall2 mem (coords n p) box -> Forall2 mem (coords n q) box ->
  exists M : nat -> nat -> R, forall k e r, nth_error es k = Some e -> nth_error rs k = Some r ->
    (forall i, (i < n)%nat -> exists G, get_g c r (Z.of_nat i) = Ok G /\ mem (M k i) G) /\
    rev e q = rev e p + gdot n (M k) (step p q).
Proof.
  intros Hc SO L A CV Hes. revert rs. induction Hes as [|e e' es es' Ee Hes IH]; intros rs Hin Hrs Hp Hq.
  - exists (fun _ _ => 0). intros [|k] e r H; discriminate H.
  - inversion Hrs as [|? r ? rs' Er Hrs']; subst.
    destruct (IH rs') as (M & HM); auto; [intros; apply Hin; right; assumption|].
    destruct (Hin e (or_introl eq_refl)) as (V & NA & DD).
    destruct (mean1 O' mem c e e' box r Hc SO V NA A Ee CV Er DD p q Hp Hq) as (g & Hg & Eq).
    exists (fun k => match k with O => g | S k => M k end). intros [|k] f s H1 H2; cbn in H1, H2.
    + injection H1 as <-. injection H2 as <-. split; [exact Hg|exact Eq].
    + exact (HM k f s H1 H2).
Qed.
Lemma injectivity_test {T} (O' : Ops T) (mem : R -> T -> Prop) c n es es' box :
  cfg_ok c -> size_ok c n -> length box = n -> arith_rel mem Rops O' -> convex_sets mem -> Forall2 (expr_rel mem) es es' ->
  (forall e, In e es -> vars_below n e /\ no_abs e /\ forall q, Forall2 mem (coords n q) box -> dom e q) ->
  exists rs, Forall2 (fun e' r => evaluate O' c box e' = Ok r) es' rs /\
    ((forall M : nat -> nat -> R,
        (forall k r i, nth_error rs k = Some r -> (i < n)%nat -> exists G, get_g c r (Z.of_nat i) = Ok G /\ mem (M k i) G) ->
        forall v, (forall k, (k < length es)%nat -> gdot n (M k) v = 0) -> forall i, (i < n)%nat -> v i = 0) ->
     forall p q, Forall2 mem (coords n p) box -> Forall2 mem (coords n q) box ->
       (forall e, In e es -> rev e p = rev e q) -> forall i, (i < n)%nat -> p i = q i).
Proof.
  intros Hc SO L A CV Hes Hin.
  assert (EX : exists rs, Forall2 (fun e' r => evaluate O' c box e' = Ok r) es' rs).
  { clear - Hc SO L A Hes Hin. induction Hes as [|e e' es es' Ee Hes IH]; [exists []; constructor|].
    destruct IH as (rs & H); [intros; apply Hin; right; assumption|]. destruct (Hin e (or_introl eq_refl)) as (V & NA & _).
    destruct (enclosure O' mem c n e e' box Hc SO L V NA A Ee) as (r & E & _). exists (r :: rs). constructor; assumption. }
  destruct EX as (rs & Hrs). exists rs. split; [exact Hrs|]. intros NK p q Hp Hq Heq.
  destruct (pick_rows O' mem c n box es es' rs p q Hc SO L A CV Hes Hin Hrs Hp Hq) as (M & HM).
  assert (LL : length rs = length es) by (rewrite <- (Forall2_len _ _ _ Hrs), <- (Forall2_len _ _ _ Hes); reflexivity).
  intros i Hi. enough (step p q i = 0) by (unfold step in *; lra). apply (NK M); [| |exact Hi].
  - intros k r j Hk Hj. assert (Hl : (k < length es)%nat) by (rewrite <- LL; apply nth_error_Some; congruence).
    destruct (nth_error es k) as [e|] eqn:Ek; [|apply nth_error_None in Ek; lia].
    destruct (HM k e r Ek Hk) as [H _]. apply H, Hj.
  - intros k Hl. destruct (nth_error es k) as [e|] eqn:Ek; [|apply nth_error_None in Ek; lia].
    destruct (nth_error rs k) as [r|] eqn:Er; [|apply nth_error_None in Er; lia].
    destruct (HM k e r Ek Er) as [_ H]. pose proof (Heq e (nth_error_In _ _ Ek)). lra.
Qed.

(** ** Interval Newton step for one variable *)
Lemma newton_step {T} (O' : Ops T) (mem : R -> T -> Prop) c e e' X M :
  cfg_ok c -> size_ok c 1 -> vars_below 1 e -> no_abs e -> arith_rel mem Rops O' -> expr_rel mem e e' -> convex_sets mem ->
  (forall x, mem x X -> dom e (fun _ => x)) ->
  exists r0 r F G, evaluate O' c [M] e' = Ok r0 /\ evaluate O' c [X] e' = Ok r /\ get_f r0 = Ok F /\ get_g c r 0 = Ok G /\
    (~ mem 0 G -> forall m, mem m M -> mem m X ->
      let N := o_sub O' M (o_div O' F G) in
      (forall x, mem x X -> rev e (fun _ => x) = 0 -> mem x N) /\
      (forall x y, mem x X -> mem y X -> rev e (fun _ => x) = 0 -> rev e (fun _ => y) = 0 -> x = y) /\
      (forall a b, (forall x, a <= x <= b -> mem x X) -> a <= m <= b -> (forall x, mem x N -> a <= x <= b) ->
        exists x, a <= x <= b /\ rev e (fun _ => x) = 0)).
Proof.
  intros Hc SO HV NA A He CV DX.
  assert (C1 : forall p t, Forall2 mem (coords 1 p) [t] <-> mem (p 0%nat) t).
  { intros p t. unfold coords. cbn. split; [intros H; inversion H; assumption|intros H; constructor; [exact H|constructor]]. }
  assert (XT : forall p, rev e p = rev e (fun _ => p 0%nat)).
  { intros p. apply (rev_below 1); [exact HV|]. intros i Hi. now replace i with 0%nat by lia. }
  assert (DD : forall q, Forall2 mem (coords 1 q) [X] -> dom e q).
  { intros q Hq. apply C1 in Hq. apply DX in Hq. revert Hq. clear - HV.
    assert (XX : forall e', vars_below 1 e' -> rev e' (fun _ => q 0%nat) = rev e' q).
    { intros e' V. apply (rev_below 1); [exact V|]. intros i Hi. now replace i with 0%nat by lia. }
    induction e as [i|s|u f IH|b f1 IH1 f2 IH2|f1 IH1 f2 IH2 f3 IH3]; cbn [dom vars_below] in *; auto.
    - rewrite XX by exact HV. intuition.
    - destruct HV. rewrite !XX by assumption. intuition.
    - destruct HV as (? & ? & ?). rewrite !XX by assumption. intuition. }
  destruct (enclosure O' mem c 1 e e' [M] Hc SO eq_refl HV NA A He) as (r0 & E0 & W0 & P0).
  destruct (mean_value_form O' mem c 1 e e' [X] Hc SO eq_refl HV NA A He CV DD) as (r & E & W & MV).
  destruct (wf_rep _ _ _ W0) as (J0 & R0). destruct (wf_rep _ _ _ W) as (J & RR).
  exists r0, r, (jf J0), (jg J 0). pose proof (get_f_rep _ _ _ _ R0) as EF.
  assert (EG : get_g c r 0 = Ok (jg J 0)) by (apply (get_g_rep _ _ _ _ 0 RR); lia).
  repeat (split; [assumption|]). intros NZ m HmM HmX N.
  set (f := fun x => rev e (fun _ => x)).
  assert (MF : mem (f m) (jf J0)).
  { destruct (P0 (fun _ => m)) as ((F & EF' & HF) & _); [apply C1, HmM|apply DX, HmX|]. rewrite EF in EF'. injection EF' as <-. exact HF. }
  assert (MV1 : forall x y, mem x X -> mem y X -> exists g, mem g (jg J 0) /\ f y = f x + g * (y - x)).
  { intros x y Hx Hy. destruct (MV (fun _ => x) (fun _ => y)) as (g & Hg & Eq); [apply C1, Hx|apply C1, Hy|].
    exists (g 0%nat). destruct (Hg 0%nat ltac:(lia)) as (G' & EG' & HG). cbn [Z.of_nat] in EG'. rewrite EG in EG'. injection EG' as <-.
    split; [exact HG|]. unfold f. rewrite Eq. unfold gdot, step. cbn. ring. }
  assert (NG : forall g, mem g (jg J 0) -> g <> 0) by (intros g Hg ->; exact (NZ Hg)).
  assert (MN : forall g, mem g (jg J 0) -> mem (m - f m / g) N).
  { intros g Hg. apply (ar_sub _ _ _ A); [exact HmM|]. apply (ar_div _ _ _ A); assumption. }
  split; [|split].
  - intros x Hx H0. fold (f x) in H0. destruct (MV1 m x HmX Hx) as (g & Hg & Eq).
    replace x with (m - f m / g); [apply MN, Hg|]. pose proof (NG g Hg). rewrite H0 in Eq.
    apply (Rmult_eq_reg_r g); [|assumption]. field_simplify; [|assumption]. lra.
  - intros x y Hx Hy H0 H1. fold (f x) in H0. fold (f y) in H1. destruct (MV1 x y Hx Hy) as (g & Hg & Eq).
    rewrite H0, H1 in Eq. pose proof (NG g Hg) as Hne. assert (g * (y - x) = 0) as Z0 by lra.
    apply Rmult_integral in Z0. destruct Z0 as [Z0|Z0]; [contradiction|lra].
  - intros a b HX Hm HN. destruct (MV1 m a HmX (HX a ltac:(lra))) as (g1 & Hg1 & E1).
    destruct (MV1 m b HmX (HX b ltac:(lra))) as (g2 & Hg2 & E2).
    pose proof (NG g1 Hg1) as N1. pose proof (NG g2 Hg2) as N2.
    destruct (HN _ (MN g1 Hg1)) as [B1 _]. destruct (HN _ (MN g2 Hg2)) as [_ B2].
    assert (Q1 : f a / g1 <= 0). { rewrite E1. replace ((f m + g1 * (a - m)) / g1) with (f m / g1 + (a - m)) by (field; exact N1). lra. }
    assert (Q2 : 0 <= f b / g2). { rewrite E2. replace ((f m + g2 * (b - m)) / g2) with (f m / g2 + (b - m)) by (field; exact N2). lra. }
    assert (SG : 0 < g1 * g2).
    { destruct (Rtotal_order g1 0) as [S1|[S1|S1]]; [|contradiction|]; destruct (Rtotal_order g2 0) as [S2|[S2|S2]]; try contradiction.
      - nra. - exfalso. apply NZ. apply (CV g1 g2); auto. lra. - exfalso. apply NZ. apply (CV g2 g1); auto. lra. - nra. }
    assert (PR : f a * f b <= 0).
    { replace (f a * f b) with ((f a / g1) * (f b / g2) * (g1 * g2)) by (field; auto).
      assert (f a / g1 * (f b / g2) <= 0) by nra. nra. }
    assert (CT : forall x, a <= x <= b -> continuity_pt f x).
    { intros x Hx. assert (Hx' : Forall2 mem (coords 1 (fun _ => x)) [X]) by (apply C1, HX, Hx).
      destruct (point_in O' mem c e e' [X] r (fun _ => x) Hc SO HV NA A He E Hx' (DD _ Hx')) as (f0 & g & h & _ & _ & _ & _ & _ & H1 & _).
      specialize (H1 (fun _ => 1)). apply continuity_pt_filterlim. apply @ex_derive_continuous. exists (gdot 1 g (fun _ => 1)).
      apply shift_derive. eapply is_derive_ext; [|exact H1]. intros s. cbn beta. unfold f. apply rev_ext. intros k. unfold along. ring. }
    destruct (Req_dec (f a) 0) as [Za|Za]; [exists a; split; [lra|exact Za]|].
    destruct (Req_dec (f b) 0) as [Zb|Zb]; [exists b; split; [lra|exact Zb]|].
    assert (AB : a < b).
    { destruct (Rle_lt_or_eq_dec a b ltac:(lra)) as [?|EE]; [assumption|]. subst b. exfalso. assert (0 < f a * f a) by nra. lra. }
    destruct (Rlt_le_dec (f a) 0) as [Sa|Sa].
    + assert (Sb : 0 < f b) by nra.
      destruct (Ranalysis5.IVT_interv f a b) as (x & Hx & H0); auto. exists x. auto.
    + assert (Sb : f b < 0) by nra.
      destruct (Ranalysis5.IVT_interv (fun x => - f x) a b) as (x & Hx & H0); [|lra|lra|lra|].
      * intros x Hx. apply continuity_pt_opp, CT, Hx.
      * exists x. split; [exact Hx|]. unfold f in *. lra.
Qed.

(** ** Sample scalar type *)
Lemma inside_convex : convex_sets inside.
Proof. intros x y z [[a b]|] H1 H2 H3; cbn in *; [lra|exact I]. Qed.
Lemma floor_div (a : Z) (d : Z) : (0 < d)%Z -> IZR (a / d) <= IZR a / IZR d.
Proof.
  intros Hd. pose proof (Z.mul_div_le a d Hd) as H. apply IZR_le in H. rewrite mult_IZR in H. apply IZR_lt in Hd.
  apply (Rmult_le_reg_l (IZR d)); [exact Hd|]. replace (IZR d * (IZR a / IZR d)) with (IZR a) by (field; lra). exact H.
Qed.
Lemma div_low x y a a' b' : 0 < a' -> a' <= y <= b' -> a <= x -> Rmin (a / a') (a / b') <= x / y.
Proof.
  intros P Hy Hx. apply Rle_trans with (a / y).
  - assert (0 < y) by lra. assert (0 < b') by lra. destruct (Rle_dec 0 a).
    + eapply Rle_trans; [apply Rmin_r|]. apply Rmult_le_compat_l; [lra|]. apply Rinv_le_contravar; lra.
    + eapply Rle_trans; [apply Rmin_l|]. unfold Rdiv. apply Ropp_le_cancel. rewrite !Ropp_mult_distr_l.
      apply Rmult_le_compat_l; [lra|]. apply Rinv_le_contravar; lra.
  - apply Rmult_le_compat_r; [|exact Hx]. left. apply Rinv_0_lt_compat. lra.
Qed.
Lemma idiv_encloses a a' b b' : inside a a' -> inside b b' -> inside (a / b) (idiv a' b').
Proof.
  destruct a' as [[l u]|], b' as [[l' u']|]; cbn; try (intros; exact I). intros H H'.
  destruct (Z.ltb_spec 0 l') as [P|P]; [|exact I]. cbn.
  assert (P' : (0 < u')%Z) by (apply lt_IZR; apply IZR_lt in P; lra).
  rewrite IZR_min, IZR_max, !opp_IZR. pose proof (floor_div l l' P). pose proof (floor_div l u' P').
  pose proof (floor_div (- u) l' P) as F1. pose proof (floor_div (- u) u' P') as F2. rewrite opp_IZR in F1, F2.
  pose proof (IZR_lt _ _ P) as PR.
  pose proof (div_low a b (IZR l) (IZR l') (IZR u') PR H' ltac:(lra)) as L1.
  pose proof (div_low (- a) b (- IZR u) (IZR l') (IZR u') PR H' ltac:(lra)) as L2.
  split.
  - unfold Rmin in *. repeat destruct Rle_dec; lra.
  - replace (a / b) with (- (- a / b)) by (field; lra).
    unfold Rmin in L2. unfold Rmax. repeat destruct Rle_dec; lra.
Qed.
Lemma Dops_enclose : arith_rel inside Rops Dops.
Proof.
  pose proof intervals_enclose as A. destruct A. constructor; try assumption. exact idiv_encloses.
Qed.
