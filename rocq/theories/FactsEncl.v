(** Enclosures from parametricity. *)
From Coq Require Import ZArith List Bool Reals Lra Lia Psatz.
From Coquelicot Require Import Coquelicot.
From Verif Require Import Outcome Scalar Model Spec RealOps ExprSpec ProgSpec NumSpec ParamSpec FactsParam FactsExpr FactsNum CreateRep OpsRep.
Import ListNotations.
Open Scope R_scope.

Lemma expr_rel_below {S T} (P : S -> T -> Prop) n e : forall e', expr_rel P e e' -> vars_below n e -> vars_below n e'.
Proof.
  induction e; intros [] H; cbn in *; try contradiction; intuition (subst; eauto).
Qed.
Lemma res_rel_Ok {A B} (Q : A -> B -> Prop) m m' a : res_rel Q m m' -> m = Ok a -> exists b, m' = Ok b /\ Q a b.
Proof. intros H ->. destruct m'; cbn in H; try contradiction. eauto. Qed.

Lemma coords_length n p : length (coords n p) = n.
Proof. unfold coords. now rewrite map_length, seq_length. Qed.

Lemma enclosure {T} (O' : Ops T) (mem : R -> T -> Prop) c n e e' box :
  cfg_ok c -> size_ok c n -> length box = n -> vars_below n e -> no_abs e -> arith_rel mem Rops O' -> expr_rel mem e e' ->
  exists r, evaluate O' c box e' = Ok r /\ wf c n r /\
    forall p, Forall2 mem (coords n p) box -> dom e p -> encloses mem c n e p r.
Proof.
  intros Hc SO L HV NA A He. pose proof (expr_rel_below mem n e e' He HV) as HV'. subst n.
  assert (exists d, nth 0 box (o_Z O' 0) = d) as [d _] by eauto.
  destruct (evaluate_rep O' c box d e' Hc SO HV') as (r & E & R). exists r. split; [exact E|].
  split; [eapply rep_wf; exact R|].
  intros p Hbox D.
  destruct (exact1 c (length box) e p Hc SO HV D) as (xs & x & E1 & E2 & _ & E3 & g & Hg & _).
  unfold evaluate in E.
  destruct (res_rel_Ok _ _ _ _ (variables_par mem Rops O' c A _ _ Hbox) E1) as (xs' & E1' & Hxs).
  rewrite E1' in E. cbn [bind] in E.
  destruct (res_rel_Ok _ _ _ _ (expr_par mem Rops O' c A (length box) e e' xs xs' (or_intror NA) He Hxs) E2) as (r' & E2' & Hr).
  assert (r' = r) by congruence. subst r'.
  split; [|split].
  - destruct (res_rel_Ok _ _ _ _ (get_f_par mem x r Hr) E3) as (F & EF & HF). eauto.
  - intros i Hi. destruct (Hg i Hi) as [Eg Pg]. destruct (res_rel_Ok _ _ _ _ (get_g_par mem c x r _ Hr) Eg) as (G & EG & HG). eauto.
  - intros O2 i j Hi Hj. destruct (exact2 c (length box) e p Hc O2 SO HV D) as (xs2 & x2 & F1 & F2 & _ & h & Hh & _).
    assert (xs2 = xs) by congruence. subst xs2. assert (x2 = x) by congruence. subst x2.
    destruct (Hh i j Hi Hj) as [Eh Ph]. destruct (res_rel_Ok _ _ _ _ (get_h_par mem c x r _ _ Hr) Eh) as (G & EG & HG). eauto.
Qed.

Lemma lin_hull (x y a b : R) : a <= x <= b -> Rmin (a * y) (b * y) <= x * y <= Rmax (a * y) (b * y).
Proof.
  intros H. destruct (Rle_dec 0 y).
  - rewrite Rmin_left, Rmax_right by nra. nra.
  - rewrite Rmin_right, Rmax_left by nra. nra.
Qed.
Lemma mul_hull (x y a b a' b' : R) : a <= x <= b -> a' <= y <= b' ->
  Rmin (Rmin (a * a') (a * b')) (Rmin (b * a') (b * b')) <= x * y <= Rmax (Rmax (a * a') (a * b')) (Rmax (b * a') (b * b')).
Proof.
  intros H H'. pose proof (lin_hull x y a b H) as [L U].
  pose proof (lin_hull y a a' b' H') as [L1 U1]. pose proof (lin_hull y b a' b' H') as [L2 U2].
  rewrite (Rmult_comm a' a), (Rmult_comm b' a), (Rmult_comm y a) in *.
  rewrite (Rmult_comm a' b), (Rmult_comm b' b), (Rmult_comm y b) in *.
  split; [eapply Rle_trans; [|exact L]|eapply Rle_trans; [exact U|]].
  - apply Rmin_glb; [eapply Rle_trans; [apply Rmin_l|exact L1]|eapply Rle_trans; [apply Rmin_r|exact L2]].
  - apply Rmax_lub; [eapply Rle_trans; [exact U1|apply Rmax_l]|eapply Rle_trans; [exact U2|apply Rmax_r]].
Qed.
Lemma IZR_min a b : IZR (Z.min a b) = Rmin (IZR a) (IZR b).
Proof.
  destruct (Z.min_spec a b) as [[H ->]|[H ->]].
  - symmetry. apply Rmin_left. apply IZR_le. lia.
  - symmetry. apply Rmin_right. apply IZR_le. lia.
Qed.
Lemma IZR_max a b : IZR (Z.max a b) = Rmax (IZR a) (IZR b).
Proof.
  destruct (Z.max_spec a b) as [[H ->]|[H ->]].
  - symmetry. apply Rmax_right. apply IZR_le. lia.
  - symmetry. apply Rmax_left. apply IZR_le. lia.
Qed.
Lemma intervals_enclose : arith_rel inside Rops Iops.
Proof.
  constructor; cbn; intros; try exact I; try apply COS_bound; try apply SIN_bound; try lra.
  all: repeat match goal with i : interval |- _ => destruct i as [[? ?]|] end; cbn in *; try exact I.
  - rewrite !plus_IZR. lra.
  - rewrite !minus_IZR. lra.
  - rewrite !IZR_min, !IZR_max, !mult_IZR. apply mul_hull; assumption.
  - rewrite !opp_IZR. lra.
Qed.
