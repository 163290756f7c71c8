(** Expressions denote functions that are continuous at every point of their open domain. *)
From Coq Require Import ZArith List Bool Reals Lra Lia.
From Coquelicot Require Import Coquelicot.
From Verif Require Import Outcome Scalar Model Spec RealOps Deriv UDeriv BDeriv ExprSpec Expr Chain FactsReal.
Import ListNotations.
Open Scope R_scope.

Global Instance near_filter N p : Filter (near N p).
Proof.
  constructor.
  - apply near_true. auto.
  - apply near_and.
  - intros P Q H. apply near_imp, H.
Qed.
Lemma near_here N p (P : (nat -> R) -> Prop) : near N p P -> P p.
Proof. intros (d & Hd & H). apply H. intros k _. rewrite Rminus_eq_0, Rabs_R0. exact Hd. Qed.

Definition cont N p (F : (nat -> R) -> R) : Prop := filterlim F (near N p) (locally (F p)).

Lemma cont_var N p k : (k < N)%nat -> cont N p (fun q => q k).
Proof. intros Hk P HP. exact (near_at N p k P Hk HP). Qed.
Lemma cont_const N p s : cont N p (fun _ => s).
Proof. apply filterlim_const. Qed.
Lemma cont_comp N p F (psi : R -> R) l : cont N p F -> is_derive psi (F p) l -> cont N p (fun q => psi (F q)).
Proof.
  intros HF HD. apply (filterlim_comp _ _ _ F psi (near N p) (locally (F p)) _ HF).
  apply (ex_derive_continuous (K:=R_AbsRing) (V:=R_NormedModule) psi (F p)). exists l. exact HD.
Qed.
Lemma cont_plus N p F G : cont N p F -> cont N p G -> cont N p (fun q => F q + G q).
Proof.
  intros HF HG. exact (filterlim_comp_2 F G Rplus HF HG (filterlim_plus (V:=R_NormedModule) (F p) (G p))).
Qed.
Lemma cont_mult N p F G : cont N p F -> cont N p G -> cont N p (fun q => F q * G q).
Proof.
  intros HF HG. exact (filterlim_comp_2 F G Rmult HF HG (filterlim_mult (K:=R_AbsRing) (F p) (G p))).
Qed.
Lemma cont_ext_near N p F G : near N p (fun q => F q = G q) -> cont N p F -> cont N p G.
Proof.
  intros HE HF. unfold cont. rewrite <- (near_here _ _ _ HE). eapply filterlim_ext_loc; [exact HE|exact HF].
Qed.
Lemma cont_u N p F u : cont N p F -> udom u (F p) -> cont N p (fun q => ureal u (F q)).
Proof.
  intros HF D. destruct (uder u (F p) D) as (p1 & p2 & HD & _). destruct HD as (H1 & _).
  apply (cont_comp N p F (ureal u) (p1 (F p)) HF). exact (locally_singleton _ _ H1).
Qed.
Lemma cont_opp N p F : cont N p F -> cont N p (fun q => - F q).
Proof. intros H. exact (cont_u N p F Uneg H I). Qed.
Lemma cont_minus N p F G : cont N p F -> cont N p G -> cont N p (fun q => F q - G q).
Proof. intros HF HG. apply cont_plus; [exact HF|apply cont_opp, HG]. Qed.
Lemma cont_div N p F G : cont N p F -> cont N p G -> G p <> 0 -> cont N p (fun q => F q / G q).
Proof.
  intros HF HG H. apply cont_mult; [exact HF|]. destruct (D2_inv _ H) as (H1 & _).
  exact (cont_comp N p G Rinv _ HG (locally_singleton _ _ H1)).
Qed.
Lemma cont_sqrt N p F : cont N p F -> 0 < F p -> cont N p (fun q => sqrt (F q)).
Proof. intros H H'. exact (cont_u N p F Usqrt H H'). Qed.
Lemma cont_near N p F (P : R -> Prop) : cont N p F -> open P -> P (F p) -> near N p (fun q => P (F q)).
Proof. intros HF HO HP. exact (HF P (HO _ HP)). Qed.

Lemma cont_b N p F G b : cont N p F -> cont N p G -> bdom b (F p) (G p) -> cont N p (fun q => breal b (F q) (G q)).
Proof.
  intros HF HG D. destruct b; cbn [breal bdom] in *.
  - apply cont_plus; assumption.
  - apply cont_minus; assumption.
  - apply cont_mult; assumption.
  - apply cont_div; assumption.
  - destruct (Rlt_dec 0 (G p)) as [Hp|Hp].
    + apply (cont_ext_near N p (fun q => atan (F q / G q))).
      * generalize (cont_near N p G (fun t => 0 < t) HG open_pos Hp). apply near_imp. intros q Hq.
        symmetry. apply Ratan2_pos, Hq.
      * apply (cont_u N p (fun q => F q / G q) Uatan); [|exact I]. apply cont_div; try assumption. lra.
    + destruct (Rlt_dec 0 (F p)) as [Hf|Hf].
      * apply (cont_ext_near N p (fun q => PI / 2 - atan (G q / F q))).
        -- generalize (cont_near N p F (fun t => 0 < t) HF open_pos Hf). apply near_imp. intros q Hq.
           symmetry. apply Ratan2_up, Hq.
        -- apply cont_minus; [apply cont_const|]. apply (cont_u N p (fun q => G q / F q) Uatan); [|exact I].
           apply cont_div; try assumption. lra.
      * assert (Hn : F p < 0) by (destruct (Rtotal_order (F p) 0) as [H|[H|H]]; [exact H|exfalso; apply D; split; [exact H|lra]|contradiction]).
        apply (cont_ext_near N p (fun q => - (PI / 2) - atan (G q / F q))).
        -- generalize (cont_near N p F (fun t => t < 0) HF open_neg Hn). apply near_imp. intros q Hq.
           symmetry. apply Ratan2_down, Hq.
        -- apply cont_minus; [apply cont_const|]. apply (cont_u N p (fun q => G q / F q) Uatan); [|exact I].
           apply cont_div; try assumption. lra.
  - apply (cont_sqrt N p (fun q => F q * F q + G q * G q)).
    + apply cont_plus; apply cont_mult; assumption.
    + apply sumsq2_pos, D.
Qed.

Lemma rev_cont N e p : vars_below N e -> dom e p -> cont N p (rev e).
Proof.
  induction e as [i|s|u e IH|b e1 IH1 e2 IH2|e1 IH1 e2 IH2 e3 IH3]; cbn [vars_below dom]; intros V D.
  - apply cont_var, V.
  - apply cont_const.
  - apply (cont_u N p (rev e) u); [apply IH; [exact V|apply D]|apply D].
  - apply (cont_b N p (rev e1) (rev e2) b); [apply IH1; [apply V|apply D]|apply IH2; [apply V|apply D]|apply D].
  - apply (cont_sqrt N p (fun q => rev e1 q * rev e1 q + rev e2 q * rev e2 q + rev e3 q * rev e3 q)).
    + repeat apply cont_plus; apply cont_mult; first [apply IH1; [apply V|apply D]|apply IH2; [apply V|apply D]|apply IH3; [apply V|apply D]].
    + apply sumsq3_pos, D.
Qed.
