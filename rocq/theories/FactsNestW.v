(** C115: new names and inner numbers of dynamic size, in every build. *)
From Coq Require Import ZArith List Bool Lia String.
From Verif Require Import Outcome Scalar Model Spec ModelS ModelNS NestSSpec ProgSpec FactsObj.
Import ListNotations.

Section Short.
  Context {S : Type} (O : Ops S) (c : cfg) (D : is_dynamic c = true).
  Definition short (v : dd S) : Prop := m_size v = 1%Z /\ List.length (m_data v) = 1%nat.
  Lemma short_bad n v : cfg_ok c -> short v -> ~ wf c n v.
  Proof.
    intros ([Ho|Ho] & _) (A & B) (H1 & H2 & _); unfold size in H1; rewrite D in H1; rewrite B, Ho in H2; assert (n = 1%nat) by lia; subst n; discriminate H2.
  Qed.
  Definition tidy (f : dd S -> res (dd S)) : Prop := forall v r, f v = Ok r -> keeps v r.
  Lemma tidy_assign o w : tidy (fun v => assign O c o v (Some w)).
  Proof.
    intros v r E. destruct (check_equal_size c (size c v) (ref_size c v (Some w))) as [[]| | |] eqn:Q.
    - destruct (calm_assign O c o v (Some w) Q) as [(r' & E' & H)|[E'|E']]; congruence.
    - destruct o; cbn in E; unfold add_assign, sub_assign, mul_assign, div_assign in E; rewrite Q in E; discriminate E.
    - destruct o; cbn in E; unfold add_assign, sub_assign, mul_assign, div_assign in E; rewrite Q in E; discriminate E.
    - destruct o; cbn in E; unfold add_assign, sub_assign, mul_assign, div_assign in E; rewrite Q in E; discriminate E.
  Qed.
  Lemma keeps_short v r : keeps v r -> short v -> short r.
  Proof. intros (A & B) (H1 & H2). split; congruence. Qed.
  Definition hurt (t : table (dd S)) : Prop := exists k v, In (k, v) t /\ short v.
  Lemma update_hurt f k t : tidy f -> forall t', ns_update O c t k f = Ok t' ->
    (hurt t \/ ~ In k (map fst t) -> hurt t') /\ forall k', k' <> k -> ~ In k' (map fst t) -> ~ In k' (map fst t').
  Proof.
    intros Hf. induction t as [|(k0, v) t IH]; intros t' E; cbn [ns_update map fst In] in *.
    - destruct (f (ctor_default O c)) as [r| | |] eqn:F; try discriminate E. cbn [bind] in E. injection E as <-. split.
      + intros _. exists k, r. split; [left; reflexivity|]. apply (keeps_short _ _ (Hf _ _ F)). unfold ctor_default. rewrite D. split; reflexivity.
      + intros k' N _. cbn. intros [->|[]]. apply N. reflexivity.
    - destruct (String.eqb_spec k0 k) as [->|Ne].
      + destruct (f v) as [r| | |] eqn:F; try discriminate E. cbn [bind] in E. injection E as <-. split; [|cbn; auto].
        intros [(k1 & v1 & [H|H] & Sh)|H]; [|exists k1, v1; split; [right; exact H|exact Sh]|tauto].
        injection H as <- <-. exists k, r. split; [left; reflexivity|]. exact (keeps_short _ _ (Hf _ _ F) Sh).
      + destruct (ns_update O c t k f) as [t1| | |]; try discriminate E. cbn [bind] in E. injection E as <-. destruct (IH t1 eq_refl) as (A & B). split.
        * intros [(k1 & v1 & [H|H] & Sh)|H].
          -- exists k1, v1. split; [left; exact H|exact Sh].
          -- destruct A as (k2 & v2 & I & Sh2); [left; exists k1, v1; auto|]. exists k2, v2. split; [right; exact I|exact Sh2].
          -- destruct A as (k2 & v2 & I & Sh2); [right; tauto|]. exists k2, v2. split; [right; exact I|exact Sh2].
        * intros k' N H. cbn. intros [H'|H']; [tauto|]. apply (B k' N); [tauto|exact H'].
  Qed.
  Lemma merge_hurt g b : (forall w, tidy (fun o => g o w)) -> forall t t', ns_merge O c g t b = Ok t' ->
    hurt t \/ (exists k, In k (map fst b) /\ ~ In k (map fst t)) -> hurt t'.
  Proof.
    intros Hg. induction b as [|(k, v) b IH]; intros t t' E H; cbn [ns_merge map fst In] in *.
    - injection E as <-. destruct H as [H|(k & [] & _)]. exact H.
    - destruct (ns_update O c t k (fun o => g o v)) as [t1| | |] eqn:F; try discriminate E. cbn [bind] in E.
      destruct (update_hurt _ k t (Hg v) t1 F) as (A & B). apply (IH t1 t' E).
      destruct H as [H|(k0 & [<-|H] & N)]; [left; apply A; auto|left; apply A; auto|].
      destruct (string_dec k0 k) as [->|Ne]; [left; apply A; auto|]. right. exists k0. split; [exact H|apply B; assumption].
  Qed.
  Lemma map_keys f (t : table (dd S)) : forall t', ns_map f t = Ok t' -> map fst t' = map fst t.
  Proof.
    induction t as [|(k, v) t IH]; intros t' E; cbn [ns_map] in E; [injection E as <-; reflexivity|].
    destruct (f v) as [w| | |]; try discriminate E. cbn [bind] in E. destruct (ns_map f t) as [t1| | |]; try discriminate E. cbn [bind] in E.
    injection E as <-. cbn. f_equal. apply IH. reflexivity.
  Qed.
  Lemma binary_hurt a b da db t : ns_binary O c a b da db = Ok t -> (exists k, In k (map fst b) /\ ~ In k (map fst a)) -> hurt t.
  Proof.
    unfold ns_binary. intros E H. destruct (ns_map _ a) as [r| | |] eqn:F; try discriminate E. cbn [bind] in E. apply map_keys in F.
    eapply merge_hurt; [|exact E|right; rewrite F; exact H].
    intros w v r' E'. cbn beta in E'. destruct (times O c db w) as [u| | |]; try discriminate E'. cbn [bind] in E'. exact (tidy_assign Aadd u v r' E').
  Qed.
  Lemma hurt_bad n f t : cfg_ok c -> hurt t -> ~ sized c n (mks f t).
  Proof.
    intros Hc (k & v & I & Sh) (_ & H). rewrite List.Forall_forall in H. exact (short_bad n v Hc Sh (H (k, v) I)).
  Qed.
  Ltac step E := match type of E with (bind ?m _) = _ => let F := fresh "F" in destruct m eqn:F; try discriminate E; cbn [bind] in E end.
  Lemma never_sized n a b : cfg_ok c -> new_name a b -> forall m, In m [@ns_add S O c; @ns_sub S O c; @ns_mul S O c; @ns_add_assign S O c; @ns_sub_assign S O c; @ns_mul_assign S O c] ->
    ~ exists r, m a b = Ok r /\ sized c n r.
  Proof.
    intros Hc HN m Hm (r & E & Hs). assert (HT : hurt (s_d r)).
    { cbn in Hm. destruct Hm as [<-|[<-|[<-|[<-|[<-|[<-|[]]]]]]]; unfold ns_add, ns_sub, ns_mul, ns_add_assign, ns_sub_assign, ns_mul_assign in E;
        step E; step E; injection E as <-; cbn [s_d]; try (eapply binary_hurt; eassumption);
        (eapply merge_hurt; [|eassumption|right; exact HN]); intros w; [apply (tidy_assign Aadd)|apply (tidy_assign Asub)]. }
    destruct r as [f t]. exact (hurt_bad n f t Hc HT Hs).
  Qed.
End Short.
