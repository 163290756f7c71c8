(** C119: the values inside dense numbers of sparse numbers. *)
From Coq Require Import ZArith List Bool Reals Lra Lia String.
From Verif Require Import Outcome Scalar Model ModelBuf ModelObj Spec RealOps ExprSpec ProgSpec NumSpec ParamSpec FactsParam ModelS Float64 Ops64 NestTSpec NestVSpec Samples.
Import ListNotations.

Lemma sees_arith {S} (O : Ops S) : arith_rel sees (sops O) (by_reciprocal O).
Proof. unfold sees. constructor; cbn; intros; subst; reflexivity. Qed.
Lemma sees_order {S} (O : Ops S) : order_rel sees (sops O) (by_reciprocal O).
Proof. unfold sees. constructor; cbn; intros; subst; reflexivity. Qed.
Lemma sees_real : arith_rel sees (sops Rops) Rops.
Proof. unfold sees. constructor; cbn; intros; subst; try reflexivity. unfold Rdiv. ring. Qed.
Lemma sees_real_order : order_rel sees (sops Rops) Rops.
Proof. unfold sees. constructor; cbn; intros; subst; reflexivity. Qed.
Lemma values_programs {S} (O : Ops S) c n fuel s s' st st' : stmt_rel sees s s' -> Forall2 (num_rel sees) st st' ->
  run_rel (Forall2 (num_rel sees)) (exec (sops O) c n fuel s st) (exec (by_reciprocal O) c n fuel s' st').
Proof. exact (exec_par sees (sops O) (by_reciprocal O) c (sees_arith O) (sees_order O) n fuel s s' st st'). Qed.
Lemma values_sessions {S} (O : Ops S) c slack p p' : Forall2 (pstmt_rel sees) p p' -> forall st st', heap_rel sees st st' ->
  res_rel (heap_rel sees) (session (sops O) c slack p st) (session (by_reciprocal O) c slack p' st').
Proof. exact (session_par sees (sops O) (by_reciprocal O) c (sees_arith O) (sees_order O) slack p p'). Qed.
Lemma values_real c n fuel s s' st st' : stmt_rel sees s s' -> Forall2 (num_rel sees) st st' ->
  run_rel (Forall2 (num_rel sees)) (exec (sops Rops) c n fuel s st) (exec Rops c n fuel s' st').
Proof. exact (exec_par sees (sops Rops) Rops c sees_real sees_real_order n fuel s s' st st'). Qed.

(** atan2(1, 3): the derivative 3 / 10 by the first operand. *)
Definition one_three : list (dd b64) :=
  [mk 2 [Some (b64_of_Z 1); Some (b64_of_Z 1); Some (b64_of_Z 0)]; mk 2 [Some (b64_of_Z 3); Some (b64_of_Z 0); Some (b64_of_Z 1)]].
Definition one_three_s : list (dd (ss b64)) := map (fun x => mk (m_size x) (map (option_map s_ctor_f) (m_data x))) one_three.
Definition slopes (M : libm) : bool :=
  match run (sops (b64ops M)) dyn1 2 one_three_s (EB Batan2 (EVar 0) (EVar 1)), run (b64ops M) dyn1 2 one_three (EB Batan2 (EVar 0) (EVar 1)) with
  | Ok x, Ok y => match get_g dyn1 x 0, get_g dyn1 y 0 with Ok s, Ok v => o_eq (b64ops M) (s_f s) v || negb (o_eq (b64ops M) v v) | _, _ => true end
  | _, _ => true
  end.
Lemma slopes_differ M : slopes M = false.
Proof. destruct M. vm_compute. reflexivity. Qed.
Lemma same_bits M : ~ (forall c n e e' env env', expr_rel sees e e' -> Forall2 (num_rel sees) env env' ->
  res_rel (num_rel sees) (run (sops (b64ops M)) c n env e) (run (b64ops M) c n env' e')).
Proof.
  intros H. pose proof (slopes_differ M) as F. unfold slopes in F.
  specialize (H dyn1 2%nat (EB Batan2 (EVar 0) (EVar 1)) (EB Batan2 (EVar 0) (EVar 1)) one_three_s one_three).
  assert (A : expr_rel sees (EB Batan2 (EVar 0) (EVar 1) : expr (ss b64)) (EB Batan2 (EVar 0) (EVar 1))) by (cbn; auto).
  assert (B : Forall2 (num_rel sees) one_three_s one_three).
  { unfold one_three_s, one_three. cbn [map m_size m_data option_map].
    repeat constructor. }
  specialize (H A B).
  destruct (run (sops (b64ops M)) dyn1 2 one_three_s _) as [x| | |]; try discriminate.
  destruct (run (b64ops M) dyn1 2 one_three _) as [y| | |]; try discriminate. cbn [res_rel] in H.
  pose proof (get_g_par sees dyn1 x y 0 H) as G.
  destruct (get_g dyn1 x 0) as [s| | |]; try discriminate. destruct (get_g dyn1 y 0) as [v| | |]; try discriminate.
  cbn [res_rel] in G. unfold sees in G. rewrite G in F. destruct (o_eq (b64ops M) v v); discriminate.
Qed.
(** Integers: y *= x with x = 2 (named "a") and y = 3 (named "b"), both with the derivative 1 by the one dense variable. *)
Definition st_s : list (dd (ss Z)) := [mk 1 [Some (mks 2%Z [("a"%string, 1%Z)]); Some (mks 1%Z [])]; mk 1 [Some (mks 3%Z [("b"%string, 1%Z)]); Some (mks 1%Z [])]].
Definition st_v : list (dd Z) := [mk 1 [Some 2%Z; Some 1%Z]; mk 1 [Some 3%Z; Some 1%Z]].
Lemma product_values : Forall2 (num_rel sees) st_s st_v /\
  exec (sops Zops) dyn1 1 5 (PAsg Amul 1 0) st_s =
    Some (Ok [mk 1 [Some (mks 2 [("a"%string, 1)]); Some (mks 1 [])]; mk 1 [Some (mks 6 [("b"%string, 2); ("a"%string, 3)]); Some (mks 5 [("a"%string, 1); ("b"%string, 1)])]])%Z /\
  exec (by_reciprocal Zops) dyn1 1 5 (PAsg Amul 1 0) st_v = Some (Ok [mk 1 [Some 2; Some 1]; mk 1 [Some 6; Some 5]])%Z.
Proof. split; [repeat constructor|]. split; vm_compute; reflexivity. Qed.
