(** C72, C73: Python sessions compute exact derivatives. *)
From Coq Require Import ZArith List Bool String Reals Lra Lia.
From Verif Require Import Outcome Scalar Model Spec RealOps ExprSpec ProgSpec ModelObj ObjSpec ModelS SpecS ModelObjS SessSpec Samples
  FactsSessD FactsSessS.
Import ListNotations.
Open Scope R_scope.

(** C72.  [fsession q w]: the session on plain reals with shared cells; [session_value w r]: what name [r]
    holds as a function of the variables. *)
Theorem C72_sessions_exact : forall (c : cfg) (n : nat) (p : nat -> R) (slack : nat -> nat) (w : list (pstmt R)),
  cfg_ok c -> c_exc c = true -> size_ok c n ->
  List.Forall (arithmetic n p) w -> fsafe_session (c_ord c) p w fstart ->
  legal_session Rops c slack w start /\
  exists st, session Rops c slack w start = Ok st /\
    (forall r, ModelObj.names st r = fnames (fsession p w fstart) r) /\
    forall r o, ModelObj.names st r = Some o ->
      let F := session_value w r in
      exists x g h, load st o = Ok x /\ shows c n x (F p) g h /\
        (forall i, (i < n)%nat -> partial F i p (g i)) /\
        (forall i j, (i < n)%nat -> (j < n)%nat -> partial2 F i j p (h i j)).
Proof. exact session_derivatives. Qed.
Print Assumptions C72_sessions_exact.
(** Without the condition on aliased operands of [*=] the statement is false for second order. *)
Theorem C72_aliased_product_refuted : exists st x h,
  List.Forall (arithmetic 1 (fun _ => 3)) [NVar 0 0 3 1; Alias 1 0; IAsg Amul 0 1] /\
  session Rops dyn2 (fun _ => 0%nat) [NVar 0 0 3 1; Alias 1 0; IAsg Amul 0 1] start = Ok st /\
  ModelObj.names st 0%nat = Some 0%nat /\ load st 0 = Ok x /\ get_h dyn2 x 0 0 = Ok h /\ h = 12 /\
  partial2 (session_value [NVar 0 0 3 1; Alias 1 0; IAsg Amul 0 1] 0) 0 0 (fun _ => 3) 2.
Proof. exact aliased_product_wrong. Qed.
Print Assumptions C72_aliased_product_refuted.
(** x, y = variables; z = x; z *= y (changes x too); t = x; x += 1.0 (rebinds x only); t /= x; u = t.log() *)
Definition wsample : list (pstmt R) :=
  [NVar 0 0 3 2; NVar 1 1 5 2; Alias 2 0; IAsg Amul 2 1; Alias 3 0; IAsgS Aadd 0 1; IAsg Adiv 3 0; Un 4 Ulog 3; Un 9 Ulog 7].
Example C72_case : List.Forall (arithmetic 2 (fun i => match i with O => 3 | _ => 5 end)) wsample /\
  fsafe_session 2 (fun i => match i with O => 3 | _ => 5 end) wsample fstart /\
  (forall q, session_value wsample 2 q = q 0%nat * q 1%nat / (q 0%nat * q 1%nat + 1)) /\
  (forall q, session_value wsample 0 q = q 0%nat * q 1%nat + 1) /\
  (forall q, session_value wsample 4 q = ln (q 0%nat * q 1%nat / (q 0%nat * q 1%nat + 1))) /\
  fnames (fsession (fun _ => 0) wsample fstart) 9 = None.
Proof.
  split; [repeat constructor; cbn; try lia; reflexivity|]. split.
  - cbn. repeat (split; [try exact I|]); try exact I; try discriminate.
    + right. intros o E. injection E as <-. discriminate.
    + intros E. injection E as E. lra.
    + intros x E. injection E as <-. apply Rdiv_lt_0_compat; lra.
  - repeat split; reflexivity.
Qed.

(** C73.  Sparse numbers: the derivative read under any name [k], created in the session or not. *)
Theorem C73_sparse_sessions_exact : forall (p : string -> R) (w : list (zstmt R)),
  List.Forall (zarithmetic p) w -> zfsafe_session p w fstart ->
  let st := zsession Rops w zstart in
  (forall r, znames st r = fnames (zfsession p w fstart) r) /\
  forall r o, znames st r = Some o -> exists x, nth_error (zobjs st) o = Some x /\ keys_ok x /\
    s_get_f x = zsession_value w r p /\ forall k, named_partial (zsession_value w r) k p (s_get_d Rops x k).
Proof. exact sparse_session. Qed.
Print Assumptions C73_sparse_sessions_exact.
Theorem C73_other_objects_unchanged : forall (S : Type) (O : Ops S) (s : zstmt S) (st : zheap S) (o : nat) (x : ss S),
  nth_error (zobjs st) o = Some x ->
  (forall op r a, s = ZAsg op r a -> znames st r <> Some o) -> (forall op r v, s = ZAsgS op r v -> znames st r <> Some o) ->
  nth_error (zobjs (snd (zstep O s st))) o = Some x.
Proof. exact @sparse_frame. Qed.
Print Assumptions C73_other_objects_unchanged.
(** Without the condition on aliased operands of [*=] and [/=] the statement is false. *)
Theorem C73_aliased_operands_refuted : forall o : aop, o = Amul \/ o = Adiv -> exists x l,
  List.Forall (zarithmetic (fun _ => 2)) [ZVar 0 "x" 2; ZAlias 1 0; ZAsg o 0 1] /\
  nth_error (zobjs (zsession Rops [ZVar 0 "x" 2; ZAlias 1 0; ZAsg o 0 1] zstart)) 0 = Some x /\
  znames (zsession Rops [ZVar 0 "x" 2; ZAlias 1 0; ZAsg o 0 1] zstart) 0%nat = Some 0%nat /\
  named_partial (zsession_value [ZVar 0 "x" 2; ZAlias 1 0; ZAsg o 0 1] 0) "x" (fun _ => 2) l /\ s_get_d Rops x "x" <> l.
Proof. exact aliased_op_wrong. Qed.
Print Assumptions C73_aliased_operands_refuted.
Definition zsample : list (zstmt R) :=
  [ZVar 0 "x" 3; ZVar 1 "y" 5; ZAlias 2 0; ZAsg Amul 2 1; ZAlias 3 0; ZAsgS Aadd 0 1; ZAsg Adiv 3 0; ZUn 4 Ulog 3; ZUn 9 Ulog 7].
Example C73_case : List.Forall (zarithmetic (fun k => if String.eqb k "x" then 3 else 5)) zsample /\
  zfsafe_session (fun k => if String.eqb k "x" then 3 else 5) zsample fstart /\
  (forall q, zsession_value zsample 2 q = q "x"%string * q "y"%string / (q "x"%string * q "y"%string + 1)) /\
  (forall q, zsession_value zsample 4 q = ln (q "x"%string * q "y"%string / (q "x"%string * q "y"%string + 1))) /\
  names (s_mul_assign Rops (s_variable Rops "x" 3) (Some (s_variable Rops "y" 5))) = ["x"; "y"]%string.
Proof.
  split; [repeat constructor|]. split.
  - cbn. repeat (split; [try exact I|]); try exact I; try discriminate.
    + intros o E. injection E as <-. discriminate.
    + intros E. injection E as E. lra.
    + intros o E. injection E as <-. discriminate.
    + intros x E. injection E as <-. apply Rdiv_lt_0_compat; lra.
  - repeat split; reflexivity.
Qed.
