(** Concrete configurations and numbers used to show that the hypotheses of the theorems are
    met by non-trivial cases.  Nothing is proved about the library here. *)
From Coq Require Import ZArith List Bool Lia Reals.
From Verif Require Import Outcome Scalar Model Spec Core.
Import ListNotations.
Open Scope Z_scope.

(** Integer scalars (division truncates; the <cmath> functions are dummies). *)
Definition Zops : Ops Z := {|
  o_Z := fun z => z; o_half := 0;
  o_add := Z.add; o_sub := Z.sub; o_mul := Z.mul; o_div := Z.quot; o_neg := Z.opp;
  o_lt := Z.ltb; o_le := Z.leb; o_eq := Z.eqb;
  o_pow := Z.pow; o_sqrt := Z.sqrt; o_cbrt := fun x => x;
  o_cos := fun x => x; o_sin := fun x => x; o_tan := fun x => x;
  o_acos := fun x => x; o_asin := fun x => x; o_atan := fun x => x; o_atan2 := fun x _ => x;
  o_hypot := fun a b => Z.sqrt (a * a + b * b);
  o_hypot3 := fun a b c => Z.sqrt (a * a + b * b + c * c);
  o_cosh := fun x => x; o_sinh := fun x => x; o_tanh := fun x => x;
  o_acosh := fun x => x; o_asinh := fun x => x; o_atanh := fun x => x;
  o_exp := fun x => x; o_log := Z.log2; o_log2 := Z.log2; o_log10 := fun x => x
|}.

(** Dynamic first/second order, static (size 2) first/second order; exceptions and assertions
    on.  [rel c]: the same type in a release build (no assertions). *)
Definition dyn1 : cfg := {| c_ord := 1; c_tsize := -1; c_exc := true; c_dbg := true |}.
Definition dyn2 : cfg := {| c_ord := 2; c_tsize := -1; c_exc := true; c_dbg := true |}.
Definition sta1 (n : Z) : cfg := {| c_ord := 1; c_tsize := n; c_exc := true; c_dbg := true |}.
Definition sta2 (n : Z) : cfg := {| c_ord := 2; c_tsize := n; c_exc := true; c_dbg := true |}.
Definition rel (c : cfg) : cfg :=
  {| c_ord := c_ord c; c_tsize := c_tsize c; c_exc := c_exc c; c_dbg := false |}.
Definition noexc (c : cfg) : cfg :=
  {| c_ord := c_ord c; c_tsize := c_tsize c; c_exc := false; c_dbg := c_dbg c |}.

(** Size 2: value 7, gradient (1,2), Hessian ((3,4),(4,5)). *)
Definition exa : dd Z := mk 2 (full [7; 1; 2; 3; 4; 5]).
(** Size 2: value 3, gradient (6,5), Hessian ((1,0),(0,-2)). *)
Definition exb : dd Z := mk 2 (full [3; 6; 5; 1; 0; -2]).
(** Size 3, first order. *)
Definition ex1 : dd Z := mk 3 (full [7; 1; 2; 3]).
(** Size 3, second order. *)
Definition ex3 : dd Z := mk 3 (full [7; 1; 2; 3; 10; 11; 12; 13; 14; 15]).

Lemma wf_list {S} c n (s : Z) (l : list S) : size c (mk s (full l)) = Z.of_nat n ->
  length l = storage_len (c_ord c) n -> Z.of_nat (length l) <= max_len -> wf c n (mk s (full l)).
Proof.
  intros H1 H2 H3. split; [exact H1|]. cbn [m_data]. split; [rewrite full_length; exact H2|].
  split; [|unfold len; rewrite full_length; exact H3].
  intros k Hk. rewrite full_length in Hk. destruct (nth_error l k) as [v|] eqn:E.
  - exists v. apply nth_error_full. exact E.
  - apply nth_error_None in E. lia.
Qed.

Lemma wf_exa : wf dyn2 2 exa. Proof. apply wf_list; [reflexivity|reflexivity|vm_compute; discriminate]. Qed.
Lemma wf_exa_s : wf (sta2 2) 2 exa. Proof. apply wf_list; [reflexivity|reflexivity|vm_compute; discriminate]. Qed.
Lemma wf_exb : wf dyn2 2 exb. Proof. apply wf_list; [reflexivity|reflexivity|vm_compute; discriminate]. Qed.
Lemma wf_exb_s : wf (sta2 2) 2 exb. Proof. apply wf_list; [reflexivity|reflexivity|vm_compute; discriminate]. Qed.
Lemma wf_ex1 : wf dyn1 3 ex1. Proof. apply wf_list; [reflexivity|reflexivity|vm_compute; discriminate]. Qed.
Lemma wf_ex3 : wf dyn2 3 ex3. Proof. apply wf_list; [reflexivity|reflexivity|vm_compute; discriminate]. Qed.
Lemma wf_ex3_s : wf (sta2 3) 3 ex3. Proof. apply wf_list; [reflexivity|reflexivity|vm_compute; discriminate]. Qed.
Lemma cfg_dyn1 : cfg_ok dyn1. Proof. split; cbn; lia. Qed.
Lemma cfg_dyn2 : cfg_ok dyn2. Proof. split; cbn; lia. Qed.
Lemma cfg_sta1 n : 0 <= n -> cfg_ok (sta1 n). Proof. split; cbn; lia. Qed.
Lemma cfg_sta2 n : 0 <= n -> cfg_ok (sta2 n). Proof. split; cbn; lia. Qed.

(** Closes goals made of conjunctions, existentials and computable equations. *)
Ltac run_case :=
  repeat match goal with
  | |- _ /\ _ => split
  | |- exists _, _ => eexists
  end; try assumption; try (vm_compute; reflexivity).
