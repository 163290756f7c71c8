(** C115: sparse numbers whose scalars are dense numbers. *)
From Coq Require Import ZArith List Bool Reals String.
From Coquelicot Require Import Coquelicot.
From Verif Require Import Outcome Scalar Model Spec ModelS ModelNS NestSSpec RealOps Samples NestSpec FactsNestS FactsNestV FactsNestW.
Import ListNotations.
Open Scope R_scope.

(** C115.  Full statement: arithmetic of [SScalar<DDScalar<..>>] is that of sparse numbers, whatever names the operands have, with
    the derivatives of every scalar carried along.  It holds as long as the right operand brings no new name. *)
(** One name: the value shows the function with its first and second derivatives, the entry under the name the first, second and third. *)
Theorem C115_one_name_partial : forall (c : cfg) (k : string) (s : R) (e : uexpr), inner 1 c ->
  exists (r : ss (dd R)) (d : dd R) (D1 D2 D3 : R -> R),
  uevaluate Rops c k s e = Ok r /\ s_d r = [(k, d)] /\
  (forall t, is_derive (ufn e) t (D1 t)) /\ (forall t, is_derive D1 t (D2 t)) /\ (forall t, is_derive D2 t (D3 t)) /\
  shows c 1 (s_f r) (ufn e s) (fun _ => D1 s) (fun _ _ => D2 s) /\ shows c 1 d (D1 s) (fun _ => D2 s) (fun _ _ => D3 s).
Proof. exact one_name. Qed.
Print Assumptions C115_one_name_partial.
(** Any number of names, any scalars: without a new name nothing fails. *)
Theorem C115_known_names_partial : forall (S : Type) (O : Ops S) (c : cfg) (n : nat) (a b : ss (dd S)),
  cfg_ok c -> sized c n a -> sized c n b -> ~ new_name a b ->
  goes c n a (ns_add O c a b) /\ goes c n a (ns_sub O c a b) /\ goes c n a (ns_mul O c a b) /\
  goes c n a (ns_add_assign O c a b) /\ goes c n a (ns_sub_assign O c a b) /\ goes c n a (ns_mul_assign O c a b).
Proof. exact @known_names. Qed.
Print Assumptions C115_known_names_partial.
(** Real scalars: values and derivatives follow the sum, difference and product rules, with all their components. *)
Theorem C115_values_partial : forall (c : cfg), cfg_ok c -> forall (n : nat) (a b : ss (dd R)) (u v : dual) (TA TB : string -> dual),
  has_s c n a u TA -> has_s c n b v TB -> ~ new_name a b ->
  gives_s c n a (ns_add Rops c a b) (dual_add u v) (fun k => dual_add (TA k) (TB k)) /\
  gives_s c n a (ns_sub Rops c a b) (dual_sub u v) (fun k => dual_sub (TA k) (TB k)) /\
  gives_s c n a (ns_mul Rops c a b) (dual_mul u v) (fun k => dual_add (dual_mul (TA k) v) (dual_mul u (TB k))) /\
  gives_s c n a (ns_add_assign Rops c a b) (dual_add u v) (fun k => dual_add (TA k) (TB k)) /\
  gives_s c n a (ns_sub_assign Rops c a b) (dual_sub u v) (fun k => dual_sub (TA k) (TB k)) /\
  gives_s c n a (ns_mul_assign Rops c a b) (dual_mul u v) (fun k => dual_add (dual_mul (TA k) v) (dual_mul u (TB k))).
Proof. exact values. Qed.
Print Assumptions C115_values_partial.
(** Two names, both entered by hand in every operand. *)
Example C115_by_hand : (forall f dx dy, has_s (sta1 1) 1 (by_hand f dx dy) (mkdual f (fun _ => dx) (fun _ _ => 0))
    (fun k => mkdual (if String.eqb k "x" then dx else if String.eqb k "y" then dy else 0) (fun _ => 0) (fun _ _ => 0))) /\
  forall f dx dy f' dx' dy', ~ new_name (by_hand f dx dy) (by_hand f' dx' dy').
Proof. exact (conj by_hand_has by_hand_names). Qed.
(** A new name and inner numbers of static size: [operator[]] makes a number by [DDScalar()], which leaves the array indeterminate, and
    the loop adds to it. *)
Theorem C115_new_name_static_refuted : forall (S : Type) (O : Ops S) (c : cfg) (n : nat) (a b : ss (dd S)),
  cfg_ok c -> is_dynamic c = false -> size_ok c n -> sized c n a -> sized c n b -> new_name a b ->
  ns_add O c a b = UB /\ ns_sub O c a b = UB /\ ns_mul O c a b = UB /\
  ns_add_assign O c a b = UB /\ ns_sub_assign O c a b = UB /\ ns_mul_assign O c a b = UB.
Proof. exact @new_name_static. Qed.
Print Assumptions C115_new_name_static_refuted.
(** Inner numbers of dynamic size: [DDScalar()] has size 1, and the sizes are compared. *)
Theorem C115_new_name_dynamic_refuted : forall (S : Type) (O : Ops S) (c : cfg) (n : nat) (a b : ss (dd S)),
  cfg_ok c -> is_dynamic c = true -> c_exc c = true -> n <> 1%nat -> sized c n a -> sized c n b -> new_name a b ->
  let t := Throw IncompatibleSize in
  ns_add O c a b = t /\ ns_sub O c a b = t /\ ns_mul O c a b = t /\ ns_add_assign O c a b = t /\ ns_sub_assign O c a b = t /\ ns_mul_assign O c a b = t.
Proof. exact @new_name_dynamic. Qed.
Print Assumptions C115_new_name_dynamic_refuted.
(** In every build and for every size: no number with entries of the right size comes out. *)
Theorem C115_new_name_dynamic_any_refuted : forall (S : Type) (O : Ops S) (c : cfg), is_dynamic c = true -> forall (n : nat) (a b : ss (dd S)),
  cfg_ok c -> new_name a b ->
  forall m, In m [@ns_add S O c; @ns_sub S O c; @ns_mul S O c; @ns_add_assign S O c; @ns_sub_assign S O c; @ns_mul_assign S O c] ->
  ~ exists r, m a b = Ok r /\ sized c n r.
Proof. exact @never_sized. Qed.
Print Assumptions C115_new_name_dynamic_any_refuted.
(** Two variables of a function of two arguments. *)
Example C115_two_variables : forall a b : R, exists x y,
  ns_variable Rops (sta1 2) "x" (mk 2 [Some a; Some 1; Some 0]) = Ok x /\ ns_variable Rops (sta1 2) "y" (mk 2 [Some b; Some 0; Some 1]) = Ok y /\
  sized (sta1 2) 2 x /\ sized (sta1 2) 2 y /\ new_name x y /\ ns_add Rops (sta1 2) x y = UB /\ ns_mul Rops (sta1 2) y x = UB.
Proof. exact (two_variables Rops). Qed.
(** x x x at 2: 8, 12, 12 and 12, 12, 6. *)
Example C115_cube : uevaluate Zops (sta2 1) "x" 2%Z (UMul (UMul UX UX) UX) =
  Ok (mks (mk 1 [Some 8; Some 12; Some 12]%Z) [("x"%string, mk 1 [Some 12; Some 12; Some 6]%Z)]).
Proof. vm_compute. reflexivity. Qed.
(** Size 1 is the one dynamic size that passes the comparison: the storage of the new entry is too short, its derivative lost. *)
Example C115_short_entry : let x := mks (mk 1 [Some 2; Some 1]%Z) [] in let y := mks (mk 1 [Some 3; Some 1]%Z) [("y"%string, mk 1 [Some 5; Some 7]%Z)] in
  ns_add Zops dyn1 x y = Ok (mks (mk 1 [Some 5; Some 2]%Z) [("y"%string, mk 1 [Some 5]%Z)]).
Proof. vm_compute. reflexivity. Qed.
