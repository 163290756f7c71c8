(** C106: sparse numbers over any commutative ring; their sums, products and matrix products, formed in any order. *)
From Coq Require Import String ZArith List Bool Lia Permutation QArith_base Qcanon.
From Verif Require Import Outcome Scalar Model Spec ExprSpec ModelS SpecS FactsS RingSpec FactsRing RedSpec RedSSpec FactsRingS.
Import ListNotations.
Open Scope Z_scope.

(** C106.  Let the scalar type be a commutative ring.  The value of a polynomial expression at p + u e, where e is an infinitesimal
    with square zero, is f + (sum of the derivatives d(nm i) times u i) e, for all directions u, all names of the variables, and all
    orders in which the tables enumerate their entries.  ([hev] moves the point along two infinitesimals; a sparse number has first
    derivatives only, so both move along u and the coefficient [h1] is looked at.) *)
Theorem C106_polynomials_over_rings : forall (S : Type) (O : Ops S) (n : nat) (nm : nat -> string) (p : nat -> S) (e : expr S) (x : ss S),
  ring_laws O -> polynomial e -> vars_below n e -> distinct n nm -> s_runs O (fun i => s_variable O (nm i) (p i)) e x ->
  forall u, exists X, hev O p u u e X /\ (forall X', hev O p u u e X' -> X' = X) /\
    h0 X = s_f x /\ h1 X = sum O n (fun i => o_mul O (s_get_d O x (nm i)) (u i)).
Proof. exact sparse_polynomials. Qed.
Print Assumptions C106_polynomials_over_rings.
(** The same with quotients, reciprocals and natural powers, wherever the divisors are invertible. *)
Theorem C106_quotients_over_rings : forall (S : Type) (O : Ops S) (n : nat) (nm : nat -> string) (p : nat -> S) (e : expr S) (x : ss S),
  ring_laws O -> division_laws O -> defined_at O p e -> vars_below n e -> distinct n nm -> s_runs O (fun i => s_variable O (nm i) (p i)) e x ->
  forall u, exists X, hev O p u u e X /\ (forall X', hev O p u u e X' -> X' = X) /\
    h0 X = s_f x /\ h1 X = sum O n (fun i => o_mul O (s_get_d O x (nm i)) (u i)).
Proof. exact sparse_quotients. Qed.
Print Assumptions C106_quotients_over_rings.
(** Along the coordinate axes the coefficients are the derivatives themselves. *)
Theorem C106_components : forall (S : Type) (O : Ops S) (n : nat) (nm : nat -> string) (p : nat -> S) (e : expr S) (x : ss S),
  ring_laws O -> polynomial e \/ division_laws O /\ defined_at O p e -> vars_below n e -> distinct n nm ->
  s_runs O (fun i => s_variable O (nm i) (p i)) e x ->
  forall i X, (i < n)%nat -> hev O p (dir O i) (dir O i) e X -> h0 X = s_f x /\ h1 X = s_get_d O x (nm i).
Proof. exact sparse_components. Qed.
Print Assumptions C106_components.
(** Words of 64 bits: x x y at x = 2^33 + 1, y = 3 and its derivatives 2 x y and x x wrap around. *)
Example C106_words : let O := word_ops 64 in let e := EB Bmul (EB Bmul (EVar 0) (EVar 0)) (EVar 1) in
  let nm i := match i with 0%nat => "x" | _ => "y" end%string in let p i := match i with 0%nat => wrap 64 (2 ^ 33 + 1) | _ => wrap 64 3 end in
  ring_laws O /\ polynomial (S := word 64) e /\ vars_below 2 e /\ distinct 2 nm /\
  exists x, s_runs O (fun i => s_variable O (nm i) (p i)) e x /\ wval (s_f x) = ((2 ^ 33 + 1) * (2 ^ 33 + 1) * 3) mod 2 ^ 64 /\
    wval (s_get_d O x "x") = 2 * (2 ^ 33 + 1) * 3 /\ wval (s_get_d O x "y") = ((2 ^ 33 + 1) * (2 ^ 33 + 1)) mod 2 ^ 64 /\ wval (s_get_d O x "z") = 0.
Proof.
  cbv zeta. split; [apply word_ring|]. split; [cbn; tauto|]. split; [cbn; lia|]. split.
  { intros [|[|i]] [|[|j]] Hi Hj E; try reflexivity; try lia; discriminate. }
  eexists. split; [apply run_runs|]. repeat split; vm_compute; reflexivity.
Qed.
(** Rational numbers: x / y at (1/2, 3). *)
Example C106_rationals : let e := EB Bdiv (EVar 0) (EVar 1) in
  let nm i := match i with 0%nat => "x" | _ => "y" end%string in let p := at_point Qc_ops [Q2Qc (Qmake 1 2); Q2Qc (Qmake 3 1)] in
  ring_laws Qc_ops /\ division_laws Qc_ops /\ defined_at Qc_ops p e /\
  exists x, s_runs Qc_ops (fun i => s_variable Qc_ops (nm i) (p i)) e x /\ s_f x = Q2Qc (Qmake 1 6) /\
    s_get_d Qc_ops x "x" = Q2Qc (Qmake 1 3) /\ s_get_d Qc_ops x "y" = Q2Qc (Qmake (-1) 18).
Proof.
  cbv zeta. destruct rationals_case as (RL & DL & DA & _). split; [exact RL|]. split; [exact DL|]. split; [exact DA|].
  eexists. split; [apply run_runs|]. split; [apply Qc_is_canon; reflexivity|]. split; apply Qc_is_canon; reflexivity.
Qed.

(** Sums and products of sparse numbers do not depend on the order in which they are formed: the results have the same value
    and the same entries, and can differ only in the order in which the table enumerates them. *)
Theorem C106_any_order : forall (S : Type) (O : Ops S), ring_laws O -> forall (b : bfun) (t t' : tree (ss S)) (x x' : ss S),
  b = Badd \/ b = Bmul -> Permutation (leaves t) (leaves t') -> List.Forall keys_ok (leaves t) ->
  s_reduces O b t x -> s_reduces O b t' x' -> reorders x x'.
Proof. exact sparse_any_order. Qed.
Print Assumptions C106_any_order.
(** Python's [sum] and [math.prod] start with the integers 0 and 1. *)
Theorem C106_python_sum : forall (S : Type) (O : Ops S), ring_laws O -> forall (x : ss S) (xs : list (ss S)) (t : tree (ss S)) (y z : ss S),
  Permutation (leaves t) (x :: xs) -> List.Forall keys_ok (x :: xs) -> s_reduces O Badd t y -> s_reduces O Bmul t z ->
  reorders (s_py_sum O x xs) y /\ reorders (s_py_prod O x xs) z.
Proof. exact sparse_python_sum. Qed.
Print Assumptions C106_python_sum.
Theorem C106_reductions_exist : forall (S : Type) (O : Ops S) (b : bfun) (t : tree (ss S)), exists x, s_reduces O b t x.
Proof. exact @s_reduces_exists. Qed.
Print Assumptions C106_reductions_exist.
(** Matrix products are associative, whatever order is used for each entry of each product. *)
Theorem C106_matrix_products : forall (S : Type) (O : Ops S), ring_laws O -> forall (a b d e : nat) (A B D AB BD L R : nat -> nat -> ss S),
  keys_mat a b A -> keys_mat b d B -> keys_mat d e D ->
  s_matmul O a b d A B AB -> s_matmul O a d e AB D L -> s_matmul O b d e B D BD -> s_matmul O a b e A BD R ->
  forall i j, (i < a)%nat -> (j < e)%nat -> reorders (L i j) (R i j).
Proof. exact sparse_matrix_products. Qed.
Print Assumptions C106_matrix_products.
(** The scalar product of the value and of the derivatives. *)
Theorem C106_dot : forall (S : Type) (O : Ops S), ring_laws O -> forall (m : nat) (x y : nat -> ss S) (z : ss S),
  (forall q, (q < m)%nat -> keys_ok (x q) /\ keys_ok (y q)) -> s_dot O m x y z ->
  s_f z = sum O m (fun q => o_mul O (s_f (x q)) (s_f (y q))) /\
  forall k, s_get_d O z k = sum O m (fun q => o_add O (o_mul O (s_get_d O (x q) k) (s_f (y q))) (o_mul O (s_f (x q)) (s_get_d O (y q) k))).
Proof. exact sparse_dot. Qed.
Print Assumptions C106_dot.
(** (2^63; x: 1) + (5; y: 2^40) + (2^63; x: 2^63, y: 1) in words of 64 bits, in two orders: the tables enumerate x and y differently. *)
Example C106_order_case :
  let w := wrap 64 in
  let a := mks (w (2 ^ 63)) [("x"%string, w 1)] in let b := mks (w 5) [("y"%string, w (2 ^ 40))] in
  let c := mks (w (2 ^ 63)) [("x"%string, w (2 ^ 63)); ("y"%string, w 1)] in
  let t := Node (Leaf a) (Node (Leaf b) (Leaf c)) in let t' := Node (Node (Leaf b) (Leaf a)) (Leaf c) in
  Permutation (leaves t) (leaves t') /\ List.Forall keys_ok (leaves t) /\
  (exists x, s_reduces (word_ops 64) Badd t x /\ wval (s_f x) = 5 /\ map (fun e => (fst e, wval (snd e))) (s_d x) = [("x"%string, 2 ^ 63 + 1); ("y"%string, 2 ^ 40 + 1)]) /\
  (exists x, s_reduces (word_ops 64) Badd t' x /\ wval (s_f x) = 5 /\ map (fun e => (fst e, wval (snd e))) (s_d x) = [("y"%string, 2 ^ 40 + 1); ("x"%string, 2 ^ 63 + 1)]) /\
  (exists x, s_reduces (word_ops 64) Bmul t x /\ wval (s_f x) = 0 /\ map (fun e => (fst e, wval (snd e))) (s_d x) = [("x"%string, 2 ^ 63); ("y"%string, 2 ^ 63)]).
Proof.
  cbv zeta. split; [apply perm_swap|]. split; [repeat constructor; cbn; intuition discriminate|].
  repeat split; (eexists; split; [repeat (econstructor; try apply reorders_refl)|split; vm_compute; reflexivity]).
Qed.
