(** C96: sums, products, scalar products and matrix products of numbers, formed in any order. *)
From Coq Require Import ZArith List Bool Lia Permutation Reals Lra.
From Flocq Require Import Core BinarySingleNaN.
From Verif Require Import Outcome Scalar Float64 Model Spec RealOps ExprSpec RedSpec RingSpec Samples Ops64 Facts64 FactsRing FactsRed FactsRedR.
Import ListNotations.
Open Scope R_scope.

(** C96.  The scalars form a commutative ring (exact arithmetic): the order in which numbers are added or multiplied does
    not matter. *)
Theorem C96_any_order : forall (S : Type) (O : Ops S) (c : cfg) (n : nat), cfg_ok c -> ring_laws O -> forall t t' : tree (dd S),
  Permutation (leaves t) (leaves t') -> Forall (wf c n) (leaves t) ->
  agree c (reduce O c Badd t) (reduce O c Badd t') /\ agree c (reduce O c Bmul t) (reduce O c Bmul t').
Proof. exact @reductions_agree. Qed.
Print Assumptions C96_any_order.
(** Python's [sum] and [math.prod] start with the integers 0 and 1. *)
Theorem C96_python_sum : forall (S : Type) (O : Ops S) (c : cfg) (n : nat), cfg_ok c -> ring_laws O -> forall (x : dd S) (xs : list (dd S)) (t : tree (dd S)),
  Permutation (leaves t) (x :: xs) -> Forall (wf c n) (x :: xs) ->
  agree c (py_sum O c x xs) (reduce O c Badd t) /\ agree c (py_prod O c x xs) (reduce O c Bmul t).
Proof. exact @python_folds. Qed.
Print Assumptions C96_python_sum.
(** Matrix products exist and are associative, whatever order is used for each entry of each product. *)
Theorem C96_dot_defined : forall (S : Type) (O : Ops S) (c : cfg) (n : nat), cfg_ok c -> forall (m : nat) (x y : nat -> dd S) (t : tree nat),
  Permutation (leaves t) (seq 0 m) -> (forall k, (k < m)%nat -> wf c n (x k) /\ wf c n (y k)) ->
  exists p z, (forall k, (k < m)%nat -> apply_b O c Bmul (x k) (y k) = Ok (p k)) /\ reduce O c Badd (tmap p t) = Ok z /\ wf c n z.
Proof. exact @dot_exists. Qed.
Print Assumptions C96_dot_defined.
Theorem C96_matrix_products : forall (S : Type) (O : Ops S) (c : cfg) (n : nat), cfg_ok c -> ring_laws O -> forall (a b d e : nat) (A B D AB BD L R : nat -> nat -> dd S),
  wf_mat c n a b A -> wf_mat c n b d B -> wf_mat c n d e D ->
  matmul O c a b d A B AB -> matmul O c a d e AB D L -> matmul O c b d e B D BD -> matmul O c a b e A BD R -> same_mat c a e L R.
Proof. exact @matmul_assoc. Qed.
Print Assumptions C96_matrix_products.
(** Words of 64 bits: 2^63 + 2^63 wraps around to 0, in every order; each number has one derivative. *)
Example C96_case :
  let w := wrap 64 in let x a b := mk 1%Z [Some (w a); Some (w b)] in
  let l := [x (2 ^ 63) 1; x 5 (2 ^ 40); x (2 ^ 63) (2 ^ 63)]%Z in
  let t := Node (Leaf (nth 0 l (x 0 0)%Z)) (Node (Leaf (nth 1 l (x 0 0)%Z)) (Leaf (nth 2 l (x 0 0)%Z))) in
  let t' := Node (Node (Leaf (nth 2 l (x 0 0)%Z)) (Leaf (nth 0 l (x 0 0)%Z))) (Leaf (nth 1 l (x 0 0)%Z)) in
  ring_laws (word_ops 64) /\ Permutation (leaves t) (leaves t') /\ Forall (wf dyn1 1) (leaves t) /\
  (exists f g, reduce (word_ops 64) dyn1 Badd t = Ok (mk 1%Z [Some f; Some g]) /\ wval f = 5%Z /\ wval g = (2 ^ 63 + 2 ^ 40 + 1)%Z) /\
  (exists f g, reduce (word_ops 64) dyn1 Badd t' = Ok (mk 1%Z [Some f; Some g]) /\ wval f = 5%Z /\ wval g = (2 ^ 63 + 2 ^ 40 + 1)%Z) /\
  (exists f g, reduce (word_ops 64) dyn1 Bmul t = Ok (mk 1%Z [Some f; Some g]) /\ wval f = 0%Z /\ wval g = (2 ^ 63)%Z) /\
  (exists f g, reduce (word_ops 64) dyn1 Bmul t' = Ok (mk 1%Z [Some f; Some g]) /\ wval f = 0%Z /\ wval g = (2 ^ 63)%Z).
Proof.
  cbv zeta. split; [apply word_ring|]. split; [exact (Permutation_app_comm [_; _] [_])|].
  split.
  { repeat (apply Forall_cons; [split; [reflexivity|]; split; [reflexivity|]; split; [intros [|[|k]] Hk; [eexists; reflexivity|eexists; reflexivity|cbn in Hk; lia]|vm_compute; discriminate]|]).
    apply Forall_nil. }
  repeat split; do 2 eexists; (split; [vm_compute; reflexivity|split; vm_compute; reflexivity]).
Qed.

(** Exact derivatives of scalar products and norms of vectors whose entries are formulas, in any order of summation. *)
Theorem C96_dot_exact : forall (c : cfg) (n m : nat) (p : nat -> R) (t : tree nat), cfg_ok c -> size_ok c n -> Permutation (leaves t) (seq 0 m) ->
  forall e f : nat -> expr R, (forall k, (k < m)%nat -> vars_below n (e k) /\ vars_below n (f k) /\ dom (e k) p /\ dom (f k) p) ->
  let F := fun q => rsum m (fun k => rev (e k) q * rev (f k) q) in
  exists xs r v g h, variables Rops c (coords n p) = Ok xs /\ run Rops c n xs (edot e f t) = Ok r /\ shows c n r v g h /\ v = F p /\
    (forall i, (i < n)%nat -> partial F i p (g i)) /\
    (c_ord c = 2%Z -> forall i j, (i < n)%nat -> (j < n)%nat -> partial2 F i j p (h i j)).
Proof. exact dot_exact. Qed.
Print Assumptions C96_dot_exact.
Theorem C96_norm_exact : forall (c : cfg) (n m : nat) (p : nat -> R) (t : tree nat), cfg_ok c -> size_ok c n -> Permutation (leaves t) (seq 0 m) ->
  forall e : nat -> expr R, (forall k, (k < m)%nat -> vars_below n (e k) /\ dom (e k) p) -> (exists k, (k < m)%nat /\ rev (e k) p <> 0) ->
  let F := fun q => sqrt (rsum m (fun k => rev (e k) q * rev (e k) q)) in
  exists xs r v g h, variables Rops c (coords n p) = Ok xs /\ run Rops c n xs (enorm e t) = Ok r /\ shows c n r v g h /\ v = F p /\
    (forall i, (i < n)%nat -> partial F i p (g i)) /\
    (c_ord c = 2%Z -> forall i j, (i < n)%nat -> (j < n)%nat -> partial2 F i j p (h i j)).
Proof. exact norm_exact. Qed.
Print Assumptions C96_norm_exact.
(** The norm of the cross product of u = (1, 2, 2) and v = (4, 1, -1), six variables (README). *)
Example C96_norm_case :
  let p := fun i => nth i [1; 2; 2; 4; 1; -1] 0 in
  let x i := EVar (S := R) i in
  let e := fun k : nat => match k with
    | 0%nat => (x 1%nat * x 5%nat - x 2%nat * x 4%nat)%E | 1%nat => (x 2%nat * x 3%nat - x 0%nat * x 5%nat)%E
    | _ => (x 0%nat * x 4%nat - x 1%nat * x 3%nat)%E end in
  let t := Node (Node (Leaf 0%nat) (Leaf 1%nat)) (Leaf 2%nat) in
  size_ok dyn2 6 /\ Permutation (leaves t) (seq 0 3) /\ (forall k, (k < 3)%nat -> vars_below 6 (e k) /\ dom (e k) p) /\
  (exists k, (k < 3)%nat /\ rev (e k) p <> 0) /\ rsum 3 (fun k => rev (e k) p * rev (e k) p) = 146.
Proof.
  cbv zeta. split; [split; [discriminate|vm_compute; discriminate]|]. split; [reflexivity|]. split.
  - intros [|[|[|k]]] Hk; try lia; cbn; repeat split; lia.
  - split; [exists 0%nat; split; [lia|]; cbn; lra|cbn; lra].
Qed.

(** Doubles.  Exchanging the operands of additions and multiplications changes no bit; changing the order does. *)
Theorem C96_mirrored : forall (S : Type) (O : Ops S) (c : cfg), cfg_ok c -> forall (b : bfun) (n : nat) (t t' : tree (dd S)),
  (forall a b, o_add O a b = o_add O b a) -> (forall a b, o_mul O a b = o_mul O b a) -> b = Badd \/ b = Bmul ->
  mirrored t t' -> Forall (wf c n) (leaves t) -> agree c (reduce O c b t) (reduce O c b t').
Proof. exact @mirrored_agree. Qed.
Print Assumptions C96_mirrored.
Theorem C96_any_order_refuted : forall M : libm,
  ~ (forall c n (t t' : tree (dd b64)), cfg_ok c -> Permutation (leaves t) (leaves t') -> Forall (wf c n) (leaves t) ->
       agree c (reduce (b64ops M) c Badd t) (reduce (b64ops M) c Badd t')).
Proof. exact order_matters. Qed.
Print Assumptions C96_any_order_refuted.
(** Error of a sum of doubles in any order: value, gradient and Hessian entry are as close to the exact sums as the depth
    of the tree allows, unless a sum overflows (then the component is not finite). *)
Theorem C96_sums_of_doubles : forall (M : libm) (c : cfg) (n m : nat) (x : nat -> dd b64) f g h (t : tree nat),
  cfg_ok c -> Permutation (leaves t) (seq 0 m) -> (forall k, (k < m)%nat -> shows c n (x k) (f k) (g k) (h k)) ->
  exists r F G H, reduce (b64ops M) c Badd (tmap x t) = Ok r /\ shows c n r F G H /\
    let close (v : b64) (w : nat -> b64) :=
      finite64 v -> Rabs (val64 v - rsum m (fun k => val64 (w k))) <= ((1 + u64) ^ depth t - 1) * rsum m (fun k => Rabs (val64 (w k))) in
    close F f /\ (forall i, close (G i) (fun k => g k i)) /\ (forall i j, close (H i j) (fun k => h k i j)).
Proof. exact sums_of_doubles. Qed.
Print Assumptions C96_sums_of_doubles.
Example C96_doubles_case : forall M v, exists x, constant_n (b64ops M) dyn1 v 0 = Ok x /\ shows dyn1 0 x v (fun _ => b64_of_Z 0) (fun _ _ => b64_of_Z 0).
Proof. exact constant_shows. Qed.
