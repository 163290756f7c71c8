(** C15-C19, C46: every expression, exact real arithmetic. *)
From Coq Require Import ZArith List Bool Reals Lra Lia.
From Coquelicot Require Import Coquelicot.
From Verif Require Import Outcome Scalar Model Spec RealOps ExprSpec FactsExpr Samples.
Import ListNotations.
Open Scope R_scope.
Open Scope res_scope.

(** sin(x0 * x1) / (exp(x1) + 2) + log(x0), used in the examples. *)
Definition sample : expr R :=
  EB Badd (EB Bdiv (EU Usin (EB Bmul (EVar 0) (EVar 1))) (EU (Uadds 2) (EU Uexp (EVar 1)))) (EU Ulog (EVar 0)).

(** C15 *)
Theorem C15_pad_right_commutes : forall (c : cfg) (n m : nat) (e : expr R) (xs ys : list (dd R)),
  cfg_ok c -> size_ok c n -> size_ok c m -> (n <= m)%nat -> List.Forall (wf c n) xs ->
  Forall2 (fun x y => pad_right Rops c x (Z.of_nat m) = Ok y) xs ys -> vars_below (length xs) e ->
  agree c (r <- run Rops c n xs e ;; pad_right Rops c r (Z.of_nat m)) (run Rops c m ys e).
Proof. exact pad_right_run. Qed.
Print Assumptions C15_pad_right_commutes.
Theorem C15_pad_left_commutes : forall (c : cfg) (n m : nat) (e : expr R) (xs ys : list (dd R)),
  cfg_ok c -> size_ok c n -> size_ok c m -> (n <= m)%nat -> List.Forall (wf c n) xs ->
  Forall2 (fun x y => pad_left Rops c x (Z.of_nat m) = Ok y) xs ys -> vars_below (length xs) e ->
  agree c (r <- run Rops c n xs e ;; pad_left Rops c r (Z.of_nat m)) (run Rops c m ys e).
Proof. exact pad_left_run. Qed.
Print Assumptions C15_pad_left_commutes.
Example C15_case : forall a b d e f g : R,
  let x := mk 2 (full [a; b; d; e; f; g]) in
  wf dyn2 2 x /\ size_ok dyn2 2 /\ size_ok dyn2 3 /\ vars_below 2 sample /\
  Forall2 (fun x y => pad_right Rops dyn2 x 3 = Ok y) [x; x]
    [mk 3 (full [a; b; d; 0; e; f; 0; g; 0; 0]); mk 3 (full [a; b; d; 0; e; f; 0; g; 0; 0])] /\
  Forall2 (fun x y => pad_left Rops dyn2 x 3 = Ok y) [x; x]
    [mk 3 (full [a; 0; b; d; 0; 0; 0; e; f; g]); mk 3 (full [a; 0; b; d; 0; 0; 0; e; f; g])].
Proof.
  intros. split; [apply wf_list; [reflexivity|reflexivity|vm_compute; discriminate]|].
  split; [split; [discriminate|vm_compute; discriminate]|]. split; [split; [discriminate|vm_compute; discriminate]|].
  split; [cbn; repeat split; lia|].
  split; (repeat constructor; vm_compute; reflexivity).
Qed.

(** C16 *)
Theorem C16_first_derivatives_exact : forall (c : cfg) (n : nat) (e : expr R) (p : nat -> R),
  cfg_ok c -> size_ok c n -> vars_below n e -> dom e p ->
  exists xs r, variables Rops c (coords n p) = Ok xs /\ run Rops c n xs e = Ok r /\ wf c n r /\
    get_f r = Ok (rev e p) /\
    exists g, (forall i, (i < n)%nat -> get_g c r (Z.of_nat i) = Ok (g i) /\ partial (rev e) i p (g i)) /\
      forall u, dirder (rev e) u p (rsum n (fun i => g i * u i)).
Proof. exact exact1. Qed.
Print Assumptions C16_first_derivatives_exact.
Example C16_case : size_ok dyn2 2 /\ size_ok (sta1 2) 2 /\ vars_below 2 sample /\
  dom sample (fun i => match i with O => 3 | _ => 5 end).
Proof.
  split; [split; [discriminate|vm_compute; discriminate]|]. split; [split; [reflexivity|vm_compute; discriminate]|].
  split; [cbn; repeat split; lia|]. cbn. pose proof (exp_pos 5). repeat split; lra.
Qed.

(** C17 *)
Theorem C17_second_derivatives_exact : forall (c : cfg) (n : nat) (e : expr R) (p : nat -> R),
  cfg_ok c -> c_ord c = 2%Z -> size_ok c n -> vars_below n e -> dom e p ->
  exists xs r, variables Rops c (coords n p) = Ok xs /\ run Rops c n xs e = Ok r /\ wf c n r /\
    exists h, (forall i j, (i < n)%nat -> (j < n)%nat ->
        get_h c r (Z.of_nat i) (Z.of_nat j) = Ok (h i j) /\ partial2 (rev e) i j p (h i j)) /\
      forall u v, dirder2 (rev e) u v p (rsum n (fun i => rsum n (fun j => h i j * u i * v j))).
Proof. exact exact2. Qed.
Print Assumptions C17_second_derivatives_exact.
Example C17_case : c_ord dyn2 = 2%Z /\ size_ok dyn2 2 /\ size_ok (sta2 2) 2 /\ vars_below 2 sample /\
  dom sample (fun i => match i with O => 3 | _ => 5 end).
Proof.
  split; [reflexivity|].
  split; [split; [discriminate|vm_compute; discriminate]|]. split; [split; [reflexivity|vm_compute; discriminate]|].
  split; [cbn; repeat split; lia|]. cbn. pose proof (exp_pos 5). repeat split; lra.
Qed.

(** C18 *)
Theorem C18_eval_is_taylor : forall (c : cfg) (n : nat) (x : dd R) f g h (d : list R),
  cfg_ok c -> shows c n x f g h -> (n <= length d)%nat ->
  eval Rops c x d = Ok (
    f + rsum n (fun i => nth i d 0 * g i) +
    (if Z.eqb (c_ord c) 1 then 0
     else 1 / 2 * rsum n (fun i => rsum n (fun j => nth i d 0 * nth j d 0 * h i j)))).
Proof. exact eval_is_taylor. Qed.
Print Assumptions C18_eval_is_taylor.
Theorem C18_eval_reads_prefix : forall (S : Type) (O : Ops S) (c : cfg) (n : nat) (x : dd S) (d d' : list S),
  cfg_ok c -> wf c n x -> firstn n d = firstn n d' -> (n <= length d)%nat -> (n <= length d')%nat ->
  exists v, eval O c x d = Ok v /\ eval O c x d' = Ok v.
Proof. exact @eval_prefix. Qed.
Print Assumptions C18_eval_reads_prefix.
Example C18_case : wf dyn2 3 ex3 /\ eval Zops dyn1 ex1 [1; 10; 100]%Z = Ok 328%Z /\
  (* Zops has one half = 0, so only the linear part contributes *)
  eval Zops dyn2 ex3 [1; 10; 100]%Z = Ok 328%Z /\ eval Zops dyn2 ex3 [1; 10; 100; 9]%Z = Ok 328%Z.
Proof. split; [exact wf_ex3|]. run_case. Qed.

(** C19 *)
Theorem C19_eval_approximates : forall (c : cfg) (n : nat) (e : expr R) (p v : nat -> R) (eps : R),
  cfg_ok c -> size_ok c n -> vars_below n e -> dom e p -> 0 < eps ->
  exists xs r, variables Rops c (coords n p) = Ok xs /\ run Rops c n xs e = Ok r /\
    exists delta, 0 < delta /\ forall t, Rabs t < delta ->
      exists y, eval Rops c r (coords n (fun i => t * v i)) = Ok y /\
        Rabs (rev e (along p v t) - y) <= eps * (if Z.eqb (c_ord c) 1 then Rabs t else t * t).
Proof. exact eval_approx. Qed.
Print Assumptions C19_eval_approximates.
Example C19_case : size_ok dyn2 2 /\ size_ok dyn1 2 /\ vars_below 2 sample /\
  dom sample (fun i => match i with O => 3 | _ => 5 end) /\ 0 < / 1000.
Proof.
  split; [split; [discriminate|vm_compute; discriminate]|]. split; [split; [discriminate|vm_compute; discriminate]|].
  split; [cbn; repeat split; lia|]. cbn. pose proof (exp_pos 5). repeat split; lra.
Qed.

(** C46 *)
Theorem C46_relabelling_commutes : forall (c c' : cfg) (n m : nat) (rho : nat -> option nat) (e : expr R)
  (xs ys : list (dd R)),
  cfg_ok c -> cfg_ok c' -> c_ord c' = c_ord c -> size_ok c n -> size_ok c' m ->
  (forall i k, (i < m)%nat -> rho i = Some k -> (k < n)%nat) ->
  Forall2 (relabels c c' n m rho) xs ys -> vars_below (length xs) e ->
  exists r r', run Rops c n xs e = Ok r /\ run Rops c' m ys e = Ok r' /\ relabels c c' n m rho r r'.
Proof. exact relabel_run. Qed.
Print Assumptions C46_relabelling_commutes.
(** Swapping the two variables and adding an unused third one. *)
Example C46_case : forall a b d e f g : R,
  let rho i := match i with O => Some 1%nat | 1%nat => Some 0%nat | _ => None end in
  (forall i k, (i < 3)%nat -> rho i = Some k -> (k < 2)%nat) /\
  relabels dyn2 (sta2 3) 2 3 rho (mk 2 (full [a; b; d; e; f; g])) (mk 3 (full [a; d; b; 0; g; f; 0; e; 0; 0])).
Proof.
  intros. split; [intros [|[|i]] k _ [= <-]; lia|].
  exists a, (fun i => match i with O => b | _ => d end),
    (fun i j => match i, j with O, O => e | 1%nat, 1%nat => g | _, _ => f end).
  split; (split; [apply wf_list; [reflexivity|reflexivity|vm_compute; discriminate]|]);
    (split; [reflexivity|]); split.
  - intros [|[|i]] H; [reflexivity|reflexivity|lia].
  - intros _ [|[|i]] [|[|j]] H H'; try lia; reflexivity.
  - intros [|[|[|i]]] H; try lia; reflexivity.
  - intros _ [|[|[|i]]] [|[|[|j]]] H H'; try lia; reflexivity.
Qed.
