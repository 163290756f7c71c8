(** Sparse numbers whose scalars are dense numbers: when two of them have the same names, and functions
    of one named variable. *)
From Coq Require Import ZArith List Bool Reals String.
From Verif Require Import Outcome Scalar Model Spec ModelS ModelNS RealOps ExprSpec.
Import ListNotations.

(** All scalars of the number have size [n]. *)
Definition sized {S} (c : cfg) (n : nat) (x : ss (dd S)) : Prop :=
  wf c n (s_f x) /\ List.Forall (fun kv => wf c n (snd kv)) (s_d x).
(** [b] depends on a variable that [a] does not mention. *)
Definition new_name {S} (a b : ss (dd S)) : Prop :=
  exists k, In k (map fst (s_d b)) /\ ~ In k (map fst (s_d a)).

(** The operation returns a number with scalars of size [n] and the names of [a]. *)
Definition goes {S} (c : cfg) (n : nat) (a : ss (dd S)) (m : res (ss (dd S))) : Prop :=
  exists r, m = Ok r /\ sized c n r /\ map fst (s_d r) = map fst (s_d a).

(** Functions of one variable. *)
Inductive uexpr := UX | UAdd (a b : uexpr) | USub (a b : uexpr) | UMul (a b : uexpr)
  | UCos (a : uexpr) | USin (a : uexpr) | UExp (a : uexpr).
Fixpoint urun {S} (O : Ops S) (c : cfg) (x : ss (dd S)) (e : uexpr) : res (ss (dd S)) :=
  match e with
  | UX => Ok x
  | UAdd a b => u <- urun O c x a ;; v <- urun O c x b ;; ns_add O c u v
  | USub a b => u <- urun O c x a ;; v <- urun O c x b ;; ns_sub O c u v
  | UMul a b => u <- urun O c x a ;; v <- urun O c x b ;; ns_mul O c u v
  | UCos a => u <- urun O c x a ;; ns_cos O c u
  | USin a => u <- urun O c x a ;; ns_sin O c u
  | UExp a => u <- urun O c x a ;; ns_exp O c u
  end.
(** The inner variable number 0 with the value [s], named [k] outside. *)
Definition uvariable {S} (O : Ops S) (c : cfg) (k : string) (s : S) : res (ss (dd S)) :=
  v <- variable O c 0 s ;; ns_variable O c k v.
Definition uevaluate {S} (O : Ops S) (c : cfg) (k : string) (s : S) (e : uexpr) : res (ss (dd S)) :=
  x <- uvariable O c k s ;; urun O c x e.
(** The function. *)
Fixpoint ufn (e : uexpr) (t : R) : R :=
  match e with
  | UX => t
  | UAdd a b => ufn a t + ufn b t
  | USub a b => ufn a t - ufn b t
  | UMul a b => ufn a t * ufn b t
  | UCos a => cos (ufn a t)
  | USin a => sin (ufn a t)
  | UExp a => exp (ufn a t)
  end%R.

(** A function's value, gradient and Hessian matrix, and the sum, difference and product rules. *)
Record dual := mkdual { du_f : R; du_g : nat -> R; du_h : nat -> nat -> R }.
Open Scope R_scope.
Definition dual_zero (u : dual) : Prop := du_f u = 0 /\ (forall i, du_g u i = 0) /\ (forall i j, du_h u i j = 0).
Definition dual_add (u v : dual) : dual := mkdual (du_f u + du_f v) (fun i => du_g u i + du_g v i) (fun i j => du_h u i j + du_h v i j).
Definition dual_sub (u v : dual) : dual := mkdual (du_f u - du_f v) (fun i => du_g u i - du_g v i) (fun i j => du_h u i j - du_h v i j).
Definition dual_mul (u v : dual) : dual := mkdual (du_f u * du_f v) (fun i => du_g u i * du_f v + du_f u * du_g v i)
  (fun i j => du_h u i j * du_f v + du_g u i * du_g v j + du_g u j * du_g v i + du_f u * du_h v i j).
(** The dense number holds these components. *)
Definition has (c : cfg) (n : nat) (x : dd R) (u : dual) : Prop :=
  wf c n x /\ get_f x = Ok (du_f u) /\ (forall i, (i < n)%nat -> get_g c x (Z.of_nat i) = Ok (du_g u i)) /\
  (c_ord c = 2%Z -> forall i j, (i <= j < n)%nat -> get_h c x (Z.of_nat i) (Z.of_nat j) = Ok (du_h u i j)).
(** The sparse number holds the value [u] and the derivatives [T], zero for all other names. *)
Definition has_s (c : cfg) (n : nat) (x : ss (dd R)) (u : dual) (T : string -> dual) : Prop :=
  NoDup (map fst (s_d x)) /\ has c n (s_f x) u /\
  forall k, match t_find (s_d x) k with Some v => has c n v (T k) | None => dual_zero (T k) end.
(** The operation returns such a number, with the names of [a]. *)
Definition gives_s (c : cfg) (n : nat) (a : ss (dd R)) (m : res (ss (dd R))) (u : dual) (T : string -> dual) : Prop :=
  exists r, m = Ok r /\ map fst (s_d r) = map fst (s_d a) /\ has_s c n r u T.
