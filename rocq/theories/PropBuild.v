(** Property theorems about builds with and without checks (C78, C79). *)
From Coq Require Import ZArith List Bool.
From Verif Require Import Outcome Scalar Model ModelBuf Spec ExprSpec ProgSpec ModelObj Samples BuildSpec FactsBuild FactsMix.
Import ListNotations.
Open Scope Z_scope.

(** ** C78 — what works in a checking build works the same in a build with fewer checks *)

Theorem C78_methods {S} (O : Ops S) raise c c' : fewer raise c c' ->
  (forall sz, keeps raise (empty_n O c sz) (empty_n O c' sz)) /\
  (forall sz, keeps raise (zero_n O c sz) (zero_n O c' sz)) /\
  (forall f sz, keeps raise (constant_n O c f sz) (constant_n O c' f sz)) /\
  (forall i f sz, keeps raise (variable_n O c i f sz) (variable_n O c' i f sz)) /\
  (forall vs, keeps raise (variables O c vs) (variables O c' vs)) /\
  (forall f g, keeps raise (from_gradient O c f g) (from_gradient O c' f g)) /\
  (forall f g h, keeps raise (from_arrays O c f g h) (from_arrays O c' f g h)) /\
  (forall (x : dd S) i, keeps raise (get_g c x i) (get_g c' x i)) /\
  (forall (x : dd S) i, keeps raise (get_g_mut c x i) (get_g_mut c' x i)) /\
  (forall (x : dd S) i v, keeps raise (set_g c x i v) (set_g c' x i v)) /\
  (forall (x : dd S) i, keeps raise (get_h1 c x i) (get_h1 c' x i)) /\
  (forall (x : dd S) i v, keeps raise (set_h1 c x i v) (set_h1 c' x i v)) /\
  (forall (x : dd S) i j, keeps raise (get_h c x i j) (get_h c' x i j)) /\
  (forall (x : dd S) i j v, keeps raise (set_h c x i j v) (set_h c' x i j v)) /\
  (forall (x : dd S) mode, keeps raise (hm O c x mode) (hm O c' x mode)) /\
  (forall (x : dd S) m, keeps raise (set_hm c x m) (set_hm c' x m)) /\
  (forall (x : dd S) v, keeps raise (eval O c x v) (eval O c' x v)) /\
  (forall (x : dd S) m, keeps raise (pad_left O c x m) (pad_left O c' x m)) /\
  (forall (x : dd S) m, keeps raise (pad_right O c x m) (pad_right O c' x m)) /\
  (forall (x : dd S) m, keeps raise (resize O c x m) (resize O c' x m)) /\
  (forall (x : dd S) u, keeps raise (apply_u O c u x) (apply_u O c' u x)) /\
  (forall (x y : dd S) b, keeps raise (apply_b O c b x y) (apply_b O c' b x y)) /\
  (forall (x y z : dd S), keeps raise (hypot3 O c x y z) (hypot3 O c' x y z)) /\
  (forall (x : dd S) o b, keeps raise (assign O c o x b) (assign O c' o x b)).
Proof. exact (methods_keep O raise c c'). Qed.
Print Assumptions C78_methods.

(** The hypothesis is met in both forms: dropping assertions, and dropping exceptions as well. *)
Example C78_methods_case : fewer true dyn2 (rel dyn2) /\ fewer false dyn2 (noexc (rel dyn2)) /\
  mul Zops dyn2 exa exb = Ok (mk 2 (full [21; 45; 41; 28; 29; 21])) /\
  mul Zops (noexc (rel dyn2)) exa exb = mul Zops dyn2 exa exb /\
  mul Zops dyn2 exa ex3 = Throw IncompatibleSize /\ mul Zops (rel dyn2) exa ex3 = Throw IncompatibleSize /\
  get_g dyn2 exa 2 = Abort /\ get_g (rel dyn2) exa 2 = Ok 3.
Proof. repeat split; try (cbn; discriminate); try (cbn; auto; fail); vm_compute; reflexivity. Qed.

Theorem C78_programs {S} (O : Ops S) raise c c' : fewer raise c c' ->
  (forall n (env : list (dd S)) e, keeps raise (run O c n env e) (run O c' n env e)) /\
  (forall n fuel s (st : list (dd S)), keeps_o raise (exec O c n fuel s st) (exec O c' n fuel s st)).
Proof. exact (programs_keep O raise c c'). Qed.
Print Assumptions C78_programs.

Theorem C78_sessions {S} (O : Ops S) c c' slack p (st : heap S) : fewer true c c' ->
  keeps true (session O c slack p st) (session O c' slack p st).
Proof. exact (sessions_keep O c c' slack p st). Qed.
Print Assumptions C78_sessions.

(** Functions that validate a length: provided the two builds validate alike. *)
Theorem C78_lengths_partial {S} raise c c' : fewer raise c c' -> same_validation c c' ->
  (forall v : data S, keeps raise (create c v) (create c' v)) /\ (forall vs : list S, keeps raise (ctor_list c vs) (ctor_list c' vs)).
Proof. exact (lengths_keep raise c c'). Qed.
Print Assumptions C78_lengths_partial.

(** Without that proviso it is false: a valid list of values is accepted by the build with exceptions and aborts
    the build that has assertions only. *)
Theorem C78_lengths_refuted : exists c c', cfg_ok c /\ fewer false c c' /\
  ~ (forall v : data Z, keeps false (create c v) (create c' v)).
Proof. exact lengths_differ. Qed.
Print Assumptions C78_lengths_refuted.

Example C78_lengths_case : same_validation dyn2 (noexc (rel dyn2)) /\
  create dyn2 (full [7; 1; 2; 3; 4; 5]) = Ok exa /\ create (noexc (rel dyn2)) (full [7; 1; 2; 3; 4; 5]) = Ok exa /\
  create (noexc dyn2) (full [7; 1; 2; 3; 4; 5]) = Abort.
Proof. repeat split; try (right; split; reflexivity); vm_compute; reflexivity. Qed.

(** ** C79 — operands of different sizes when nothing is checked *)

(** A shorter right operand is read past its end. *)
Theorem C79_shorter {S} (O : Ops S) c : cfg_ok c -> is_dynamic c = true -> c_exc c = false -> c_dbg c = false ->
  forall n m (x y : dd S), wf c n x -> wf c m y -> (m < n)%nat ->
  (forall b, apply_b O c b x y = UB) /\ (forall o, assign O c o x (Some y) = UB).
Proof. exact (mix_short O c). Qed.
Print Assumptions C79_shorter.

(** A longer one acts as some number [z] of the size of the left operand which has its value and the beginning of
    its gradient, but whose Hessian starts with the rest of that gradient. *)
Theorem C79_longer {S} (O : Ops S) c : cfg_ok c -> is_dynamic c = true -> c_exc c = false -> c_dbg c = false ->
  forall n m (x y : dd S), wf c n x -> wf c m y -> (n < m)%nat ->
  exists z, wf c n z /\ get_f z = get_f y /\
    (forall i, (i < n)%nat -> get_g c z (Z.of_nat i) = get_g c y (Z.of_nat i)) /\
    (c_ord c = 2 -> (1 <= n)%nat -> get_h c z 0 0 = get_g c y (Z.of_nat n)) /\
    (forall b, exists r, apply_b O c b x y = Ok r /\ apply_b O c b x z = Ok r /\ wf c n r) /\
    (forall o, exists r, assign O c o x (Some y) = Ok r /\ assign O c o x (Some z) = Ok r /\ wf c n r).
Proof. exact (mix_long O c). Qed.
Print Assumptions C79_longer.

(** So a first derivative is added to a second derivative. *)
Theorem C79_leak {S} (O : Ops S) c : cfg_ok c -> is_dynamic c = true -> c_exc c = false -> c_dbg c = false ->
  forall n m (x y : dd S) hx gy, c_ord c = 2 -> wf c n x -> wf c m y -> (1 <= n)%nat -> (n < m)%nat ->
  get_h c x 0 0 = Ok hx -> get_g c y (Z.of_nat n) = Ok gy ->
  exists r, add_assign O c x (Some y) = Ok r /\ get_h c r 0 0 = Ok (o_add O hx gy).
Proof. exact (mix_leak O c). Qed.
Print Assumptions C79_leak.

(** [exa] has Hessian ((3,4),(4,5)); [ex3] has gradient (1,2,3) and Hessian rows (10,11,12), (13,14), (15). *)
Example C79_case : let c := noexc (rel dyn2) in
  wf c 2 exa /\ wf c 3 ex3 /\
  add Zops c exa ex3 = Ok (mk 2 (full [14; 2; 4; 6; 14; 16])) /\
  add_assign Zops c exa (Some ex3) = Ok (mk 2 (full [14; 2; 4; 6; 14; 16])) /\
  add Zops c ex3 exa = UB /\ mul_assign Zops c ex3 (Some exa) = UB.
Proof. split; [exact wf_exa|]. split; [exact wf_ex3|]. repeat split; vm_compute; reflexivity. Qed.
