(** Property theorems about the Python constructors (C80). *)
From Coq Require Import ZArith String List Bool Permutation.
From Verif Require Import Outcome Scalar Model Spec ModelS ModelNew NewSpec Samples FactsNew.
Import ListNotations.
Open Scope string_scope.
Open Scope Z_scope.
Open Scope list_scope.

(** Full statement: [T()], [T(f)], [T(f, size)], [T(size=)], [T(data)], [T(f, g)], [T(f, g, hm)] make the constant 0,
    the constant [f], the constant [f] of that size, the number with this data (rejected if a static type does not have
    that many numbers), and the number with this value and these derivatives, for every way of writing the numbers. *)

(** ** Constants *)
Theorem C80_default : forall (S : Type) (O : Ops S) (V : pyconv S) (c : cfg) (s : S), cv_float V 0 = Some s ->
  py_new O V c [] [] = constant O c s.
Proof. exact @new_default. Qed.
Print Assumptions C80_default.
Theorem C80_value : forall (S : Type) (O : Ops S) (V : pyconv S) (c : cfg) (v : pyval S) (s : S), number V v s ->
  py_new O V c [v] [] = constant O c s /\ py_new O V c [] [("f", v)] = constant O c s.
Proof. exact @new_constant. Qed.
Print Assumptions C80_value.
Theorem C80_value_and_size : forall (S : Type) (O : Ops S) (V : pyconv S) (c : cfg) (v : pyval S) (s : S) (n : Z),
  number V v s -> index_range n ->
  py_new O V c [v; VInt n] [] = constant_n O c s n /\
  py_new O V c [v] [("size", VInt n)] = constant_n O c s n /\
  py_new O V c [] [("f", v); ("size", VInt n)] = constant_n O c s n.
Proof. exact @new_sized. Qed.
Print Assumptions C80_value_and_size.
Theorem C80_size : forall (S : Type) (O : Ops S) (V : pyconv S) (c : cfg) (s : S) (n : Z),
  cv_float V 0 = Some s -> index_range n -> py_new O V c [] [("size", VInt n)] = constant_n O c s n.
Proof. exact @new_size. Qed.
Print Assumptions C80_size.

(** ** Data *)
Theorem C80_data : forall (S : Type) (O : Ops S) (V : pyconv S) (c : cfg) (v : pyval S) (l : list S),
  vector V v l -> fits_class c (StaticDataSize c) l ->
  py_new O V c [v] [] = create c (full l) /\ py_new O V c [] [("data", v)] = create c (full l).
Proof. exact @new_data. Qed.
Print Assumptions C80_data.
(** Wrong number of values for a static type: rejected, except arrays of one element without keyword. *)
Theorem C80_data_rejected_partial : forall (S : Type) (O : Ops S) (V : pyconv S) (c : cfg) (v : pyval S) (l : list S),
  vector V v l -> is_dynamic c = false -> 0 <= StaticDataSize c -> Z.of_nat (length l) <> StaticDataSize c ->
  py_new O V c [] [("data", v)] = Throw TypeError /\
  (~ is_array v \/ length l <> 1%nat -> py_new O V c [v] [] = Throw TypeError).
Proof. exact @new_data_rejected. Qed.
Print Assumptions C80_data_rejected_partial.
Theorem C80_data_single : forall (S : Type) (O : Ops S) (V : pyconv S) (c : cfg) (e : pyelems S) (s : S),
  is_dynamic c = false -> 1 < StaticDataSize c -> vector V (VArr1 e) [s] ->
  py_new O V c [VArr1 e] [] = constant O c s.
Proof. exact @new_data_single. Qed.
Print Assumptions C80_data_single.
Theorem C80_data_rejected_refuted : ~ (forall (S : Type) (O : Ops S) (V : pyconv S) (c : cfg) (v : pyval S) (l : list S),
  vector V v l -> is_dynamic c = false -> 0 <= StaticDataSize c -> Z.of_nat (length l) <> StaticDataSize c ->
  py_new O V c [v] [] = Throw TypeError).
Proof. exact data_rejected_false. Qed.
Print Assumptions C80_data_rejected_refuted.

(** ** Derivatives *)
Theorem C80_gradient_keyword : forall (S : Type) (O : Ops S) (V : pyconv S) (c : cfg) (v : pyval S) (s : S) (g : pyval S) (l : list S),
  c_ord c = 1 -> number V v s -> vector V g l -> size_ok c (length l) ->
  exists r, py_new O V c [v] [("g", g)] = Ok r /\ py_new O V c [] [("f", v); ("g", g)] = Ok r /\
    shows c (length l) r s (fun i => nth i l s) (fun _ _ => s).
Proof. exact @gradient_shown. Qed.
Print Assumptions C80_gradient_keyword.
(** Without keyword: if the gradient is a list, or does not have exactly one entry, or everything is already of type
    float. *)
Theorem C80_gradient_partial : forall (S : Type) (O : Ops S) (V : pyconv S) (c : cfg) (v : pyval S) (s : S) (g : pyval S) (l : list S),
  c_ord c = 1 -> number V v s -> vector V g l -> fits_class c (c_tsize c) l ->
  ~ is_array g \/ length l <> 1%nat \/ (v = VFloat s /\ g = VArr1 (EF l)) ->
  py_new O V c [v; g] [] = from_gradient O c s (full l).
Proof. exact @new_gradient. Qed.
Print Assumptions C80_gradient_partial.
(** Otherwise the only entry of the array is taken for the size. *)
Theorem C80_gradient_single : forall (S : Type) (O : Ops S) (V : pyconv S) (c : cfg) (v : pyval S) (s : S) (e : pyelems S) (g : S) (k : Z),
  c_ord c = 1 -> number V v s -> vector V (VArr1 e) [g] ->
  ~ (v = VFloat s /\ e = EF [g]) -> single_int V e = Some k -> index_range k ->
  py_new O V c [v; VArr1 e] [] = constant_n O c s k.
Proof. exact @new_gradient_single. Qed.
Print Assumptions C80_gradient_single.
Theorem C80_gradient_refuted : ~ (forall (S : Type) (O : Ops S) (V : pyconv S) (c : cfg) (v : pyval S) (s : S) (g : pyval S) (l : list S),
  c_ord c = 1 -> number V v s -> vector V g l -> fits_class c (c_tsize c) l ->
  py_new O V c [v; g] [] = from_gradient O c s (full l)).
Proof. exact gradient_false. Qed.
Print Assumptions C80_gradient_refuted.
Theorem C80_arrays : forall (S : Type) (O : Ops S) (V : pyconv S) (c : cfg) (v : pyval S) (s : S) (g : pyval S) (l : list S) (h : pyval S) (m : list S),
  c_ord c = 2 -> number V v s -> vector V g l -> table_of V (length l) h m ->
  length m = (length l * length l)%nat -> size_ok c (length l) ->
  exists r, py_new O V c [v; g; h] [] = Ok r /\ py_new O V c [] [("f", v); ("g", g); ("hm", h)] = Ok r /\
    shows c (length l) r s (fun i => nth i l s) (fun i j => nth (Nat.min i j * length l + Nat.max i j) m s).
Proof. exact @arrays_shown. Qed.
Print Assumptions C80_arrays.

(** ** Keywords, static functions, sparse numbers *)
Theorem C80_keyword_order : forall (S : Type) (A : Type) (os : list (overload (S:=S) (res A))) args kw kw',
  Permutation kw kw' -> NoDup (map fst kw) -> dispatch os args kw = dispatch os args kw'.
Proof. exact @keyword_order. Qed.
Print Assumptions C80_keyword_order.
Theorem C80_unknown_keyword : forall (S : Type) (O : Ops S) (V : pyconv S) (c : cfg) args kw k,
  In k (map fst kw) -> ~ In k ["f"; "size"; "data"; "g"; "hm"] -> py_new O V c args kw = Throw TypeError.
Proof. exact @new_unknown. Qed.
Print Assumptions C80_unknown_keyword.
Theorem C80_static_constant : forall (S : Type) (O : Ops S) (V : pyconv S) (c : cfg) (v : pyval S) (s : S) (n : Z),
  number V v s -> index_range n ->
  py_constant O V c [v] [] = constant O c s /\ py_constant O V c [v; VInt n] [] = constant_n O c s n.
Proof. exact @static_constant. Qed.
Print Assumptions C80_static_constant.
Theorem C80_static_sized : forall (S : Type) (O : Ops S) (V : pyconv S) (c : cfg) (n : Z), index_range n ->
  py_empty O V c [] [] = Ok (empty O c) /\ py_empty O V c [VInt n] [] = empty_n O c n /\
  py_zero O V c [] [] = Ok (zero O c) /\ py_zero O V c [VInt n] [] = zero_n O c n.
Proof. exact @static_sized. Qed.
Print Assumptions C80_static_sized.
Theorem C80_static_variable : forall (S : Type) (O : Ops S) (V : pyconv S) (c : cfg) (i : Z) (v : pyval S) (s : S) (n : Z),
  index_range i -> number V v s -> index_range n ->
  py_variable O V c [VInt i; v; VInt n] [] = variable_n O c i s n /\
  py_variable O V c [VInt i; v] [] = (if is_dynamic c then Throw TypeError else variable O c i s).
Proof. exact @static_variable. Qed.
Print Assumptions C80_static_variable.
Theorem C80_sparse : forall (S : Type) (O : Ops S) (V : pyconv S) (v : pyval S) (s s0 : S) (d : pyval S) ks (ls : table S),
  number V v s -> cv_float V 0 = Some s0 ->
  d = VDict ks -> Forall2 (fun '(k, x) '(k', y) => k = k' /\ number V x y) ks ls ->
  py_new_s O V [] [] = Ok (mks (o_Z O 0) []) /\
  py_new_s O V [v] [] = Ok (mks s []) /\ py_new_s O V [] [("f", v)] = Ok (mks s []) /\
  py_new_s O V [v; d] [] = Ok (mks s ls) /\ py_new_s O V [] [("f", v); ("d", d)] = Ok (mks s ls) /\
  py_new_s O V [] [("d", d)] = Ok (mks s0 ls).
Proof. exact @sparse_new. Qed.
Print Assumptions C80_sparse.

(** The parameters have these names. *)
Theorem C80_static_keywords : forall (S : Type) (O : Ops S) (V : pyconv S) (c : cfg) (i : Z) (v : pyval S) (s : S) (n : Z),
  index_range i -> number V v s -> index_range n ->
  py_constant O V c [] [("f", v)] = constant O c s /\
  py_constant O V c [v] [("size", VInt n)] = constant_n O c s n /\ py_constant O V c [] [("f", v); ("size", VInt n)] = constant_n O c s n /\
  py_empty O V c [] [("size", VInt n)] = empty_n O c n /\ py_zero O V c [] [("size", VInt n)] = zero_n O c n /\
  py_variable O V c [] [("i", VInt i); ("f", v); ("size", VInt n)] = variable_n O c i s n /\
  py_variable O V c [VInt i; v] [("size", VInt n)] = variable_n O c i s n /\
  py_variable O V c [VInt i] [("f", v); ("size", VInt n)] = variable_n O c i s n /\
  py_variable O V c [] [("i", VInt i); ("f", v)] = (if is_dynamic c then Throw TypeError else variable O c i s).
Proof. exact @static_keywords. Qed.
Print Assumptions C80_static_keywords.
Theorem C80_static_variables : forall (S : Type) (O : Ops S) (V : pyconv S) (c : cfg) (v : pyval S) (l : list S), vector V v l ->
  (fits_class c (c_tsize c) l ->
   py_variables O V c [v] [] = variables O c l /\ py_variables O V c [] [("values", v)] = variables O c l) /\
  (is_dynamic c = false -> 0 <= c_tsize c -> Z.of_nat (length l) <> c_tsize c ->
   py_variables O V c [v] [] = Throw TypeError /\ py_variables O V c [] [("values", v)] = Throw TypeError).
Proof. exact (fun S O V c v l H => conj (@variables_call S O V c v l H) (@variables_rejected S O V c v l H)). Qed.
Print Assumptions C80_static_variables.
Theorem C80_sparse_static : forall (S : Type) (O : Ops S) (V : pyconv S) (v : pyval S) (s : S) (k : string), number V v s ->
  py_constant_s V [v] [] = Ok (mks s []) /\ py_constant_s V [] [("value", v)] = Ok (mks s []) /\
  py_variable_s O V [VStr k; v] [] = Ok (mks s [(k, o_Z O 1)]) /\ py_variable_s O V [VStr k] [("value", v)] = Ok (mks s [(k, o_Z O 1)]) /\
  py_variable_s O V [] [("name", VStr k); ("value", v)] = Ok (mks s [(k, o_Z O 1)]).
Proof. exact @sparse_static. Qed.
Print Assumptions C80_sparse_static.

(** ** What is rejected *)
(** Floats, lists, dicts and strings are no sizes and no indices. *)
Theorem C80_sizes_rejected : forall (S : Type) (O : Ops S) (V : pyconv S) (c : cfg) (v w : pyval S) (s : S), number V v s -> no_index w ->
  py_constant O V c [v; w] [] = Throw TypeError /\ py_constant O V c [v] [("size", w)] = Throw TypeError /\
  py_empty O V c [w] [] = Throw TypeError /\ py_zero O V c [w] [] = Throw TypeError /\
  py_new O V c [v] [("size", w)] = Throw TypeError /\ py_new O V c [] [("size", w)] = Throw TypeError /\
  (forall i, py_variable O V c [i; v; w] [] = Throw TypeError) /\ (forall n, py_variable O V c [w; v; n] [] = Throw TypeError) /\
  py_variable O V c [w; v] [] = Throw TypeError.
Proof. exact @sizes_rejected. Qed.
Print Assumptions C80_sizes_rejected.
Theorem C80_float_no_size : forall (S : Type) (O : Ops S) (V : pyconv S) (c : cfg) (v : pyval S) (s s' : S), c_ord c = 2 \/ c_ord c = 1 ->
  number V v s -> py_new O V c [v; VFloat s'] [] = Throw TypeError.
Proof. exact @float_no_size. Qed.
Print Assumptions C80_float_no_size.
(** Lists, dicts and strings are no values; [T.constant] needs a value. *)
Theorem C80_values_rejected : forall (S : Type) (O : Ops S) (V : pyconv S) (c : cfg) (w : pyval S), no_number w ->
  (forall n, py_constant O V c [w; n] [] = Throw TypeError) /\ py_constant O V c [w] [] = Throw TypeError /\
  py_constant O V c [] [] = Throw TypeError /\ (forall n, py_constant O V c [] [("size", n)] = Throw TypeError) /\
  (forall i n, py_variable O V c [i; w; n] [] = Throw TypeError) /\ (forall i, py_variable O V c [i; w] [] = Throw TypeError) /\
  (forall n, py_new O V c [w; n] [] = Throw TypeError) /\ (forall n, py_new O V c [w] [("size", n)] = Throw TypeError) /\
  (forall g h, py_new O V c [w; g; h] [] = Throw TypeError) /\
  py_constant_s V [w] [] = Throw TypeError /\ (forall k, py_variable_s O V [k; w] [] = Throw TypeError) /\
  (forall d, py_new_s O V [w; d] [] = Throw TypeError) /\ py_new_s O V [w] [] = Throw TypeError.
Proof. exact @values_rejected. Qed.
Print Assumptions C80_values_rejected.

(** ** Arrays of two dimensions in other places: a column is accepted as data, a row as gradient, nothing else *)
Theorem C80_data_column : forall (S : Type) (O : Ops S) (V : pyconv S) (c : cfg) (e : pyelems S) (l : list S),
  elems V e l -> fits_class c (StaticDataSize c) l ->
  py_new O V c [VArr2 (length l) 1 e] [] = create c (full l) /\ py_new O V c [] [("data", VArr2 (length l) 1 e)] = create c (full l).
Proof. exact @new_column. Qed.
Print Assumptions C80_data_column.
Theorem C80_data_table : forall (S : Type) (O : Ops S) (V : pyconv S) (c : cfg) (e : pyelems S) (l : list S) (r k : nat),
  elems V e l -> length l = (r * k)%nat -> (1 < k)%nat -> (0 < r)%nat ->
  py_new O V c [VArr2 r k e] [] = Throw TypeError /\ py_new O V c [] [("data", VArr2 r k e)] = Throw TypeError /\
  py_variables O V c [VArr2 r k e] [] = Throw TypeError.
Proof. exact @new_wide. Qed.
Print Assumptions C80_data_table.
Theorem C80_gradient_row : forall (S : Type) (O : Ops S) (V : pyconv S) (c : cfg) (v : pyval S) (s : S) (e : pyelems S) (l : list S),
  c_ord c = 1 -> number V v s -> elems V e l -> length l <> 1%nat -> fits_class c (c_tsize c) l ->
  py_new O V c [v; VArr2 1 (length l) e] [] = from_gradient O c s (full l).
Proof. exact @new_gradient_row. Qed.
Print Assumptions C80_gradient_row.
Theorem C80_gradient_table : forall (S : Type) (O : Ops S) (V : pyconv S) (c : cfg) (v : pyval S) (s : S) (e : pyelems S) (l : list S) (r k : nat),
  c_ord c = 1 -> number V v s -> elems V e l -> length l <> 1%nat -> r <> 1%nat ->
  py_new O V c [v; VArr2 r k e] [] = Throw TypeError.
Proof. exact @new_gradient_table. Qed.
Print Assumptions C80_gradient_table.
(** A vector given for the Hessian of a dynamic type is a matrix with one column. *)
Theorem C80_hessian_vector : forall (S : Type) (O : Ops S) (V : pyconv S) (c : cfg) (v : pyval S) (s : S) (g : pyval S) (l : list S) (h : pyval S) (m : list S),
  c_ord c = 2 -> number V v s -> vector V g l -> vector V h m -> fits_class c (c_tsize c) l -> is_dynamic c = true ->
  py_new O V c [v; g; h] [] = from_arrays O c s (full l) (mkmat (Z.of_nat (length m)) 1 (full m)).
Proof. exact @new_hessian_vector. Qed.
Print Assumptions C80_hessian_vector.

(** With integers as scalars ([Zconv]: nothing to round). *)
Example C80_case :
  (* DDScalar([1, 2, 3, 4, 5, 6]), D2Scalar([1, 2, 3]), D2Scalar([1, 2]) *)
  py_new Zops Zconv dyn2 [VList (map VInt [1; 2; 3; 4; 5; 6])] [] = Ok (mk 2 (full [1; 2; 3; 4; 5; 6])) /\
  py_new Zops Zconv (sta1 2) [VList (map VInt [1; 2; 3])] [] = Ok (mk 2 (full [1; 2; 3])) /\
  py_new Zops Zconv (sta1 2) [VList (map VInt [1; 2])] [] = Throw TypeError /\
  (* D2Scalar(np.array([5.0])), D2Scalar([5.0]) *)
  py_new Zops Zconv (sta1 2) [VArr1 (EF [5])] [] = Ok (mk 2 (full [5; 0; 0])) /\
  py_new Zops Zconv (sta1 2) [VList [VFloat 5]] [] = Throw TypeError /\
  (* DScalar(2, [3.0]), DScalar(2.0, np.array([3.0])), DScalar(2, np.array([3.0])), DScalar(2.0, np.array([3])) *)
  py_new Zops Zconv dyn1 [VInt 2; VList [VFloat 3]] [] = Ok (mk 1 (full [2; 3])) /\
  py_new Zops Zconv dyn1 [VFloat 2; VArr1 (EF [3])] [] = Ok (mk 1 (full [2; 3])) /\
  py_new Zops Zconv dyn1 [VInt 2; VArr1 (EF [3])] [] = Ok (mk 3 (full [2; 0; 0; 0])) /\
  py_new Zops Zconv dyn1 [VFloat 2; VArr1 (EI [3])] [] = Ok (mk 3 (full [2; 0; 0; 0])) /\
  (* DScalar(2, np.array([3.0, 4.0])), DScalar(f=2, g=np.array([3.0])) *)
  py_new Zops Zconv dyn1 [VInt 2; VArr1 (EF [3; 4])] [] = Ok (mk 2 (full [2; 3; 4])) /\
  py_new Zops Zconv dyn1 [] [("f", VInt 2); ("g", VArr1 (EF [3]))] = Ok (mk 1 (full [2; 3])) /\
  (* DDScalar(7, [1, 2], [[3, 4], [4, 5]]) *)
  py_new Zops Zconv dyn2 [VInt 7; VList (map VInt [1; 2]); VList [VList (map VInt [3; 4]); VList (map VInt [4; 5])]] [] = Ok exa /\
  py_new Zops Zconv dyn2 [VInt 7; VList (map VInt [1; 2])] [] = Throw TypeError /\
  py_new_s Zops Zconv [] [("d", VDict [("x", VInt 4)])] = Ok (mks 0 [("x", 4)]) /\
  (* DScalar(np.array([[1.0], [2.0]])), DScalar(np.array([[1.0, 2.0]])), DScalar(3, np.array([[1, 2]])), DScalar(3, np.array([[1], [2]])) *)
  py_new Zops Zconv dyn1 [VArr2 2 1 (EF [1; 2])] [] = Ok (mk 1 (full [1; 2])) /\
  py_new Zops Zconv dyn1 [VArr2 1 2 (EF [1; 2])] [] = Throw TypeError /\
  py_new Zops Zconv dyn1 [VInt 3; VArr2 1 2 (EI [1; 2])] [] = Ok (mk 2 (full [3; 1; 2])) /\
  py_new Zops Zconv dyn1 [VInt 3; VArr2 2 1 (EI [1; 2])] [] = Throw TypeError /\
  (* DDScalar(7, [1.0], np.array([3.0])), DScalar.variable(size=2, f=5, i=1), DScalar.constant(size=2), SScalar.variable("x", 4) *)
  py_new Zops Zconv dyn2 [VInt 7; VList [VFloat 1]; VArr1 (EF [3])] [] = Ok (mk 1 (full [7; 1; 3])) /\
  py_variable Zops Zconv dyn1 [] [("size", VInt 2); ("f", VInt 5); ("i", VInt 1)] = Ok (mk 2 (full [5; 0; 1])) /\
  py_constant Zops Zconv dyn1 [] [("size", VInt 2)] = Throw TypeError /\
  py_variable_s Zops Zconv [VStr "x"; VInt 4] [] = Ok (mks 4 [("x", 1)]).
Proof. repeat split; vm_compute; reflexivity. Qed.
