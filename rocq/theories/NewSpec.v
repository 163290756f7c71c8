(** What the arguments of a Python constructor call mean (C80). *)
From Coq Require Import ZArith String List.
From Verif Require Import Outcome Scalar Model ModelS ModelNew.
Import ListNotations.

(** A number of value [s]: float, int or another real number. *)
Inductive number {S} (V : pyconv S) : pyval S -> S -> Prop :=
| num_float s : number V (VFloat s) s
| num_int z s : cv_float V z = Some s -> number V (VInt z) s
| num_real s : number V (VReal s) s.
(** A list or one-dimensional array of numbers. *)
Inductive vector {S} (V : pyconv S) : pyval S -> list S -> Prop :=
| vec_list vs l : Forall2 (number V) vs l -> vector V (VList vs) l
| vec_floats l : vector V (VArr1 (EF l)) l
| vec_ints zs l : Forall2 (fun z s => cv_float V z = Some s) zs l -> vector V (VArr1 (EI zs)) l.
(** A list of lists, or two-dimensional array, with [n] rows of [n] numbers. *)
Inductive table_of {S} (V : pyconv S) (n : nat) : pyval S -> list S -> Prop :=
| tab_rows rows ls : (0 < n)%nat -> Forall2 (vector V) rows ls -> length ls = n -> (forall l, In l ls -> length l = n) ->
    table_of V n (VList rows) (concat ls)
| tab_floats l : table_of V n (VArr2 n n (EF l)) l
| tab_ints zs l : Forall2 (fun z s => cv_float V z = Some s) zs l -> table_of V n (VArr2 n n (EI zs)) l.
Definition is_array {S} (v : pyval S) : Prop := match v with VArr1 _ => True | _ => False end.
(** Sizes and indices are 64-bit integers. *)
Definition index_range (z : Z) : Prop := (- 2 ^ 63 <= z < 2 ^ 63)%Z.
(** A vector of [l] fits the class: any length for dynamic types, [n] for static ones. *)
Definition fits_class {S} (c : cfg) (n : Z) (l : list S) : Prop := is_dynamic c = true \/ Z.of_nat (length l) = n.
(** Things that are no numbers: the arguments below can stand neither for a value nor for a size. *)
Definition no_number {S} (v : pyval S) : Prop := match v with VList _ | VDict _ | VStr _ | VOther => True | _ => False end.
(** Things that are no sizes and no indices: the above and floats. *)
Definition no_index {S} (v : pyval S) : Prop := no_number v \/ exists s, v = VFloat s.
(** The elements of an array are these numbers. *)
Definition elems {S} (V : pyconv S) (e : pyelems S) (l : list S) : Prop := vector V (VArr1 e) l.
