(** The Python module: [hyperjet.variables], pickling, the array utilities
    (python/src/main.cpp, python/src/common.h; exceptions are always on, python/CMakeLists.txt:40).
    [dbg] as in [cfg].  Overload resolution of the constructors is in ModelNew.v; numpy's broadcasting is
    not modelled. *)
From Coq Require Import ZArith List Bool String.
From Verif Require Import Outcome Scalar Model.
Import ListNotations.
Open Scope Z_scope.
Open Scope list_scope.

Section Py.
  Context {S : Type} (O : Ops S) (dbg : bool).

  (** A Python object: a float, or a number of one of the bound classes (identified by its configuration). *)
  Inductive pyobj := PFloat (s : S) | PNum (c : cfg) (x : dd S).

  Definition pycfg (ord tsize : Z) : cfg := {| c_ord := ord; c_tsize := tsize; c_exc := true; c_dbg := dbg |}.

  (** main.cpp:82-132 (order 1), 133-183 (order 2): the [switch] over the length. *)
  Definition variables_of_order (ord : Z) (values : list S) : res (list pyobj) :=
    match Z.of_nat (List.length values) with
    | 0 => Ok []
    | (1 | 2 | 3 | 4 | 5 | 6 | 7 | 8 | 9 | 10 | 11 | 12 | 13 | 14 | 15) as k =>
        xs <- variables O (pycfg ord k) values ;; Ok (map (PNum (pycfg ord k)) xs)
    | _ => xs <- variables O (pycfg ord (-1)) values ;; Ok (map (PNum (pycfg ord (-1))) xs)
    end.
  (** main.cpp:63-189 *)
  Definition py_variables (values : list S) (order : Z) : res (list pyobj) :=
    if (order <? 0) || (2 <? order) then Throw InvalidOrder
    else match order with
    | 0 => Ok (map PFloat values)
    | 1 => variables_of_order 1 values
    | 2 => variables_of_order 2 values
    | _ => Ok []
    end.

  (** An element of a pickled state: a list of floats, or anything else. *)
  Inductive pystate := PList (vs : list S) | POther.
  (** common.h:187-190.  Reading an indeterminate element is undefined. *)
  Fixpoint py_floats (d : data S) : res (list S) :=
    match d with
    | [] => Ok []
    | Some v :: d => vs <- py_floats d ;; Ok (v :: vs)
    | None :: _ => UB
    end.
  Definition py_getstate (x : dd S) : res (list pystate) := vs <- py_floats (m_data x) ;; Ok [PList vs].
  (** common.h:191-209; [cast<std::array<double, N>>] fails unless there are exactly N floats, any cast
      fails for other objects. *)
  Definition py_setstate (c : cfg) (t : list pystate) : res (dd S) :=
    match t with
    | [PList vs] =>
        if is_dynamic c then
          s <- size_from_data_length c (Z.of_nat (List.length vs)) ;; Ok (mk s (full vs))
        else if Z.of_nat (List.length vs) =? StaticDataSize c then Ok (mk (c_tsize c) (full vs))
        else Throw TypeError
    | [POther] => Throw TypeError
    | _ => Throw InvalidState
    end.

  (** main.cpp:59-61, one element; every bound class has the attributes [f], [g] and [hm]. *)
  Definition util_f (v : pyobj) : res S := match v with PFloat s => Ok s | PNum c x => get_f x end.
  Definition util_d (v : pyobj) : res (list S) := match v with PFloat _ => Ok [] | PNum c x => get_ag c x end.
  Definition util_dd (v : pyobj) : res (mat S) :=
    match v with PFloat _ => Ok (mkmat 0 0 []) | PNum c x => hm O c x "full" end.
End Py.
