(** The Python constructors and the overloaded static functions: which C++ function a call reaches
    (python/src/common.h 25-41, 59-86; python/src/bind_sscalar.cpp 10-18).
    What pybind11 2.11.1 (python/CMakeLists.txt:23) and numpy are assumed to do is written down here:
    - the dispatcher tries the overloads in the order of their definition, first without and then with
      implicit conversions; defaults are converted like arguments;
    - the conversions of arguments to [double], [ptrdiff_t], [std::vector<double>], [std::array<double, N>],
      [Eigen::Ref<const Vector>], [Eigen::Ref<const Matrix>], [std::string] and [std::unordered_map<std::string, double>].
    Not modelled: arrays of no or more than two dimensions, of other element types than 64-bit integers and floats,
    or with strides; user-defined sequences. *)
From Coq Require Import ZArith List Bool String.
From Verif Require Import Outcome Scalar Model ModelS.
Import ListNotations.
Open Scope string_scope.
Open Scope Z_scope.
Open Scope list_scope.

(** How Python converts numbers: [float(z)] ([None]: OverflowError) and [int(x)] ([None]: NaN, infinities). *)
Record pyconv (S : Type) := { cv_float : Z -> option S; cv_int : S -> option Z }.
Arguments cv_float {S}. Arguments cv_int {S}.

(** Elements of a numpy array: floats or integers. *)
Inductive pyelems (S : Type) := EF (l : list S) | EI (l : list Z).
Arguments EF {S}. Arguments EI {S}.
(** Arguments of a call. *)
Inductive pyval (S : Type) :=
| VInt (z : Z)                      (* int, bool, numpy integers: [__index__] *)
| VFloat (s : S)                    (* float, numpy.float64 *)
| VReal (s : S)                     (* numpy.float32, Decimal, Fraction: [__float__], [__int__], but no float *)
| VList (l : list (pyval S))        (* list, tuple *)
| VArr1 (e : pyelems S)             (* numpy array with one dimension *)
| VArr2 (r c : nat) (e : pyelems S) (* numpy array with r rows and c columns *)
| VDict (l : list (string * pyval S))   (* dict with keys of type str *)
| VStr (k : string)                 (* str, bytes *)
| VOther.                           (* None, other objects *)
Arguments VInt {S}. Arguments VFloat {S}. Arguments VReal {S}. Arguments VList {S}. Arguments VArr1 {S}.
Arguments VArr2 {S}. Arguments VDict {S}. Arguments VStr {S}. Arguments VOther {S}.

Fixpoint all_some {A} (l : list (option A)) : option (list A) :=
  match l with
  | [] => Some []
  | Some a :: l => match all_some l with Some l => Some (a :: l) | None => None end
  | None :: _ => None
  end.

Section New.
  Context {S : Type} (O : Ops S) (V : pyconv S).
  Notation pyval := (pyval S).

  (** [numpy.ndarray.__float__] and [__int__]: arrays with a single element only. *)
  Definition elems_float (e : pyelems S) : option (list S) :=
    match e with EF l => Some l | EI l => all_some (map (cv_float V) l) end.
  Definition single_float (e : pyelems S) : option S :=
    match e with EF [s] => Some s | EI [z] => cv_float V z | _ => None end.
  Definition single_int (e : pyelems S) : option Z :=
    match e with EF [s] => cv_int V s | EI [z] => Some z | _ => None end.

  (** [double]: without conversion only floats; otherwise everything with [__float__] or [__index__]. *)
  Definition as_double (conv : bool) (v : pyval) : option S :=
    match v with
    | VFloat s => Some s
    | VInt z => if conv then cv_float V z else None
    | VReal s => if conv then Some s else None
    | VArr1 e | VArr2 _ _ e => if conv then single_float e else None
    | VList _ | VDict _ | VStr _ | VOther => None
    end.
  (** [ptrdiff_t]: never floats; without conversion only [__index__], which arrays with dimensions refuse; with
      conversion also [__int__]. *)
  Definition fits_index (z : Z) : option Z := if (- 2 ^ 63 <=? z) && (z <? 2 ^ 63) then Some z else None.
  Definition as_index (conv : bool) (v : pyval) : option Z :=
    match v with
    | VInt z => fits_index z
    | VReal s => if conv then match cv_int V s with Some z => fits_index z | None => None end else None
    | VArr1 e | VArr2 _ _ e =>
        if conv then match single_int e with Some z => fits_index z | None => None end else None
    | VFloat _ | VList _ | VDict _ | VStr _ | VOther => None
    end.
  (** The elements of a sequence ([PySequence_Check]; strings are excluded).  The rows of a table are arrays. *)
  Fixpoint chunks {A} (r c : nat) (l : list A) : list (list A) :=
    match r with Datatypes.O => [] | Datatypes.S r => firstn c l :: chunks r c (skipn c l) end.
  Definition as_sequence (v : pyval) : option (list pyval) :=
    match v with
    | VList l => Some l
    | VArr1 (EF l) => Some (map VFloat l)
    | VArr1 (EI l) => Some (map VInt l)
    | VArr2 r c (EF l) => Some (map (fun l => VArr1 (EF l)) (chunks r c l))
    | VArr2 r c (EI l) => Some (map (fun l => VArr1 (EI l)) (chunks r c l))
    | _ => None
    end.
  (** [std::vector<double>]; [std::array<double, n>] also checks the length. *)
  Definition as_doubles (n : option nat) (conv : bool) (v : pyval) : option (list S) :=
    match as_sequence v with
    | Some l =>
        if match n with Some n => Nat.eqb (List.length l) n | None => true end
        then all_some (map (as_double conv) l) else None
    | None => None
    end.
  (** [numpy.array(v)] of the element type double, as shape and elements. *)
  Inductive ndarray := N1 (l : list S) | N2 (r c : nat) (l : list S).
  Definition scalar_of (v : pyval) : option S :=
    match v with VInt _ | VFloat _ | VReal _ => as_double true v | _ => None end.
  Definition row_of (v : pyval) : option (list S) :=
    match v with VList l => all_some (map scalar_of l) | VArr1 e => elems_float e | _ => None end.
  Definition as_ndarray (v : pyval) : option ndarray :=
    match v with
    | VArr1 e => match elems_float e with Some l => Some (N1 l) | None => None end
    | VArr2 r c e => match elems_float e with Some l => Some (N2 r c l) | None => None end
    | VList l =>
        match all_some (map scalar_of l) with
        | Some l => Some (N1 l)
        | None =>
            match all_some (map row_of l) with
            | Some (row :: rest) =>
                if forallb (fun x => Nat.eqb (List.length x) (List.length row)) rest
                then Some (N2 (List.length l) (List.length row) (List.concat (row :: rest))) else None
            | _ => None
            end
        end
    | _ => None
    end.
  (** [Eigen::Ref<const Vector>], [Vector] being a row of [n] or any number of entries: without conversion only
      arrays of doubles. *)
  Definition as_vector (n : option nat) (conv : bool) (v : pyval) : option (list S) :=
    let fits (l : list S) := match n with Some n => Nat.eqb (List.length l) n | None => true end in
    if conv || match v with VArr1 (EF _) | VArr2 _ _ (EF _) => true | _ => false end then
      match as_ndarray v with
      | Some (N1 l) => if fits l then Some l else None
      | Some (N2 1 c l) => if fits l then Some l else None
      | _ => None
      end
    else None.
  (** [Eigen::Ref<const Matrix>], [Matrix] being square of size [n] or of any shape.  A vector becomes a column.
      In which of the two passes it is accepted depends on strides, but does not matter: no other overload has
      three arguments. *)
  Definition as_matrix (n : option nat) (conv : bool) (v : pyval) : option (mat S) :=
    if conv then
      match as_ndarray v with
      | Some (N1 l) =>
          match n with
          | None => Some (mkmat (Z.of_nat (List.length l)) 1 (full l))
          | Some 1%nat => if Nat.eqb (List.length l) 1 then Some (mkmat 1 1 (full l)) else None
          | Some _ => None
          end
      | Some (N2 r c l) =>
          if match n with Some n => Nat.eqb r n && Nat.eqb c n | None => true end
          then Some (mkmat (Z.of_nat r) (Z.of_nat c) (full l)) else None
      | None => None
      end
    else None.
  (** [std::unordered_map<std::string, double>]: the dict in its own order. *)
  Definition as_table (conv : bool) (v : pyval) : option (table S) :=
    match v with
    | VDict l => match all_some (map (fun '(_, x) => as_double conv x) l) with
                 | Some xs => Some (combine (map fst l) xs) | None => None end
    | _ => None
    end.

  (** An overload: parameters with defaults, and the call once the arguments are assigned ([None]: a conversion fails). *)
  Record overload (A : Type) := over { ov_params : list (string * option pyval); ov_call : bool -> list pyval -> option A }.
  Arguments over {A}. Arguments ov_params {A}. Arguments ov_call {A}.

  Fixpoint lookup (kw : list (string * pyval)) (k : string) : option pyval :=
    match kw with [] => None | (k', v) :: kw => if String.eqb k' k then Some v else lookup kw k end.
  Definition given (kw : list (string * pyval)) (k : string) : bool := match lookup kw k with Some _ => true | None => false end.
  (** Assignment of arguments to parameters: positional ones first (not also given by keyword), then keywords, then
      defaults; no keyword may remain. *)
  Fixpoint assign_rest (ps : list (string * option pyval)) (kw : list (string * pyval)) : option (list pyval) :=
    match ps with
    | [] => Some []
    | (k, d) :: ps =>
        match (match lookup kw k with Some v => Some v | None => d end), assign_rest ps kw with
        | Some v, Some vs => Some (v :: vs)
        | _, _ => None
        end
    end.
  Fixpoint assign_args (ps : list (string * option pyval)) (args : list pyval) (kw : list (string * pyval)) : option (list pyval) :=
    match args, ps with
    | [], _ => if forallb (fun '(k, _) => existsb (fun '(p, _) => String.eqb p k) ps) kw then assign_rest ps kw else None
    | _ :: _, [] => None
    | a :: args, (k, _) :: ps =>
        if given kw k then None else match assign_args ps args kw with Some vs => Some (a :: vs) | None => None end
    end.
  Definition try_call {A} (conv : bool) (args : list pyval) (kw : list (string * pyval)) (o : overload A) : option A :=
    match assign_args (ov_params o) args kw with Some vs => ov_call o conv vs | None => None end.
  Fixpoint first {A B} (f : A -> option B) (l : list A) : option B :=
    match l with [] => None | a :: l => match f a with Some b => Some b | None => first f l end end.
  (** [cpp_function::dispatcher] *)
  Definition dispatch {A} (os : list (overload (res A))) (args : list pyval) (kw : list (string * pyval)) : res A :=
    match first (try_call false args kw) os with
    | Some r => r
    | None => match first (try_call true args kw) os with Some r => r | None => Throw TypeError end
    end.

  Section Class.
    Context (c : cfg).
    Definition fixed (n : Z) : option nat := if is_dynamic c then None else Some (Z.to_nat n).
    (** common.h:27 *)
    Definition ov_constant_n (d : option pyval) : overload (res (dd S)) := over [("f", d); ("size", None)]
      (fun conv vs => match vs with
       | [f; n] => match as_double conv f, as_index conv n with Some f, Some n => Some (constant_n O c f n) | _, _ => None end
       | _ => None end).
    (** common.h:28 *)
    Definition ov_create : overload (res (dd S)) := over [("data", None)]
      (fun conv vs => match vs with
       | [v] => match as_doubles (fixed (StaticDataSize c)) conv v with Some l => Some (create c (full l)) | None => None end
       | _ => None end).
    (** common.h:29 *)
    Definition ov_constant (d : option pyval) : overload (res (dd S)) := over [("f", d)]
      (fun conv vs => match vs with
       | [f] => match as_double conv f with Some f => Some (constant O c f) | None => None end
       | _ => None end).
    (** common.h:34 *)
    Definition ov_from_gradient : overload (res (dd S)) := over [("f", None); ("g", None)]
      (fun conv vs => match vs with
       | [f; g] => match as_double conv f, as_vector (fixed (c_tsize c)) conv g with
                   | Some f, Some g => Some (from_gradient O c f (full g)) | _, _ => None end
       | _ => None end).
    (** common.h:39 *)
    Definition ov_from_arrays : overload (res (dd S)) := over [("f", None); ("g", None); ("hm", None)]
      (fun conv vs => match vs with
       | [f; g; h] => match as_double conv f, as_vector (fixed (c_tsize c)) conv g, as_matrix (fixed (c_tsize c)) conv h with
                      | Some f, Some g, Some h => Some (from_arrays O c f (full g) h) | _, _, _ => None end
       | _ => None end).
    (** common.h:25-41: [T(...)]. *)
    Definition py_new : list pyval -> list (string * pyval) -> res (dd S) :=
      dispatch ([ov_constant_n (Some (VInt 0)); ov_create; ov_constant (Some (VInt 0))] ++
                (if c_ord c =? 1 then [ov_from_gradient] else [ov_from_arrays])).
    (** common.h:61-62: [T.constant(...)]. *)
    Definition py_constant : list pyval -> list (string * pyval) -> res (dd S) :=
      dispatch [ov_constant_n None; ov_constant None].
    (** common.h:63-64, 66-67: [T.empty(...)], [T.zero(...)]. *)
    Definition ov_sized (f0 : dd S) (f : Z -> res (dd S)) : list (overload (res (dd S))) :=
      [over [] (fun _ vs => match vs with [] => Some (Ok f0) | _ => None end);
       over [("size", None)] (fun conv vs => match vs with
         | [n] => match as_index conv n with Some n => Some (f n) | None => None end | _ => None end)].
    Definition py_empty := dispatch (ov_sized (empty O c) (empty_n O c)).
    Definition py_zero := dispatch (ov_sized (zero O c) (zero_n O c)).
    (** common.h:65, 80 *)
    Definition ov_variable_n : overload (res (dd S)) := over [("i", None); ("f", None); ("size", None)]
      (fun conv vs => match vs with
       | [i; f; n] => match as_index conv i, as_double conv f, as_index conv n with
                      | Some i, Some f, Some n => Some (variable_n O c i f n) | _, _, _ => None end
       | _ => None end).
    Definition ov_variable : overload (res (dd S)) := over [("i", None); ("f", None)]
      (fun conv vs => match vs with
       | [i; f] => match as_index conv i, as_double conv f with Some i, Some f => Some (variable O c i f) | _, _ => None end
       | _ => None end).
    Definition py_variable : list pyval -> list (string * pyval) -> res (dd S) :=
      dispatch (ov_variable_n :: if is_dynamic c then [] else [ov_variable]).
    (** common.h:72-76, 81-85: [T.variables(values)]. *)
    Definition ov_variables : overload (res (list (dd S))) := over [("values", None)]
      (fun conv vs => match vs with
       | [v] => match as_doubles (fixed (c_tsize c)) conv v with Some l => Some (variables O c l) | None => None end
       | _ => None end).
    Definition py_variables : list pyval -> list (string * pyval) -> res (list (dd S)) := dispatch [ov_variables].
  End Class.

  (** bind_sscalar.cpp:10-13 *)
  Definition py_new_s : list pyval -> list (string * pyval) -> res (ss S) :=
    dispatch
      [over [] (fun _ vs => match vs with [] => Some (Ok (s_default O)) | _ => None end);
       over [("f", Some (VInt 0))] (fun conv vs => match vs with
         | [f] => match as_double conv f with Some f => Some (Ok (s_ctor_f f)) | None => None end | _ => None end);
       over [("f", Some (VInt 0)); ("d", None)] (fun conv vs => match vs with
         | [f; d] => match as_double conv f, as_table conv d with Some f, Some d => Some (Ok (s_ctor f d)) | _, _ => None end
         | _ => None end)].
  (** bind_sscalar.cpp:17-18 *)
  Definition as_name (v : pyval) : option string := match v with VStr k => Some k | _ => None end.
  Definition py_constant_s : list pyval -> list (string * pyval) -> res (ss S) :=
    dispatch [over [("value", None)] (fun conv vs => match vs with
      | [f] => match as_double conv f with Some f => Some (Ok (s_constant f)) | None => None end | _ => None end)].
  Definition py_variable_s : list pyval -> list (string * pyval) -> res (ss S) :=
    dispatch [over [("name", None); ("value", None)] (fun conv vs => match vs with
      | [k; f] => match as_name k, as_double conv f with Some k, Some f => Some (Ok (s_variable O k f)) | _, _ => None end
      | _ => None end)].
End New.
Arguments over {S A}. Arguments ov_params {S A}. Arguments ov_call {S A}.
