(** Python's operators on the bound classes: which overload an operator, comparison or method call selects,
    [len], truth values and [repr] (python/src/common.h 87-185, python/src/bind_sscalar.cpp 25-112,
    include/hyperjet/hyperjet.h 955-968, 2103-2125).  Python and pybind11 semantics used: an operator bound
    with [py::self] or [double()] answers [NotImplemented] for other operand types; Python then tries the
    reflected operator of the right operand and finally raises [TypeError] ([==] and [!=] compare object
    identities instead).  A float stands for every Python number pybind11 converts to [double].  Not
    modelled: aliasing (see [ModelObj.v]), subclasses, numpy arrays, complex results of [float ** float]. *)
From Coq Require Import ZArith List Bool String.
From Verif Require Import Outcome Scalar Model ProgSpec ModelS ModelPy.
Import ListNotations.
Open Scope string_scope.
Open Scope Z_scope.

(** Exceptions seen by a Python caller: the library's own or Python's. *)
Inductive pyerr := ELib (e : exn) | EType | EValue | EAttribute | EZeroDivision.
Inductive pyres (A : Type) := POk (a : A) | PRaise (e : pyerr) | PAbort | PWild.
Arguments POk {A}. Arguments PRaise {A}. Arguments PAbort {A}. Arguments PWild {A}.
Definition pbind {A B} (m : pyres A) (k : A -> pyres B) : pyres B :=
  match m with POk a => k a | PRaise e => PRaise e | PAbort => PAbort | PWild => PWild end.
Definition lift {A} (m : res A) : pyres A :=
  match m with Ok a => POk a | Throw e => PRaise (ELib e) | Abort => PAbort | UB => PWild end.

Section Disp.
  Context {S : Type} (O : Ops S).
  Notation "# z" := (o_Z O z) (at level 1, format "# z").

  (** A float, a dense number (with the configuration of its class), an [SScalar], an instance of a
      class that knows nothing of these. *)
  Inductive pval := VFloat (s : S) | VNum (c : cfg) (x : dd S) | VSparse (y : ss S) | VOther.
  Definition of_obj (v : pyobj (S := S)) : pval := match v with PFloat s => VFloat s | PNum c x => VNum c x end.
  (** The bound classes differ in order and static size (bind_ddscalar_*.cpp). *)
  Definition same_class (c c' : cfg) : bool := (c_ord c =? c_ord c') && (c_tsize c =? c_tsize c').

  Definition num (c : cfg) (m : res (dd S)) : pyres pval := pbind (lift m) (fun x => POk (VNum c x)).

  (** The scalar operators with the number on the left and on the right. *)
  Definition right_s (o : aop) (s : S) : ufun S :=
    match o with Aadd => Uadds s | Asub => Usubs s | Amul => Umuls s | Adiv => Udivs s end.
  Definition left_s (o : aop) (s : S) : ufun S :=
    match o with Aadd => Usadd s | Asub => Ussub s | Amul => Usmul s | Adiv => Usdiv s end.
  Definition both (o : aop) : bfun := match o with Aadd => Badd | Asub => Bsub | Amul => Bmul | Adiv => Bdiv end.

  (** Python's own floats.  Division by zero raises. *)
  Definition float_op (o : aop) (a b : S) : pyres pval :=
    match o with
    | Aadd => POk (VFloat (o_add O a b))
    | Asub => POk (VFloat (o_sub O a b))
    | Amul => POk (VFloat (o_mul O a b))
    | Adiv => if o_eq O b #0 then PRaise EZeroDivision else POk (VFloat (o_div O a b))
    end.

  (** [a.__add__(b)] etc., common.h:168-175, bind_sscalar.cpp:95-102; [None] is [NotImplemented]. *)
  Definition forward (o : aop) (a b : pval) : option (pyres pval) :=
    match a, b with
    | VNum c x, VNum c' y => if same_class c c' then Some (num c (apply_b O c (both o) x y)) else None
    | VNum c x, VFloat s => Some (num c (apply_u O c (right_s o s) x))
    | VSparse x, VSparse y => Some (POk (VSparse (s_apply_b O (both o) x y)))
    | VSparse x, VFloat s => Some (POk (VSparse (s_apply_u O (right_s o s) x)))
    | VFloat a, VFloat b => Some (float_op o a b)
    | _, _ => None
    end.
  (** [b.__radd__(a)] etc., common.h:182-185, bind_sscalar.cpp:109-112. *)
  Definition reflected (o : aop) (a b : pval) : option (pyres pval) :=
    match b, a with
    | VNum c y, VFloat s => Some (num c (apply_u O c (left_s o s) y))
    | VSparse y, VFloat s => Some (POk (VSparse (s_apply_u O (left_s o s) y)))
    | _, _ => None
    end.
  Definition py_op (o : aop) (a b : pval) : pyres pval :=
    match forward o a b with
    | Some r => r
    | None => match reflected o a b with Some r => r | None => PRaise EType end
    end.

  (** [-a] (common.h:149) and [abs(a)] (89). *)
  Definition py_neg (a : pval) : pyres pval :=
    match a with
    | VFloat s => POk (VFloat (o_neg O s))
    | VNum c x => num c (apply_u O c Uneg x)
    | VSparse y => POk (VSparse (s_apply_u O Uneg y))
    | VOther => PRaise EType
    end.
  Definition py_abs (a : pval) : pyres pval :=
    match a with
    | VFloat s => POk (VFloat (if o_lt O s #0 then o_neg O s else s))
    | VNum c x => num c (apply_u O c Uabs x)
    | VSparse y => POk (VSparse (s_apply_u O Uabs y))
    | VOther => PRaise EType
    end.
  (** [a ** b]: [__pow__] takes a float only and there is no [__rpow__] (common.h:91). *)
  Definition py_pow (a b : pval) : pyres pval :=
    match a, b with
    | VFloat s, VFloat t => POk (VFloat (o_pow O s t))
    | VNum c x, VFloat t => num c (apply_u O c (Upow t) x)
    | VSparse y, VFloat t => POk (VSparse (s_apply_u O (Upow t) y))
    | _, _ => PRaise EType
    end.

  Definition mirror (o : cmp) : cmp :=
    match o with Ceq => Ceq | Cne => Cne | Clt => Cgt | Cgt => Clt | Cle => Cge | Cge => Cle end.
  (** [a.__lt__(b)] etc., common.h:150-161, bind_sscalar.cpp:77-88.  The overloads bound from
      [double() < py::self] (162-167; 89-94) have the same argument types as those of 156-161, which are
      found first. *)
  Definition forward_cmp (o : cmp) (a b : pval) : option (pyres bool) :=
    match a, b with
    | VNum c x, VNum c' y => if same_class c c' then Some (lift (compare O o x y)) else None
    | VNum c x, VFloat s => Some (lift (compare_s O o x s))
    | VSparse x, VSparse y => Some (POk (ss_compare O o x y))
    | VSparse x, VFloat s => Some (POk (ss_compare_s O o x s))
    | VFloat a, VFloat b => Some (POk (scmp O o a b))
    | _, _ => None
    end.
  (** [a] and [b] are different objects (or of one class, where identity plays no role). *)
  Definition py_cmp (o : cmp) (a b : pval) : pyres bool :=
    match forward_cmp o a b with
    | Some r => r
    | None =>
      match forward_cmp (mirror o) b a with
      | Some r => r
      | None => match o with Ceq => POk false | Cne => POk true | _ => PRaise EType end
      end
    end.

  (** [len(a)]: [__len__] is [size] (common.h:90, bind_sscalar.cpp:28); Python rejects negative lengths. *)
  Definition py_len (a : pval) : pyres Z :=
    match a with
    | VNum c x => if size c x <? 0 then PRaise EValue else POk (size c x)
    | VSparse y => POk (s_size y)
    | _ => PRaise EType
    end.
  (** [bool(a)], [if a:]: no [__bool__] is bound, so Python asks [__len__]. *)
  Definition py_truth (a : pval) : pyres bool :=
    match a with
    | VFloat s => POk (negb (o_eq O s #0))
    | VNum _ _ | VSparse _ => pbind (py_len a) (fun n => POk (negb (n =? 0)))
    | VOther => POk true
    end.

  (** Methods without arguments that return a number: common.h 93, 110-118, 120-122, 128-142, 144-145;
      bind_sscalar.cpp 31, 37-45, 47-49, 55-69, 71-72. *)
  Definition methods0 : list (string * ufun S) :=
    [("abs", Uabs); ("reciprocal", Ureciprocal); ("sqrt", Usqrt); ("cbrt", Ucbrt);
     ("cos", Ucos); ("sin", Usin); ("tan", Utan); ("acos", Uacos); ("asin", Uasin); ("atan", Uatan);
     ("arccos", Uacos); ("arcsin", Uasin); ("arctan", Uatan);
     ("cosh", Ucosh); ("sinh", Usinh); ("tanh", Utanh);
     ("acosh", Uacosh); ("arccosh", Uacosh); ("asinh", Uasinh); ("arcsinh", Uasinh);
     ("atanh", Uatanh); ("arctanh", Uatanh);
     ("exp", Uexp); ("log", Ulog); ("log2", Ulog2); ("log10", Ulog10)].
  (** With another number as argument: common.h 119, 123, 124; bind_sscalar.cpp 46, 50, 51. *)
  Definition methods1 : list (string * bfun) := [("atan2", Batan2); ("arctan2", Batan2); ("hypot", Bhypot)].
  Definition assoc {A} (m : string) (l : list (string * A)) : option A :=
    match find (fun e => String.eqb (fst e) m) l with Some (_, a) => Some a | None => None end.
  (** No such name: [AttributeError]; wrong arguments: [TypeError]. *)
  Definition no_overload (m : string) : pyerr :=
    match assoc m methods0, assoc m methods1 with None, None => EAttribute | _, _ => EType end.

  Definition py_call0 (m : string) (a : pval) : pyres pval :=
    match a with
    | VNum c x => match assoc m methods0 with Some u => num c (apply_u O c u x) | None => PRaise (no_overload m) end
    | VSparse y => match assoc m methods0 with Some u => POk (VSparse (s_apply_u O u y)) | None => PRaise (no_overload m) end
    | _ => PRaise EAttribute
    end.
  (** [log(base)]: common.h:143, bind_sscalar.cpp:70. *)
  Definition py_call1 (m : string) (a b : pval) : pyres pval :=
    match a, b with
    | VNum c x, VNum c' y =>
        match assoc m methods1 with
        | Some f => if same_class c c' then num c (apply_b O c f x y) else PRaise EType
        | None => PRaise (no_overload m)
        end
    | VSparse x, VSparse y =>
        match assoc m methods1 with
        | Some f => POk (VSparse (s_apply_b O f x y))
        | None => PRaise (no_overload m)
        end
    | VNum c x, VFloat s => if String.eqb m "log" then num c (apply_u O c (Ulogb s) x) else PRaise (no_overload m)
    | VSparse y, VFloat s => if String.eqb m "log" then POk (VSparse (s_apply_u O (Ulogb s) y)) else PRaise (no_overload m)
    | VNum _ _, _ | VSparse _, _ => PRaise (no_overload m)
    | _, _ => PRaise EAttribute
    end.
  (** [a.hypot(b, d)]: common.h:125, bind_sscalar.cpp:52. *)
  Definition py_call2 (m : string) (a b d : pval) : pyres pval :=
    match a with
    | VNum c x =>
      match b, d with
      | VNum c' y, VNum c'' z =>
          if String.eqb m "hypot" && same_class c c' && same_class c c'' then num c (hypot3 O c x y z)
          else PRaise (no_overload m)
      | _, _ => PRaise (no_overload m)
      end
    | VSparse x =>
      match b, d with
      | VSparse y, VSparse z => if String.eqb m "hypot" then POk (VSparse (s_hypot3 O x y z)) else PRaise (no_overload m)
      | _, _ => PRaise (no_overload m)
      end
    | _ => PRaise EAttribute
    end.
  (** The module functions [hj.hypot(a, b)] and [hj.hypot(a, b, d)] are bound for the dense classes only
      (common.h:219-220; bind_sscalar.cpp binds none). *)
  Definition py_hypot (a b : pval) : pyres pval :=
    match a, b with
    | VNum c x, VNum c' y => if same_class c c' then num c (apply_b O c Bhypot x y) else PRaise EType
    | _, _ => PRaise EType
    end.
  Definition py_hypot3 (a b d : pval) : pyres pval :=
    match a, b, d with
    | VNum c x, VNum c' y, VNum c'' z =>
        if same_class c c' && same_class c c'' then num c (hypot3 O c x y z) else PRaise EType
    | _, _, _ => PRaise EType
    end.

  (** [repr] (common.h:92, bind_sscalar.cpp:30) is [to_string] (961-968, 2118-2125), which uses
      [operator<<] (955-959, 2103-2116).  [fmt] is what [std::ostream] writes for a scalar. *)
  Context (fmt : S -> string).
  Definition dd_repr (x : dd S) : res string := (f <- get_f x ;; Ok (fmt f ++ "hj")%string)%res.
  Definition entry_repr (e : string * S) : string :=
    if o_lt O (snd e) #0 then (" " ++ fmt (snd e) ++ "*d" ++ fst e)%string      (* 2109-2110 *)
    else (" +" ++ fmt (snd e) ++ "*d" ++ fst e)%string.                         (* 2112 *)
  Definition ss_repr (y : ss S) : string := fold_left (fun out e => (out ++ entry_repr e)%string) (s_d y) (fmt (s_f y)).
End Disp.
Arguments pval : clear implicits.
