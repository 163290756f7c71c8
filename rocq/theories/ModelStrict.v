(** Initialisation of members.  Here an object remembers whether [m_size] has been given a value, and copies follow the letter of
    the C++ standard: copying an indeterminate [index] or scalar is undefined behaviour ([dcl.init]).  [Model.v] takes the
    practical view that such a copy copies nothing in particular.  Line numbers refer to include/hyperjet/hyperjet.h. *)
From Coq Require Import ZArith List Bool.
From Verif Require Import Outcome Scalar Model ModelObj.
Import ListNotations.
Open Scope Z_scope.
Open Scope res_scope.

(** 57-58: [m_size] is [None] as long as it is indeterminate. *)
Record obj (S : Type) := mko { ob_size : option Z; ob_data : data S }.
Arguments mko {S}. Arguments ob_size {S}. Arguments ob_data {S}.

Section Strict.
  Context {S : Type} (O : Ops S) (c : cfg).

  (** Copy of a [Data]: element by element. *)
  Definition copy_data (d : data S) : res (data S) :=
    if forallb (fun a => match a with Some _ => true | None => false end) d then Ok d else UB.
  (** The implicit copy constructor and assignment: member by member. *)
  Definition copy_obj (x : obj S) : res (obj S) :=
    match ob_size x with
    | Some _ => d <- copy_data (ob_data x) ;; Ok (mko (ob_size x) d)
    | None => UB
    end.

  (** 315-328: a static type leaves both members alone *)
  Definition default_o : obj S :=
    if is_dynamic c then mko (Some 1) [Some (o_Z O 0)] else mko None (array_uninit c).
  (** 330-345 *)
  Definition scalar_o (f : S) : res (obj S) :=
    d <- wr (ob_data default_o) 0 f ;;
    d <- for_ 1 (len d) (fun i d => wr d i (o_Z O 0)) d ;;
    Ok (mko (ob_size default_o) d).
  (** 347-352 (static types): [m_size] stays indeterminate *)
  Definition data_o (d : data S) : res (obj S) := d <- copy_data d ;; Ok (mko None d).
  (** 354-359 (dynamic types): any length and any size *)
  Definition sized_o (d : data S) (size : Z) : res (obj S) := d <- copy_data d ;; Ok (mko (Some size) d).
  (** 361-366: the only constructor of a static type that sets [m_size] *)
  Definition list_o (vs : list S) : res (obj S) :=
    s <- size_from_data_length c (Z.of_nat (List.length vs)) ;;
    d <- for_ 0 (Z.of_nat (List.length vs)) (fun i d => v <- rd (full vs) i ;; wr d i v)
           (if is_dynamic c then [] else array_uninit c) ;;
    Ok (mko (Some s) d).

  (** 532-547 *)
  Definition create_o (d : data S) : res (obj S) :=
    s <- size_from_data_length c (len d) ;;
    if is_dynamic c then sized_o d s else check_valid_size c s ;;; data_o d.
  (** 549-579: line 559 declares [Data data;] and line 560 copies it *)
  Definition empty_o (size : Z) : res (obj S) :=
    if is_dynamic c then n <- data_length_from_size c size ;; d <- vec_new n (o_Z O 0) ;; sized_o d size
    else check_valid_size c size ;;; data_o (array_uninit c).
  (** 581-611 *)
  Definition zero_o (size : Z) : res (obj S) :=
    if is_dynamic c then n <- data_length_from_size c size ;; d <- vec_new n (o_Z O 0) ;; sized_o d size
    else check_valid_size c size ;;; data_o (repeat (Some (o_Z O 0)) (Z.to_nat (StaticDataSize c))).
  (** 613-633 *)
  Definition constant_o (f : S) (size : Z) : res (obj S) :=
    r <- zero_o size ;; d <- wr (ob_data r) 0 f ;; Ok (mko (ob_size r) d).
  (** [result.g(i) = 1] (639, 651): the accessor at 722-727 reads [m_size] only in dynamic types (398-408) *)
  Definition size_o (x : obj S) : res Z :=
    if is_dynamic c then match ob_size x with Some n => Ok n | None => UB end else Ok (c_tsize c).
  (** 635-658 *)
  Definition variable_o (i : Z) (f : S) (size : Z) : res (obj S) :=
    r <- constant_o f size ;;
    n <- size_o r ;; assert_ c (i <? n) ;;;
    k <- ck (1 + i) ;; d <- wr (ob_data r) k (o_Z O 1) ;; Ok (mko (ob_size r) d).
  (** 660-674; 676-705 for dynamic types.  Every element is assigned to a default-constructed one (671, 690, 700). *)
  Fixpoint variables_from (n i : Z) (vs : list S) : res (list (obj S)) :=
    match vs with
    | [] => Ok []
    | v :: vs => x <- variable_o i v n ;; x <- copy_obj x ;; xs <- variables_from n (i + 1) vs ;; Ok (x :: xs)
    end.
  Definition variables_o (vs : list S) : res (list (obj S)) :=
    let n := Z.of_nat (List.length vs) in
    (if is_dynamic c then Ok tt else assert_ c (n =? c_tsize c)) ;;; variables_from n 0 vs.
  (** 676-705: [values] is a [std::array] of [T] elements.  For static types [T == TSize] is a static_assert (681), so that no
      other program compiles; the assertion of 660-674 is not there. *)
  Definition variables_array_o (vs : list S) : res (list (obj S)) := variables_from (Z.of_nat (List.length vs)) 0 vs.

  (** 1157: [&m_data[1 + size()]] applies [operator[]], which requires an existing element, when all earlier lines are done. *)
  Definition mul_assign_ref (x : dd S) (b : option (dd S)) : res (dd S) :=
    r <- mul_assign O c x b ;;
    if c_ord c =? 1 then Ok r
    else if 1 + size c r <? len (m_data r) then Ok r else UB.
End Strict.

(** The initialised object behind a number of [Model.v]: same storage, and in dynamic types the same size. *)
Definition stands_for {S} (c : cfg) (x : obj S) (y : dd S) : Prop :=
  ob_data x = m_data y /\ ob_size x = (if is_dynamic c then Some (m_size y) else None).
(** The object is as [Model.v] says, and can (cannot) be copied. *)
Definition usable {S} (c : cfg) (x : obj S) (y : dd S) : Prop := stands_for c x y /\ copy_obj x = Ok x.
Definition stuck {S} (c : cfg) (x : obj S) (y : dd S) : Prop := stands_for c x y /\ copy_obj x = UB.
(** Two numbers with the same storage. *)
Definition same_data {S} (x y : dd S) : Prop := m_data x = m_data y.
(** Two heaps that differ at most in the [m_size] of their objects. *)
Definition alike {S} (st st' : heap S) : Prop :=
  map snd (objs st) = map snd (objs st') /\ bufs st = bufs st' /\ names st = names st' /\ views st = views st'.
