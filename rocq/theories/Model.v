(** Executable model of [hyperjet::DDScalar] (include/hyperjet/hyperjet.h:43-1987).
    Line numbers in comments refer to that file unless another file is named. *)
From Coq Require Import ZArith List Bool String.
From Verif Require Import Outcome Scalar Float64.
Import ListNotations.
Open Scope Z_scope.
Open Scope res_scope.

(** Template parameters [TOrder], [TSize] (43; [Dynamic = -1], 26) and build flags:
    [c_exc] is [throw_exceptions()] (34-41), [c_dbg] is "assertions enabled" (no NDEBUG). *)
Record cfg := { c_ord : Z; c_tsize : Z; c_exc : bool; c_dbg : bool }.

(** The static_asserts of the constructors: 317, 326. *)
Definition cfg_ok (c : cfg) : Prop := (c_ord c = 1 \/ c_ord c = 2) /\ -1 <= c_tsize c.

(** 527-530 *)
Definition is_dynamic (c : cfg) : bool := c_tsize c =? -1.

(** [assert(b)] *)
Definition assert_ (c : cfg) (b : bool) : res unit :=
  if c_dbg c && negb b then Abort else Ok tt.

(** The object: [m_size], [m_data] (57-58).  In the static case [m_size] is never read. *)
Record dd (S : Type) := mk { m_size : Z; m_data : data S }.
Arguments mk {S}. Arguments m_size {S}. Arguments m_data {S}.

Section Sizes.
  Context (c : cfg).

  (** 61-64; C++ integer division truncates. *)
  Definition data_length_from_size (size : Z) : res Z :=
    if c_ord c =? 1 then ck (1 + size)
    else a <- ck (size + 1) ;; b <- ck (size + 2) ;; p <- ck (a * b) ;; Ok (Z.quot p 2).

  (** 66-83.  Without exceptions the code is
      [assert(data_length_from_size(s) == n == 0 && ...)], i.e. [((len == n) == 0) && true]. *)
  Definition size_from_data_length (n : Z) : res Z :=
    s <- (if c_ord c =? 1 then ck (n - 1)
          else q <- sqrt_minus_3 n ;; Ok (Z.quot q 2)) ;;
    (if c_exc c then
       l <- data_length_from_size s ;;
       (if negb (l =? n) then Throw InvalidLength else Ok tt)
     else if c_dbg c then
       l <- data_length_from_size s ;;
       assert_ c (Bool.eqb (l =? n) false)
     else Ok tt) ;;;
    Ok s.

  (** 86-116 *)
  Definition check_valid_size (size : Z) : res unit :=
    if is_dynamic c then
      (if c_exc c then (if size <? 0 then Throw NegativeSize else Ok tt)
       else assert_ c (0 <=? size))
    else
      (if c_exc c then (if negb (size =? c_tsize c) then Throw InvalidSize else Ok tt)
       else assert_ c (size =? c_tsize c)).

  (** 118-134 *)
  Definition check_equal_size (size_a size_b : Z) : res unit :=
    if is_dynamic c then
      (if c_exc c then (if negb (size_a =? size_b) then Throw IncompatibleSize else Ok tt)
       else assert_ c (size_a =? size_b))
    else Ok tt.

  (** 46, a compile-time constant for static types. *)
  Definition StaticDataSize : Z :=
    if c_ord c =? 1 then 1 + c_tsize c else Z.quot ((c_tsize c + 1) * (c_tsize c + 2)) 2.
End Sizes.

(** The tag types [Zero], [One], [MinusOne] (136-175) and ordinary scalars as chain-rule
    coefficients. *)
Inductive coef (S : Type) := CZero | COne | CMinusOne | CVal (s : S).
Arguments CZero {S}. Arguments COne {S}. Arguments CMinusOne {S}. Arguments CVal {S}.

(** Values of products and sums of coefficients with scalars: [Zero] or a scalar. *)
Inductive val (S : Type) := VZero | V (s : S).
Arguments VZero {S}. Arguments V {S}.

(** A [const Data&] argument: [None] means the reference is to the very storage being written
    (aliasing), [Some d] a different object. *)
Definition ref (S : Type) := option (data S).
Definition deref {S} (a : ref S) (r : data S) : data S :=
  match a with None => r | Some d => d end.

(** A [const Scalar&] argument: a value, or a reference to an element of [m_data] of the object
    being modified. *)
Inductive sref (S : Type) := SVal (s : S) | SElem (k : Z).
Arguments SVal {S}. Arguments SElem {S}.

Section DD.
  Context {S : Type} (O : Ops S) (c : cfg).

  Local Notation "x +! y" := (o_add O x y) (at level 50, left associativity).
  Local Notation "x -! y" := (o_sub O x y) (at level 50, left associativity).
  Local Notation "x *! y" := (o_mul O x y) (at level 40, left associativity).
  Local Notation "x /! y" := (o_div O x y) (at level 40, left associativity).
  Local Notation "-! x" := (o_neg O x) (at level 35, right associativity).
  Local Notation "# z" := (o_Z O z) (at level 1, z at level 0).

  (** 136-175: [Zero * s = Zero], [One * s = s], [MinusOne * s = -s]. *)
  Definition cmul (k : coef S) (x : S) : val S :=
    match k with
    | CZero => VZero
    | COne => V x
    | CMinusOne => V (-! x)
    | CVal s => V (s *! x)
    end.
  (** [Zero + t = t], [t + Zero = t] (143-153). *)
  Definition vadd (a b : val S) : val S :=
    match a, b with
    | VZero, _ => b
    | _, VZero => a
    | V x, V y => V (x +! y)
    end.
  (** [ca * a[1+j]] where [ca] is [Zero] or a scalar. *)
  Definition vmul (a : val S) (x : S) : val S :=
    match a with VZero => VZero | V s => V (s *! x) end.
  (** [r[k] += v]; adding [Zero] to a scalar does not occur in instantiated code (the branches
      are removed by [if constexpr]); it is given the meaning of 149-153. *)
  Definition vacc (x : S) (v : val S) : S :=
    match v with VZero => x | V y => x +! y end.
  (** [r[i] = v]; as above the [Zero] case does not occur in instantiated code. *)
  Definition vset (v : val S) : S := match v with VZero => #0 | V y => y end.
  Definition is_zero (k : coef S) : bool := match k with CZero => true | _ => false end.

  (** 398-408 *)
  Definition size (x : dd S) : Z := if is_dynamic c then m_size x else c_tsize c.
  (** 410-420 *)
  Definition data_length (x : dd S) : Z :=
    if is_dynamic c then len (m_data x) else StaticDataSize c.

  (** 177-217.  [this] supplies [data_length()] and [size()]. *)
  Definition unary (inc : bool) (this : dd S) (a : ref S) (f : S) (da daa : coef S)
      (r : data S) : res (data S) :=
    let n := data_length this in
    r <- wr r 0 f ;;
    if (c_ord c <? 1) || is_zero da then Ok r else
    r <- for_ 1 n (fun i r =>
           x <- rd (deref a r) i ;;
           (if inc then o <- rd r i ;; wr r i (vacc o (cmul da x))
            else wr r i (vset (cmul da x)))) r ;;
    if (c_ord c <? 2) || is_zero daa then Ok r else
    '(k, r) <- for_ 0 (size this) (fun i '(k, r) =>
           x <- rd (deref a r) (1 + i) ;;
           let ca := cmul daa x in
           for_ i (size this) (fun j '(k, r) =>
             y <- rd (deref a r) (1 + j) ;;
             o <- rd r k ;;
             r <- wr r k (vacc o (vmul ca y)) ;;
             Ok (k + 1, r)) (k, r)) (1 + size this, r) ;;
    Ok r.

  (** 219-264 *)
  Definition binary (inc : bool) (this : dd S) (a b : ref S) (f : S)
      (da db daa dab dbb : coef S) (r : data S) : res (data S) :=
    let n := data_length this in
    r <- wr r 0 f ;;
    if (c_ord c <? 1) || (is_zero da && is_zero db) then Ok r else
    r <- for_ 1 n (fun i r =>
           x <- rd (deref a r) i ;;
           y <- rd (deref b r) i ;;
           let v := vadd (cmul da x) (cmul db y) in
           (if inc then o <- rd r i ;; wr r i (vacc o v) else wr r i (vset v))) r ;;
    if (c_ord c <? 2) || (is_zero daa && is_zero dab && is_zero dbb) then Ok r else
    '(k, r) <- for_ 0 (size this) (fun i '(k, r) =>
           x <- rd (deref a r) (1 + i) ;;
           y <- rd (deref b r) (1 + i) ;;
           let ca := vadd (cmul daa x) (cmul dab y) in
           let cb := vadd (cmul dab x) (cmul dbb y) in
           for_ i (size this) (fun j '(k, r) =>
             x' <- rd (deref a r) (1 + j) ;;
             y' <- rd (deref b r) (1 + j) ;;
             o <- rd r k ;;
             r <- wr r k (vacc o (vadd (vmul ca x') (vmul cb y'))) ;;
             Ok (k + 1, r)) (k, r)) (1 + size this, r) ;;
    Ok r.

  (** 266-312 *)
  Definition ternary (inc : bool) (this : dd S) (a b d : ref S) (f : S)
      (da db dc daa dab dac dbb dbc dcc : coef S) (r : data S) : res (data S) :=
    let n := data_length this in
    r <- wr r 0 f ;;
    if (c_ord c <? 1) || (is_zero da && is_zero db && is_zero dc) then Ok r else
    r <- for_ 1 n (fun i r =>
           x <- rd (deref a r) i ;;
           y <- rd (deref b r) i ;;
           z <- rd (deref d r) i ;;
           let v := vadd (vadd (cmul da x) (cmul db y)) (cmul dc z) in
           (if inc then o <- rd r i ;; wr r i (vacc o v) else wr r i (vset v))) r ;;
    if (c_ord c <? 2) || (is_zero daa && is_zero dab && is_zero dac &&
                          is_zero dbb && is_zero dbc && is_zero dcc) then Ok r else
    '(k, r) <- for_ 0 (size this) (fun i '(k, r) =>
           x <- rd (deref a r) (1 + i) ;;
           y <- rd (deref b r) (1 + i) ;;
           z <- rd (deref d r) (1 + i) ;;
           let ca := vadd (vadd (cmul daa x) (cmul dab y)) (cmul dac z) in
           let cb := vadd (vadd (cmul dab x) (cmul dbb y)) (cmul dbc z) in
           let cc := vadd (vadd (cmul dac x) (cmul dbc y)) (cmul dcc z) in
           for_ i (size this) (fun j '(k, r) =>
             x' <- rd (deref a r) (1 + j) ;;
             y' <- rd (deref b r) (1 + j) ;;
             z' <- rd (deref d r) (1 + j) ;;
             o <- rd r k ;;
             r <- wr r k (vacc o (vadd (vadd (vmul ca x') (vmul cb y')) (vmul cc z'))) ;;
             Ok (k + 1, r)) (k, r)) (1 + size this, r) ;;
    Ok r.

  (** [std::vector<Scalar>(n)] / [(n, v)] with [n] converted to an unsigned size: negative or
      too large sizes throw [std::length_error]; memory exhaustion is not modelled. *)
  Definition vec_new (n : Z) (v : S) : res (data S) :=
    if (n <? 0) || (max_len <? n) then Throw LengthError
    else Ok (repeat (Some v) (Z.to_nat n)).

  (** [std::vector::resize(n)] *)
  Definition vec_resize (l : data S) (n : Z) : res (data S) :=
    if (n <? 0) || (max_len <? n) then Throw LengthError
    else Ok (firstn (Z.to_nat n) l ++ repeat (Some #0) (Z.to_nat n - List.length l)).

  (** A default-initialised [std::array<Scalar, StaticDataSize>]: indeterminate cells. *)
  Definition array_uninit : data S := repeat None (Z.to_nat (StaticDataSize c)).

  (** 549-563 *)
  Definition empty : dd S :=
    if is_dynamic c then mk 0 [Some #0]     (* vector(1) value-initialises *)
    else mk (c_tsize c) array_uninit.
  (** 565-579 *)
  Definition empty_n (sz : Z) : res (dd S) :=
    if is_dynamic c then
      n <- data_length_from_size c sz ;;
      d <- vec_new n #0 ;;
      Ok (mk sz d)
    else check_valid_size c sz ;;; Ok empty.
  (** 581-596 *)
  Definition zero : dd S :=
    if is_dynamic c then mk 0 [Some #0]
    else mk (c_tsize c) (repeat (Some #0) (Z.to_nat (StaticDataSize c))).
  (** 598-611 *)
  Definition zero_n (sz : Z) : res (dd S) :=
    if is_dynamic c then
      n <- data_length_from_size c sz ;;
      d <- vec_new n #0 ;;
      Ok (mk sz d)
    else check_valid_size c sz ;;; Ok zero.

  (** 707-720.  [m_data[0]]. *)
  Definition get_f (x : dd S) : res S := rd (m_data x) 0.
  Definition set_f (x : dd S) (v : S) : res (dd S) :=
    d <- wr (m_data x) 0 v ;; Ok (mk (m_size x) d).

  (** 729-734 (const overload). *)
  Definition get_g (x : dd S) (i : Z) : res S :=
    assert_ c ((0 <=? i) && (i <? size x)) ;;;
    k <- ck (1 + i) ;; rd (m_data x) k.
  (** 722-727 (mutable overload: only [i < size()] is asserted) and 736-739. *)
  Definition set_g (x : dd S) (i : Z) (v : S) : res (dd S) :=
    assert_ c (i <? size x) ;;;
    k <- ck (1 + i) ;; d <- wr (m_data x) k v ;; Ok (mk (m_size x) d).
  (** 722-727 read through the mutable overload. *)
  Definition get_g_mut (x : dd S) (i : Z) : res S :=
    assert_ c (i <? size x) ;;;
    k <- ck (1 + i) ;; rd (m_data x) k.

  (** Index computed at 743-745 / 750-752. *)
  Definition idx_h1 (x : dd S) (i : Z) : res Z :=
    (if c_dbg c then
       s1 <- ck (size x + 1) ;; p <- ck (size x * s1) ;;
       assert_ c ((0 <=? i) && (i <? Z.quot p 2))
     else Ok tt) ;;;
    k <- ck (1 + size x) ;; ck (k + i).
  (** 741-758 *)
  Definition get_h1 (x : dd S) (i : Z) : res S := k <- idx_h1 x i ;; rd (m_data x) k.
  Definition set_h1 (x : dd S) (i : Z) (v : S) : res (dd S) :=
    k <- idx_h1 x i ;; d <- wr (m_data x) k v ;; Ok (mk (m_size x) d).

  (** [1 + size() + (2 * size() - 1 - i) * i / 2 + j] (767, 782). *)
  Definition idx_tri (n i j : Z) : res Z :=
    k0 <- ck (1 + n) ;;
    t <- ck (2 * n) ;; t <- ck (t - 1) ;; t <- ck (t - i) ;; t <- ck (t * i) ;;
    k1 <- ck (k0 + Z.quot t 2) ;;
    ck (k1 + j).
  (** 760-788: assertions and index selection. *)
  Definition idx_h (x : dd S) (i j : Z) : res Z :=
    assert_ c ((0 <=? i) && (i <? size x)) ;;;
    assert_ c ((0 <=? j) && (j <? size x)) ;;;
    if i <? j then idx_tri (size x) i j else idx_tri (size x) j i.
  (** 760-793 *)
  Definition get_h (x : dd S) (i j : Z) : res S := k <- idx_h x i j ;; rd (m_data x) k.
  Definition set_h (x : dd S) (i j : Z) (v : S) : res (dd S) :=
    k <- idx_h x i j ;; d <- wr (m_data x) k v ;; Ok (mk (m_size x) d).

  (** 613-618 *)
  Definition constant (f : S) : res (dd S) := set_f zero f.
  (** 620-633 *)
  Definition constant_n (f : S) (sz : Z) : res (dd S) :=
    if is_dynamic c then r <- zero_n sz ;; set_f r f
    else check_valid_size c sz ;;; constant f.
  (** 635-642 (static types only: static_assert at 637). *)
  Definition variable (i : Z) (f : S) : res (dd S) :=
    r <- set_f zero f ;; set_g r i #1.
  (** 644-658 *)
  Definition variable_n (i : Z) (f : S) (sz : Z) : res (dd S) :=
    if is_dynamic c then r <- zero_n sz ;; r <- set_f r f ;; set_g r i #1
    else check_valid_size c sz ;;; variable i f.

  (** 315-328 *)
  Definition ctor_default : dd S :=
    if is_dynamic c then mk 1 [Some #0] else mk (c_tsize c) array_uninit.
  (** 330-345: [Data(1)], then [f() = f], then fill from begin+1. *)
  Definition ctor_scalar (f : S) : res (dd S) :=
    let d := if is_dynamic c then [Some #0] else array_uninit in
    d <- wr d 0 f ;;
    d <- for_ 1 (len d) (fun i d => wr d i #0) d ;;
    Ok (mk (if is_dynamic c then 1 else c_tsize c) d).
  (** 361-366: [m_data] is default-initialised (an empty vector, or indeterminate array) and
      [std::copy] writes element by element from [begin()]. *)
  Definition ctor_list (vs : list S) : res (dd S) :=
    s <- size_from_data_length c (Z.of_nat (List.length vs)) ;;
    let d := if is_dynamic c then [] else array_uninit in
    d <- for_ 0 (Z.of_nat (List.length vs)) (fun i d =>
           v <- rd (full vs) i ;; wr d i v) d ;;
    Ok (mk s d).
  (** 532-547; for static types the argument is a [std::array] of [StaticDataSize] elements. *)
  Definition create (d : data S) : res (dd S) :=
    if is_dynamic c then
      s <- size_from_data_length c (len d) ;; Ok (mk s d)
    else
      s <- size_from_data_length c (len d) ;; check_valid_size c s ;;; Ok (mk (c_tsize c) d).

  (** 660-675 ([vars(s)] default-constructs, each element is then overwritten). *)
  Definition variables (vs : list S) : res (list (dd S)) :=
    let s := Z.of_nat (List.length vs) in
    (if is_dynamic c then Ok tt else assert_ c (s =? c_tsize c)) ;;;
    (fix go (i : Z) (l : list S) : res (list (dd S)) :=
       match l with
       | [] => Ok []
       | v :: l' => x <- variable_n i v s ;; xs <- go (i + 1) l' ;; Ok (x :: xs)
       end) 0 vs.

  (** 422-428 (dynamic only). *)
  Definition resize (x : dd S) (sz : Z) : res (dd S) :=
    n <- data_length_from_size c sz ;;
    d <- vec_resize (m_data x) n ;;
    Ok (mk sz d).

  (** [*target++ = *source++] and [*target++ = Scalar(0)]: state (source, target, storage). *)
  Definition copy1 (src : data S) (st : Z * Z * data S) : res (Z * Z * data S) :=
    let '(s, t, r) := st in
    v <- rd src s ;; r <- wr r t v ;; Ok (s + 1, t + 1, r).
  Definition zero1 (st : Z * Z * data S) : res (Z * Z * data S) :=
    let '(s, t, r) := st in
    r <- wr r t #0 ;; Ok (s, t + 1, r).

  (** 430-475 (dynamic only) *)
  Definition pad_left (x : dd S) (new_size : Z) : res (dd S) :=
    result <- empty_n new_size ;;
    head <- ck (new_size - size x) ;;
    let src := m_data x in
    let fin st := let '(s, t, r) := st : Z * Z * data S in Ok (mk (m_size result) r) in
    st <- copy1 src (0, 0, m_data result) ;;
    st <- for_ 0 head (fun _ => zero1) st ;;
    st <- for_ 0 (size x) (fun _ => copy1 src) st ;;
    if c_ord c =? 1 then fin st else
    st <- for_ 0 head (fun i => for_ i new_size (fun _ => zero1)) st ;;
    st <- for_ 0 (size x) (fun i => for_ i (size x) (fun _ => copy1 src)) st ;;
    fin st.

  (** 477-525 (dynamic only) *)
  Definition pad_right (x : dd S) (new_size : Z) : res (dd S) :=
    result <- empty_n new_size ;;
    tail <- ck (new_size - size x) ;;
    let src := m_data x in
    let fin st := let '(s, t, r) := st : Z * Z * data S in Ok (mk (m_size result) r) in
    st <- for_ 0 (size x + 1) (fun _ => copy1 src) (0, 0, m_data result) ;;
    st <- for_ 0 tail (fun _ => zero1) st ;;
    if c_ord c =? 1 then fin st else
    st <- for_ 0 (size x) (fun i st =>
            st <- for_ i (size x) (fun _ => copy1 src) st ;;
            for_ 0 tail (fun _ => zero1) st) st ;;
    st <- for_ 0 tail (fun i => for_ i tail (fun _ => zero1)) st ;;
    fin st.

  (** Eigen matrices: rows, columns and cells; the storage order of Eigen is not observable here
      and is taken row-major.  Element access outside the matrix is UB (Eigen asserts it in debug
      builds). *)
  Record mat := mkmat { rows : Z; cols : Z; cells : data S }.
  Definition mget (m : mat) (i j : Z) : res S :=
    if (0 <=? i) && (i <? rows m) && (0 <=? j) && (j <? cols m)
    then rd (cells m) (i * cols m + j) else UB.
  Definition mset (m : mat) (i j : Z) (v : S) : res mat :=
    if (0 <=? i) && (i <? rows m) && (0 <=? j) && (j <? cols m)
    then d <- wr (cells m) (i * cols m + j) v ;; Ok (mkmat (rows m) (cols m) d) else UB.

  (** 810-855.  The result matrix starts uninitialised. *)
  Definition hm (x : dd S) (mode : string) : res mat :=
    let n := size x in
    let out := mkmat n n (repeat None (Z.to_nat (n * n))) in
    '(it, out) <- for_ 0 n (fun i st => for_ i n (fun j '(it, out) =>
                    v <- get_h1 x it ;; out <- mset out i j v ;; Ok (it + 1, out)) st) (0, out) ;;
    if String.eqb mode "zeros" then
      for_ 0 n (fun i out => for_ 0 i (fun j out => mset out i j #0) out) out
    else if String.eqb mode "full" then
      for_ 0 n (fun i out => for_ 0 i (fun j out => v <- mget out j i ;; mset out i j v) out) out
    else Throw InvalidMode.

  (** 857-868 *)
  Definition set_hm (x : dd S) (m : mat) : res (dd S) :=
    let n := size x in
    '(it, x) <- for_ 0 n (fun i st => for_ i n (fun j '(it, x) =>
                  v <- mget m i j ;; x <- set_h1 x it v ;; Ok (it + 1, x)) st) (0, x) ;;
    Ok x.

  (** [result.ag() = g] (805-808, 887, 901): assignment through a map of [size()] entries at
      [ptr() + 1]; a length mismatch is an Eigen assertion, treated as UB here. *)
  Definition set_ag (x : dd S) (g : data S) : res (dd S) :=
    if negb (len g =? size x) then UB else
    d <- for_ 0 (size x) (fun i d => v <- rd g i ;; wr d (1 + i) v) (m_data x) ;;
    Ok (mk (m_size x) d).
  (** 800-803 [ag()]: the gradient as a vector. *)
  Definition get_ag (x : dd S) : res (list S) :=
    (fix go (n : nat) (i : Z) : res (list S) :=
       match n with
       | Datatypes.O => Ok []
       | Datatypes.S n' => v <- rd (m_data x) (1 + i) ;; l <- go n' (i + 1) ;; Ok (v :: l)
       end) (Z.to_nat (size x)) 0.

  (** 880-890 (order 1) *)
  Definition from_gradient (f : S) (g : data S) : res (dd S) :=
    r <- empty_n (len g) ;; r <- set_f r f ;; set_ag r g.
  (** 892-905 (order 2) *)
  Definition from_arrays (f : S) (g : data S) (h : mat) : res (dd S) :=
    assert_ c ((len g =? rows h) && (len g =? cols h)) ;;;
    r <- empty_n (len g) ;; r <- set_f r f ;; r <- set_ag r g ;; set_hm r h.

  (** 907-946 *)
  Definition eval (x : dd S) (d : list S) : res S :=
    let n := size x in
    let d := full d in
    r <- get_f x ;;
    r <- for_ 0 n (fun i r => v <- rd d i ;; g <- get_g x i ;; Ok (r +! v *! g)) r ;;
    if c_ord c =? 1 then Ok r else
    t <- for_ 0 n (fun i t =>
           '(k, s) <- for_ 0 i (fun j '(k, s) =>
                v <- rd d j ;; m <- rd (m_data x) k ;;
                Ok (k + (n - j - 1), s +! v *! m)) (1 + n + i, #0) ;;
           '(k, s) <- for_ i n (fun j '(k, s) =>
                v <- rd d j ;; m <- rd (m_data x) k ;;
                Ok (k + 1, s +! v *! m)) (k, s) ;;
           v <- rd d i ;; Ok (t +! v *! s)) #0 ;;
    Ok (r +! o_half O *! t).

  (** 950-953 *)
  Definition set_zero (x : dd S) : res (dd S) :=
    d <- for_ 0 (len (m_data x)) (fun i d => wr d i #0) (m_data x) ;; Ok (mk (m_size x) d).

  (** 972-982 *)
  Definition neg (x : dd S) : res (dd S) :=
    r <- empty_n (size x) ;;
    d <- for_ 0 (data_length x) (fun i d => v <- rd (m_data x) i ;; wr d i (-! v)) (m_data r) ;;
    Ok (mk (m_size r) d).

  (** Common shape of the functions [Type result = Type::empty(size()); const auto f = ...;
      const auto da = ...; const auto daa = ...; unary<false>(m_data, f, da, daa,
      result.m_data); return result;] *)
  Definition unary_op (F : S -> S * coef S * coef S) (x : dd S) : res (dd S) :=
    r <- empty_n (size x) ;;
    v <- get_f x ;;
    let '(f, da, daa) := F v in
    d <- unary false x (Some (m_data x)) f da daa (m_data r) ;;
    Ok (mk (m_size r) d).
  (** The same with two operands; [chk] tells whether [check_equal_size] is called first. *)
  Definition binary_op (chk : bool)
      (F : S -> S -> S * coef S * coef S * coef S * coef S * coef S) (x y : dd S) : res (dd S) :=
    (if chk then check_equal_size c (size x) (size y) else Ok tt) ;;;
    r <- empty_n (size x) ;;
    u <- get_f x ;;
    v <- get_f y ;;
    let '(f, da, db, daa, dab, dbb) := F u v in
    d <- binary false x (Some (m_data x)) (Some (m_data y)) f da db daa dab dbb (m_data r) ;;
    Ok (mk (m_size r) d).

  (** *** chain-rule coefficients *)
  (** 986-1004 *)
  Definition k_add (a b : S) : S * coef S * coef S * coef S * coef S * coef S :=
    (a +! b, COne, COne, CZero, CZero, CZero).
  (** 1041-1059; [-One()] is [MinusOne] (166-169). *)
  Definition k_sub (a b : S) : S * coef S * coef S * coef S * coef S * coef S :=
    (a -! b, COne, CMinusOne, CZero, CZero, CZero).
  (** 1101-1119 *)
  Definition k_mul (a b : S) : S * coef S * coef S * coef S * coef S * coef S :=
    (a *! b, CVal b, CVal a, CZero, COne, CZero).
  (** 1182-1202 *)
  Definition k_div (a b : S) : S * coef S * coef S * coef S * coef S * coef S :=
    let tmp := #1 /! b in
    (a *! tmp, CVal tmp, CVal ((-! a) /! o_pow O b #2), CZero,
     CVal (#(-1) /! o_pow O b #2), CVal (#2 *! a /! o_pow O b #3)).
  (** 1224-1242 (in-place division uses different formulas for [f] and [da]). *)
  Definition k_div_assign (a b : S) : S * coef S * coef S * coef S * coef S * coef S :=
    (a /! b, CVal (#1 /! b), CVal ((-! a) /! o_pow O b #2), CZero,
     CVal (#(-1) /! o_pow O b #2), CVal (#2 *! a /! o_pow O b #3)).
  (** 1412-1430 *)
  Definition k_atan2 (a b : S) : S * coef S * coef S * coef S * coef S * coef S :=
    let tmp := a *! a +! b *! b in
    let da := b /! tmp in
    let db := (-! a) /! tmp in
    let daa := db *! da *! #2 in
    (o_atan2 O a b, CVal da, CVal db, CVal daa, CVal (db *! db -! da *! da), CVal (-! daa)).
  (** 1432-1451 *)
  Definition k_hypot (a b : S) : S * coef S * coef S * coef S * coef S * coef S :=
    let f := o_hypot O a b in
    let f3 := f *! f *! f in
    (f, CVal (a /! f), CVal (b /! f), CVal (b *! b /! f3),
     CVal ((-! a) *! b /! f3), CVal (a *! a /! f3)).

  (** 1209-1222 *)
  Definition k_sdiv (a b : S) : S * coef S * coef S :=
    (a /! b, CVal ((-! a) /! o_pow O b #2), CVal (#2 *! a /! o_pow O b #3)).
  (** 1253-1266 *)
  Definition k_pow (b x : S) : S * coef S * coef S :=
    (o_pow O x b, CVal (b *! o_pow O x (b -! #1)),
     CVal ((b -! #1) *! b *! o_pow O x (b -! #2))).
  (** 1268-1282 *)
  Definition k_sqrt (x : S) : S * coef S * coef S :=
    let f := o_sqrt O x in
    let da := #1 /! (#2 *! f) in
    (f, CVal da, CVal ((-! da) /! (#2 *! x))).
  (** 1284-1297 *)
  Definition k_cbrt (x : S) : S * coef S * coef S :=
    let f := o_cbrt O x in
    let da := #1 /! (#3 *! f *! f) in
    (f, CVal da, CVal ((-! da) *! #2 /! (#3 *! x))).
  (** 1299-1310 *)
  Definition k_reciprocal (x : S) : S * coef S * coef S :=
    let f := #1 /! x in
    let da := (-! f) *! f in
    (f, CVal da, CVal (#(-2) *! f *! da)).
  (** 1314-1328 *)
  Definition k_cos (x : S) : S * coef S * coef S :=
    (o_cos O x, CVal (-! o_sin O x), CVal (-! o_cos O x)).
  (** 1330-1344 *)
  Definition k_sin (x : S) : S * coef S * coef S :=
    (o_sin O x, CVal (o_cos O x), CVal (-! o_sin O x)).
  (** 1346-1359 *)
  Definition k_tan (x : S) : S * coef S * coef S :=
    let f := o_tan O x in
    let da := f *! f +! #1 in
    (f, CVal da, CVal (da *! #2 *! f)).
  (** 1361-1377 *)
  Definition k_acos (x : S) : S * coef S * coef S :=
    let tmp := #1 -! x *! x in
    let da := #(-1) /! o_sqrt O tmp in
    (o_acos O x, CVal da, CVal (da *! x /! tmp)).
  (** 1379-1395 *)
  Definition k_asin (x : S) : S * coef S * coef S :=
    let tmp := #1 -! x *! x in
    let da := #1 /! o_sqrt O tmp in
    (o_asin O x, CVal da, CVal (da *! x /! tmp)).
  (** 1397-1410 *)
  Definition k_atan (x : S) : S * coef S * coef S :=
    let da := #1 /! (x *! x +! #1) in
    (o_atan O x, CVal da, CVal ((-! da) *! da *! #2 *! x)).
  (** 1483-1497 *)
  Definition k_cosh (x : S) : S * coef S * coef S :=
    let f := o_cosh O x in (f, CVal (o_sinh O x), CVal f).
  (** 1499-1513 *)
  Definition k_sinh (x : S) : S * coef S * coef S :=
    let f := o_sinh O x in (f, CVal (o_cosh O x), CVal f).
  (** 1515-1528 *)
  Definition k_tanh (x : S) : S * coef S * coef S :=
    let f := o_tanh O x in
    let da := #1 -! f *! f in
    (f, CVal da, CVal (#(-2) *! f *! da)).
  (** 1530-1544 *)
  Definition k_acosh (x : S) : S * coef S * coef S :=
    let da := #1 /! (o_sqrt O (x -! #1) *! o_sqrt O (x +! #1)) in
    (o_acosh O x, CVal da, CVal ((-! da) *! x /! ((x -! #1) *! (x +! #1)))).
  (** 1546-1560 *)
  Definition k_asinh (x : S) : S * coef S * coef S :=
    let da := #1 /! o_sqrt O (#1 +! x *! x) in
    (o_asinh O x, CVal da, CVal ((-! da) *! x /! (#1 +! x *! x))).
  (** 1562-1576 *)
  Definition k_atanh (x : S) : S * coef S * coef S :=
    (o_atanh O x, CVal (#1 /! (#1 -! x *! x)),
     CVal (#2 *! x /! o_pow O (x *! x -! #1) #2)).
  (** 1580-1593 *)
  Definition k_exp (x : S) : S * coef S * coef S :=
    let f := o_exp O x in (f, CVal f, CVal f).
  (** 1595-1608 *)
  Definition k_log (x : S) : S * coef S * coef S :=
    let da := #1 /! x in (o_log O x, CVal da, CVal ((-! da) *! da)).
  (** 1610-1623 *)
  Definition k_logb (base x : S) : S * coef S * coef S :=
    let da := #1 /! (x *! o_log O base) in
    (o_log O x /! o_log O base, CVal da, CVal ((-! da) /! x)).
  (** 1625-1639 *)
  Definition k_log2 (x : S) : S * coef S * coef S :=
    let da := #1 /! (x *! o_log O #2) in (o_log2 O x, CVal da, CVal ((-! da) /! x)).
  (** 1641-1655 *)
  Definition k_log10 (x : S) : S * coef S * coef S :=
    let da := #1 /! (x *! o_log O #10) in (o_log10 O x, CVal da, CVal ((-! da) /! x)).

  (** *** out-of-place operators *)
  Definition add := binary_op true k_add.           (* 986-1004 *)
  Definition sub := binary_op true k_sub.           (* 1041-1059 *)
  Definition mul := binary_op true k_mul.           (* 1101-1119 *)
  (** 1182-1202: unlike the others reads the operands before creating [result]. *)
  Definition div (x y : dd S) : res (dd S) :=
    check_equal_size c (size x) (size y) ;;;
    v <- get_f y ;;
    u <- get_f x ;;
    let '(f, da, db, daa, dab, dbb) := k_div u v in
    r <- empty_n (size x) ;;
    d <- binary false x (Some (m_data x)) (Some (m_data y)) f da db daa dab dbb (m_data r) ;;
    Ok (mk (m_size r) d).
  Definition atan2 := binary_op false k_atan2.      (* 1412-1430, no size check *)
  Definition hypot := binary_op true k_hypot.       (* 1432-1451 *)

  (** 1453-1479: only the sizes of [a] and [b] are compared. *)
  Definition hypot3 (x y z : dd S) : res (dd S) :=
    check_equal_size c (size x) (size y) ;;;
    r <- empty_n (size x) ;;
    a <- get_f x ;; b <- get_f y ;; e <- get_f z ;;
    let f := o_hypot3 O a b e in
    let f3 := f *! f *! f in
    let a2 := a *! a in
    let b2 := b *! b in
    let c2 := e *! e in
    d <- ternary false x (Some (m_data x)) (Some (m_data y)) (Some (m_data z)) f
           (CVal (a /! f)) (CVal (b /! f)) (CVal (e /! f))
           (CVal ((b2 +! c2) /! f3))
           (CVal ((-! (a *! b)) /! f3))
           (CVal ((-! (a *! e)) /! f3))
           (CVal ((a2 +! c2) /! f3))
           (CVal ((-! (b *! e)) /! f3))
           (CVal ((a2 +! b2) /! f3)) (m_data r) ;;
    Ok (mk (m_size r) d).

  (** 1006-1013, 1015-1018 *)
  Definition adds (x : dd S) (b : S) : res (dd S) := v <- get_f x ;; set_f x (v +! b).
  Definition sadd (a : S) (y : dd S) : res (dd S) := adds y a.
  (** 1061-1064 *)
  Definition subs (x : dd S) (b : S) : res (dd S) := sadd (-! b) x.
  (** 1066-1078 *)
  Definition ssub (a : S) (y : dd S) : res (dd S) :=
    r <- empty_n (size y) ;;
    d <- for_ 0 (data_length r) (fun i d => v <- rd (m_data y) i ;; wr d i (-! v)) (m_data r) ;;
    v <- rd d 0 ;; d <- wr d 0 (v +! a) ;;
    Ok (mk (m_size r) d).
  (** 1121-1131, 1133-1136 *)
  Definition muls (x : dd S) (b : S) : res (dd S) :=
    r <- empty_n (size x) ;;
    d <- for_ 0 (data_length x) (fun i d => v <- rd (m_data x) i ;; wr d i (v *! b)) (m_data r) ;;
    Ok (mk (m_size r) d).
  Definition smul (a : S) (y : dd S) : res (dd S) := muls y a.
  (** 1204-1207: [Scalar(1) / b * this] *)
  Definition divs (x : dd S) (b : S) : res (dd S) := smul (#1 /! b) x.
  (** 1209-1222 *)
  Definition sdiv (a : S) (y : dd S) : res (dd S) := unary_op (k_sdiv a) y.

  (** 1659-1662 *)
  Definition abs (x : dd S) : res (dd S) :=
    v <- get_f x ;; if o_lt O v #0 then neg x else Ok x.

  (** *** in-place operators; the right operand is [None] when it is [*this] itself *)
  Definition obj_ref := option (dd S).
  Definition ref_of (b : obj_ref) : ref S :=
    match b with None => None | Some y => Some (m_data y) end.
  Definition ref_size (this : dd S) (b : obj_ref) : Z :=
    match b with None => size this | Some y => size y end.
  (** [b.f()] when the current storage of [*this] is [d]. *)
  Definition ref_f (d : data S) (b : obj_ref) : res S := rd (deref (ref_of b) d) 0.

  (** 1020-1030 *)
  Definition add_assign (x : dd S) (b : obj_ref) : res (dd S) :=
    check_equal_size c (size x) (ref_size x b) ;;;
    d <- for_ 0 (len (m_data x)) (fun i d =>
           u <- rd d i ;; v <- rd (deref (ref_of b) d) i ;; wr d i (u +! v)) (m_data x) ;;
    Ok (mk (m_size x) d).
  (** 1080-1090 *)
  Definition sub_assign (x : dd S) (b : obj_ref) : res (dd S) :=
    check_equal_size c (size x) (ref_size x b) ;;;
    d <- for_ 0 (len (m_data x)) (fun i d =>
           u <- rd d i ;; v <- rd (deref (ref_of b) d) i ;; wr d i (u -! v)) (m_data x) ;;
    Ok (mk (m_size x) d).
  (** 1138-1168: [a_m_data] is a copy of the old storage; [b.m_data] is read live.  Simplified: forming
      [&m_data[1 + size()]] (one past the end for size 0) is not UB here. *)
  Definition mul_assign (x : dd S) (b : obj_ref) : res (dd S) :=
    check_equal_size c (size x) (ref_size x b) ;;;
    let a := m_data x in
    da <- ref_f a b ;;
    db <- rd a 0 ;;
    u <- rd a 0 ;; v <- ref_f a b ;;
    d <- wr a 0 (u *! v) ;;
    d <- for_ 1 (len d) (fun i d =>
           u <- rd d i ;; v <- rd (deref (ref_of b) d) i ;;
           wr d i (da *! u +! db *! v)) d ;;
    if c_ord c =? 1 then Ok (mk (m_size x) d) else
    '(it, d) <- for_ 0 (size x) (fun i st => for_ i (size x) (fun j '(it, d) =>
           ai <- rd a (1 + i) ;; bj <- rd (deref (ref_of b) d) (1 + j) ;;
           aj <- rd a (1 + j) ;; bi <- rd (deref (ref_of b) d) (1 + i) ;;
           o <- rd d it ;;
           d <- wr d it (o +! (ai *! bj +! aj *! bi)) ;;
           Ok (it + 1, d)) st) (1 + size x, d) ;;
    Ok (mk (m_size x) d).
  (** 1224-1242: [binary] writes into [m_data], which [b.m_data] may be. *)
  Definition div_assign (x : dd S) (b : obj_ref) : res (dd S) :=
    check_equal_size c (size x) (ref_size x b) ;;;
    let a := m_data x in
    u <- rd a 0 ;; v <- ref_f a b ;;
    let '(f, da, db, daa, dab, dbb) := k_div_assign u v in
    d <- binary false x (Some a) (ref_of b) f da db daa dab dbb (m_data x) ;;
    Ok (mk (m_size x) d).

  Definition sderef (b : sref S) (d : data S) : res S :=
    match b with SVal s => Ok s | SElem k => rd d k end.
  (** 1032-1037 *)
  Definition adds_assign (x : dd S) (b : sref S) : res (dd S) :=
    u <- get_f x ;; v <- sderef b (m_data x) ;; set_f x (u +! v).
  (** 1092-1097 *)
  Definition subs_assign (x : dd S) (b : sref S) : res (dd S) :=
    u <- get_f x ;; v <- sderef b (m_data x) ;; set_f x (u -! v).
  (** 1170-1178: the reference [b] is read in every iteration. *)
  Definition muls_assign (x : dd S) (b : sref S) : res (dd S) :=
    d <- for_ 0 (len (m_data x)) (fun i d =>
           u <- rd d i ;; v <- sderef b d ;; wr d i (u *! v)) (m_data x) ;;
    Ok (mk (m_size x) d).
  (** 1244-1249: [1 / b] is a temporary. *)
  Definition divs_assign (x : dd S) (b : sref S) : res (dd S) :=
    v <- sderef b (m_data x) ;; muls_assign x (SVal (#1 /! v)).

  (** *** comparisons (1666-1754) *)
  Inductive cmp := Ceq | Cne | Clt | Cgt | Cle | Cge.
  (** The scalar comparison [a op b]; [>] and [>=] on scalars are [<] and [<=] swapped, and
      [!=] is the negation of [==] (IEEE). *)
  Definition scmp (o : cmp) (a b : S) : bool :=
    match o with
    | Ceq => o_eq O a b
    | Cne => negb (o_eq O a b)
    | Clt => o_lt O a b
    | Cgt => o_lt O b a
    | Cle => o_le O a b
    | Cge => o_le O b a
    end.
  (** 1666-1694: number op number *)
  Definition compare (o : cmp) (x y : dd S) : res bool :=
    u <- get_f x ;; v <- get_f y ;; Ok (scmp o u v).
  (** 1696-1724: number op scalar *)
  Definition compare_s (o : cmp) (x : dd S) (b : S) : res bool :=
    u <- get_f x ;; Ok (scmp o u b).
  (** 1726-1754: scalar op number, forwarded to the mirrored member *)
  Definition s_compare (o : cmp) (a : S) (y : dd S) : res bool :=
    match o with
    | Ceq => compare_s Ceq y a
    | Cne => compare_s Cne y a
    | Clt => compare_s Cgt y a
    | Cgt => compare_s Clt y a
    | Cle => compare_s Cge y a
    | Cge => compare_s Cle y a
    end.
End DD.
Arguments mat : clear implicits.

(** Function symbols, for expressions and programs over the public API. *)
Inductive ufun (S : Type) :=
| Uneg | Uabs | Upow (b : S) | Usqrt | Ucbrt | Ureciprocal
| Ucos | Usin | Utan | Uacos | Uasin | Uatan
| Ucosh | Usinh | Utanh | Uacosh | Uasinh | Uatanh
| Uexp | Ulog | Ulogb (base : S) | Ulog2 | Ulog10
| Uadds (b : S) | Usadd (a : S) | Usubs (b : S) | Ussub (a : S)
| Umuls (b : S) | Usmul (a : S) | Udivs (b : S) | Usdiv (a : S).
Arguments Uneg {S}. Arguments Uabs {S}. Arguments Upow {S}. Arguments Usqrt {S}.
Arguments Ucbrt {S}. Arguments Ureciprocal {S}. Arguments Ucos {S}. Arguments Usin {S}.
Arguments Utan {S}. Arguments Uacos {S}. Arguments Uasin {S}. Arguments Uatan {S}.
Arguments Ucosh {S}. Arguments Usinh {S}. Arguments Utanh {S}. Arguments Uacosh {S}.
Arguments Uasinh {S}. Arguments Uatanh {S}. Arguments Uexp {S}. Arguments Ulog {S}.
Arguments Ulogb {S}. Arguments Ulog2 {S}. Arguments Ulog10 {S}. Arguments Uadds {S}.
Arguments Usadd {S}. Arguments Usubs {S}. Arguments Ussub {S}. Arguments Umuls {S}.
Arguments Usmul {S}. Arguments Udivs {S}. Arguments Usdiv {S}.

Inductive bfun := Badd | Bsub | Bmul | Bdiv | Batan2 | Bhypot.

Section Apply.
  Context {S : Type} (O : Ops S) (c : cfg).

  Definition apply_u (u : ufun S) (x : dd S) : res (dd S) :=
    match u with
    | Uneg => neg O c x
    | Uabs => abs O c x
    | Upow b => unary_op O c (k_pow O b) x
    | Usqrt => unary_op O c (k_sqrt O) x
    | Ucbrt => unary_op O c (k_cbrt O) x
    | Ureciprocal => unary_op O c (k_reciprocal O) x
    | Ucos => unary_op O c (k_cos O) x
    | Usin => unary_op O c (k_sin O) x
    | Utan => unary_op O c (k_tan O) x
    | Uacos => unary_op O c (k_acos O) x
    | Uasin => unary_op O c (k_asin O) x
    | Uatan => unary_op O c (k_atan O) x
    | Ucosh => unary_op O c (k_cosh O) x
    | Usinh => unary_op O c (k_sinh O) x
    | Utanh => unary_op O c (k_tanh O) x
    | Uacosh => unary_op O c (k_acosh O) x
    | Uasinh => unary_op O c (k_asinh O) x
    | Uatanh => unary_op O c (k_atanh O) x
    | Uexp => unary_op O c (k_exp O) x
    | Ulog => unary_op O c (k_log O) x
    | Ulogb b => unary_op O c (k_logb O b) x
    | Ulog2 => unary_op O c (k_log2 O) x
    | Ulog10 => unary_op O c (k_log10 O) x
    | Uadds b => adds O x b
    | Usadd a => sadd O a x
    | Usubs b => subs O x b
    | Ussub a => ssub O c a x
    | Umuls b => muls O c x b
    | Usmul a => smul O c a x
    | Udivs b => divs O c x b
    | Usdiv a => sdiv O c a x
    end.

  Definition apply_b (b : bfun) (x y : dd S) : res (dd S) :=
    match b with
    | Badd => add O c x y
    | Bsub => sub O c x y
    | Bmul => mul O c x y
    | Bdiv => div O c x y
    | Batan2 => atan2 O c x y
    | Bhypot => hypot O c x y
    end.
End Apply.
