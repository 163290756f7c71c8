(** Model of [SScalar] (include/hyperjet/hyperjet.h 1989-2894).  Line numbers refer to that file. *)
From Coq Require Import ZArith List Bool String.
From Verif Require Import Outcome Scalar Model.
Import ListNotations.
Open Scope string_scope.

(** 1995: [std::unordered_map<std::string, TScalar>].  A table is the list of its entries in the
    order in which the implementation iterates over them; the keys are pairwise distinct
    ([keys_ok]).  Which order an implementation uses is unspecified; see [reorders] in [SpecS.v]
    and C33. *)
Definition table (S : Type) := list (string * S).

(** 1997-1999 *)
Record ss (S : Type) := mks { s_f : S; s_d : table S }.
Arguments mks {S}. Arguments s_f {S}. Arguments s_d {S}.

Section SS.
  Context {S : Type} (O : Ops S).
  Notation "# z" := (o_Z O z) (at level 1, format "# z").
  Infix "+!" := (o_add O) (at level 50, left associativity).
  Infix "-!" := (o_sub O) (at level 50, left associativity).
  Infix "*!" := (o_mul O) (at level 40, left associativity).
  Infix "/!" := (o_div O) (at level 40, left associativity).
  Notation "-! x" := (o_neg O x) (at level 35).

  (** [std::unordered_map::find] *)
  Fixpoint t_find (t : table S) (k : string) : option S :=
    match t with
    | [] => None
    | (k', v) :: t => if String.eqb k' k then Some v else t_find t k
    end.
  (** [t[k] = f(t[k])]: [operator[]] inserts a value-initialised scalar (0) under an absent key. *)
  Fixpoint t_update (t : table S) (k : string) (f : S -> S) : table S :=
    match t with
    | [] => [(k, f #0)]
    | (k', v) :: t => if String.eqb k' k then (k', f v) :: t else (k', v) :: t_update t k f
    end.
  (** [for (auto &d : t) d.second = f(d.second);] *)
  Definition t_map (f : S -> S) (t : table S) : table S := map (fun '(k, v) => (k, f v)) t.
  (** [for (auto &d : b) t[d.first] = g(t[d.first], d.second);] for [b] another table than [t]. *)
  Definition t_merge (g : S -> S -> S) (t b : table S) : table S :=
    fold_left (fun t '(k, v) => t_update t k (fun o => g o v)) b t.
  (** The same loop when [b] is [t] itself: [d.second] is the current element.  All keys are
      present, so nothing is inserted and the iteration stays valid. *)
  Definition t_merge_self (g : S -> S -> S) (t : table S) : table S :=
    fold_left (fun t k => t_update t k (fun o => g o o)) (map fst t) t.

  (** 2002-2011 *)
  Definition s_unary (a : table S) (da : S) : table S := t_map (fun v => v *! da) a.
  (** 2013-2025 *)
  Definition s_binary (a b : table S) (da db : S) : table S :=
    t_merge (fun o v => o +! db *! v) (t_map (fun v => v *! da) a) b.
  (** 2027-2042 *)
  Definition s_ternary (a b c : table S) (da db dc : S) : table S :=
    t_merge (fun o v => o +! dc *! v)
      (t_merge (fun o v => o +! db *! v) (t_map (fun v => v *! da) a) b) c.

  (** 2045: value-initialisation [SScalar()] zero-initialises [m_f].  (A default-initialised local
      [SScalar x;] has an indeterminate value and is not modelled.) *)
  Definition s_default : ss S := mks #0 [].
  (** 2047-2049 *)
  Definition s_ctor_f (f : S) : ss S := mks f [].
  (** 2051-2053 *)
  Definition s_ctor (f : S) (d : table S) : ss S := mks f d.
  (** 2055-2058 *)
  Definition s_constant (value : S) : ss S := s_ctor value [].
  (** 2060-2063 *)
  Definition s_variable (name : string) (value : S) : ss S := s_ctor value [(name, #1)].

  (** 2066-2069 *)
  Definition s_size (x : ss S) : Z := Z.of_nat (List.length (s_d x)).
  (** 2071-2074 *)
  Definition s_get_f (x : ss S) : S := s_f x.
  (** 2076-2084 *)
  Definition s_get_d (x : ss S) (name : string) : S :=
    match t_find (s_d x) name with None => #0 | Some v => v end.
  (** 2086-2101.  Line 2094 compares an iterator of the parameter [d] with the end iterator of
      [m_d], another container: undefined by the C++ standard.  [shared_end = true] describes
      standard libraries where all end iterators of a map type compare equal to each other and
      different from every element (libstdc++, libc++: a null node pointer); [shared_end = false]
      is the standard's view. *)
  Definition s_eval (shared_end : bool) (x : ss S) (d : table S) : res S :=
    fold_left (fun (r : res S) '(k, c) =>
        r <- r ;;
        if shared_end
        then match t_find d k with
             | None => Ok r                     (* 2094-2095: continue *)
             | Some v => Ok (r +! c *! v)       (* 2097 *)
             end
        else UB) (s_d x) (Ok #0).

  (** 2129-2139 *)
  Definition s_neg (x : ss S) : ss S := mks (-! s_f x) (t_map (fun v => -! v) (s_d x)).

  (** 2143-2150, [da] and [db] are the [int] 1 *)
  Definition s_add (a b : ss S) : ss S :=
    mks (s_f a +! s_f b) (s_binary (s_d a) (s_d b) #1 #1).
  (** 2152-2159, 2161-2164 *)
  Definition s_adds (a : ss S) (b : S) : ss S := mks (s_f a +! b) (s_d a).
  Definition s_sadd (a : S) (b : ss S) : ss S := s_adds b a.
  (** 2185-2192, [da] is the [int] 1, [db] the [int] -1 *)
  Definition s_sub (a b : ss S) : ss S :=
    mks (s_f a -! s_f b) (s_binary (s_d a) (s_d b) #1 #(-1)).
  (** 2194-2197 *)
  Definition s_subs (a : ss S) (b : S) : ss S := s_sadd (-! b) a.
  (** 2199-2206 *)
  Definition s_ssub (a : S) (b : ss S) : ss S :=
    let r := s_neg b in mks (s_f r +! a) (s_d r).
  (** 2227-2234 *)
  Definition s_mul (a b : ss S) : ss S :=
    mks (s_f a *! s_f b) (s_binary (s_d a) (s_d b) (s_f b) (s_f a)).
  (** 2236-2246, 2248-2251 *)
  Definition s_muls (a : ss S) (b : S) : ss S :=
    mks (s_f a *! b) (t_map (fun v => v *! b) (s_d a)).
  Definition s_smul (a : S) (b : ss S) : ss S := s_muls b a.
  (** 2281-2292 *)
  Definition s_div (a b : ss S) : ss S :=
    let tmp := #1 /! s_f b in
    mks (s_f a *! tmp) (s_binary (s_d a) (s_d b) tmp ((-! s_f a) /! o_pow O (s_f b) #2)).
  (** 2294-2297 *)
  Definition s_divs (a : ss S) (b : S) : ss S := s_smul (#1 /! b) a.
  (** 2299-2307 *)
  Definition s_sdiv (a : S) (b : ss S) : ss S :=
    mks (a /! s_f b) (s_unary (s_d b) ((-! a) /! o_pow O (s_f b) #2)).

  (** *** in-place operators; the right operand is [None] when it is [*this] itself *)
  (** 2166-2174 *)
  Definition s_add_assign (x : ss S) (b : option (ss S)) : ss S :=
    match b with
    | Some y => mks (s_f x +! s_f y) (t_merge (fun o v => o +! v) (s_d x) (s_d y))
    | None => mks (s_f x +! s_f x) (t_merge_self (fun o v => o +! v) (s_d x))
    end.
  (** 2176-2181 *)
  Definition s_adds_assign (x : ss S) (b : S) : ss S := mks (s_f x +! b) (s_d x).
  (** 2208-2216 *)
  Definition s_sub_assign (x : ss S) (b : option (ss S)) : ss S :=
    match b with
    | Some y => mks (s_f x -! s_f y) (t_merge (fun o v => o -! v) (s_d x) (s_d y))
    | None => mks (s_f x -! s_f x) (t_merge_self (fun o v => o -! v) (s_d x))
    end.
  (** 2218-2223 *)
  Definition s_subs_assign (x : ss S) (b : S) : ss S := mks (s_f x -! b) (s_d x).
  (** 2253-2267: [da], [db] are read first, the own table is scaled, then [b]'s entries are added;
      if [b] is [*this] these are the already scaled ones. *)
  Definition s_mul_assign (x : ss S) (b : option (ss S)) : ss S :=
    match b with
    | Some y =>
        let da := s_f y in let db := s_f x in
        mks (s_f x *! s_f y)
          (t_merge (fun o v => o +! db *! v) (t_map (fun v => v *! da) (s_d x)) (s_d y))
    | None =>
        let da := s_f x in let db := s_f x in
        mks (s_f x *! s_f x)
          (t_merge_self (fun o v => o +! db *! v) (t_map (fun v => v *! da) (s_d x)))
    end.
  (** 2269-2277: [m_d[d.first] *= b] for every entry [d] of [m_d] itself *)
  Definition s_muls_assign (x : ss S) (b : S) : ss S :=
    mks (s_f x *! b)
      (fold_left (fun t k => t_update t k (fun o => o *! b)) (map fst (s_d x)) (s_d x)).
  (** 2309-2325 *)
  Definition s_div_assign (x : ss S) (b : option (ss S)) : ss S :=
    match b with
    | Some y =>
        let da := #1 /! s_f y in let db := (-! s_f x) /! o_pow O (s_f y) #2 in
        mks (s_f x /! s_f y)
          (t_merge (fun o v => o +! db *! v) (t_map (fun v => v *! da) (s_d x)) (s_d y))
    | None =>
        let da := #1 /! s_f x in let db := (-! s_f x) /! o_pow O (s_f x) #2 in
        mks (s_f x /! s_f x)
          (t_merge_self (fun o v => o +! db *! v) (t_map (fun v => v *! da) (s_d x)))
    end.
  (** 2327-2332 *)
  Definition s_divs_assign (x : ss S) (b : S) : ss S := s_muls_assign x (#1 /! b).

  (** Common shape [const auto f = ...; const auto da = ...; return Type(f, unary(m_d, da));] *)
  Definition s_unary_op (F : S -> S * S) (x : ss S) : ss S :=
    let '(f, da) := F (s_f x) in mks f (s_unary (s_d x) da).
  Definition sk_pow (b x : S) : S * S := (o_pow O x b, b *! o_pow O x (b -! #1)).      (* 2336-2344 *)
  Definition sk_sqrt (x : S) : S * S := let f := o_sqrt O x in (f, #1 /! (#2 *! f)).    (* 2346-2354 *)
  Definition sk_cbrt (x : S) : S * S := let f := o_cbrt O x in (f, #1 /! (#3 *! f *! f)). (* 2356-2364 *)
  Definition sk_reciprocal (x : S) : S * S := let f := #1 /! x in (f, (-! f) *! f).     (* 2366-2372 *)
  Definition sk_cos (x : S) : S * S := (o_cos O x, -! o_sin O x).                       (* 2376-2385 *)
  Definition sk_sin (x : S) : S * S := (o_sin O x, o_cos O x).                          (* 2387-2396 *)
  Definition sk_tan (x : S) : S * S := let f := o_tan O x in (f, f *! f +! #1).         (* 2398-2406 *)
  Definition sk_acos (x : S) : S * S :=                                                 (* 2408-2419 *)
    (o_acos O x, (-! #1) /! o_sqrt O (#1 -! x *! x)).
  Definition sk_asin (x : S) : S * S :=                                                 (* 2421-2432 *)
    (o_asin O x, #1 /! o_sqrt O (#1 -! x *! x)).
  Definition sk_atan (x : S) : S * S := (o_atan O x, #1 /! (x *! x +! #1)).             (* 2434-2442 *)
  Definition sk_cosh (x : S) : S * S := (o_cosh O x, o_sinh O x).                       (* 2489-2498 *)
  Definition sk_sinh (x : S) : S * S := (o_sinh O x, o_cosh O x).                       (* 2500-2509 *)
  Definition sk_tanh (x : S) : S * S := let f := o_tanh O x in (f, #1 -! f *! f).       (* 2511-2519 *)
  Definition sk_acosh (x : S) : S * S :=                                                (* 2521-2530 *)
    (o_acosh O x, #1 /! (o_sqrt O (x -! #1) *! o_sqrt O (x +! #1))).
  Definition sk_asinh (x : S) : S * S := (o_asinh O x, #1 /! o_sqrt O (#1 +! x *! x)).  (* 2532-2541 *)
  Definition sk_atanh (x : S) : S * S := (o_atanh O x, #1 /! (#1 -! x *! x)).           (* 2543-2552 *)
  Definition sk_exp (x : S) : S * S := let f := o_exp O x in (f, f).                    (* 2556-2564 *)
  Definition sk_log (x : S) : S * S := (o_log O x, #1 /! x).                            (* 2566-2574 *)
  Definition sk_logb (base x : S) : S * S :=                                            (* 2576-2584 *)
    (o_log O x /! o_log O base, #1 /! (x *! o_log O base)).
  (** 2586-2595, 2597-2606: [log(2)], [log(10)] are [std::log] of an [int], i.e. of a double; the
      model uses the scalar type's logarithm (they coincide for [double]). *)
  Definition sk_log2 (x : S) : S * S := (o_log2 O x, #1 /! (x *! o_log O #2)).
  Definition sk_log10 (x : S) : S * S := (o_log10 O x, #1 /! (x *! o_log O #10)).

  (** 2444-2455 *)
  Definition s_atan2 (a b : ss S) : ss S :=
    let tmp := s_f a *! s_f a +! s_f b *! s_f b in
    mks (o_atan2 O (s_f a) (s_f b))
      (s_binary (s_d a) (s_d b) (s_f b /! tmp) ((-! s_f a) /! tmp)).
  (** 2457-2467 *)
  Definition s_hypot (a b : ss S) : ss S :=
    let f := o_hypot O (s_f a) (s_f b) in
    mks f (s_binary (s_d a) (s_d b) (s_f a /! f) (s_f b /! f)).
  (** 2469-2485 *)
  Definition s_hypot3 (a b c : ss S) : ss S :=
    let f := o_hypot3 O (s_f a) (s_f b) (s_f c) in
    mks f (s_ternary (s_d a) (s_d b) (s_d c) (s_f a /! f) (s_f b /! f) (s_f c /! f)).

  (** 2610-2613 *)
  Definition s_abs (x : ss S) : ss S := if o_lt O (s_f x) #0 then s_neg x else x.

  (** 2617-2645; 2647-2675; 2677-2705 (forwarded to the mirrored member) *)
  Definition ss_compare (o : cmp) (a b : ss S) : bool := scmp O o (s_f a) (s_f b).
  Definition ss_compare_s (o : cmp) (a : ss S) (b : S) : bool := scmp O o (s_f a) b.
  Definition s_compare_ss (o : cmp) (a : S) (b : ss S) : bool :=
    match o with
    | Ceq => ss_compare_s Ceq b a
    | Cne => ss_compare_s Cne b a
    | Clt => ss_compare_s Cgt b a
    | Cgt => ss_compare_s Clt b a
    | Cle => ss_compare_s Cge b a
    | Cge => ss_compare_s Cle b a
    end.

  (** The free functions (2708-2894) forward to the members. *)
  Definition s_apply_u (u : ufun S) (x : ss S) : ss S :=
    match u with
    | Uneg => s_neg x
    | Uabs => s_abs x
    | Upow b => s_unary_op (sk_pow b) x
    | Usqrt => s_unary_op sk_sqrt x
    | Ucbrt => s_unary_op sk_cbrt x
    | Ureciprocal => s_unary_op sk_reciprocal x
    | Ucos => s_unary_op sk_cos x
    | Usin => s_unary_op sk_sin x
    | Utan => s_unary_op sk_tan x
    | Uacos => s_unary_op sk_acos x
    | Uasin => s_unary_op sk_asin x
    | Uatan => s_unary_op sk_atan x
    | Ucosh => s_unary_op sk_cosh x
    | Usinh => s_unary_op sk_sinh x
    | Utanh => s_unary_op sk_tanh x
    | Uacosh => s_unary_op sk_acosh x
    | Uasinh => s_unary_op sk_asinh x
    | Uatanh => s_unary_op sk_atanh x
    | Uexp => s_unary_op sk_exp x
    | Ulog => s_unary_op sk_log x
    | Ulogb b => s_unary_op (sk_logb b) x
    | Ulog2 => s_unary_op sk_log2 x
    | Ulog10 => s_unary_op sk_log10 x
    | Uadds b => s_adds x b
    | Usadd a => s_sadd a x
    | Usubs b => s_subs x b
    | Ussub a => s_ssub a x
    | Umuls b => s_muls x b
    | Usmul a => s_smul a x
    | Udivs b => s_divs x b
    | Usdiv a => s_sdiv a x
    end.

  Definition s_apply_b (b : bfun) (x y : ss S) : ss S :=
    match b with
    | Badd => s_add x y
    | Bsub => s_sub x y
    | Bmul => s_mul x y
    | Bdiv => s_div x y
    | Batan2 => s_atan2 x y
    | Bhypot => s_hypot x y
    end.
End SS.
