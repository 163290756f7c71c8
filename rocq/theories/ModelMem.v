(** Model of memory exhaustion: every allocation of the numbers may fail with [std::bad_alloc].  Line
    numbers refer to include/hyperjet/hyperjet.h. *)
From Coq Require Import ZArith String List Bool.
From Verif Require Import Outcome Scalar Model Spec ProgSpec ModelS SpecS.
Import ListNotations.

(** The answers of the memory to the requests to come ([true]: granted); after the last one all are granted.
    One request stands for everything one container operation allocates (the nodes and the buckets of a copied
    table, say); [true] also covers a library that needs nothing for it. *)
Definition mem := list bool.
Definition request (w : mem) : bool * mem := match w with [] => (true, []) | b :: w => (b, w) end.
(** [k] requests in a row, of which the first refused one ends the row. *)
Fixpoint requests (k : nat) (w : mem) : bool * mem :=
  match k with
  | Datatypes.O => (true, w)
  | Datatypes.S k => let (b, w) := request w in if b then requests k w else (false, w)
  end.

(** Computations that may end in [bad_alloc] ([None]). *)
Definition mm (A : Type) := mem -> option A * mem.
Definition mret {A} (x : A) : mm A := fun w => (Some x, w).
Definition mbind {A B} (m : mm A) (k : A -> mm B) : mm B :=
  fun w => match m w with (Some x, w) => k x w | (None, w) => (None, w) end.

(** What became of a statement: it ran to an outcome, or it ended in [bad_alloc] and left this state. *)
Inductive mres (St : Type) := MRan (m : res St) (w : mem) | MFull (st : St) (w : mem).
Arguments MRan {St}. Arguments MFull {St}.

Section Sparse.
  Context {S : Type} (O : Ops S).
  Notation "# z" := (o_Z O z) (at level 1, format "# z").
  Infix "+!" := (o_add O) (at level 50, left associativity).
  Infix "-!" := (o_sub O) (at level 50, left associativity).
  Infix "*!" := (o_mul O) (at level 40, left associativity).
  Infix "/!" := (o_div O) (at level 40, left associativity).
  Notation "-! x" := (o_neg O x) (at level 35).

  (** Copy construction of a table ([Data r{a}], [m_d(d)], [Type result = *this]). *)
  Definition copy_m (t : table S) : mm (table S) :=
    fun w => let (b, w) := request w in (if b then Some t else None, w).
  (** [for (auto &d : b) t[d.first] = g(t[d.first], d.second);]: [operator[]] requests memory for an absent key
      only; if it is refused the loop ends and the table keeps what it has so far. *)
  Fixpoint merge_m (g : S -> S -> S) (t b : table S) (w : mem) : table S * bool * mem :=
    match b with
    | [] => (t, true, w)
    | (k, v) :: b =>
        match t_find t k with
        | Some _ => merge_m g (t_update O t k (fun o => g o v)) b w
        | None => let (ok, w) := request w in
                  if ok then merge_m g (t_update O t k (fun o => g o v)) b w else (t, false, w)
        end
    end.
  (** The loop over a local table, which is destroyed if the loop does not end. *)
  Definition merged (g : S -> S -> S) (t b : table S) : mm (table S) :=
    fun w => let '(t, ok, w) := merge_m g t b w in (if ok then Some t else None, w).

  (** 2002-2011 *)
  Definition s_unary_m (a : table S) (da : S) : mm (table S) :=
    mbind (copy_m a) (fun r => mret (t_map (fun v => v *! da) r)).
  (** 2013-2025 *)
  Definition s_binary_m (a b : table S) (da db : S) : mm (table S) :=
    mbind (copy_m a) (fun r => merged (fun o v => o +! db *! v) (t_map (fun v => v *! da) r) b).
  (** 2027-2042 *)
  Definition s_ternary_m (a b c : table S) (da db dc : S) : mm (table S) :=
    mbind (copy_m a) (fun r =>
    mbind (merged (fun o v => o +! db *! v) (t_map (fun v => v *! da) r) b) (fun r =>
    merged (fun o v => o +! dc *! v) r c)).
  (** 2051-2053: the table is copied. *)
  Definition s_ctor_m (f : S) (d : table S) : mm (ss S) := mbind (copy_m d) (fun d => mret (mks f d)).
  (** [Type(f, unary(m_d, da))], [Type(f, binary(...))] *)
  Definition s_result_m (f : S) (d : mm (table S)) : mm (ss S) := mbind d (s_ctor_m f).

  (** Functions that start with [Type result = *this] (2129-2159, 2199-2206, 2236-2246), those forwarding to
      them (2161-2164, 2194-2197, 2248-2251, 2294-2297), and [abs] (2610-2613): one copy, changed in place. *)
  Definition on_copy_m (F : ss S -> ss S) (x : ss S) : mm (ss S) :=
    mbind (copy_m (s_d x)) (fun d => mret (F (mks (s_f x) d))).
  (** The common shape of the elementary functions (see [s_unary_op]). *)
  Definition s_unary_op_m (F : S -> S * S) (x : ss S) : mm (ss S) :=
    let '(f, da) := F (s_f x) in s_result_m f (s_unary_m (s_d x) da).
  Definition s_apply_u_m (u : ufun S) (x : ss S) : mm (ss S) :=
    match u with
    | Uneg => on_copy_m (s_neg O) x
    | Uabs => on_copy_m (s_abs O) x
    | Upow b => s_unary_op_m (sk_pow O b) x
    | Usqrt => s_unary_op_m (sk_sqrt O) x
    | Ucbrt => s_unary_op_m (sk_cbrt O) x
    | Ureciprocal => s_unary_op_m (sk_reciprocal O) x
    | Ucos => s_unary_op_m (sk_cos O) x
    | Usin => s_unary_op_m (sk_sin O) x
    | Utan => s_unary_op_m (sk_tan O) x
    | Uacos => s_unary_op_m (sk_acos O) x
    | Uasin => s_unary_op_m (sk_asin O) x
    | Uatan => s_unary_op_m (sk_atan O) x
    | Ucosh => s_unary_op_m (sk_cosh O) x
    | Usinh => s_unary_op_m (sk_sinh O) x
    | Utanh => s_unary_op_m (sk_tanh O) x
    | Uacosh => s_unary_op_m (sk_acosh O) x
    | Uasinh => s_unary_op_m (sk_asinh O) x
    | Uatanh => s_unary_op_m (sk_atanh O) x
    | Uexp => s_unary_op_m (sk_exp O) x
    | Ulog => s_unary_op_m (sk_log O) x
    | Ulogb b => s_unary_op_m (sk_logb O b) x
    | Ulog2 => s_unary_op_m (sk_log2 O) x
    | Ulog10 => s_unary_op_m (sk_log10 O) x
    | Uadds b => on_copy_m (fun x => s_adds O x b) x
    | Usadd a => on_copy_m (fun x => s_sadd O a x) x
    | Usubs b => on_copy_m (fun x => s_subs O x b) x
    | Ussub a => on_copy_m (fun x => s_ssub O a x) x
    | Umuls b => on_copy_m (fun x => s_muls O x b) x
    | Usmul a => on_copy_m (fun x => s_smul O a x) x
    | Udivs b => on_copy_m (fun x => s_divs O x b) x
    | Usdiv a =>                                                        (* 2299-2307 *)
        s_result_m (a /! s_f x) (s_unary_m (s_d x) ((-! a) /! o_pow O (s_f x) #2))
    end.
  Definition s_apply_b_m (b : bfun) (x y : ss S) : mm (ss S) :=
    match b with
    | Badd => s_result_m (s_f x +! s_f y) (s_binary_m (s_d x) (s_d y) #1 #1)            (* 2143-2150 *)
    | Bsub => s_result_m (s_f x -! s_f y) (s_binary_m (s_d x) (s_d y) #1 #(-1))         (* 2185-2192 *)
    | Bmul => s_result_m (s_f x *! s_f y) (s_binary_m (s_d x) (s_d y) (s_f y) (s_f x))  (* 2227-2234 *)
    | Bdiv => let tmp := #1 /! s_f y in                                                 (* 2281-2292 *)
        s_result_m (s_f x *! tmp) (s_binary_m (s_d x) (s_d y) tmp ((-! s_f x) /! o_pow O (s_f y) #2))
    | Batan2 => let tmp := s_f x *! s_f x +! s_f y *! s_f y in                          (* 2444-2455 *)
        s_result_m (o_atan2 O (s_f x) (s_f y)) (s_binary_m (s_d x) (s_d y) (s_f y /! tmp) ((-! s_f x) /! tmp))
    | Bhypot => let f := o_hypot O (s_f x) (s_f y) in                                   (* 2457-2467 *)
        s_result_m f (s_binary_m (s_d x) (s_d y) (s_f x /! f) (s_f y /! f))
    end.
  (** 2469-2485 *)
  Definition s_hypot3_m (a b c : ss S) : mm (ss S) :=
    let f := o_hypot3 O (s_f a) (s_f b) (s_f c) in
    s_result_m f (s_ternary_m (s_d a) (s_d b) (s_d c) (s_f a /! f) (s_f b /! f) (s_f c /! f)).

  (** 2166-2174, 2208-2216, 2253-2267, 2309-2325 with another object as right operand: the value is assigned
      first, then the own table is scaled, then the entries of [y] are added.  The object as it is when the
      operator is left, and whether it was left normally. *)
  Definition s_assign_m (o : aop) (x y : ss S) (w : mem) : ss S * bool * mem :=
    match o with
    | Aadd => let '(t, ok, w) := merge_m (fun o v => o +! v) (s_d x) (s_d y) w in
              (mks (s_f x +! s_f y) t, ok, w)
    | Asub => let '(t, ok, w) := merge_m (fun o v => o -! v) (s_d x) (s_d y) w in
              (mks (s_f x -! s_f y) t, ok, w)
    | Amul => let da := s_f y in let db := s_f x in
              let '(t, ok, w) := merge_m (fun o v => o +! db *! v) (t_map (fun v => v *! da) (s_d x)) (s_d y) w in
              (mks (s_f x *! s_f y) t, ok, w)
    | Adiv => let da := #1 /! s_f y in let db := (-! s_f x) /! o_pow O (s_f y) #2 in
              let '(t, ok, w) := merge_m (fun o v => o +! db *! v) (t_map (fun v => v *! da) (s_d x)) (s_d y) w in
              (mks (s_f x /! s_f y) t, ok, w)
    end.

  (** Statements.  [r = f(...)] computes the result first and then moves it into [r], without a request.
      [r = a] is the implicit copy assignment: [m_f], then [m_d]; which (valid) table a refused assignment leaves
      is up to the library: [lost old new].  With itself nothing is assigned.  [r op= r] and [r op= s] insert
      nothing. *)
  Context (lost : table S -> table S -> table S).
  Definition fresh_m (st : list (ss S)) (r : nat) (m : res (mm (ss S))) (w : mem) : mres (list (ss S)) :=
    match (get st r ;;; m) with
    | Ok k => match k w with (Some x, w) => MRan (Ok (put st r x)) w | (None, w) => MFull st w end
    | Throw e => MRan (Throw e) w | Abort => MRan Abort w | UB => MRan UB w
    end.
  Definition s_step_m (s : stmt S) (st : list (ss S)) (w : mem) : mres (list (ss S)) :=
    match s with
    | PConst r v => fresh_m st r (Ok (s_ctor_m v [])) w
    | PU r u a => fresh_m st r (x <- get st a ;; Ok (s_apply_u_m u x)) w
    | PB r b a1 a2 => fresh_m st r (x <- get st a1 ;; y <- get st a2 ;; Ok (s_apply_b_m b x y)) w
    | PH r a1 a2 a3 => fresh_m st r (x <- get st a1 ;; y <- get st a2 ;; z <- get st a3 ;;
                                     Ok (s_hypot3_m x y z)) w
    | PMov r a =>
        match get st r, get st a with
        | Ok x, Ok y =>
            if Nat.eqb a r then MRan (Ok (put st r y)) w
            else let (ok, w) := request w in
                 if ok then MRan (Ok (put st r y)) w
                 else MFull (put st r (mks (s_f y) (lost (s_d x) (s_d y)))) w
        | _, _ => MRan UB w
        end
    | PAsg o r a =>
        match get st r, get st a with
        | Ok x, Ok y =>
            if Nat.eqb a r then MRan (Ok (put st r (s_assign O o x None))) w
            else let '(z, ok, w) := s_assign_m o x y w in
                 if ok then MRan (Ok (put st r z)) w else MFull (put st r z) w
        | _, _ => MRan UB w
        end
    | s => MRan (s_step O s st) w
    end.
End Sparse.

Section Dense.
  Context {S : Type} (O : Ops S) (c : cfg) (n : nat).

  (** How many requests the vectors of a statement make.  [empty(size)], [zero(size)] (565-611) create a vector
      and copy it into the result; [Type result = *this] copies; [*=] and [/=] (1138-1171, 1224-1243) copy the
      left operand before they change it; [r = a] (implicit, members 57-58) needs memory only if the data of [a] are
      longer than those of [r].  Static numbers live in [std::array]s. *)
  Definition asks_u (u : ufun S) (x : dd S) : nat :=
    match u with
    | Uadds _ | Usadd _ | Usubs _ => 1
    | Uabs => match get_f x with Ok f => if o_lt O f (o_Z O 0) then 2 else 1 | _ => 1 end
    | _ => 2
    end.
  Definition asks (s : stmt S) (st : list (dd S)) : nat :=
    if is_dynamic c then
      match s with
      | PConst _ _ => 2
      | PMov r a => match get st r, get st a with
                    | Ok x, Ok y => if Nat.leb (List.length (m_data y)) (List.length (m_data x)) then 0 else 1
                    | _, _ => 0
                    end
      | PU _ u a => match get st a with Ok x => asks_u u x | _ => 0 end
      | PB _ _ _ _ => 2
      | PH _ _ _ _ => 2
      | PAsg Amul _ _ | PAsg Adiv _ _ => 1
      | _ => 0
      end
    else 0.
  (** A statement that fails for another reason fails before it requests memory (the size checks come first; a
      statement that would read outside of its data counts as undefined whatever the memory answers).  A refused
      copy assignment has already assigned [m_size]; the data it leaves are up to the library. *)
  Context (lost : data S -> data S -> data S).
  Definition step_m (s : stmt S) (st : list (dd S)) (w : mem) : mres (list (dd S)) :=
    match step O c n s st with
    | Ok st' =>
        let (ok, w) := requests (asks s st) w in
        if ok then MRan (Ok st') w
        else MFull (match s with
                    | PMov r a => match get st r, get st a with
                                  | Ok x, Ok y => put st r (mk (m_size y) (lost (m_data x) (m_data y)))
                                  | _, _ => st
                                  end
                    | _ => st
                    end) w
    | bad => MRan bad w
    end.

  (** 422-428: the size is assigned before the vector is resized; [slack] is the capacity beyond the length. *)
  Definition resize_m (slack : nat) (x : dd S) (sz : Z) (w : mem) : mres (dd S) :=
    match resize O c x sz with
    | Ok y => let (ok, w) := if Nat.leb (List.length (m_data y)) (List.length (m_data x) + slack) then (true, w)
                             else request w in
              if ok then MRan (Ok y) w else MFull (mk sz (m_data x)) w
    | bad => MRan bad w
    end.
End Dense.

(** Programs: [bad_alloc] leaves the program at once. *)
Section Programs.
  Context {S St : Type} (test : cond S -> St -> res bool) (step : stmt S -> St -> mem -> mres St).
  Fixpoint run_m (fuel : nat) (s : stmt S) (st : St) (w : mem) : option (mres St) :=
    match fuel with
    | Datatypes.O => None
    | Datatypes.S k =>
      match s with
      | PSeq s1 s2 =>
        match run_m k s1 st w with
        | Some (MRan (Ok st) w) => run_m k s2 st w
        | other => other
        end
      | PIf b s1 s2 =>
        match test b st with
        | Ok true => run_m k s1 st w
        | Ok false => run_m k s2 st w
        | Throw e => Some (MRan (Throw e) w) | Abort => Some (MRan Abort w) | UB => Some (MRan UB w)
        end
      | PWhile b s1 =>
        match test b st with
        | Ok true =>
          match run_m k s1 st w with
          | Some (MRan (Ok st) w) => run_m k s st w
          | other => other
          end
        | Ok false => Some (MRan (Ok st) w)
        | Throw e => Some (MRan (Throw e) w) | Abort => Some (MRan Abort w) | UB => Some (MRan UB w)
        end
      | _ => Some (step s st w)
      end
    end.
End Programs.
Definition s_exec_m {S} (O : Ops S) lost := run_m (s_test O) (s_step_m O lost).
Definition exec_m {S} (O : Ops S) (c : cfg) (n : nat) lost := run_m (test O) (step_m O c n lost).
