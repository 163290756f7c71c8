(** Python sessions: objects, names bound to them, storage buffers, and the arrays [x.g], [x.data] that
    are views into the storage (python/src/common.h:48-60, 90-130, 150-181; hyperjet.h:422-428, 800-803, 870-873).

    Facts of pybind11 and Python used here: [def_property_readonly] of a method returning [Eigen::Map] gives a
    writable array on the same memory that keeps the object alive (return value policy reference_internal);
    [py::self op= ...] returns the same Python object; an augmented assignment without a matching overload
    falls back to the binary operator and rebinds the name.  Objects are never deallocated (not observable).
    All numbers of a session belong to one bound class [c]; mixing classes raises [TypeError] in pybind11. *)
From Coq Require Import ZArith List Bool.
From Verif Require Import Outcome Scalar Model ProgSpec.
Import ListNotations.
Open Scope Z_scope.

(** A view: buffer, first entry, number of entries. *)
Record view := mkview { v_buf : nat; v_off : nat; v_len : nat }.
(** Exceptions seen by the Python program: those of the library and Python's own. *)
Inductive pyexn := Cpp (e : exn) | NameError | IndexError | AttributeError.

Section Obj.
  (** [slack b]: how many more scalars than needed the [b]-th buffer can hold ([std::vector]'s capacity). *)
  Context {S : Type} (O : Ops S) (c : cfg) (slack : nat -> nat).

  (** [objs]: per object [m_size] and the buffer of [m_data]; [bufs]: per buffer contents and capacity,
      [None] once freed; names and array names are numbered. *)
  Record heap := mkheap {
    objs : list (Z * nat);
    bufs : list (option (data S * nat));
    names : nat -> option nat;
    views : nat -> option view
  }.
  Definition start : heap := mkheap [] [] (fun _ => None) (fun _ => None).

  Definition bind_name {A} (f : nat -> option A) (r : nat) (a : A) : nat -> option A :=
    fun q => if Nat.eqb q r then Some a else f q.
  Definition bound (st : heap) (r o : nat) : heap := mkheap (objs st) (bufs st) (bind_name (names st) r o) (views st).
  (** A new object holding [x], bound to [r]. *)
  Definition fresh (st : heap) (r : nat) (x : dd S) : heap :=
    mkheap (objs st ++ [(m_size x, List.length (bufs st))])
           (bufs st ++ [Some (m_data x, (List.length (m_data x) + slack (List.length (bufs st)))%nat)])
           (bind_name (names st) r (List.length (objs st))) (views st).
  (** Object [o] with buffer [b] of capacity [cap] now holds [x], in place. *)
  Definition store (st : heap) (o b cap : nat) (x : dd S) : heap :=
    mkheap (put (objs st) o (m_size x, b)) (put (bufs st) b (Some (m_data x, cap))) (names st) (views st).

  (** Contents of an object. *)
  Definition load (st : heap) (o : nat) : res (dd S) :=
    match nth_error (objs st) o with
    | Some (sz, b) => match nth_error (bufs st) b with Some (Some (d, _)) => Ok (mk sz d) | _ => UB end
    | None => UB
    end.

  (** Entry [i] of a view. *)
  Definition view_read (st : heap) (v : view) (i : nat) : res S :=
    match nth_error (bufs st) (v_buf v) with
    | Some (Some (d, _)) => rd d (Z.of_nat (v_off v + i))
    | _ => UB
    end.
  Definition view_write (st : heap) (v : view) (i : nat) (s : S) : res heap :=
    match nth_error (bufs st) (v_buf v) with
    | Some (Some (d, cap)) =>
        d <- wr d (Z.of_nat (v_off v + i)) s ;;
        Ok (mkheap (objs st) (put (bufs st) (v_buf v) (Some (d, cap))) (names st) (views st))
    | _ => UB
    end.
  (** numpy's index check; negative indices count from the end. *)
  Definition np_index (v : view) (i : Z) : option nat :=
    let n := Z.of_nat (v_len v) in
    if (- n <=? i) && (i <? n) then Some (Z.to_nat (if i <? 0 then i + n else i)) else None.

  Inductive pstmt :=
  | NConst (r : nat) (v : S) (sz : Z)              (* r = T.constant(v, sz) *)
  | NVar (r : nat) (i : Z) (v : S) (sz : Z)        (* r = T.variable(i, v, sz) *)
  | NEmpty (r : nat) (sz : Z)                      (* r = T.empty(sz) *)
  | NData (r : nat) (vs : list S)                  (* r = T(vs) *)
  | Alias (r a : nat)                              (* r = a *)
  | Copy (r a : nat)                               (* r = copy.copy(a), copy.deepcopy(a) *)
  | Un (r : nat) (u : ufun S) (a : nat)            (* r = u(a) *)
  | Bin (r : nat) (b : bfun) (a1 a2 : nat)         (* r = a1 op a2 *)
  | Hyp (r a1 a2 a3 : nat)                         (* r = hypot(a1, a2, a3) *)
  | PadL (r a : nat) (sz : Z)                      (* r = a.pad_left(sz) *)
  | PadR (r a : nat) (sz : Z)                      (* r = a.pad_right(sz) *)
  | IAsg (o : aop) (r a : nat)                     (* r op= a *)
  | IAsgS (o : aop) (r : nat) (v : S)              (* r op= float *)
  | SetF (r : nat) (v : S)                         (* r.f = v *)
  | SetH (r : nat) (i j : Z) (v : S)               (* r.set_h(i, j, v) *)
  | SetHm (r : nat) (m : mat S)                    (* r.set_hm(m) *)
  | Resize (r : nat) (sz : Z)                      (* r.resize(sz) *)
  | ViewG (w r : nat)                              (* w = r.g *)
  | ViewData (w r : nat)                           (* w = r.data *)
  | ViewRead (w : nat) (i : Z)                     (* w[i] *)
  | ViewSet (w : nat) (i : Z) (v : S).             (* w[i] = v *)

  (** [Raised]: the exception and the heap the handler finds. *)
  Inductive out := Done (st : heap) | Raised (e : pyexn) (st : heap) | Aborted | Wild.

  Definition lift {A} (st : heap) (m : res A) (k : A -> out) : out :=
    match m with Ok a => k a | Throw e => Raised (Cpp e) st | Abort => Aborted | UB => Wild end.
  Definition obj_of (st : heap) (r : nat) (k : nat -> out) : out :=
    match names st r with Some o => k o | None => Raised NameError st end.
  Definition arg (st : heap) (r : nat) (k : dd S -> out) : out :=
    obj_of st r (fun o => lift st (load st o) k).
  (** A method that changes the object [r] in place. *)
  Definition inplace (st : heap) (r : nat) (f : nat -> dd S -> res (dd S)) : out :=
    obj_of st r (fun o =>
      match nth_error (objs st) o with
      | Some (sz, b) =>
        match nth_error (bufs st) b with
        | Some (Some (d, cap)) => lift st (f o (mk sz d)) (fun x => Done (store st o b cap x))
        | _ => Wild
        end
      | None => Wild
      end).
  Definition make (st : heap) (r : nat) (m : res (dd S)) : out := lift st m (fun x => Done (fresh st r x)).
  (** The binary operator behind an augmented assignment. *)
  Definition aop_s (o : aop) (v : S) : ufun S :=
    match o with Aadd => Uadds v | Asub => Usubs v | Amul => Umuls v | Adiv => Udivs v end.

  Definition pstep (s : pstmt) (st : heap) : out :=
    match s with
    | NConst r v sz => make st r (constant_n O c v sz)
    | NVar r i v sz => make st r (variable_n O c i v sz)
    | NEmpty r sz => make st r (empty_n O c sz)
    | NData r vs =>   (* a [std::array] parameter accepts only lists of its length *)
        if negb (is_dynamic c) && negb (Z.of_nat (List.length vs) =? StaticDataSize c) then Raised (Cpp TypeError) st
        else make st r (create c (full vs))
    | Alias r a => obj_of st a (fun o => Done (bound st r o))
    | Copy r a => arg st a (fun x => Done (fresh st r x))
    | Un r u a => arg st a (fun x => make st r (apply_u O c u x))
    | Bin r b a1 a2 => arg st a1 (fun x => arg st a2 (fun y => make st r (apply_b O c b x y)))
    | Hyp r a1 a2 a3 => arg st a1 (fun x => arg st a2 (fun y => arg st a3 (fun z => make st r (hypot3 O c x y z))))
    | PadL r a sz => if is_dynamic c then arg st a (fun x => make st r (pad_left O c x sz)) else Raised AttributeError st
    | PadR r a sz => if is_dynamic c then arg st a (fun x => make st r (pad_right O c x sz)) else Raised AttributeError st
    | IAsg o r a => obj_of st a (fun oa => inplace st r (fun ob x =>
        if Nat.eqb oa ob then assign O c o x None else y <- load st oa ;; assign O c o x (Some y)))
    | IAsgS o r v =>
        match o with
        | Amul | Adiv => inplace st r (fun _ x => assign_s O o x v)          (* common.h:163, 165 *)
        | Aadd | Asub => arg st r (fun x => make st r (apply_u O c (aop_s o v) x))  (* no such overload; 152, 154 *)
        end
    | SetF r v => inplace st r (fun _ x => set_f x v)
    | SetH r i j v => inplace st r (fun _ x => set_h c x i j v)
    | SetHm r m => obj_of st r (fun _ =>   (* a fixed-size [Eigen::Ref] parameter accepts only its own shape *)
        if negb (is_dynamic c) && negb ((rows m =? c_tsize c) && (cols m =? c_tsize c)) then Raised (Cpp TypeError) st
        else inplace st r (fun _ x => set_hm c x m))
    | Resize r sz =>
        if is_dynamic c then obj_of st r (fun o =>
          match nth_error (objs st) o with
          | Some (_, b) =>
            match nth_error (bufs st) b with
            | Some (Some (d, cap)) =>
                (* hyperjet.h:425: m_size is assigned first *)
                let st1 := mkheap (put (objs st) o (sz, b)) (bufs st) (names st) (views st) in
                lift st1 (n <- data_length_from_size c sz ;; vec_resize O d n) (fun d' =>
                  if Nat.leb (List.length d') cap then Done (store st o b cap (mk sz d'))
                  else Done (mkheap (put (objs st) o (sz, List.length (bufs st)))
                              (put (bufs st) b None ++ [Some (d', (List.length d' + slack (List.length (bufs st)))%nat)])
                              (names st) (views st)))
            | _ => Wild
            end
          | None => Wild
          end)
        else Raised AttributeError st
    | ViewG w r => obj_of st r (fun o =>
        match nth_error (objs st) o with
        | Some (_, b) => lift st (load st o) (fun x =>
            if size c x <? 0 then Wild   (* an Eigen assertion on the map's length, treated as UB *)
            else Done (mkheap (objs st) (bufs st) (names st) (bind_name (views st) w (mkview b 1 (Z.to_nat (size c x))))))
        | None => Wild
        end)
    | ViewData w r => obj_of st r (fun o =>
        match nth_error (objs st) o with
        | Some (_, b) => lift st (load st o) (fun x =>
            Done (mkheap (objs st) (bufs st) (names st) (bind_name (views st) w (mkview b 0 (List.length (m_data x))))))
        | None => Wild
        end)
    | ViewRead w i =>
        match views st w with
        | Some v => match np_index v i with
                    | Some k => lift st (view_read st v k) (fun _ => Done st)
                    | None => Raised IndexError st
                    end
        | None => Raised NameError st
        end
    | ViewSet w i s =>
        match views st w with
        | Some v => match np_index v i with
                    | Some k => lift st (view_write st v k s) Done
                    | None => Raised IndexError st
                    end
        | None => Raised NameError st
        end
    end.

  (** A session: statements one after the other, exceptions being caught.  Every execution of a Python
      program on numbers of class [c], with any control flow, is such a sequence. *)
  Fixpoint session (p : list pstmt) (st : heap) : res heap :=
    match p with
    | [] => Ok st
    | s :: p => match pstep s st with
                | Done st' | Raised _ st' => session p st'
                | Aborted => Abort
                | Wild => UB
                end
    end.

  (** During [p] the object [o] is never resized. *)
  Fixpoint unresized (o : nat) (p : list pstmt) (st : heap) : Prop :=
    match p with
    | [] => True
    | s :: p => match s with Resize r _ => names st r <> Some o | _ => True end /\
                match pstep s st with Done st' | Raised _ st' => unresized o p st' | _ => True end
    end.
End Obj.
Arguments heap : clear implicits.
Arguments out : clear implicits.
Arguments pstmt : clear implicits.
