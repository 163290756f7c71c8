(** Sessions without storage: every object is a value, an array is a window onto an object. *)
From Coq Require Import ZArith List Bool.
From Verif Require Import Outcome Scalar Model Spec ArrSpec ProgSpec ModelObj ObjSpec.
Import ListNotations.
Open Scope Z_scope.

Section Val.
  Context {S : Type} (O : Ops S) (c : cfg).
  (** Values of the objects; names; arrays: object, first entry, number of entries. *)
  Record vheap := mkv { vals : list (dd S); vnames : nat -> option nat; wins : nat -> option (nat * nat * nat) }.
  Definition vstart : vheap := mkv [] (fun _ => None) (fun _ => None).

  (** Result of a statement: the exception raised, if any, and the new state. *)
  Definition vres := res (option pyexn * vheap).
  Definition vdone (v : vheap) : vres := Ok (None, v).
  Definition vraise (e : pyexn) (v : vheap) : vres := Ok (Some e, v).
  Definition vtry {A} (v : vheap) (m : res A) (k : A -> vres) : vres :=
    match m with Ok a => k a | Throw e => vraise (Cpp e) v | Abort => Abort | UB => UB end.
  Definition vget (v : vheap) (r : nat) (k : nat -> dd S -> vres) : vres :=
    match vnames v r with
    | Some o => match nth_error (vals v) o with Some x => k o x | None => UB end
    | None => vraise NameError v
    end.
  Definition vnew (v : vheap) (r : nat) (m : res (dd S)) : vres :=
    vtry v m (fun x => vdone (mkv (vals v ++ [x]) (bind_name (vnames v) r (length (vals v))) (wins v))).
  Definition vput (v : vheap) (o : nat) (m : res (dd S)) : vres :=
    vtry v m (fun x => vdone (mkv (put (vals v) o x) (vnames v) (wins v))).
  (** numpy's index check for [n] entries. *)
  Definition vindex (n : nat) (i : Z) : option nat :=
    let n := Z.of_nat n in
    if (- n <=? i) && (i <? n) then Some (Z.to_nat (if i <? 0 then i + n else i)) else None.

  Definition vstep (s : pstmt S) (v : vheap) : vres :=
    match s with
    | NConst r a sz => vnew v r (constant_n O c a sz)
    | NVar r i a sz => vnew v r (variable_n O c i a sz)
    | NEmpty r sz => vnew v r (empty_n O c sz)
    | NData r l => if negb (is_dynamic c) && negb (Z.of_nat (length l) =? StaticDataSize c) then vraise (Cpp TypeError) v
                   else vnew v r (create c (full l))
    | Alias r a => vget v a (fun o _ => vdone (mkv (vals v) (bind_name (vnames v) r o) (wins v)))
    | Copy r a => vget v a (fun _ x => vnew v r (Ok x))
    | Un r u a => vget v a (fun _ x => vnew v r (apply_u O c u x))
    | Bin r b a1 a2 => vget v a1 (fun _ x => vget v a2 (fun _ y => vnew v r (apply_b O c b x y)))
    | Hyp r a1 a2 a3 => vget v a1 (fun _ x => vget v a2 (fun _ y => vget v a3 (fun _ z => vnew v r (hypot3 O c x y z))))
    | PadL r a sz => if is_dynamic c then vget v a (fun _ x => vnew v r (pad_left O c x sz)) else vraise AttributeError v
    | PadR r a sz => if is_dynamic c then vget v a (fun _ x => vnew v r (pad_right O c x sz)) else vraise AttributeError v
    | IAsg op r a => vget v a (fun oa y => vget v r (fun o x =>
        vput v o (assign O c op x (if Nat.eqb oa o then None else Some y))))
    | IAsgS op r a => vget v r (fun o x =>
        match op with
        | Amul | Adiv => vput v o (assign_s O op x a)
        | Aadd | Asub => vnew v r (apply_u O c (aop_s op a) x)
        end)
    | SetF r a => vget v r (fun o x => vput v o (set_f x a))
    | SetH r i j a => vget v r (fun o x => vput v o (set_h c x i j a))
    | SetHm r m => vget v r (fun o x =>
        if negb (is_dynamic c) && negb ((rows m =? c_tsize c) && (cols m =? c_tsize c)) then vraise (Cpp TypeError) v
        else vput v o (set_hm c x m))
    | Resize r sz => if is_dynamic c then vget v r (fun o x => vput v o (resize O c x sz)) else vraise AttributeError v
    | ViewG w r => vget v r (fun o x =>
        if size c x <? 0 then UB else vdone (mkv (vals v) (vnames v) (bind_name (wins v) w (o, 1, Z.to_nat (size c x))%nat)))
    | ViewData w r => vget v r (fun o x => vdone (mkv (vals v) (vnames v) (bind_name (wins v) w (o, 0, length (m_data x))%nat)))
    | ViewRead w i =>
        match wins v w with
        | Some (o, f, n) => match vindex n i, nth_error (vals v) o with
                            | Some k, Some x => vtry v (rd (m_data x) (Z.of_nat (f + k))) (fun _ => vdone v)
                            | Some _, None => UB
                            | None, _ => vraise IndexError v
                            end
        | None => vraise NameError v
        end
    | ViewSet w i a =>
        match wins v w with
        | Some (o, f, n) => match vindex n i, nth_error (vals v) o with
                            | Some k, Some x => vput v o (d <- wr (m_data x) (Z.of_nat (f + k)) a ;; Ok (mk (m_size x) d))
                            | Some _, None => UB
                            | None, _ => vraise IndexError v
                            end
        | None => vraise NameError v
        end
    end.

  (** The exceptions raised by the statements, one entry per statement, and the final state. *)
  Fixpoint vsession (p : list (pstmt S)) (v : vheap) : res (list (option pyexn) * vheap) :=
    match p with
    | [] => Ok ([], v)
    | s :: p => '(e, v) <- vstep s v ;; '(es, v) <- vsession p v ;; Ok (e :: es, v)
    end.
  (** The same for sessions on the storage. *)
  Fixpoint traced (slack : nat -> nat) (p : list (pstmt S)) (st : heap S) : res (list (option pyexn) * heap S) :=
    match p with
    | [] => Ok ([], st)
    | s :: p => match pstep O c slack s st with
                | Done st' => '(es, st') <- traced slack p st' ;; Ok (None :: es, st')
                | Raised e st' => '(es, st') <- traced slack p st' ;; Ok (Some e :: es, st')
                | Aborted => Abort
                | Wild => UB
                end
    end.

  (** Preconditions, on values. *)
  Definition vsize (v : vheap) (r : nat) (n : Z) : Prop :=
    exists o x, vnames v r = Some o /\ nth_error (vals v) o = Some x /\ size c x = n.
  Definition vlegal (s : pstmt S) (v : vheap) : Prop :=
    match s with
    | NConst _ _ sz => is_dynamic c = true -> fits c sz
    | NVar _ i _ sz => 0 <= i < sz /\ (is_dynamic c = true -> fits c sz)
    | NEmpty _ sz => is_dynamic c = true /\ fits c sz
    | NData _ l => (1 <= length l)%nat /\ Z.of_nat (length l) <= max_len
    | Bin _ Batan2 a1 a2 => forall n m, vsize v a1 n -> vsize v a2 m -> n = m
    | Hyp _ a1 a2 a3 => forall n m, vsize v a1 n -> vsize v a3 m -> n = m
    | PadL _ a sz | PadR _ a sz => is_dynamic c = true -> fits c sz /\ forall n, vsize v a n -> n <= sz
    | SetH r i j _ => c_ord c = 2 /\ forall n, vsize v r n -> 0 <= i < n /\ 0 <= j < n
    | SetHm r m => c_ord c = 2 /\ exists rr k, table rr k m /\
        (is_dynamic c = true -> forall n, vsize v r n -> n <= Z.of_nat rr /\ n <= Z.of_nat k)
    | Resize r sz => is_dynamic c = true -> fits c sz /\
        forall o w f n, vnames v r = Some o -> wins v w <> Some (o, f, n)
    | _ => True
    end.
  Fixpoint vlegal_session (p : list (pstmt S)) (v : vheap) : Prop :=
    match p with
    | [] => True
    | s :: p => vlegal s v /\ match vstep s v with Ok (_, v') => vlegal_session p v' | _ => True end
    end.

  (** The storage holds the values: same objects and names, every array on the storage of its object. *)
  Definition holds (st : heap S) (v : vheap) : Prop :=
    length (objs st) = length (vals v) /\
    (forall o x, load st o = Ok x <-> nth_error (vals v) o = Some x) /\
    (forall r, names st r = vnames v r) /\
    (forall w, match views st w, wins v w with
               | Some a, Some (o, f, n) => v_off a = f /\ v_len a = n /\ exists sz, nth_error (objs st) o = Some (sz, v_buf a)
               | None, None => True
               | _, _ => False
               end).
End Val.
Arguments vheap : clear implicits.
