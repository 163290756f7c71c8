(** Imperative programs over mutable numbers: assignments, in-place operators, branches, loops; their
    execution in the model, and their execution on plain reals. *)
From Coq Require Import ZArith List Bool Reals.
From Verif Require Import Outcome Scalar Model Spec RealOps.
Import ListNotations.

(** The four in-place operators. *)
Inductive aop := Aadd | Asub | Amul | Adiv.

(** Comparisons: number with number, number with scalar, scalar with number. *)
Inductive cond (S : Type) :=
| CRR (o : cmp) (a b : nat) | CRS (o : cmp) (a : nat) (s : S) | CSR (o : cmp) (s : S) (a : nat).
Arguments CRR {S}. Arguments CRS {S}. Arguments CSR {S}.

(** Registers are numbered; [PAsg o r a] is [r o= a], where [a] may be [r] itself. *)
Inductive stmt (S : Type) :=
| PSkip
| PSeq (s1 s2 : stmt S)
| PConst (r : nat) (s : S)                    (* r = constant(s, n) *)
| PMov (r a : nat)                            (* r = a *)
| PU (r : nat) (u : ufun S) (a : nat)         (* r = u(a) *)
| PB (r : nat) (b : bfun) (a1 a2 : nat)       (* r = a1 op a2 *)
| PH (r a1 a2 a3 : nat)                       (* r = hypot(a1, a2, a3) *)
| PAsg (o : aop) (r a : nat)                  (* r op= a *)
| PAsgS (o : aop) (r : nat) (s : S)           (* r op= s *)
| PIf (k : cond S) (s1 s2 : stmt S)
| PWhile (k : cond S) (s : stmt S).
Arguments PSkip {S}. Arguments PSeq {S}. Arguments PConst {S}. Arguments PMov {S}. Arguments PU {S}.
Arguments PB {S}. Arguments PH {S}. Arguments PAsg {S}. Arguments PAsgS {S}. Arguments PIf {S}. Arguments PWhile {S}.

Section Exec.
  Context {S : Type} (O : Ops S) (c : cfg) (n : nat).

  Definition get {A} (st : list A) (r : nat) : res A := match nth_error st r with Some x => Ok x | None => UB end.
  Fixpoint put {A} (st : list A) (r : nat) (x : A) : list A :=
    match st, r with
    | [], _ => []
    | _ :: l, Datatypes.O => x :: l
    | y :: l, Datatypes.S r => y :: put l r x
    end.
  Definition assign (o : aop) (x : dd S) (b : obj_ref) : res (dd S) :=
    match o with
    | Aadd => add_assign O c x b | Asub => sub_assign O c x b
    | Amul => mul_assign O c x b | Adiv => div_assign O c x b
    end.
  Definition assign_s (o : aop) (x : dd S) (s : S) : res (dd S) :=
    match o with
    | Aadd => adds_assign O x (SVal s) | Asub => subs_assign O x (SVal s)
    | Amul => muls_assign O x (SVal s) | Adiv => divs_assign O x (SVal s)
    end.
  Definition test (k : cond S) (st : list (dd S)) : res bool :=
    match k with
    | CRR o a b => x <- get st a ;; y <- get st b ;; compare O o x y
    | CRS o a s => x <- get st a ;; compare_s O o x s
    | CSR o s a => x <- get st a ;; s_compare O o s x
    end.
  (** One assignment. *)
  Definition write (st : list (dd S)) (r : nat) (m : res (dd S)) : res (list (dd S)) :=
    get st r ;;; x <- m ;; Ok (put st r x).
  Definition step (s : stmt S) (st : list (dd S)) : res (list (dd S)) :=
    match s with
    | PConst r v => write st r (constant_n O c v (Z.of_nat n))
    | PMov r a => write st r (get st a)
    | PU r u a => write st r (x <- get st a ;; apply_u O c u x)
    | PB r b a1 a2 => write st r (x <- get st a1 ;; y <- get st a2 ;; apply_b O c b x y)
    | PH r a1 a2 a3 => write st r (x <- get st a1 ;; y <- get st a2 ;; z <- get st a3 ;; hypot3 O c x y z)
    | PAsg o r a => write st r (x <- get st r ;; y <- get st a ;;
                                assign o x (if Nat.eqb a r then None else Some y))
    | PAsgS o r v => write st r (x <- get st r ;; assign_s o x v)
    | _ => Ok st
    end.

  (** [exec fuel s st]: [None] if [fuel] loop iterations/nested statements are not enough, otherwise the
      outcome. *)
  Fixpoint exec (fuel : nat) (s : stmt S) (st : list (dd S)) : option (res (list (dd S))) :=
    match fuel with
    | Datatypes.O => None
    | Datatypes.S k =>
      match s with
      | PSeq s1 s2 =>
        match exec k s1 st with
        | Some (Ok st) => exec k s2 st
        | other => other
        end
      | PIf b s1 s2 =>
        match test b st with
        | Ok true => exec k s1 st
        | Ok false => exec k s2 st
        | Throw e => Some (Throw e) | Abort => Some Abort | UB => Some UB
        end
      | PWhile b s1 =>
        match test b st with
        | Ok true =>
          match exec k s1 st with
          | Some (Ok st) => exec k s st
          | other => other
          end
        | Ok false => Some (Ok st)
        | Throw e => Some (Throw e) | Abort => Some Abort | UB => Some UB
        end
      | _ => Some (step s st)
      end
    end.

  (** All register names are below [m]. *)
  Definition cond_below (m : nat) (k : cond S) : Prop :=
    match k with CRR _ a b => (a < m)%nat /\ (b < m)%nat | CRS _ a _ | CSR _ _ a => (a < m)%nat end.
  Fixpoint regs_below (m : nat) (s : stmt S) : Prop :=
    match s with
    | PSkip => True
    | PSeq s1 s2 => regs_below m s1 /\ regs_below m s2
    | PConst r _ | PAsgS _ r _ => (r < m)%nat
    | PMov r a | PU r _ a | PAsg _ r a => (r < m)%nat /\ (a < m)%nat
    | PB r _ a b => (r < m)%nat /\ (a < m)%nat /\ (b < m)%nat
    | PH r a b d => (r < m)%nat /\ (a < m)%nat /\ (b < m)%nat /\ (d < m)%nat
    | PIf k s1 s2 => cond_below m k /\ regs_below m s1 /\ regs_below m s2
    | PWhile k s1 => cond_below m k /\ regs_below m s1
    end.
  (** [s] never assigns to register [r]. *)
  Fixpoint no_write (r : nat) (s : stmt S) : Prop :=
    match s with
    | PSkip => True
    | PSeq s1 s2 => no_write r s1 /\ no_write r s2
    | PConst q _ | PAsgS _ q _ | PMov q _ | PU q _ _ | PB q _ _ _ | PH q _ _ _ | PAsg _ q _ => q <> r
    | PIf _ s1 s2 => no_write r s1 /\ no_write r s2
    | PWhile _ s1 => no_write r s1
    end.
End Exec.
Arguments put {A}. Arguments get {A}.

(** [x] (first order) has the value and gradient of [y] (second order). *)
Definition truncates {S} (c c' : cfg) (n : nat) (x y : dd S) : Prop :=
  exists f g h h', shows c n x f g h' /\ shows c' n y f g h.
(** Two objects of possibly different storage kinds with identical size and data. *)
Definition same_data {S} (c c' : cfg) (n : nat) (x y : dd S) : Prop :=
  wf c n x /\ wf c' n y /\ m_data x = m_data y.
(** Outcomes of two runs: neither has finished, or both have finished normally in related states. *)
Definition both {S} (P : dd S -> dd S -> Prop) (m m' : option (res (list (dd S)))) : Prop :=
  match m, m' with
  | Some (Ok st), Some (Ok st') => Forall2 P st st'
  | None, None => True
  | _, _ => False
  end.

(** ** The same programs on real numbers *)
Definition reg (v : list R) (r : nat) : R := nth r v 0%R.
Definition rasg (o : aop) (x y : R) : R :=
  match o with Aadd => x + y | Asub => x - y | Amul => x * y | Adiv => x / y end%R.
Definition rcmp (o : cmp) (x y : R) : bool :=
  match o with
  | Ceq => if Req_EM_T x y then true else false
  | Cne => if Req_EM_T x y then false else true
  | Clt => if Rlt_dec x y then true else false
  | Cgt => if Rgt_dec x y then true else false
  | Cle => if Rle_dec x y then true else false
  | Cge => if Rge_dec x y then true else false
  end.
(** The two values compared. *)
Definition sides (k : cond R) (v : list R) : R * R :=
  match k with CRR _ a b => (reg v a, reg v b) | CRS _ a s => (reg v a, s) | CSR _ s a => (s, reg v a) end.
Definition cond_op {S} (k : cond S) : cmp := match k with CRR o _ _ | CRS o _ _ | CSR o _ _ => o end.
Definition rtest (k : cond R) (v : list R) : bool := rcmp (cond_op k) (fst (sides k v)) (snd (sides k v)).
Definition rstep (s : stmt R) (v : list R) : list R :=
  match s with
  | PConst r k => put v r k
  | PMov r a => put v r (reg v a)
  | PU r u a => put v r (ureal u (reg v a))
  | PB r b a1 a2 => put v r (breal b (reg v a1) (reg v a2))
  | PH r a1 a2 a3 => put v r (hreal (reg v a1) (reg v a2) (reg v a3))
  | PAsg o r a => put v r (rasg o (reg v r) (reg v a))
  | PAsgS o r k => put v r (rasg o (reg v r) k)
  | _ => v
  end.
Fixpoint rexec (fuel : nat) (s : stmt R) (v : list R) : option (list R) :=
  match fuel with
  | Datatypes.O => None
  | S k =>
    match s with
    | PSeq s1 s2 => match rexec k s1 v with Some v => rexec k s2 v | None => None end
    | PIf b s1 s2 => if rtest b v then rexec k s1 v else rexec k s2 v
    | PWhile b s1 =>
      if rtest b v then match rexec k s1 v with Some v => rexec k s v | None => None end else Some v
    | _ => Some (rstep s v)
    end
  end.

(** The run on reals stays in the open domain of every function it executes, never compares equal
    values, and never executes [r *= r] (see the property on aliased operands). *)
Definition safe_step (s : stmt R) (v : list R) : Prop :=
  match s with
  | PU _ u a => udom u (reg v a)
  | PB _ b a1 a2 => bdom b (reg v a1) (reg v a2)
  | PH _ a1 a2 a3 => hdom (reg v a1) (reg v a2) (reg v a3)
  | PAsg Adiv r a => reg v a <> 0%R
  | PAsg Amul r a => r <> a
  | PAsgS Adiv r k => k <> 0%R
  | _ => True
  end.
Fixpoint safe (fuel : nat) (s : stmt R) (v : list R) : Prop :=
  match fuel with
  | O => True
  | S k =>
    match s with
    | PSeq s1 s2 => safe k s1 v /\ match rexec k s1 v with Some v => safe k s2 v | None => True end
    | PIf b s1 s2 => fst (sides b v) <> snd (sides b v) /\ if rtest b v then safe k s1 v else safe k s2 v
    | PWhile b s1 => fst (sides b v) <> snd (sides b v) /\
      (if rtest b v then safe k s1 v /\ match rexec k s1 v with Some v => safe k s v | None => True end else True)
    | _ => safe_step s v
    end
  end.
(** The function computed in register [r] by [s] from the inputs [q 0 .. q (n-1)] and the initial
    values [ks] of the other registers. *)
Definition computes (fuel : nat) (s : stmt R) (n : nat) (ks : list R) (r : nat) (q : nat -> R) : R :=
  match rexec fuel s (map q (seq 0 n) ++ ks) with Some v => reg v r | None => 0%R end.
