(** Relations between two scalar types, lifted to numbers, outcomes, expressions and programs. *)
From Coq Require Import ZArith List Bool Reals.
From Verif Require Import Outcome Scalar Model ModelObj Spec RealOps ExprSpec ProgSpec.
Import ListNotations.

Section Relations.
  Context {S T : Type} (P : S -> T -> Prop).

  (** A cell is related to a cell that holds a related value, an indeterminate one to an indeterminate one. *)
  Definition cell_rel (a : option S) (b : option T) : Prop :=
    match a, b with Some x, Some y => P x y | None, None => True | _, _ => False end.
  Definition data_rel : data S -> data T -> Prop := Forall2 cell_rel.
  (** Same size, cell by cell related. *)
  Definition num_rel (x : dd S) (y : dd T) : Prop := m_size x = m_size y /\ data_rel (m_data x) (m_data y).
  Definition mat_rel (m : mat S) (m' : mat T) : Prop :=
    rows m = rows m' /\ cols m = cols m' /\ data_rel (cells m) (cells m').

  (** The operations of the two types map related operands to related results. *)
  Record arith_rel (O : Ops S) (O' : Ops T) : Prop := {
    ar_Z : forall z, P (o_Z O z) (o_Z O' z);
    ar_half : P (o_half O) (o_half O');
    ar_add : forall a a' b b', P a a' -> P b b' -> P (o_add O a b) (o_add O' a' b');
    ar_sub : forall a a' b b', P a a' -> P b b' -> P (o_sub O a b) (o_sub O' a' b');
    ar_mul : forall a a' b b', P a a' -> P b b' -> P (o_mul O a b) (o_mul O' a' b');
    ar_div : forall a a' b b', P a a' -> P b b' -> P (o_div O a b) (o_div O' a' b');
    ar_neg : forall a a', P a a' -> P (o_neg O a) (o_neg O' a');
    ar_pow : forall a a' b b', P a a' -> P b b' -> P (o_pow O a b) (o_pow O' a' b');
    ar_sqrt : forall a a', P a a' -> P (o_sqrt O a) (o_sqrt O' a');
    ar_cbrt : forall a a', P a a' -> P (o_cbrt O a) (o_cbrt O' a');
    ar_cos : forall a a', P a a' -> P (o_cos O a) (o_cos O' a');
    ar_sin : forall a a', P a a' -> P (o_sin O a) (o_sin O' a');
    ar_tan : forall a a', P a a' -> P (o_tan O a) (o_tan O' a');
    ar_acos : forall a a', P a a' -> P (o_acos O a) (o_acos O' a');
    ar_asin : forall a a', P a a' -> P (o_asin O a) (o_asin O' a');
    ar_atan : forall a a', P a a' -> P (o_atan O a) (o_atan O' a');
    ar_atan2 : forall a a' b b', P a a' -> P b b' -> P (o_atan2 O a b) (o_atan2 O' a' b');
    ar_hypot : forall a a' b b', P a a' -> P b b' -> P (o_hypot O a b) (o_hypot O' a' b');
    ar_hypot3 : forall a a' b b' d d', P a a' -> P b b' -> P d d' -> P (o_hypot3 O a b d) (o_hypot3 O' a' b' d');
    ar_cosh : forall a a', P a a' -> P (o_cosh O a) (o_cosh O' a');
    ar_sinh : forall a a', P a a' -> P (o_sinh O a) (o_sinh O' a');
    ar_tanh : forall a a', P a a' -> P (o_tanh O a) (o_tanh O' a');
    ar_acosh : forall a a', P a a' -> P (o_acosh O a) (o_acosh O' a');
    ar_asinh : forall a a', P a a' -> P (o_asinh O a) (o_asinh O' a');
    ar_atanh : forall a a', P a a' -> P (o_atanh O a) (o_atanh O' a');
    ar_exp : forall a a', P a a' -> P (o_exp O a) (o_exp O' a');
    ar_log : forall a a', P a a' -> P (o_log O a) (o_log O' a');
    ar_log2 : forall a a', P a a' -> P (o_log2 O a) (o_log2 O' a');
    ar_log10 : forall a a', P a a' -> P (o_log10 O a) (o_log10 O' a')
  }.
  (** Comparisons of related operands have the same outcome. *)
  Record order_rel (O : Ops S) (O' : Ops T) : Prop := {
    or_lt : forall a a' b b', P a a' -> P b b' -> o_lt O a b = o_lt O' a' b';
    or_le : forall a a' b b', P a a' -> P b b' -> o_le O a b = o_le O' a' b';
    or_eq : forall a a' b b', P a a' -> P b b' -> o_eq O a b = o_eq O' a' b'
  }.

  (** The same functions with related literals. *)
  Definition ufun_rel (u : ufun S) (u' : ufun T) : Prop :=
    match u, u' with
    | Uneg, Uneg | Uabs, Uabs | Usqrt, Usqrt | Ucbrt, Ucbrt | Ureciprocal, Ureciprocal
    | Ucos, Ucos | Usin, Usin | Utan, Utan | Uacos, Uacos | Uasin, Uasin | Uatan, Uatan
    | Ucosh, Ucosh | Usinh, Usinh | Utanh, Utanh | Uacosh, Uacosh | Uasinh, Uasinh | Uatanh, Uatanh
    | Uexp, Uexp | Ulog, Ulog | Ulog2, Ulog2 | Ulog10, Ulog10 => True
    | Upow a, Upow b | Ulogb a, Ulogb b | Uadds a, Uadds b | Usadd a, Usadd b | Usubs a, Usubs b | Ussub a, Ussub b
    | Umuls a, Umuls b | Usmul a, Usmul b | Udivs a, Udivs b | Usdiv a, Usdiv b => P a b
    | _, _ => False
    end.
  Fixpoint expr_rel (e : expr S) (e' : expr T) : Prop :=
    match e, e' with
    | EVar i, EVar j => i = j
    | EConst s, EConst t => P s t
    | EU u e, EU u' e' => ufun_rel u u' /\ expr_rel e e'
    | EB b e1 e2, EB b' e1' e2' => b = b' /\ expr_rel e1 e1' /\ expr_rel e2 e2'
    | EH e1 e2 e3, EH e1' e2' e3' => expr_rel e1 e1' /\ expr_rel e2 e2' /\ expr_rel e3 e3'
    | _, _ => False
    end.
  Definition cond_rel (k : cond S) (k' : cond T) : Prop :=
    match k, k' with
    | CRR o a b, CRR o' a' b' => o = o' /\ a = a' /\ b = b'
    | CRS o a s, CRS o' a' s' => o = o' /\ a = a' /\ P s s'
    | CSR o s a, CSR o' s' a' => o = o' /\ a = a' /\ P s s'
    | _, _ => False
    end.
  Fixpoint stmt_rel (s : stmt S) (s' : stmt T) : Prop :=
    match s, s' with
    | PSkip, PSkip => True
    | PSeq s1 s2, PSeq t1 t2 => stmt_rel s1 t1 /\ stmt_rel s2 t2
    | PConst r v, PConst r' v' => r = r' /\ P v v'
    | PMov r a, PMov r' a' => r = r' /\ a = a'
    | PU r u a, PU r' u' a' => r = r' /\ ufun_rel u u' /\ a = a'
    | PB r b a1 a2, PB r' b' a1' a2' => r = r' /\ b = b' /\ a1 = a1' /\ a2 = a2'
    | PH r a1 a2 a3, PH r' a1' a2' a3' => r = r' /\ a1 = a1' /\ a2 = a2' /\ a3 = a3'
    | PAsg o r a, PAsg o' r' a' => o = o' /\ r = r' /\ a = a'
    | PAsgS o r v, PAsgS o' r' v' => o = o' /\ r = r' /\ P v v'
    | PIf k s1 s2, PIf k' t1 t2 => cond_rel k k' /\ stmt_rel s1 t1 /\ stmt_rel s2 t2
    | PWhile k s1, PWhile k' t1 => cond_rel k k' /\ stmt_rel s1 t1
    | _, _ => False
    end.
  (** Statements of Python sessions, and heaps with the same objects, names and arrays. *)
  Definition pstmt_rel (s : pstmt S) (s' : pstmt T) : Prop :=
    match s, s' with
    | NConst r v n, NConst r' v' n' => r = r' /\ P v v' /\ n = n'
    | NVar r i v n, NVar r' i' v' n' => r = r' /\ i = i' /\ P v v' /\ n = n'
    | NEmpty r n, NEmpty r' n' => r = r' /\ n = n'
    | NData r vs, NData r' vs' => r = r' /\ Forall2 P vs vs'
    | Alias r a, Alias r' a' | Copy r a, Copy r' a' => r = r' /\ a = a'
    | Un r u a, Un r' u' a' => r = r' /\ ufun_rel u u' /\ a = a'
    | Bin r b a1 a2, Bin r' b' a1' a2' => r = r' /\ b = b' /\ a1 = a1' /\ a2 = a2'
    | Hyp r a1 a2 a3, Hyp r' a1' a2' a3' => r = r' /\ a1 = a1' /\ a2 = a2' /\ a3 = a3'
    | PadL r a n, PadL r' a' n' | PadR r a n, PadR r' a' n' => r = r' /\ a = a' /\ n = n'
    | IAsg o r a, IAsg o' r' a' => o = o' /\ r = r' /\ a = a'
    | IAsgS o r v, IAsgS o' r' v' => o = o' /\ r = r' /\ P v v'
    | SetF r v, SetF r' v' => r = r' /\ P v v'
    | SetH r i j v, SetH r' i' j' v' => r = r' /\ i = i' /\ j = j' /\ P v v'
    | SetHm r m, SetHm r' m' => r = r' /\ mat_rel m m'
    | Resize r n, Resize r' n' => r = r' /\ n = n'
    | ViewG w r, ViewG w' r' | ViewData w r, ViewData w' r' => w = w' /\ r = r'
    | ViewRead w i, ViewRead w' i' => w = w' /\ i = i'
    | ViewSet w i v, ViewSet w' i' v' => w = w' /\ i = i' /\ P v v'
    | _, _ => False
    end.
  Definition buf_rel (b : option (data S * nat)) (b' : option (data T * nat)) : Prop :=
    match b, b' with Some (d, k), Some (d', k') => data_rel d d' /\ k = k' | None, None => True | _, _ => False end.
  Definition heap_rel (st : heap S) (st' : heap T) : Prop :=
    objs st = objs st' /\ Forall2 buf_rel (bufs st) (bufs st') /\ names st = names st' /\ views st = views st'.
End Relations.

(** The same outcome; normal results are related by [Q]. *)
Definition res_rel {A B} (Q : A -> B -> Prop) (m : res A) (m' : res B) : Prop :=
  match m, m' with
  | Ok a, Ok b => Q a b
  | Throw e, Throw e' => e = e'
  | Abort, Abort | UB, UB => True
  | _, _ => False
  end.
(** Runs with bounded fuel: both unfinished or the same outcome. *)
Definition run_rel {A B} (Q : A -> B -> Prop) (m : option (res A)) (m' : option (res B)) : Prop :=
  match m, m' with Some r, Some r' => res_rel Q r r' | None, None => True | _, _ => False end.

(** [abs] is the only function that compares scalars. *)
Fixpoint no_abs {S} (e : expr S) : Prop :=
  match e with
  | EVar _ | EConst _ => True
  | EU u e => match u with Uabs => False | _ => no_abs e end
  | EB _ e1 e2 => no_abs e1 /\ no_abs e2
  | EH e1 e2 e3 => no_abs e1 /\ no_abs e2 /\ no_abs e3
  end.

(** Integer intervals as a scalar type: exact bounds for [+], [-], [*]; every other function gives [None], the whole line. *)
Definition interval := option (Z * Z).
Definition inside (x : R) (i : interval) : Prop :=
  match i with Some (a, b) => (IZR a <= x <= IZR b)%R | None => True end.
Definition iv2 (f : Z -> Z -> Z -> Z -> Z * Z) (i j : interval) : interval :=
  match i, j with Some (a, b), Some (a', b') => Some (f a b a' b') | _, _ => None end.
Definition Iops : Ops interval := {|
  o_Z := fun z => Some (z, z); o_half := Some (0, 1)%Z;
  o_add := iv2 (fun a b a' b' => (a + a', b + b')%Z);
  o_sub := iv2 (fun a b a' b' => (a - b', b - a')%Z);
  o_mul := iv2 (fun a b a' b' => (Z.min (Z.min (a * a') (a * b')) (Z.min (b * a') (b * b')),
                                  Z.max (Z.max (a * a') (a * b')) (Z.max (b * a') (b * b')))%Z);
  o_div := fun _ _ => None;
  o_neg := fun i => match i with Some (a, b) => Some (- b, - a)%Z | None => None end;
  o_lt := fun _ _ => false; o_le := fun _ _ => false; o_eq := fun _ _ => false;
  o_pow := fun _ _ => None; o_sqrt := fun _ => None; o_cbrt := fun _ => None;
  o_cos := fun _ => Some (-1, 1)%Z; o_sin := fun _ => Some (-1, 1)%Z; o_tan := fun _ => None;
  o_acos := fun _ => None; o_asin := fun _ => None; o_atan := fun _ => None; o_atan2 := fun _ _ => None;
  o_hypot := fun _ _ => None; o_hypot3 := fun _ _ _ => None;
  o_cosh := fun _ => None; o_sinh := fun _ => None; o_tanh := fun _ => None;
  o_acosh := fun _ => None; o_asinh := fun _ => None; o_atanh := fun _ => None;
  o_exp := fun _ => None; o_log := fun _ => None; o_log2 := fun _ => None; o_log10 := fun _ => None
|}.

(** [r] contains value and derivatives of [e] at [p]. *)
Definition encloses {T} (mem : R -> T -> Prop) (c : cfg) (n : nat) (e : expr R) (p : nat -> R) (r : dd T) : Prop :=
  (exists F, get_f r = Ok F /\ mem (rev e p) F) /\
  (forall i, (i < n)%nat -> exists G l, get_g c r (Z.of_nat i) = Ok G /\ partial (rev e) i p l /\ mem l G) /\
  (c_ord c = 2%Z -> forall i j, (i < n)%nat -> (j < n)%nat ->
     exists H l, get_h c r (Z.of_nat i) (Z.of_nat j) = Ok H /\ partial2 (rev e) i j p l /\ mem l H).
